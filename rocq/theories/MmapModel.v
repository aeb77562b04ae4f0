(** The shared memory allocator (src/lib/rrr_mmap.c): one heap with block indexes,
    and the collection of heaps behind the public calls.

    The heap of one mmap is a map from offsets to 64-bit words.  Every offset the
    allocator touches is a multiple of 8 (the index is 65 words, blocks are padded
    to 16 bytes and heaps to 4096), so word access is all there is.  Fresh memory
    from mmap()/shm is zero. *)
From Coq Require Import ZArith List Bool Lia.
From Verif Require Import Common.
Import ListNotations.
Open Scope Z_scope.

Definition mem := Z -> Z.
Definition upd (m : mem) (a v : Z) : mem := fun x => if x =? a then v else m x.

(** Outcome of a call: [Bug] is RRR_BUG, the process ends; [Stuck] marks a loop
    which did not end within the fuel given (proved not to happen). *)
Inductive res (A : Type) : Type := Ok (a : A) | Bug | Stuck.
Arguments Ok {A} _.
Arguments Bug {A}.
Arguments Stuck {A}.

(** sizeof(struct rrr_mmap_heap_block_index), rrr_mmap.c:103-106: the used map and 64 sizes. *)
Definition INDEX : Z := 520.
(** RRR_MMAP_HEAP_CHUNK_MIN_SIZE, rrr_mmap.c:61. *)
Definition CHUNK : Z := 16.
(** rrr_mmap_sentinel_template, rrr_mmap.c:72; RRR_MMAP_SENTINEL_DEBUG is defined at line 69. *)
Definition SENTINEL : Z := 11574427651565816330.

(** struct rrr_mmap, rrr_mmap.c:75-86: without the strikes, the flags, and the
    collection, shm and heap pointers, which are kept in [slot] below. *)
Record mmap : Type := mk_mmap {
  m_heap : mem;
  m_size : Z;
  m_prev_fail : Z;
  m_prev_pos : Z;
  m_allocs : Z }.

(** index->block_used_map & (1 << j) and index->block_sizes[j] for the index at offset ix. *)
Definition used (m : mem) (ix j : Z) : bool := Z.testbit (m ix) j.
Definition size_of (m : mem) (ix j : Z) : Z := m (ix + 8 + 8 * j).
Definition set_used (m : mem) (ix j : Z) : mem := upd m ix (Z.lor (m ix) (2 ^ j)).
Definition clear_used (m : mem) (ix j : Z) : mem := upd m ix (Z.ldiff (m ix) (2 ^ j)).
Definition set_size (m : mem) (ix j s : Z) : mem := upd m (ix + 8 + 8 * j) s.

(** The for loop of __rrr_mmap_free (rrr_mmap.c:147-169), [n] slots left. *)
Inductive free_scan : Type := FBug | FDone (m : mem) | FNext (pos : Z).
Fixpoint free_slots (n : nat) (j : Z) (m : mem) (H ix h pos : Z) : free_scan :=
  match n with
  | O => FNext pos
  | S n' =>
    if (size_of m ix j =? 0) && used m ix j then free_slots n' (j + 1) m H ix h pos
    else if h =? pos then if negb (used m ix j) then FBug else FDone (clear_used m ix j)
    else let pos' := u64 (pos + size_of m ix j) in
         if H <? pos' then FBug else free_slots n' (j + 1) m H ix h pos'
  end.

(** The while loop of __rrr_mmap_free (rrr_mmap.c:139-172). *)
Fixpoint free_loop (fuel : nat) (m : mem) (H h pos : Z) : res mem :=
  if pos <? H then
    match fuel with
    | O => Stuck
    | S fuel' =>
      let pos' := u64 (pos + INDEX) in
      if H <? pos' then Bug
      else match free_slots 64 0 m H pos h pos' with
           | FBug => Bug
           | FDone m' => Ok m'
           | FNext pos'' => free_loop fuel' m H h pos''
           end
    end
  else Bug.

Definition rounds (H : Z) : nat := Z.to_nat (H / INDEX + 1).

(** __rrr_mmap_free (rrr_mmap.c:130-177). *)
Definition mmap_free (s : mmap) (h : Z) : res mmap :=
  match free_loop (rounds (m_size s)) (m_heap s) (m_size s) h 0 with
  | Ok m' => Ok (mk_mmap m' (m_size s) 0 (m_prev_pos s) (m_allocs s))
  | Bug => Bug
  | Stuck => Stuck
  end.

(** The merge loop of the allocation (rrr_mmap.c:336-339): [n] slots from [k] on. *)
Fixpoint merge_mark (n : nat) (k : Z) (m : mem) (ix : Z) : mem :=
  match n with
  | O => m
  | S n' => merge_mark n' (k + 1) (set_size (set_used m ix k) ix k 0) ix
  end.

(** The for loop of __rrr_mmap_allocate_with_handles (rrr_mmap.c:289-359), [n] slots
    left: [req] is req_size_padded, [mj] merge_j, [mpos] merge_block_pos, [cnt] and
    [csz] the count and size of consecutive unused blocks. *)
Inductive alloc_scan : Type := AFail | ABug | ADone (m : mem) (pos : Z) | ANext (pos : Z).
Fixpoint alloc_slots (n : nat) (j : Z) (m : mem) (H ix req pos mj mpos cnt csz : Z) : alloc_scan :=
  match n with
  | O => ANext pos
  | S n' =>
    let size := size_of m ix j in
    if size =? 0 then
      if used m ix j then alloc_slots n' (j + 1) m H ix req pos mj mpos cnt csz
      else if H <? u64 (pos + req) then AFail
      else ADone (upd (set_used (set_size m ix j req) ix j) (pos + req - 8) SENTINEL) pos
    else if negb (m (pos + size - 8) =? SENTINEL) then ABug
    else
      let next mj mpos cnt csz :=
        let pos' := u64 (pos + size) in
        if H <? pos' then ABug else alloc_slots n' (j + 1) m H ix req pos' mj mpos cnt csz in
      if negb (used m ix j) then
        let mpos := if cnt =? 0 then pos else mpos in
        let mj := if cnt =? 0 then j else mj in
        let cnt := cnt + 1 in
        let csz := u64 (csz + size) in
        if req <=? size then ADone (set_used m ix j) pos
        else if req <=? csz then
          ADone (set_size (merge_mark (Z.to_nat (j - mj + 1)) mj m ix) ix mj csz) mpos
        else next mj mpos cnt csz
      else next mj mpos 0 0
  end.

(** The while loop of the allocation (rrr_mmap.c:270-360); [prev] is
    prev_allocation_index_pos, which is part of the result. *)
Inductive alloc_end : Type := LFail | LBug | LStuck | LEnd | LDone (m : mem) (pos : Z).
Fixpoint alloc_loop (fuel : nat) (m : mem) (H req pos prev : Z) : alloc_end * Z :=
  if pos <? H then
    match fuel with
    | O => (LStuck, prev)
    | S fuel' =>
      let pos' := u64 (pos + INDEX) in
      if H <? pos' then (LFail, pos)
      else match alloc_slots 64 0 m H pos req pos' 0 0 0 0 with
           | AFail => (LFail, pos)
           | ABug => (LBug, pos)
           | ADone m' p => (LDone m' p, pos)
           | ANext pos'' => alloc_loop fuel' m H req pos'' pos
           end
    end
  else (LEnd, prev).

(** __rrr_mmap_allocate_with_handles (rrr_mmap.c:236-383).  The answer is the offset
    into the heap, [None] is NULL. *)
Definition mmap_allocate (s : mmap) (bytes : Z) : res (mmap * option Z) :=
  let H := m_size s in
  if bytes =? 0 then Bug
  else
    let req := u64 (bytes + 8) in
    let padded := u64 (req - req mod CHUNK + CHUNK) in
    let failed prev := Ok (mk_mmap (m_heap s) H req prev (m_allocs s), None) in
    let done m' prev p := Ok (mk_mmap m' H (m_prev_fail s) prev (u64 (m_allocs s + 1)), Some p) in
    if negb (m_prev_fail s =? 0) && (m_prev_fail s <=? req) then failed (m_prev_pos s)
    else if u64 (H - INDEX) <? req then failed (m_prev_pos s)
    else match alloc_loop (rounds H) (m_heap s) H padded (m_prev_pos s) (m_prev_pos s) with
         | (LFail, prev) => failed prev
         | (LBug, _) => Bug
         | (LStuck, _) => Stuck
         | (LDone m' p, prev) => done m' prev p
         | (LEnd, prev) =>
           if 0 <? m_prev_pos s then
             match alloc_loop (rounds H) (m_heap s) H padded 0 prev with
             | (LFail, prev') => failed prev'
             | (LBug, _) => Bug
             | (LStuck, _) => Stuck
             | (LDone m' p, prev') => done m' prev' p
             | (LEnd, prev') => failed prev'
             end
           else failed prev
         end.

(** The two for loops of __rrr_mmap_is_empty (rrr_mmap.c:403-416). *)
Fixpoint any_used (n : nat) (j : Z) (m : mem) (ix : Z) : bool :=
  match n with
  | O => false
  | S n' => (used m ix j && negb (size_of m ix j =? 0)) || any_used n' (j + 1) m ix
  end.
Fixpoint skip_slots (n : nat) (j : Z) (m : mem) (H ix pos : Z) : option Z :=
  match n with
  | O => Some pos
  | S n' =>
    let pos' := u64 (pos + size_of m ix j) in
    if H <? pos' then None else skip_slots n' (j + 1) m H ix pos'
  end.

(** The while loop and __rrr_mmap_is_empty (rrr_mmap.c:385-421). *)
Fixpoint empty_loop (fuel : nat) (m : mem) (H pos : Z) : res bool :=
  if pos <? H then
    match fuel with
    | O => Stuck
    | S fuel' =>
      let pos' := u64 (pos + INDEX) in
      if H <? pos' then Ok true
      else if negb (m pos =? 0) && any_used 64 0 m pos then Ok false
      else match skip_slots 64 0 m H pos pos' with
           | None => Bug
           | Some pos'' => empty_loop fuel' m H pos''
           end
    end
  else Ok true.
Definition mmap_is_empty (s : mmap) : res bool := empty_loop (rounds (m_size s)) (m_heap s) (m_size s) 0.

(** __rrr_mmap_init (rrr_mmap.c:423-489) for the size computation: the memory is taken
    to be granted, and zero. *)
Definition init_size (bytes : Z) : Z :=
  let h := u64 (bytes + INDEX + 8) in u64 (h + (4096 - h mod 4096)).
Definition mmap_init (bytes : Z) : mmap := mk_mmap (fun _ => 0) (init_size bytes) 0 0 0.

(** A client using one heap: besides allocating and freeing it reads and writes words
    of memory (word [i] at the handle), as any octet access is within one word. *)
Inductive op : Type := Alloc (bytes : Z) | Free (h : Z) | Put (h i v : Z) | Get (h i : Z) | IsEmpty.
Inductive out : Type := Handle (h : option Z) | Done | Word (v : Z) | Answer (b : bool).

Definition step (s : mmap) (o : op) : res (mmap * out) :=
  match o with
  | Alloc n => match mmap_allocate s n with Ok (s', r) => Ok (s', Handle r) | Bug => Bug | Stuck => Stuck end
  | Free h => match mmap_free s h with Ok s' => Ok (s', Done) | Bug => Bug | Stuck => Stuck end
  | Put h i v => Ok (mk_mmap (upd (m_heap s) (h + 8 * i) v) (m_size s) (m_prev_fail s) (m_prev_pos s) (m_allocs s), Done)
  | Get h i => Ok (s, Word (m_heap s (h + 8 * i)))
  | IsEmpty => match mmap_is_empty s with Ok b => Ok (s, Answer b) | Bug => Bug | Stuck => Stuck end
  end.
