(** Model of the channel between two processes, src/lib/mmap_channel.c.

    One process writes, one reads.  Every access to the shared fields is made with the
    index lock or the lock of the block, so a schedule is a list of the steps below, in
    any order.  Simplified: system calls on locks and shared memory segments succeed
    or make the call fail ([alloc_ok]); the octets of a message are kept with its
    block (that allocations do not overlap is shown for rrr_mmap.c in MmapProps.v); of the
    notification of the reader only its result is kept ([notify_ok]). *)
From Coq Require Import ZArith List Bool.
From Verif Require Import Common.
Import ListNotations.
Open Scope Z_scope.

(** mmap_channel.h:31 [RRR_MMAP_CHANNEL_SLOTS]; the functions below are given the number
    of slots *)
Definition SLOTS : Z := 1024.
(** mmap_channel.c:45-53 *)
Definition SHM_LIMIT : Z := 8192.
Definition SHM_MIN_REUSE_SIZE : Z := 4096.
Definition MAX_PERSISTENT_SIZE : Z := SHM_LIMIT + 1024.

Inductive who : Type := Writer | Reader.

(** mmap_channel.c:59-71 [struct rrr_mmap_channel_block].  [b_data] has size_data octets;
    [b_ptr] says if ptr_shm_or_mmap_writer is set, [b_shm] if shmid is; [b_lock] is the
    holder of the block lock. *)
Record block : Type := mk_block {
  b_data : list Z; b_cap : Z; b_ptr : bool; b_shm : bool; b_cleanup : bool; b_lock : option who }.

(** mmap_channel.c:77-95 [struct rrr_mmap_channel] *)
Record channel : Type := mk_channel {
  c_count : Z; c_wpos : Z; c_rpos : Z; c_blocks : Z -> block; c_cleanup : bool; c_full : Z }.

(** mmap_channel.c:581-641 [rrr_mmap_channel_new] *)
Definition channel_new : channel := mk_channel 0 0 0 (fun _ => mk_block [] 0 false false false None) false 0.

Definition set_block (c : channel) (i : Z) (b : block) : channel :=
  mk_channel (c_count c) (c_wpos c) (c_rpos c) (fun x => if x =? i then b else c_blocks c x) (c_cleanup c) (c_full c).
Definition lock (b : block) (w : option who) : block :=
  mk_block (b_data b) (b_cap b) (b_ptr b) (b_shm b) (b_cleanup b) w.

(** mmap_channel.c:117-161 [__rrr_mmap_channel_block_free]; freeing succeeds *)
Definition block_free (b : block) : block := mk_block [] 0 false false (b_cleanup b) (b_lock b).

(** mmap_channel.c:200-278 [__rrr_mmap_channel_allocate]; [None]: failure *)
Definition allocate (b : block) (size : Z) (alloc_ok : bool) : option block :=
  if (if b_shm b && b_ptr b then (SHM_MIN_REUSE_SIZE <=? size) && (size <=? b_cap b) else size <=? b_cap b) then Some b
  else
    let b := block_free b in
    if negb alloc_ok then None
    else if SHM_LIMIT <? size then
      Some (mk_block (b_data b) (size - size mod SHM_MIN_REUSE_SIZE + SHM_MIN_REUSE_SIZE) true true (b_cleanup b) (b_lock b))
    else Some (mk_block (b_data b) size true false (b_cleanup b) (b_lock b)).

(** Where the writer is in mmap_channel.c:276-365
    [rrr_mmap_channel_write_using_callback]: about to look at block [i] in
    __rrr_mmap_channel_cleanup (mmap_channel.c:162-196) or having it locked; about to
    lock the block at [pos] or having it locked; after unlocking it. *)
Inductive wpc : Type :=
| WIdle | WClean (i pos : Z) (d : list Z) | WCleanHold (i pos : Z) (d : list Z)
| WGot (pos : Z) (d : list Z) | WHold (pos : Z) (d : list Z) | WPost.
(** Where the reader is in mmap_channel.c:411-515 [rrr_mmap_channel_read_with_callback]. *)
Inductive rpc : Type := RIdle | RGot (pos : Z) | RHold (pos : Z) | RPost (cleanup : bool).
Record state : Type := mk_state { s_ch : channel; s_w : wpc; s_r : rpc }.

(** What the writer's calls do and return ([WUnnotified]: an error because the reader could
    not be notified) and what the reader is shown, accepts and is told. *)
Inductive event : Type :=
| WCall | Wrote (d : list Z) | Shown (d : list Z) | Took (d : list Z)
| WDone | WUnnotified | WFull | WFailed | RNothing | REmpty | RFailed.

Inductive label : Type :=
| DoWrite (d : list Z)                (** a write of [d] is called, up to INDEX_UNLOCK *)
| DoClean | DoTryLock                 (** steps of the writer *)
| DoFill (alloc_ok cb_ok : bool) | DoPost (notify_ok : bool)
| DoRead | DoReadLock                 (** steps of the reader *)
| DoShow (cb_ok : bool) | DoReadPost.

Definition next_pos (n p : Z) : Z := if p + 1 =? n then 0 else p + 1.
Definition begin_write (cleanup : bool) (pos : Z) (d : list Z) : wpc :=
  if cleanup then WClean 0 pos d else WGot pos d.

Definition step (n : Z) (s : state) (l : label) : state * list event :=
  let c := s_ch s in
  match l, s_w s, s_r s with
  | DoWrite d, WIdle, r =>
      (mk_state (mk_channel (c_count c) (c_wpos c) (c_rpos c) (c_blocks c) false (c_full c))
         (begin_write (c_cleanup c) (c_wpos c) d) r, [WCall])
  | DoClean, WClean i pos d, r =>
      if i =? n then (mk_state c (WGot pos d) r, [])
      else match b_lock (c_blocks c i) with
           | Some _ => (mk_state c (WClean (i + 1) pos d) r, [])
           | None => (mk_state (set_block c i (lock (c_blocks c i) (Some Writer))) (WCleanHold i pos d) r, [])
           end
  | DoClean, WCleanHold i pos d, r =>
      let b := c_blocks c i in
      let b := if b_cleanup b then block_free (mk_block (b_data b) (b_cap b) (b_ptr b) (b_shm b) false (b_lock b)) else b in
      (mk_state (set_block c i (lock b None)) (WClean (i + 1) pos d) r, [])
  | DoTryLock, WGot pos d, r =>
      match b_lock (c_blocks c pos) with
      | Some _ => (mk_state (mk_channel (c_count c) (c_wpos c) (c_rpos c) (c_blocks c) (c_cleanup c) (u64 (c_full c + 1))) WIdle r, [WFull])
      | None => (mk_state (set_block c pos (lock (c_blocks c pos) (Some Writer))) (WHold pos d) r, [])
      end
  | DoFill alloc_ok cb_ok, WHold pos d, r =>
      let b := c_blocks c pos in
      if negb (zlen (b_data b) =? 0) then (mk_state (set_block c pos (lock b None)) WIdle r, [WFull])
      else match allocate b (zlen d) alloc_ok with
           | None => (mk_state (set_block c pos (lock (block_free b) None)) WIdle r, [WFailed])
           | Some b =>
               if negb cb_ok then (mk_state (set_block c pos (lock b None)) WIdle r, [WFailed])
               else (mk_state (set_block c pos (mk_block d (b_cap b) (b_ptr b) (b_shm b) false None)) WPost r, [Wrote d])
           end
  | DoPost notify_ok, WPost, r =>
      (mk_state (mk_channel (c_count c + 1) (next_pos n (c_wpos c)) (c_rpos c) (c_blocks c) (c_cleanup c) (c_full c)) WIdle r,
       [if notify_ok then WDone else WUnnotified])
  | DoRead, w, RIdle =>
      if c_count c =? 0 then (s, [RNothing]) else (mk_state c w (RGot (c_rpos c)), [])
  | DoReadLock, w, RGot pos =>
      match b_lock (c_blocks c pos) with
      | Some _ => (mk_state c w RIdle, [REmpty])
      | None => (mk_state (set_block c pos (lock (c_blocks c pos) (Some Reader))) w (RHold pos), [])
      end
  | DoShow cb_ok, w, RHold pos =>
      let b := c_blocks c pos in
      if zlen (b_data b) =? 0 then (mk_state (set_block c pos (lock b None)) w RIdle, [REmpty])
      else if negb cb_ok then (mk_state (set_block c pos (lock b None)) w RIdle, [Shown (b_data b); RFailed])
      else
        let clean := MAX_PERSISTENT_SIZE <? b_cap b in
        (mk_state (set_block c pos (mk_block [] (b_cap b) (b_ptr b) (b_shm b) clean None)) w (RPost clean), [Shown (b_data b); Took (b_data b)])
  | DoReadPost, w, RPost clean =>
      (mk_state (mk_channel (c_count c - 1) (c_wpos c) (next_pos n (c_rpos c)) (c_blocks c) (c_cleanup c || clean) (c_full c)) w RIdle, [])
  | _, _, _ => (s, [])
  end.

Definition initial : state := mk_state channel_new WIdle RIdle.
(** A schedule. *)
Fixpoint run (n : Z) (s : state) (ls : list label) : state * list event :=
  match ls with
  | [] => (s, [])
  | l :: r => let '(s, e) := step n s l in let '(s, e') := run n s r in (s, e ++ e')
  end.

(** mmap_channel.c:101-115 [rrr_mmap_channel_count] *)
Definition channel_count (c : channel) : Z := c_count c.

(** mmap_channel.c:546-566 [rrr_mmap_channel_writer_free_blocks] *)
Definition writer_free_blocks (c : channel) : channel :=
  mk_channel (c_count c) 0 0 (fun i => block_free (c_blocks c i)) (c_cleanup c) (c_full c).
