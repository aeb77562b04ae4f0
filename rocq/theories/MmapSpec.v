(** What a client of the allocator may expect: a list of live allocations, each with
    its own words. *)
From Coq Require Import ZArith List Bool Lia.
From Verif Require Import Common MmapModel.
Import ListNotations.
Open Scope Z_scope.

(** A live allocation: where it is, how many bytes were asked for, and the words the
    client has stored in it so far. *)
Record block : Type := mk_block { b_at : Z; b_bytes : Z; b_words : Z -> option Z }.

Definition is_live (live : list block) (h : Z) : Prop := exists b, In b live /\ b_at b = h.
(** Word [i] of the allocation at [h] holds at least one byte which was asked for. *)
Definition in_range (live : list block) (h i : Z) : Prop :=
  exists b, In b live /\ b_at b = h /\ 0 <= i /\ 8 * i < b_bytes b.

(** Uses which are the client's right.  Freeing something else is answered for below. *)
Definition legal (live : list block) (o : op) : Prop :=
  match o with
  | Alloc n => 0 < n < 2 ^ 64 - 8
  | Free h => is_live live h
  | Put h i _ => in_range live h i
  | Get h i => in_range live h i
  | IsEmpty => True
  end.

(** Whether an answer is right: new memory lies within the heap of [size] bytes, is
    aligned, and overlaps no live allocation; words hold what was stored. *)
Definition right (size : Z) (live : list block) (o : op) (r : out) : Prop :=
  match o, r with
  | Alloc n, Handle None => True
  | Alloc n, Handle (Some h) =>
      0 < h /\ h + n <= size /\ h mod 8 = 0 /\
      forall b, In b live -> b_at b + b_bytes b <= h \/ h + n <= b_at b
  | Free _, Done => True
  | Put _ _ _, Done => True
  | Get h i, Word v => forall b x, In b live -> b_at b = h -> b_words b i = Some x -> v = x
  | IsEmpty, Answer e => e = true <-> live = []
  | _, _ => False
  end.

(** The live allocations afterwards. *)
Definition after (live : list block) (o : op) (r : out) : list block :=
  match o, r with
  | Alloc n, Handle (Some h) => mk_block h n (fun _ => None) :: live
  | Free h, _ => filter (fun b => negb (b_at b =? h)) live
  | Put h i v, _ =>
      map (fun b => if b_at b =? h then mk_block (b_at b) (b_bytes b) (fun k => if k =? i then Some v else b_words b k) else b) live
  | _, _ => live
  end.

(** A heap behaves for the remaining uses: every legal use is answered, rightly, and
    freeing what is not allocated stops the program. *)
Fixpoint behaves (s : mmap) (live : list block) (os : list op) : Prop :=
  match os with
  | [] => True
  | o :: os' =>
    (legal live o -> exists s' r, step s o = Ok (s', r) /\ right (m_size s) live o r /\ behaves s' (after live o r) os') /\
    (forall h, o = Free h -> ~ is_live live h -> step s o = Bug)
  end.
