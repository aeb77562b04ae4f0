(** Model of the message slot, src/lib/message_holder/message_holder_slot.c, and of the
    reference counts and locks of message holders, message_holder.c.

    All fields of a slot are accessed with its lock held and the lock is given up only
    while a writer waits (pthread_cond_timedwait), so every call is one or two atomic
    steps: the part before the lock is taken, if it matters, and the part with the lock.
    Message holders are identified by numbers.  Simplified: memory is granted and the
    pthread functions succeed. *)
From Coq Require Import ZArith List Bool.
From Verif Require Import Common.
Import ListNotations.
Open Scope Z_scope.

(** Outcome: result, RRR_BUG, or use of a message holder which is freed. *)
Inductive res (A : Type) : Type := Ok (a : A) | Bug | Uaf.
Arguments Ok {A} a. Arguments Bug {A}. Arguments Uaf {A}.

(** message_holder_slot.c:40-54 [struct rrr_msg_holder_slot]; [sl_readers] has 0 for
    NULL, reader_count is its length. *)
Record slot : Type := mk_slot {
  sl_entry : option Z; sl_readers : list Z; sl_has_read : list bool; sl_deleted : Z; sl_written : Z }.

(** message_holder_slot.c:56-93 [rrr_msg_holder_slot_new] *)
Definition slot_new : slot := mk_slot None [] [] 0 0.

(** message_holder_slot.c:95-128 [rrr_msg_holder_slot_reader_count_set] *)
Definition reader_count_set (s : slot) (n : nat) : slot :=
  mk_slot (sl_entry s) (repeat 0 n) (repeat false n) (sl_deleted s) (sl_written s).

(** message_holder_slot.c:146-155 [rrr_msg_holder_slot_get_stats] *)
Definition get_stats (s : slot) : Z * Z := (sl_deleted s, sl_written s).

(** message_holder_slot.c:157-179 [rrr_msg_holder_slot_count] *)
Definition slot_count (s : slot) : Z :=
  match sl_entry s with
  | None => 0
  | Some _ => 1 + zlen (filter negb (sl_has_read s))
  end.

(** message_holder_slot.c:181-208 [__rrr_msg_holder_slot_reader_index_get_unlocked]:
    the index and the readers with [self] registered; [None] is the RRR_BUG.  Only for
    reader_count > 0. *)
Fixpoint reader_index (readers : list Z) (self : Z) : option (nat * list Z) :=
  match readers with
  | [] => None
  | r :: rest =>
      if r =? self then Some (O, readers)
      else if r =? 0 then Some (O, self :: rest)
      else match reader_index rest self with
           | Some (i, rest') => Some (S i, r :: rest')
           | None => None
           end
  end.

Fixpoint set_flag (l : list bool) (i : nat) : list bool :=
  match l, i with
  | [], _ => []
  | _ :: r, O => true :: r
  | b :: r, S i => b :: set_flag r i
  end.

(** What the callback given to rrr_msg_holder_slot_read answers: its return value and
    do_keep. *)
Record answer : Type := mk_answer { an_ret : Z; an_keep : bool }.

(** message_holder_slot.c:210-287 [rrr_msg_holder_slot_read].  The result says which
    entry was given to the callback, whether it was taken from the slot, and the return
    value.  The clone is assumed to succeed if [clone_ok]. *)
Inductive read_result : Type := RNothing | RCloneFailed | RGiven (m : Z) (taken : bool) (done : bool) (ret : Z).
Definition slot_read (s : slot) (self : Z) (clone_ok : bool) (a : answer) : res (slot * read_result) :=
  match sl_entry s with
  | None => Ok (s, RNothing)
  | Some m =>
      let go (readers : list Z) (index : option nat) : res (slot * read_result) :=
        if negb clone_ok then Ok (mk_slot (Some m) readers (sl_has_read s) (sl_deleted s) (sl_written s), RCloneFailed)
        else if negb (an_ret a =? 0) || an_keep a then
          Ok (mk_slot (Some m) readers (sl_has_read s) (sl_deleted s) (sl_written s), RGiven m false false (an_ret a))
        else
          let '(flags, done_count) :=
            match index with
            | Some i => let flags := set_flag (sl_has_read s) i in (flags, zlen (filter (fun b => b) flags))
            | None => (sl_has_read s, 0)
            end in
          if zlen readers <=? done_count then
            Ok (mk_slot None readers flags (u64 (sl_deleted s + 1)) (sl_written s), RGiven m true true 0)
          else Ok (mk_slot (Some m) readers flags (sl_deleted s) (sl_written s), RGiven m false true 0) in
      match sl_readers s with
      | [] => go [] None
      | readers =>
          match reader_index readers self with
          | None => Bug
          | Some (i, readers') =>
              if nth i (sl_has_read s) false
              then Ok (mk_slot (Some m) readers' (sl_has_read s) (sl_deleted s) (sl_written s), RNothing)
              else go readers' (Some i)
          end
      end
  end.

(** message_holder_slot.c:284-309 [rrr_msg_holder_slot_discard] *)
Definition slot_discard (s : slot) (self : Z) (clone_ok : bool) : res (slot * read_result) :=
  slot_read s self clone_ok (mk_answer 0 false).

(** message_holder_slot.c:357-369, macro WRITE_AND_RESET *)
Definition write_and_reset (s : slot) (m : Z) : slot :=
  mk_slot (Some m) (sl_readers s) (map (fun _ => false) (sl_has_read s)) (sl_deleted s) (u64 (sl_written s + 1)).

(** message_holder_slot.c:321-345 and 352-355: with the lock held a writer goes on only
    if there is no entry, otherwise it waits and looks again later, or is cancelled.
    message_holder_slot.c:376-417 [rrr_msg_holder_slot_write], 418-450
    [rrr_msg_holder_slot_write_clone] and 452-467 [__rrr_msg_holder_slot_write]:
    [store] says if the callback returned 0 without do_drop (always so for the last
    two).  The boolean tells whether the entry was stored. *)
Definition slot_write (s : slot) (m : Z) (store : bool) : slot * bool :=
  match sl_entry s with
  | Some _ => (s, false)
  | None => if store then (write_and_reset s m, true) else (s, false)
  end.

(** A history of calls on a slot, each with its outcome. *)
Inductive op : Type := OpRead (self : Z) (clone_ok : bool) (a : answer) | OpWrite (m : Z) (store : bool).
(** Events: [m] is stored; it is given to the callback of a reader; the reader is done
    with it; it is removed from the slot. *)
Inductive event : Type := Wrote (m : Z) | Given (r m : Z) | Done (r m : Z) | Deleted (m : Z).
Definition step (s : slot) (o : op) : res (slot * list event) :=
  match o with
  | OpWrite m store => let '(s', ok) := slot_write s m store in Ok (s', if ok then [Wrote m] else [])
  | OpRead self clone_ok a =>
      match slot_read s self clone_ok a with
      | Ok (s', RGiven m taken done _) =>
          Ok (s', Given self m :: (if done then [Done self m] else []) ++ (if taken then [Deleted m] else []))
      | Ok (s', _) => Ok (s', [])
      | Bug => Bug
      | Uaf => Uaf
      end
  end.
Fixpoint run (s : slot) (ops : list op) : res (slot * list event) :=
  match ops with
  | [] => Ok (s, [])
  | o :: r =>
      match step s o with
      | Ok (s', e) => match run s' r with Ok (s'', e') => Ok (s'', e ++ e') | Bug => Bug | Uaf => Uaf end
      | Bug => Bug
      | Uaf => Uaf
      end
  end.
