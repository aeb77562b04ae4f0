(** What happened on a slot, read off the events. *)
From Coq Require Import ZArith List Bool.
From Verif Require Import Common SlotModel.
Import ListNotations.
Open Scope Z_scope.

(** Messages stored, in order. *)
Fixpoint wrote (ev : list event) : list Z :=
  match ev with [] => [] | Wrote m :: r => m :: wrote r | _ :: r => wrote r end.
(** Messages which reader [a] is done with, in order. *)
Fixpoint done_by (a : Z) (ev : list event) : list Z :=
  match ev with
  | [] => []
  | Done b m :: r => if b =? a then m :: done_by a r else done_by a r
  | _ :: r => done_by a r
  end.
(** Messages which some reader is done with, in order. *)
Fixpoint done_any (ev : list event) : list Z :=
  match ev with [] => [] | Done _ m :: r => m :: done_any r | _ :: r => done_any r end.
(** Messages removed from the slot, in order. *)
Fixpoint deleted (ev : list event) : list Z :=
  match ev with [] => [] | Deleted m :: r => m :: deleted r | _ :: r => deleted r end.
(** [a] has been given a message. *)
Definition seen (a : Z) (ev : list event) : Prop := exists m, In (Given a m) ev.

Definition held (s : slot) : list Z := match sl_entry s with Some m => [m] | None => [] end.

(** No reader is the null pointer. *)
Definition reader_ok (o : op) : Prop := match o with OpRead self _ _ => self <> 0 | _ => True end.
