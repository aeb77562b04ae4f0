(** Rules which the users of a slot follow, and what leaving nothing behind means. *)
From Coq Require Import ZArith List Bool.
From Verif Require Import Common SlotModel HolderModel.
Import ListNotations.
Open Scope Z_scope.

(** A thread hands a holder it owns to the slot (slot_write_incref) only while it holds
    the lock of the holder, and gives a collection to the slot only if it has no more
    than one holder.  Nothing is required for the other calls. *)
Definition disciplined (m : machine) (t : nat) (l : label) : Prop :=
  match l with
  | LIncref e => exists h, m_heap m e = Some h /\ h_owner h = Some t
  | LColl => forall th, nth_error (m_threads m) t = Some th -> (length (t_coll th) <= 1)%nat
  | _ => True
  end.
Fixpoint disciplined_run (m : machine) (ls : list (nat * label)) : Prop :=
  match ls with
  | [] => True
  | (t, l) :: r => disciplined m t l /\ forall m', step m t l = Ok m' -> disciplined_run m' r
  end.

(** Some thread or the slot still refers to [e]. *)
Definition referred (e : Z) (m : machine) : Prop :=
  sl_entry (m_slot m) = Some e \/
  exists th, In th (m_threads m) /\ (In e (t_owned th) \/ In e (t_coll th) \/ t_pc th = Writing e).
