(** What a user of packet identifiers expects, independent of the code: a set of
    identifiers in use. *)
From Coq Require Import ZArith List Bool.
From Verif Require Import Common IdPoolModel.
Import ListNotations.
Open Scope Z_scope.

(** Identifiers of MQTT packets: non-zero 16 bit numbers. *)
Definition valid_id (id : Z) : Prop := 1 <= id <= 65535.

(** [used] are the identifiers acquired and not released yet.  One operation with
    its result is correct if: an identifier returned is valid and not in use; none
    (0) is returned only when all are in use; a release succeeds exactly for an
    identifier in use. *)
Inductive id_correct : list Z -> id_op -> id_out -> list Z -> Prop :=
| ok_got : forall used id, valid_id id -> ~ In id used -> id_correct used Get (Got id) (id :: used)
| ok_none : forall used, (forall id, valid_id id -> In id used) -> id_correct used Get (Got 0) used
| ok_release : forall used id, In id used -> id_correct used (Release id) Released (remove Z.eq_dec id used)
| ok_bug : forall used id, valid_id id -> ~ In id used -> id_correct used (Release id) Bug used.

(** A history is correct if each step is. *)
Fixpoint id_history (p : id_pool) (used : list Z) (ops : list id_op) : Prop :=
  match ops with
  | [] => True
  | o :: r => let '(p', out) := id_step p o in
              exists used', id_correct used o out used' /\ id_history p' used' r
  end.
Definition op_valid (o : id_op) : Prop := match o with Release id => valid_id id | Get => True end.
