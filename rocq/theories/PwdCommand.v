(** What a sequence of uses of the password program comes to: the accounts, by the specification,
    and the files, by the model. *)
From Coq Require Import ZArith List Bool.
From Verif Require Import Common ParseModel PwdModel PwdSpec.
Import ListNotations.
Open Scope Z_scope.

(** One use of the program: the options, the random salt, and what is typed if a password is asked for. *)
Record command : Type := mk_command { c_data : data; c_salt : list Z; c_typed : list Z }.
Definition command_ok (c : command) : Prop :=
  user_ok (d_username (c_data c)) /\ Forall name_ok (d_permissions (c_data c)) /\ bytes (c_salt c) /\ zlen (c_salt c) = 32.
Definition request_of (key : list Z -> list Z -> list Z) (c : command) : option request :=
  let d := c_data c in
  wanted (d_username d) (d_password d) (d_create d) (d_remove d) (d_append d) (d_permissions d)
    (new_hash key (c_salt c) (c_typed c) (d_password d) (d_create d) (d_remove d) (d_append d) (d_permissions d)).
Fixpoint run_all (pbkdf2 : list Z -> list Z -> list Z) (cs : list command) (s : files) : res (files * list bool) :=
  match cs with
  | [] => Ok (s, [])
  | c :: r => bind (run true pbkdf2 (c_salt c) (c_typed c) (c_data c) s) (fun '(trace, ok) =>
              bind (run_all pbkdf2 r (after s trace)) (fun '(s', oks) => Ok (s', ok :: oks)))
  end.
Fixpoint history (key : list Z -> list Z -> list Z) (cs : list command) (A : accounts) : accounts * list bool :=
  match cs with
  | [] => (A, [])
  | c :: r => let '(A', ok) := perform_if (request_of key c) A in let '(B, oks) := history key r A' in (B, ok :: oks)
  end.
