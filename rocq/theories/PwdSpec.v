(** What a password file means and what the commands are to do with it. *)
From Coq Require Import ZArith List Bool.
From Verif Require Import Common.
From Verif Require ParseSpec Base64Spec.
Import ListNotations.
Open Scope Z_scope.

(** The lines of a text, without blanks at their beginning; empty lines do not count. *)
Definition nl (c : Z) : bool := (c =? 10) || (c =? 13).
Definition blank (c : Z) : bool := (c =? 32) || (c =? 9).
Fixpoint segments (d : list Z) : list (list Z) :=
  match d with
  | [] => [[]]
  | c :: r => if nl c then [] :: segments r
              else match segments r with s :: ss => (c :: s) :: ss | [] => [[c]] end
  end.
Fixpoint strip (s : list Z) : list Z := match s with c :: r => if blank c then strip r else s | [] => [] end.
Definition nonempty (s : list Z) : bool := match s with [] => false | _ => true end.
Definition lines (d : list Z) : list (list Z) := filter nonempty (map strip (segments d)).

(** A line of a password file is USER:PERMISSIONS:HASH, permissions separated by commas. *)
Record entry : Type := mk_entry { e_user : list Z; e_perms : list (list Z); e_hash : list Z }.
Definition line_of (e : entry) : list Z := e_user e ++ 58 :: ParseSpec.join 44 (e_perms e) ++ 58 :: e_hash e.
Definition is_entry (line : list Z) (e : entry) : Prop :=
  line = line_of e /\ ~ In 58 (e_user e) /\ ~ In 58 (e_hash e) /\
  Forall (fun p => ~ In 58 p /\ ~ In 44 p) (e_perms e) /\ e_perms e <> [[]] /\ zlen (e_perms e) <= 32.
Definition entries (d : list Z) (es : list entry) : Prop := Forall2 is_entry (lines d) es.

(** Accounts: the permissions, and the hash ([] is a disabled account). *)
Record account : Type := mk_account { a_perms : list (list Z); a_hash : list Z }.
Definition accounts : Type := list Z -> option account.
Definition no_accounts : accounts := fun _ => None.
Definition eq_dec : forall a b : list Z, {a = b} + {a <> b} := list_eq_dec Z.eq_dec.
Definition put (A : accounts) (u : list Z) (a : option account) : accounts := fun v => if eq_dec v u then a else A v.

(** What can be asked for: the hash is the new one, [None] leaves it as it is, and likewise the
    permissions; these replace the old ones or are added. *)
(** A permission which is asked for is held; none may be asked for. *)
Definition permitted (permission : option (list Z)) (ps : list (list Z)) : Prop :=
  match permission with Some p => In p ps | None => True end.

Inductive perms_change : Type := Keep | Replace (ps : list (list Z)) | Add (ps : list (list Z)).
Inductive request : Type :=
| Create (u : list Z) (ps : list (list Z)) (hash : list Z)
| Change (u : list Z) (ps : perms_change) (hash : option (list Z))
| Remove (u : list Z).
Definition user_of (r : request) : list Z := match r with Create u _ _ => u | Change u _ _ => u | Remove u => u end.

(** Each permission once, at its last place; the empty permission is none. *)
Fixpoint once (l : list (list Z)) : list (list Z) :=
  match l with [] => [] | p :: r => if in_dec eq_dec p r then once r else p :: once r end.
Definition proper (l : list (list Z)) : list (list Z) := filter nonempty (once l).
Definition new_perms (old : list (list Z)) (c : perms_change) : list (list Z) :=
  match c with Keep => proper old | Replace ps => proper ps | Add ps => proper (old ++ ps) end.

(** The account of the user after a request, [None] if the request is refused. *)
Definition answer (r : request) (a : option account) : option (option account) :=
  match r, a with
  | Create _ ps h, None => Some (Some (mk_account (proper ps) h))
  | Change _ ps h, Some a => Some (Some (mk_account (new_perms (a_perms a) ps) match h with Some h => h | None => a_hash a end))
  | Remove _, Some _ => Some None
  | _, _ => None
  end.
Definition perform (r : request) (A : accounts) : accounts :=
  match answer r (A (user_of r)) with Some a => put A (user_of r) a | None => A end.
Definition succeeds (r : request) (A : accounts) : bool :=
  match answer r (A (user_of r)) with Some _ => true | None => false end.

(** The accounts a file has. *)
Definition holds (A : accounts) (d : list Z) : Prop :=
  exists es, entries d es /\ NoDup (map e_user es) /\
    forall u a, A u = Some a <-> In (mk_entry u (a_perms a) (a_hash a)) es.

(** Names which can be written to the file and read again. *)
Definition name_ok (s : list Z) : Prop := Forall (fun c => c <> 0 /\ nl c = false /\ c <> 58 /\ c <> 44) s.
Definition user_ok (u : list Z) : Prop := name_ok u /\ match u with c :: _ => blank c = false | [] => False end.

(** Hashes of passwords: base64 (RFC 4648) of the salt and of the key, after $1$. *)
Definition base64 (s : list Z) : list Z := Base64Spec.rfc_encode 43 47 [61] s.
Definition hash_text (salt key : list Z) : list Z := [36; 49; 36] ++ base64 salt ++ [36] ++ base64 key.
Definition plain_text (password : list Z) : list Z := [36; 48; 36; 36] ++ base64 password.

(** * Commands
    The options of the program: the user, the password if given, create, remove, append, and the
    permissions.  [typed] is what is typed when the password is asked for and [salt] the random
    salt; [key password salt] derives the key which is stored. *)
Definition secret (key : list Z -> list Z -> list Z) (salt p : list Z) : list Z :=
  match p with [] => [] | _ => hash_text salt (key p salt) end.
(** The password is asked for when it is not given and either a user is created or there is
    nothing else to do. *)
Definition new_hash (key : list Z -> list Z -> list Z) (salt typed : list Z) (password : option (list Z)) (create remove append : bool) (ps : list (list Z)) : option (list Z) :=
  match password with
  | Some p => Some (secret key salt p)
  | None => if create || (negb remove && negb append && match ps with [] => true | _ => false end) then Some (secret key salt typed) else None
  end.
(** What is asked for, [None] if the options do not go together. *)
Definition wanted (u : list Z) (password : option (list Z)) (create remove append : bool) (ps : list (list Z)) (hash : option (list Z)) : option request :=
  if remove then
    if create || append || match ps with [] => false | _ => true end || match password with Some _ => true | None => false end then None else Some (Remove u)
  else if append && match ps with [] => true | _ => false end then None
  else if create then Some (Create u ps match hash with Some h => h | None => [] end)
  else Some (Change u match ps with [] => Keep | _ => if append then Add ps else Replace ps end hash).
Definition perform_if (r : option request) (A : accounts) : accounts * bool :=
  match r with Some r => (perform r A, succeeds r A) | None => (A, false) end.

(** No account has more than 32 permissions. *)
Definition fits (A : accounts) : Prop := forall u a, A u = Some a -> zlen (a_perms a) <= 32.
