(** What the tree of statistics is supposed to hold. *)
From Coq Require Import ZArith List Bool.
From Verif Require Import Common StreeModel.
Import ListNotations.
Open Scope Z_scope.

Definition level_dec : forall a b : list (list Z), {a = b} + {a <> b} := list_eq_dec (list_eq_dec Z.eq_dec).
(** The levels of a path: what is between slashes, without empty levels. *)
Fixpoint segments (path : list Z) : list (list Z) :=
  match path with
  | [] => [[]]
  | c :: r => if c =? 47 then [] :: segments r
              else match segments r with s :: ss => (c :: s) :: ss | [] => [[c]] end
  end.
Definition levels (path : list Z) : list (list Z) := filter (fun s => match s with [] => false | _ => true end) (segments path).
(** Paths which are taken: more than one character, at least one level, and no slash at the end. *)
Definition proper (path : list Z) : bool := (2 <=? zlen path) && negb (last path 47 =? 47).

(** What is known about each list of levels: when it was last seen, and the message. *)
Definition store : Type := list (list Z) -> option (Z * option Z).
Definition message_of (x : option (Z * option Z)) : option Z := match x with Some (_, m) => m | None => None end.
Definition is_prefix (p ls : list (list Z)) : bool := if level_dec p (firstn (length p) ls) then true else false.
(** A message makes all levels on the way seen, and is held at the last one.  One which is refused
    for the slash at its end still makes levels seen. *)
Definition insert_store (now : Z) (path : list Z) (message : Z) (s : store) : store :=
  if zlen path <? 2 then s else
  fun p => if is_prefix p (levels path)
           then Some (now, if level_dec p (levels path) then if proper path then Some message else message_of (s p)
                           else message_of (s p))
           else s p.
(** What has not been seen since a time goes away, with all below. *)
Definition recent (min_time : Z) (s : store) (p : list (list Z)) : bool :=
  match p with [] => true | _ => match s p with Some (seen, _) => min_time <=? seen | None => false end end.
Definition purge_store (min_time : Z) (s : store) : store :=
  fun p => if forallb (fun n => recent min_time s (firstn n p)) (seq 0 (S (length p))) then s p else None.
Fixpoint history (os : list op) (s : store) : store :=
  match os with
  | [] => s
  | Insert now path message :: r => history r (insert_store now path message s)
  | Purge min_time :: r => history r (purge_store min_time s)
  end.
Definition empty (now : Z) : store := fun p => match p with [] => Some (now, None) | _ => None end.

(** The tree, as seen from outside: what is found at the end of a way through it. *)
Definition look (b : branch) (p : list (list Z)) : option (Z * option Z) :=
  match at_path b p with Some c => Some (b_seen c, b_value c) | None => None end.
