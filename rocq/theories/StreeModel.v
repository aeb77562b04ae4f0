(** Model of src/lib/stats/stats_tree.c.  Messages to the log, allocation failures, printing
    of the tree and the number of branches removed are left out.  A path is at most as long as the message
    allows, so that it fits the memory for it. *)
From Coq Require Import ZArith List Bool.
From Verif Require Import Common.
Import ListNotations.
Open Scope Z_scope.

(** stats_tree.h:29-31 *)
Definition OK : Z := 0.
Definition SOFT : Z := 2.

(** stats_tree.h:35-41 [struct rrr_stats_tree_branch]; a value is a message, here a number *)
Inductive branch : Type := Branch (name : list Z) (value : option Z) (seen : Z) (children : list branch).
Definition b_name (b : branch) : list Z := let '(Branch n _ _ _) := b in n.
Definition b_value (b : branch) : option Z := let '(Branch _ v _ _) := b in v.
Definition b_seen (b : branch) : Z := let '(Branch _ _ s _) := b in s.
Definition b_children (b : branch) : list branch := let '(Branch _ _ _ l) := b in l.

Definition slash : Z := 47.
(** stats_tree.c:81-84 [rrr_stats_tree_init]: the name of the first branch is rrr *)
Definition tree_init (now : Z) : branch := Branch [114; 114; 114] None now [].

(** stats_tree.c:94-132 [__rrr_stats_get_first_path_level]: the first level, empty if there is none,
    and the rest of the path *)
Fixpoint until_slash (path : list Z) : list Z * list Z :=
  match path with
  | [] => ([], [])
  | c :: r => if c =? slash then ([], path) else let '(a, b) := until_slash r in (c :: a, b)
  end.
Fixpoint first_level (path : list Z) : list Z * list Z :=
  match path with
  | [] => ([], [])
  | c :: r => if c =? slash then first_level r else until_slash path
  end.

(** stats_tree.c:163-167: the first child with the name is given to [f] *)
Fixpoint update_child (f : branch -> branch * Z) (name : list Z) (l : list branch) : option (list branch * Z) :=
  match l with
  | [] => None
  | c :: r => if list_eq_dec Z.eq_dec (b_name c) name then let '(c, ret) := f c in Some (c :: r, ret)
              else match update_child f name r with Some (r, ret) => Some (c :: r, ret) | None => None end
  end.
(** stats_tree.c:134-178 [__rrr_stats_tree_insert_or_update_branch] with 34-69: the branch after, and
    what is returned; the recursion ends as the path gets shorter.  The code reads the clock once
    for each level, here it has the same time for all of them *)
Fixpoint insert_branch (fuel : nat) (now : Z) (message : Z) (path : list Z) (b : branch) : branch * Z :=
  match fuel with
  | O => (b, SOFT)
  | S fuel =>
      let '(Branch name value _ children) := b in
      match path with
      | [] => (Branch name (Some message) now children, OK)
      | _ =>
          let '(level, rest) := first_level path in
          match level with
          | [] => (Branch name value now children, SOFT)
          | _ =>
              match update_child (insert_branch fuel now message rest) level children with
              | Some (children, ret) => (Branch name value now children, ret)
              | None => let '(c, ret) := insert_branch fuel now message rest (Branch level None now []) in
                        (Branch name value now (children ++ [c]), ret)
              end
          end
      end
  end.
(** stats_tree.c:180-187 [rrr_stats_tree_insert_or_update] *)
Definition insert (now : Z) (path : list Z) (message : Z) (b : branch) : branch * Z :=
  if zlen path <? 2 then (b, SOFT) else insert_branch (S (length path)) now message path b.

(** stats_tree.c:242-252 [__rrr_stats_tree_branch_purge_old_branches] and 254-266
    [rrr_stats_tree_purge_old_branches], which does the same at the first branch *)
Fixpoint purge (min_time : Z) (b : branch) : branch :=
  let '(Branch name value seen children) := b in
  Branch name value seen
    ((fix go (l : list branch) : list branch :=
        match l with
        | [] => []
        | c :: r => if b_seen c <? min_time then go r else purge min_time c :: go r
        end) children).

(** stats_tree.c:189-208 [__rrr_stats_branch_has_leaf] and [rrr_stats_tree_has_leaf] *)
Fixpoint has_leaf (name : list Z) (b : branch) : bool :=
  let '(Branch n _ _ children) := b in
  match children with
  | [] => if list_eq_dec Z.eq_dec n name then true else false
  | _ => (fix go (l : list branch) : bool := match l with [] => false | c :: r => if has_leaf name c then true else go r end) children
  end.

(** Uses of the tree *)
Inductive op : Type := Insert (now : Z) (path : list Z) (message : Z) | Purge (min_time : Z).
Definition step (b : branch) (o : op) : branch * Z :=
  match o with
  | Insert now path message => insert now path message b
  | Purge min_time => (purge min_time b, OK)
  end.
Fixpoint run (b : branch) (os : list op) : branch :=
  match os with [] => b | o :: r => run (fst (step b o)) r end.

(** The branch at the end of a way through the tree *)
Definition child (name : list Z) (l : list branch) : option branch := find (fun c => if list_eq_dec Z.eq_dec (b_name c) name then true else false) l.
Fixpoint at_path (b : branch) (levels : list (list Z)) : option branch :=
  match levels with
  | [] => Some b
  | n :: r => match child n (b_children b) with Some c => at_path c r | None => None end
  end.
