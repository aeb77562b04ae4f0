(** Properties of the tree of statistics. *)
From Coq Require Import Strings.String.
From Coq Require Import ZArith List Bool Lia.
From Verif Require Import Common StreeModel StreeSpec StreeProofs.
Import ListNotations.
Open Scope Z_scope.

(** C116: whatever messages are given and whatever is removed, each place in the tree has what a flat
    table from lists of levels to times and messages would have. *)
Theorem stree_table : forall start os p,
  look (run (tree_init start) os) p = history os (empty start) p.
Proof. exact tree_holds. Qed.
Print Assumptions stree_table.
Definition ex_ops : list op :=
  [Insert 10 (str_bytes "a/b") 1; Insert 20 (str_bytes "/a//c") 2; Insert 30 (str_bytes "d/b") 3; Insert 40 (str_bytes "a/b") 4; Purge 25].
Example stree_table_ex :
  look (run (tree_init 5) ex_ops) [str_bytes "a"; str_bytes "b"] = Some (40, Some 4) /\
  look (run (tree_init 5) ex_ops) [str_bytes "a"; str_bytes "c"] = None /\
  look (run (tree_init 5) ex_ops) [str_bytes "a"] = Some (40, None) /\
  look (run (tree_init 5) ex_ops) [str_bytes "d"; str_bytes "b"] = Some (30, Some 3).
Proof. repeat apply conj; vm_compute; reflexivity. Qed.

(** C116: a message is taken if its path has more than one character and does not end with a slash,
    otherwise an error is returned, whatever the tree has. *)
Theorem stree_answer : forall b now path message,
  snd (step b (Insert now path message)) = if proper path then OK else SOFT.
Proof. exact (fun b now path message => insert_ret now path message b). Qed.
Print Assumptions stree_answer.
Example stree_answer_ex :
  snd (step (tree_init 5) (Insert 10 (str_bytes "//a/b") 1)) = OK /\ snd (step (tree_init 5) (Insert 10 (str_bytes "a/b/") 1)) = SOFT /\
  snd (step (tree_init 5) (Insert 10 (str_bytes "a") 1)) = SOFT.
Proof. repeat apply conj; vm_compute; reflexivity. Qed.

(** C116: the last message of a path is found, whatever other messages come after, and whatever older
    than it is removed. *)
Theorem stree_fresh : forall start os1 now path message os2,
  proper path = true ->
  Forall (fun o => match o with
                   | Insert t other _ => now <= t /\ (levels other <> levels path \/ proper other = false)
                   | Purge min_time => min_time <= now
                   end) os2 ->
  exists t, now <= t /\ look (run (tree_init start) (os1 ++ Insert now path message :: os2)) (levels path) = Some (t, Some message).
Proof. exact tree_fresh. Qed.
Print Assumptions stree_fresh.
Example stree_fresh_ex :
  proper (str_bytes "a/b") = true /\
  Forall (fun o => match o with
                   | Insert t other _ => 40 <= t /\ (levels other <> levels (str_bytes "a/b") \/ proper other = false)
                   | Purge min_time => min_time <= 40
                   end) [Insert 50 (str_bytes "a/bb") 7; Insert 60 (str_bytes "a/b/") 9; Purge 40].
Proof.
  split; [reflexivity|]. apply Forall_cons; [split; [lia|left; vm_compute; discriminate]|].
  apply Forall_cons; [split; [lia|right; reflexivity]|]. apply Forall_cons; [lia|apply Forall_nil].
Qed.

(** C116: a place goes away when neither it nor anything below it has been seen since the given time. *)
Theorem stree_old : forall start os min_time p, p <> [] ->
  (forall t path m, In (Insert t path m) os -> is_prefix p (levels path) = true -> t < min_time) ->
  look (run (tree_init start) (os ++ [Purge min_time])) p = None.
Proof. exact tree_old. Qed.
Print Assumptions stree_old.
Example stree_old_ex :
  (forall t path m, In (Insert t path m) [Insert 10 (str_bytes "a/b") 1; Insert 40 (str_bytes "d/b") 3] -> is_prefix [str_bytes "a"] (levels path) = true -> t < 25) /\
  look (run (tree_init 5) [Insert 10 (str_bytes "a/b") 1; Insert 40 (str_bytes "d/b") 3]) [str_bytes "a"] = Some (10, None).
Proof.
  split; [|vm_compute; reflexivity]. intros t path m H. cbn [In] in H. destruct H as [H|[H|[]]]; injection H as <- <- <-; [lia|]. vm_compute. discriminate.
Qed.

(** C116: a message is only found at the levels of the path it was given with. *)
Theorem stree_given : forall start os p t message,
  look (run (tree_init start) os) p = Some (t, Some message) ->
  exists t0 path, In (Insert t0 path message) os /\ levels path = p /\ proper path = true.
Proof. exact tree_given. Qed.
Print Assumptions stree_given.
Example stree_given_ex : look (run (tree_init 5) ex_ops) (levels (str_bytes "//d//b")) = Some (30, Some 3).
Proof. vm_compute. reflexivity. Qed.

(** C116: a search for a leaf finds it if there is a place with this name as the last level and
    nothing below. *)
Theorem stree_leaf : forall start os name,
  has_leaf name (run (tree_init start) os) = true <->
  exists p, last p (str_bytes "rrr") = name /\ history os (empty start) p <> None /\ forall n, history os (empty start) (p ++ [n]) = None.
Proof. exact tree_leaf. Qed.
Print Assumptions stree_leaf.
Example stree_leaf_ex :
  has_leaf (str_bytes "b") (run (tree_init 5) ex_ops) = true /\ has_leaf (str_bytes "a") (run (tree_init 5) ex_ops) = false /\
  has_leaf (str_bytes "c") (run (tree_init 5) ex_ops) = false.
Proof. repeat apply conj; vm_compute; reflexivity. Qed.

(** C116: a tree of one message, which tells what kind of message it is, has the last level of its
    path as the only leaf. *)
Theorem stree_kind : forall start now path message name, proper path = true ->
  has_leaf name (run (tree_init start) [Insert now path message]) = true <-> last (levels path) (str_bytes "rrr") = name.
Proof. exact tree_one. Qed.
Print Assumptions stree_kind.
Example stree_kind_ex :
  proper (str_bytes "0/1/log_hook") = true /\ last (levels (str_bytes "0/1/log_hook")) (str_bytes "rrr") = str_bytes "log_hook" /\
  has_leaf (str_bytes "log_hook") (run (tree_init 5) [Insert 10 (str_bytes "0/log_hook/1") 1]) = false.
Proof. repeat apply conj; vm_compute; reflexivity. Qed.

(** C116: FINDING: a message which is refused for the slash at the end of its path has still made
    branches, and made old ones seen: messages which are no longer sent stay. *)
Theorem stree_refused_changes_refuted :
  ~ forall start os now path message, snd (step (run (tree_init start) os) (Insert now path message)) = SOFT ->
      forall p, look (run (tree_init start) (os ++ [Insert now path message])) p = look (run (tree_init start) os) p.
Proof.
  intros H. specialize (H 5 [] 10 (str_bytes "a/") 1 ltac:(vm_compute; reflexivity) [str_bytes "a"]). vm_compute in H. discriminate H.
Qed.
Print Assumptions stree_refused_changes_refuted.
Example stree_refused_ex : look (run (tree_init 5) [Insert 10 (str_bytes "ab/cd") 1; Insert 90 (str_bytes "ab/cd/") 2; Purge 50]) [str_bytes "ab"; str_bytes "cd"] = Some (90, Some 1).
Proof. vm_compute. reflexivity. Qed.

(** C116: FINDING: a path of a single character is refused although it has a level, while the same
    level is taken with a slash before it. *)
Theorem stree_short_refuted :
  ~ forall b now path message, levels path <> [] -> last path 47 <> 47 -> snd (step b (Insert now path message)) = OK.
Proof.
  intros H. specialize (H (tree_init 5) 10 (str_bytes "a") 1 ltac:(vm_compute; discriminate) ltac:(vm_compute; discriminate)). vm_compute in H. discriminate H.
Qed.
Print Assumptions stree_short_refuted.
Example stree_short_ex : levels (str_bytes "a") = levels (str_bytes "/a") /\ proper (str_bytes "/a") = true.
Proof. split; vm_compute; reflexivity. Qed.
