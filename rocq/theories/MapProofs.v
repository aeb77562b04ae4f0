(** Proofs about the map. *)
From Coq Require Import ZArith List Bool Lia.
From Verif Require Import Common MapModel.
Import ListNotations.
Open Scope Z_scope.

Lemma str_eqb_spec : forall a b, reflect (a = b) (str_eqb a b).
Proof. intros. unfold str_eqb. destruct (list_eq_dec Z.eq_dec a b); constructor; auto. Qed.
Lemma str_eqb_refl : forall a, str_eqb a a = true.
Proof. intros. destruct (str_eqb_spec a a); congruence. Qed.
Lemma str_eqb_sym : forall a b, str_eqb a b = str_eqb b a.
Proof. intros. destruct (str_eqb_spec a b), (str_eqb_spec b a); congruence. Qed.

Lemma map_get_app : forall m m' t, map_get (m ++ m') t =
  match map_get m t with Some v => Some v | None => map_get m' t end.
Proof.
  induction m as [|[t v] m IH]; intros; [ reflexivity | ]. cbn [app map_get].
  destruct (str_eqb t t0); auto.
Qed.
Lemma map_get_remove_same : forall m t, map_get (map_remove m t) t = None.
Proof.
  induction m as [|[t v] m IH]; intros; [ reflexivity | ]. unfold map_remove in *. cbn [filter fst].
  rewrite str_eqb_sym. destruct (str_eqb t t0) eqn:E; cbn [negb]; [ apply IH | ].
  cbn [map_get]. rewrite E. apply IH.
Qed.
Lemma map_get_remove_other : forall m t t', t <> t' -> map_get (map_remove m t) t' = map_get m t'.
Proof.
  induction m as [|[t v] m IH]; intros s s' Hne; [ reflexivity | ]. unfold map_remove in *. cbn [filter fst map_get].
  destruct (str_eqb_spec s t); cbn [negb].
  - subst. rewrite IH by auto. destruct (str_eqb_spec t s'); congruence.
  - cbn [map_get]. rewrite IH by auto. reflexivity.
Qed.
Lemma map_get_replace : forall m t v t', map_get (map_replace m t v) t' = if str_eqb t t' then Some v else map_get m t'.
Proof.
  intros. unfold map_replace, map_item_add. cbn [fst]. rewrite map_get_app. cbn [map_get].
  destruct (str_eqb_spec t t').
  - subst. rewrite map_get_remove_same. reflexivity.
  - rewrite map_get_remove_other by auto. destruct (map_get m t'); reflexivity.
Qed.

Lemma map_remove_not_in : forall m t, ~ In t (map fst (map_remove m t)).
Proof.
  intros m t H. apply in_map_iff in H as ([t' v] & E & H). cbn in E. subst.
  apply filter_In in H as [_ H]. cbn [fst] in H. rewrite str_eqb_refl in H. discriminate.
Qed.
Lemma map_remove_nodup : forall m t, NoDup (map fst m) -> NoDup (map fst (map_remove m t)).
Proof.
  induction m as [|[t v] m IH]; intros s H; [ constructor | ]. unfold map_remove in *. cbn [filter fst map] in *.
  inversion H; subst. destruct (negb (str_eqb s t)); [ | apply IH; auto ].
  cbn [map fst]. constructor; [ | apply IH; auto ].
  intros HI. apply H2. apply in_map_iff in HI as ([t' v'] & E & HI). cbn in E. subst.
  apply filter_In in HI as [HI _]. apply in_map_iff. exists (t, v'). auto.
Qed.
Lemma map_replace_nodup : forall m t v, NoDup (map fst m) -> NoDup (map fst (map_replace m t v)).
Proof.
  intros. unfold map_replace, map_item_add. cbn [fst]. rewrite map_app. cbn [map fst].
  rewrite <- (rev_involutive (_ ++ [t])). apply NoDup_rev. rewrite rev_app_distr. cbn [rev app]. constructor.
  - rewrite <- in_rev. apply map_remove_not_in.
  - apply NoDup_rev. apply map_remove_nodup. auto.
Qed.

Lemma strstr_split_some : forall s d a b, strstr_split s d = Some (a, b) -> s = a ++ d ++ b.
Proof.
  induction s as [|c s IH]; intros d a b H; cbn [strstr_split] in H.
  - destruct (str_eqb_spec (firstn (length d) []) d) as [E|]; [ | discriminate ]. injection H as <- <-.
    cbn [app]. rewrite <- E at 1. rewrite firstn_skipn. reflexivity.
  - destruct (str_eqb_spec (firstn (length d) (c :: s)) d) as [E|].
    + injection H as <- <-. cbn [app]. rewrite <- E at 1. rewrite firstn_skipn. reflexivity.
    + destruct (strstr_split s d) as [[a' b']|] eqn:E; [ | discriminate ]. injection H as <- <-.
      cbn [app]. f_equal. apply IH. auto.
Qed.
Lemma strstr_split_hit : forall d s b, firstn (length d) s = d -> s = d ++ b -> strstr_split s d = Some ([], b).
Proof.
  intros d s b H E. destruct s as [|c s]; cbn [strstr_split]; rewrite H, str_eqb_refl; f_equal; f_equal;
    rewrite E, skipn_app, skipn_all, Nat.sub_diag; reflexivity.
Qed.
Lemma firstn_exact : forall A (a b : list A), firstn (length a) (a ++ b) = a.
Proof. intros. rewrite firstn_app, firstn_all, Nat.sub_diag. cbn [firstn]. apply app_nil_r. Qed.

(** [strstr] is the first occurrence. *)
Lemma strstr_split_first : forall s d a b, strstr_split s d = Some (a, b) ->
  forall a' b', s = a' ++ d ++ b' -> (length a <= length a')%nat.
Proof.
  induction s as [|c s IH]; intros d a b H a' b' E; cbn [strstr_split] in H.
  - destruct (str_eqb _ _); [ | discriminate ]. injection H as <- <-. cbn. lia.
  - destruct (str_eqb_spec (firstn (length d) (c :: s)) d) as [E1|N1]; [ injection H as <- <-; cbn; lia | ].
    destruct (strstr_split s d) as [[a1 b1]|] eqn:E1; [ | discriminate ]. injection H as <- <-.
    destruct a' as [|c' a'].
    + cbn [app] in E. exfalso. apply N1. rewrite E. apply firstn_exact.
    + cbn [app] in E. injection E as <- E. cbn [length]. apply IH with (a' := a') (b' := b') in E1; [ lia | auto ].
Qed.
Lemma strstr_split_none : forall s d, strstr_split s d = None -> forall a b, s <> a ++ d ++ b.
Proof.
  induction s as [|c s IH]; intros d H a b E; cbn [strstr_split] in H.
  - symmetry in E. apply app_eq_nil in E as [-> E]. apply app_eq_nil in E as [-> ->]. discriminate.
  - destruct (str_eqb_spec (firstn (length d) (c :: s)) d) as [E1|N1]; [ discriminate | ].
    destruct (strstr_split s d) as [[a1 b1]|] eqn:E1; [ discriminate | ].
    destruct a as [|c' a].
    + cbn [app] in E. apply N1. rewrite E. apply firstn_exact.
    + cbn [app] in E. injection E as <- E. apply (IH d E1 a b E).
Qed.
