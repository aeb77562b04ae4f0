(** The queues of assured single delivery, ordered by id. *)
From Coq Require Import ZArith List Bool Lia Sorting.Sorted.
From Verif Require Import Common ReadModel AsdModel.
Import ListNotations.
Open Scope Z_scope.

Section Queue.
Variable E : Type.
Variable id : E -> Z.
Definition sorted (q : list E) : Prop := StronglySorted Z.lt (map id q).

Lemma sorted_cons : forall e q, sorted (e :: q) <-> sorted q /\ (forall x, In x q -> id e < id x).
Proof.
  unfold sorted. intros e q. cbn [map]. split.
  - intros H. inversion H as [ | ? ? H1 H2 ]; subst. split; [ exact H1 | ]. intros x I. rewrite Forall_forall in H2. apply H2, in_map, I.
  - intros [H1 H2]. constructor; [ exact H1 | ]. rewrite Forall_forall. intros i I. apply in_map_iff in I. destruct I as (x & <- & I). auto.
Qed.
Lemma sorted_nil : sorted []. Proof. constructor. Qed.
Lemma sorted_app : forall a b, sorted (a ++ b) <-> sorted a /\ sorted b /\ (forall x y, In x a -> In y b -> id x < id y).
Proof.
  induction a as [ | e a IH ]; intros b; cbn [app].
  - split; [ intros H; repeat split; [ apply sorted_nil | exact H | intros ? ? [] ] | tauto ].
  - rewrite !sorted_cons, IH. split.
    + intros ((A & B & C) & D). repeat split; auto.
      * intros x I. apply D, in_or_app. auto.
      * intros x y [ <- | I ] J; [ apply D, in_or_app; auto | auto ].
    + intros ((A & B) & C & D). repeat split; auto.
      * intros x y I J. apply D; [ right; exact I | exact J ].
      * intros x I. apply in_app_or in I. destruct I as [ I | I ]; [ auto | apply D; [ left; reflexivity | exact I ] ].
Qed.
Lemma sorted_inj : forall q x y, sorted q -> In x q -> In y q -> id x = id y -> x = y.
Proof.
  induction q as [ | e q IH ]; intros x y H I J EQ; [ destruct I | ]. apply sorted_cons in H. destruct H as [H1 H2].
  destruct I as [ <- | I ], J as [ <- | J ]; auto.
  - specialize (H2 y J). lia.
  - specialize (H2 x I). lia.
Qed.
Lemma sorted_nodup : forall q, sorted q -> NoDup (map id q).
Proof.
  induction q as [ | e q IH ]; intros H; cbn [map]; constructor; apply sorted_cons in H; destruct H as [H1 H2].
  - intros I. apply in_map_iff in I. destruct I as (x & EQ & I). specialize (H2 x I). lia.
  - auto.
Qed.

Lemma last_split : forall (q : list E), match last_entry E q with Some l => exists r, q = r ++ [l] | None => q = [] end.
Proof.
  induction q as [ | e q IH ]; [ reflexivity | ]. cbn [last_entry]. destruct q as [ | x q ]; [ exists []; reflexivity | ].
  destruct (last_entry E (x :: q)) as [ l | ]; [ | discriminate ]. destruct IH as (r & IH). exists (e :: r). rewrite IH. reflexivity.
Qed.
Lemma last_in : forall (q : list E), match last_entry E q with Some l => In l q | None => q = [] end.
Proof.
  intros q. pose proof (last_split q) as H. destruct (last_entry E q); [ | exact H ]. destruct H as (r & ->). apply in_or_app. right. left. reflexivity.
Qed.
Lemma last_most : forall (q : list E) l x, sorted q -> last_entry E q = Some l -> In x q -> id x <= id l.
Proof.
  intros q l x H R I. pose proof (last_split q) as LS. rewrite R in LS. destruct LS as (r & ->). apply sorted_app in H. destruct H as (_ & _ & H).
  apply in_app_or in I. destruct I as [ I | [ <- | [] ] ]; [ specialize (H x l I (or_introl eq_refl)); lia | lia ].
Qed.

Lemma find_loop_some : forall q i e, find_loop E id q i = Some e -> In e q /\ id e = i.
Proof.
  induction q as [ | x q IH ]; intros i e H; cbn [find_loop] in H; [ discriminate | ].
  destruct (i <? id x); [ discriminate | ]. destruct (Z.eqb_spec (id x) i).
  - injection H as <-. split; [ left; reflexivity | assumption ].
  - destruct (IH i e H). split; [ right; assumption | assumption ].
Qed.
Lemma find_loop_none : forall q i, sorted q -> find_loop E id q i = None -> forall e, In e q -> id e <> i.
Proof.
  induction q as [ | x q IH ]; intros i H F e I; [ destruct I | ]. apply sorted_cons in H. destruct H as [H1 H2]. cbn [find_loop] in F.
  destruct (Z.ltb_spec i (id x)).
  - destruct I as [ <- | I ]; [ lia | specialize (H2 e I); lia ].
  - destruct (Z.eqb_spec (id x) i); [ discriminate | ]. destruct I as [ <- | I ]; [ assumption | eauto ].
Qed.
Lemma early : forall q i, sorted q -> first_above E id q i || last_below E id q i = true -> forall e, In e q -> id e <> i.
Proof.
  intros q i H B e I. apply orb_true_iff in B. destruct B as [B|B].
  - unfold first_above in B. destruct q as [ | x q ]; [ discriminate | ]. apply sorted_cons in H. destruct H as [_ H].
    destruct I as [ <- | I ]; [ lia | specialize (H e I); lia ].
  - unfold last_below in B. destruct (last_entry E q) as [ l | ] eqn:R; [ | discriminate ]. pose proof (last_most q l e H R I). lia.
Qed.
Lemma q_find_some : forall q i e, q_find E id q i = Some e -> In e q /\ id e = i.
Proof. intros q i e. unfold q_find. destruct (first_above E id q i || last_below E id q i); [ discriminate | apply find_loop_some ]. Qed.
Lemma q_find_none : forall q i, sorted q -> q_find E id q i = None -> forall e, In e q -> id e <> i.
Proof.
  intros q i H F e I. unfold q_find in F. destruct (first_above E id q i || last_below E id q i) eqn:B.
  - eapply early; eauto.
  - eapply find_loop_none; eauto.
Qed.

Lemma remove_loop_in : forall q i, sorted q -> sorted (remove_loop E id q i) /\ forall e, In e (remove_loop E id q i) <-> In e q /\ id e <> i.
Proof.
  induction q as [ | x q IH ]; intros i H; cbn [remove_loop].
  - split; [ exact H | ]. intros e; split; [ intros [] | intros [[] _] ].
  - pose proof H as HS. apply sorted_cons in H. destruct H as [H1 H2]. destruct (Z.ltb_spec i (id x)); [ | destruct (Z.eqb_spec (id x) i) as [EQ|NE] ].
    + split; [ exact HS | ]. intros e. split; [ | tauto ]. intros I. split; [ exact I | ]. destruct I as [ <- | I ]; [ lia | specialize (H2 e I); lia ].
    + split; [ exact H1 | ]. intros e. split.
      * intros I. split; [ right; exact I | ]. specialize (H2 e I). lia.
      * intros [ [ <- | I ] N ]; [ congruence | exact I ].
    + destruct (IH i H1) as [S1 S2]. split.
      * apply sorted_cons. split; [ exact S1 | ]. intros e I. apply S2 in I. apply H2, I.
      * intros e. cbn [In]. rewrite S2. split; [ intros [ <- | [I N] ]; auto | intros [ [ <- | I ] N ]; auto ].
Qed.
Lemma q_remove_in : forall q i, sorted q -> sorted (q_remove E id q i) /\ forall e, In e (q_remove E id q i) <-> In e q /\ id e <> i.
Proof.
  intros q i H. unfold q_remove. destruct (first_above E id q i || last_below E id q i) eqn:B.
  - split; [ exact H | ]. intros e. split; [ | tauto ]. intros I. split; [ exact I | ]. eapply early; eauto.
  - apply remove_loop_in, H.
Qed.
Lemma remove_loop_len : forall q i, zlen (remove_loop E id q i) <= zlen q.
Proof. induction q as [ | x q IH ]; intros i; cbn [remove_loop]; [ lia | ]. destruct (Z.ltb i (id x)); [ lia | ]. destruct (Z.eqb (id x) i); rewrite !zlen_cons; [ lia | specialize (IH i); lia ]. Qed.
Lemma q_remove_len : forall q i, zlen (q_remove E id q i) <= zlen q.
Proof. intros q i. unfold q_remove. destruct (_ || _); [ lia | apply remove_loop_len ]. Qed.

Lemma insert_loop_in : forall q x, sorted q -> (forall e, In e q -> id e <> id x) -> (exists e, In e q /\ id x < id e) ->
  exists q', insert_loop E id q x = Some q' /\ sorted q' /\ (forall e, In e q' <-> e = x \/ In e q) /\ zlen q' = zlen q + 1.
Proof.
  induction q as [ | y q IH ]; intros x H N (e & I & L); [ destruct I | ]. pose proof H as HS. apply sorted_cons in H. destruct H as [H1 H2]. cbn [insert_loop].
  destruct (Z.ltb_spec (id x) (id y)).
  - exists (x :: y :: q). split; [ reflexivity | ]. split; [ | split ].
    + apply sorted_cons. split; [ exact HS | ]. intros z [ <- | J ]; [ lia | specialize (H2 z J); lia ].
    + intros z. cbn [In]. split; intros [ A | A ]; auto.
    + rewrite !zlen_cons. lia.
  - assert (IE : exists e, In e q /\ id x < id e) by (destruct I as [ -> | I ]; [ lia | eauto ]).
    destruct (IH x H1 (fun z J => N z (or_intror J)) IE) as (q' & Q & S1 & S2 & S3). rewrite Q. exists (y :: q'). split; [ reflexivity | ]. split; [ | split ].
    + apply sorted_cons. split; [ exact S1 | ]. intros z J. apply S2 in J. destruct J as [ -> | J ]; [ | auto ].
      specialize (N y (or_introl eq_refl)). lia.
    + intros z. cbn [In]. rewrite S2. tauto.
    + rewrite !zlen_cons, S3. lia.
Qed.
Lemma insert_ordered_in : forall q x, sorted q -> (forall e, In e q -> id e <> id x) ->
  exists q', insert_ordered E id q x = Some q' /\ sorted q' /\ (forall e, In e q' <-> e = x \/ In e q) /\ zlen q' = zlen q + 1.
Proof.
  intros q x H N. unfold insert_ordered. pose proof (last_in q) as LI. destruct (last_entry E q) as [ l | ] eqn:R.
  2: { subst q. exists [x]. split; [ reflexivity | ]. split; [ | split ].
    + apply sorted_cons. split; [ apply sorted_nil | intros ? [] ].
    + intros e. cbn [In]. intuition congruence.
    + reflexivity. }
  - destruct (Z.ltb_spec (id l) (id x)).
    + exists (q ++ [x]). split; [ reflexivity | ]. split; [ | split ].
      * apply sorted_app. split; [ exact H | split; [ apply sorted_cons; split; [ apply sorted_nil | intros ? [] ] | ] ].
        intros a b I [ <- | [] ]. pose proof (last_most q l a H R I). lia.
      * intros e. rewrite in_app_iff. cbn [In]. intuition congruence.
      * rewrite zlen_app. reflexivity.
    + apply insert_loop_in; [ exact H | exact N | ]. exists l. split; [ exact LI | ]. specialize (N l LI). lia.
Qed.
Lemma q_insert_in : forall q x, sorted q ->
  exists q', q_insert E id q x = Some q' /\ sorted q' /\
    ((In (id x) (map id q) /\ q' = q) \/ (~ In (id x) (map id q) /\ (forall e, In e q' <-> e = x \/ In e q) /\ zlen q' = zlen q + 1)).
Proof.
  intros q x H. unfold q_insert. destruct (q_find E id q (id x)) as [ e | ] eqn:F.
  - apply q_find_some in F. destruct F as [I EQ]. exists q. split; [ reflexivity | split; [ exact H | left ] ]. split; [ | reflexivity ]. rewrite <- EQ. apply in_map, I.
  - pose proof (q_find_none q _ H F) as N. destruct (insert_ordered_in q x H N) as (q' & Q & S1 & S2 & S3).
    exists q'. split; [ exact Q | split; [ exact S1 | right ] ]. split; [ | auto ].
    intros I. apply in_map_iff in I. destruct I as (e & EQ & I). exact (N e I EQ).
Qed.

Lemma change_map : forall f q i, sorted q -> change E id f q i = map (fun e => if id e =? i then f e else e) q.
Proof.
  intros f. induction q as [ | x q IH ]; intros i H; cbn [change map]; [ reflexivity | ]. apply sorted_cons in H. destruct H as [H1 H2].
  destruct (Z.eqb_spec (id x) i) as [EQ|NE].
  - f_equal. rewrite <- (map_id q) at 1. apply map_ext_in. intros a I. specialize (H2 a I). destruct (Z.eqb_spec (id a) i); [ lia | reflexivity ].
  - f_equal. auto.
Qed.
Lemma q_change_map : forall f q i, sorted q -> q_change E id f q i = map (fun e => if id e =? i then f e else e) q.
Proof.
  intros f q i H. unfold q_change. destruct (q_find E id q i) as [ e | ] eqn:F; [ apply change_map, H | ].
  rewrite <- (map_id q) at 1. apply map_ext_in. intros a I. pose proof (q_find_none q i H F a I). destruct (Z.eqb_spec (id a) i); [ congruence | reflexivity ].
Qed.
Lemma change_ids : forall f (q : list E), (forall e, id (f e) = id e) -> map id (map f q) = map id q.
Proof. intros f q H. rewrite map_map. apply map_ext, H. Qed.
Lemma sorted_map : forall f (q : list E), (forall e, id (f e) = id e) -> sorted q -> sorted (map f q).
Proof. intros f q H S1. unfold sorted. rewrite change_ids; assumption. Qed.
End Queue.
