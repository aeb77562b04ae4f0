(** Proofs about the model of MqttBrokerModel.v. *)
From Coq Require Import ZArith List Bool Lia.
From Verif Require Import Common Utf8Model Utf8Spec TopicModel TopicSpec TopicProofs MqttBrokerModel MqttBrokerSpec.
Import ListNotations.
Open Scope Z_scope.

Lemma same_id_str : forall a b, same_id a b = str_same a b.
Proof.
  intros. unfold same_id. destruct (list_eq_dec Z.eq_dec a b) as [->|N].
  - symmetry. apply str_same_refl.
  - symmetry. apply str_same_false. auto.
Qed.

(** ** Matching *)
Lemma sub_match_spec : forall s t, filter_ok (s_filter s) -> topic_ok t ->
  exists b, sub_match s t = Done b /\ (b = true <-> matches (s_filter s) t).
Proof.
  intros s t (F1 & F2 & F3 & F4 & F5 & fs & F6 & F7 & F8) (T1 & T2 & T3 & T4 & T5). unfold sub_match.
  destruct (name_validate_iff t T1 T2) as (N & _ & _). rewrite (proj2 N) by auto.
  rewrite <- F7. rewrite (tokenize_join fs F6) by congruence.
  pose proof (split_levels t T2) as SL. rewrite <- (join_split t). rewrite (tokenize_join _ SL) by (rewrite join_split; auto).
  destruct (match_tokens_spec fs (split t) F8 (proj1 F6)) as [M NB].
  assert (MM : matches (join fs) (join (split t)) <-> filter_match fs (split t)).
  { split.
    - intros (fs' & ts' & A & B & C & D & E & G).
      assert (fs' = fs). { rewrite <- (tokenize_join fs' A) by congruence. rewrite <- (tokenize_join fs F6) by congruence. congruence. }
      assert (ts' = split t). { rewrite <- (tokenize_join ts' D) by (rewrite E, join_split; auto). rewrite <- (tokenize_join (split t) SL) by (rewrite join_split; auto). congruence. }
      subst. auto.
    - intros G. exists fs, (split t). auto 7. }
  destruct (match_tokens fs (split t)) eqn:E.
  - exists true. split; auto. rewrite MM, <- M. tauto.
  - exists false. split; auto. rewrite MM, <- M. split; discriminate.
  - congruence.
Qed.

Definition pairs (l : list sub) : list (list Z * Z) := map (fun s => (s_filter s, s_qos s)) l.

Lemma qos_min : forall a b : Z, (if b <? a then b else a) = Z.min a b.
Proof. intros. destruct (Z.ltb_spec b a); lia. Qed.
Lemma forward_copy_of : forall p s, copy_of false p (s_qos s) (forward_copy p s).
Proof. intros. unfold forward_copy, clone, mark, copy_of. cbn [p_topic p_payload p_qos p_retain p_dup p_id p_time p_expiry p_size p_out p_last p_puback p_pubrec p_pubrel p_pubcomp]. rewrite qos_min. auto 20. Qed.
Lemma retain_copy_of : forall p s, copy_of true p (s_qos s) (retain_copy p s).
Proof. intros. unfold retain_copy, clone, mark, copy_of. cbn [p_topic p_payload p_qos p_retain p_dup p_id p_time p_expiry p_size p_out p_last p_puback p_pubrec p_pubrel p_pubcomp]. rewrite qos_min. auto 20. Qed.

Lemma match_all_spec : forall l p, Forall (fun s => filter_ok (s_filter s)) l -> topic_ok (p_topic p) ->
  exists m, match_all l (p_topic p) = Done m /\
    copies false p (pairs l) (map (forward_copy p) m) /\ copies true p (pairs l) (map (retain_copy p) m).
Proof.
  induction l as [|s l IH]; intros p H T; cbn [match_all pairs map].
  - exists []. split; auto. split; constructor.
  - apply Forall_cons_iff in H as [H1 H2]. destruct (sub_match_spec s (p_topic p) H1 T) as (b & -> & B). cbn [obind].
    destruct (IH p H2 T) as (m & -> & C1 & C2). cbn [obind]. destruct b.
    + exists (s :: m). split; auto. cbn [map]. split; apply copies_take; auto using forward_copy_of, retain_copy_of; apply B; auto.
    + exists m. split; auto. split; apply copies_skip; auto; intros M; apply B in M; discriminate.
Qed.

(** ** Well formed brokers *)
Definition will_ok (w : option (pub * Z * Z)) : Prop := match w with Some (p, _, _) => pub_ok p | None => True end.
Definition sess_ok (s : sess) : Prop :=
  Forall (fun x => sub_ok x /\ s_qos x <= 2) (ss_subs s) /\ NoDup (map s_filter (ss_subs s)) /\ will_ok (ss_will s).
Definition retain_ok (l : list pub) : Prop :=
  Forall (fun p => pub_ok p /\ p_payload p <> [] /\ p_retain p = true) l /\ NoDup (map p_topic l).
Definition broker_ok (b : broker) : Prop :=
  Forall sess_ok (b_sess b) /\ NoDup (map ss_id (b_sess b)) /\ retain_ok (b_retain b).

Lemma zlen_zero : forall A (l : list A), (zlen l =? 0) = true <-> l = [].
Proof. intros A [|x l]; split; auto; discriminate. Qed.

(** *** Delivery *)
Definition delivered (p : pub) (s s' : sess) : Prop :=
  exists cs, s' = set_to s (ss_to s ++ cs) /\
    ((ss_max s <> 0 /\ ss_max s < p_size p /\ cs = []) \/
     ((ss_max s = 0 \/ p_size p <= ss_max s) /\ copies false p (pairs (ss_subs s)) cs)).

Lemma set_to_same : forall s, set_to s (ss_to s ++ []) = s.
Proof. intros s. unfold set_to. rewrite app_nil_r. destruct s; reflexivity. Qed.

Lemma receive_forwarded_spec : forall p s, sess_ok s -> topic_ok (p_topic p) ->
  exists s', receive_forwarded p s = Done s' /\ delivered p s s'.
Proof.
  intros p s (S1 & _ & _) T. unfold receive_forwarded.
  destruct (match_all_spec (ss_subs s) p) as (m & -> & C & _); auto.
  { eapply Forall_impl; [|exact S1]. cbv beta. intros x [[X _] _]. auto. }
  cbn [obind]. destruct (negb (ss_max s =? 0) && (ss_max s <? p_size p)) eqn:E.
  - exists s. split; auto. exists []. split; [symmetry; apply set_to_same|]. left. repeat split; lia.
  - eexists. split; [reflexivity|]. exists (map (forward_copy p) m). split; auto. right. split; auto. lia.
Qed.

Lemma omap_spec : forall A B (f : A -> out B) (R : A -> B -> Prop) l,
  Forall (fun a => exists b, f a = Done b /\ R a b) l -> exists l', omap f l = Done l' /\ Forall2 R l l'.
Proof.
  induction l as [|a l IH]; intros H; cbn [omap].
  - exists []. split; auto.
  - apply Forall_cons_iff in H as [(b & -> & Rb) H]. destruct (IH H) as (l' & -> & F). exists (b :: l'). split; auto.
Qed.

Lemma retain_write_none : forall l p, ~ In (p_topic p) (map p_topic l) ->
  retain_write l p = l ++ (if zlen (p_payload p) =? 0 then [] else [p]).
Proof.
  induction l as [|q l IH]; intros p N; cbn [retain_write app]; auto.
  replace (str_same (p_topic q) (p_topic p)) with false.
  - rewrite IH; auto. intros I. apply N. right. auto.
  - symmetry. apply str_same_false. intros E. apply N. left. auto.
Qed.
Lemma retain_write_some : forall l1 q l2 p, ~ In (p_topic p) (map p_topic l1) -> p_topic q = p_topic p ->
  retain_write (l1 ++ q :: l2) p = l1 ++ (if zlen (p_payload p) =? 0 then [] else [p]) ++ l2.
Proof.
  induction l1 as [|x l1 IH]; intros q l2 p N E; cbn [retain_write app].
  - rewrite E, str_same_refl. destruct (zlen (p_payload p) =? 0); auto.
  - replace (str_same (p_topic x) (p_topic p)) with false.
    + rewrite IH; auto. intros I. apply N. right. auto.
    + symmetry. apply str_same_false. intros E'. apply N. left. auto.
Qed.
Lemma retain_cases : forall (l : list pub) t, ~ In t (map p_topic l) \/
  exists l1 q l2, l = l1 ++ q :: l2 /\ p_topic q = t /\ ~ In t (map p_topic l1).
Proof.
  induction l as [|x l IH]; intros t; [left; auto|].
  destruct (list_eq_dec Z.eq_dec (p_topic x) t) as [E|N].
  - right. exists [], x, l. auto.
  - destruct (IH t) as [H|(l1 & q & l2 & -> & E & H)].
    + left. intros [I|I]; auto.
    + right. exists (x :: l1), q, l2. repeat split; auto. intros [I|I]; auto.
Qed.

(** What is in the buffer after a write: the message itself if it has a payload, and
    what was there on other topics. *)
Lemma retain_write_in : forall l p x, NoDup (map p_topic l) ->
  (In x (retain_write l p) <-> (x = p /\ p_payload p <> []) \/ (In x l /\ p_topic x <> p_topic p)).
Proof.
  intros l p x ND. destruct (retain_cases l (p_topic p)) as [N|(l1 & q & l2 & -> & E & N)].
  - rewrite retain_write_none by auto. rewrite in_app_iff.
    assert (Forall (fun y => p_topic y <> p_topic p) l) as O.
    { apply Forall_forall. intros y Iy C. apply N. rewrite <- C. apply in_map. auto. }
    rewrite Forall_forall in O. destruct (zlen (p_payload p) =? 0) eqn:Z0.
    + apply zlen_zero in Z0. split.
      * intros [I|[]]. right. auto.
      * intros [[_ C]|[I _]]; [congruence|auto].
    + assert (p_payload p <> []) by (intros C; apply zlen_zero in C; congruence). split.
      * intros [I|[<-|[]]]; auto.
      * intros [[-> _]|[I _]]; auto. right. left. auto.
  - rewrite retain_write_some by auto. rewrite map_app in ND. cbn [map] in ND.
    apply NoDup_remove in ND as [ND NI]. rewrite in_app_iff in NI.
    assert (forall y, In y l1 \/ In y l2 -> p_topic y <> p_topic p) as O.
    { intros y I C. apply NI. rewrite E, <- C. destruct I as [I|I]; [left|right]; apply in_map; auto. }
    rewrite !in_app_iff. cbn [In]. destruct (zlen (p_payload p) =? 0) eqn:Z0.
    + apply zlen_zero in Z0. cbn [In]. split.
      * intros [I|[[]|I]]; right; split; auto.
      * intros [[_ C]|[[I|[<-|I]] C]]; auto; congruence.
    + assert (p_payload p <> []) by (intros C; apply zlen_zero in C; congruence). cbn [In]. split.
      * intros [I|[[<-|[]]|I]]; auto.
      * intros [[-> _]|[[I|[<-|I]] C]]; auto; congruence.
Qed.
Lemma retain_write_ok : forall l p, retain_ok l -> pub_ok p -> p_retain p = true -> retain_ok (retain_write l p).
Proof.
  intros l p [F ND] P Rt. split.
  - apply Forall_forall. intros x I. apply retain_write_in in I; auto. rewrite Forall_forall in F.
    destruct I as [[-> E]|[I _]]; auto.
  - destruct (retain_cases l (p_topic p)) as [N|(l1 & q & l2 & -> & E & N)].
    + rewrite retain_write_none by auto. rewrite map_app. destruct (zlen (p_payload p) =? 0); cbn [map]; [rewrite app_nil_r; auto|].
      apply (NoDup_Add (Add_app (p_topic p) (map p_topic l) [])). rewrite app_nil_r. auto.
    + rewrite retain_write_some by auto. rewrite map_app in ND |- *. cbn [map] in ND. rewrite map_app.
      destruct (zlen (p_payload p) =? 0); cbn [map app].
      * apply NoDup_remove_1 in ND. auto.
      * rewrite <- E. auto.
Qed.

Lemma delivered_ok : forall p s s', sess_ok s -> delivered p s s' -> sess_ok s'.
Proof. intros p [] s' H (cs & -> & _). exact H. Qed.
Lemma delivered_id : forall p s s', delivered p s s' -> ss_id s' = ss_id s /\ ss_subs s' = ss_subs s /\ ss_will s' = ss_will s.
Proof. intros p [] s' (cs & -> & _). auto. Qed.

Definition put_retained (p : pub) (l : list pub) : list pub := if p_retain p then retain_write l p else l.
Lemma put_retained_ok : forall l p, retain_ok l -> pub_ok p -> retain_ok (put_retained p l).
Proof. intros. unfold put_retained. destruct (p_retain p) eqn:E; auto. apply retain_write_ok; auto. Qed.

Lemma deliver_spec : forall b p, Forall sess_ok (b_sess b) -> pub_ok p ->
  exists ss, deliver b p = Done (mkB ss (put_retained p (b_retain b))) /\ Forall2 (delivered p) (b_sess b) ss.
Proof.
  intros b p S [T _]. unfold deliver.
  destruct (omap_spec _ _ (receive_forwarded p) (delivered p) (b_sess b)) as (l' & -> & F).
  { eapply Forall_impl; [|exact S]. intros s Hs. apply receive_forwarded_spec; auto. }
  exists l'. split; auto.
Qed.

Lemma Forall2_delivered : forall p l l', Forall2 (delivered p) l l' ->
  map ss_id l' = map ss_id l /\ map ss_subs l' = map ss_subs l /\ (Forall sess_ok l -> Forall sess_ok l') /\
  length l' = length l.
Proof.
  induction 1 as [|s s' l l' D F (I1 & I2 & I3 & I4)]; [auto|].
  destruct (delivered_id _ _ _ D) as (E1 & E2 & _). cbn [map length]. repeat apply conj; try congruence.
  intros H. apply Forall_cons_iff in H as [H1 H2]. constructor; auto. eapply delivered_ok; eauto.
Qed.
