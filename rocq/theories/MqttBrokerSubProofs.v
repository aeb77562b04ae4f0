(** Proofs about subscriptions in the model of MqttBrokerModel.v. *)
From Coq Require Import ZArith List Bool Lia.
From Verif Require Import Common Utf8Model Utf8Spec TopicModel TopicSpec TopicProofs MqttBrokerModel MqttBrokerSpec MqttBrokerProofs.
Import ListNotations.
Open Scope Z_scope.

Fixpoint slookup (l : list sub) (f : list Z) : option Z :=
  match l with
  | [] => None
  | s :: l => if str_same (s_filter s) f then Some (s_qos s) else slookup l f
  end.

Lemma slookup_none : forall l f, slookup l f = None <-> ~ In f (map s_filter l).
Proof.
  induction l as [|s l IH]; intros f; cbn [slookup map In]; [tauto|].
  destruct (str_same (s_filter s) f) eqn:E.
  - apply str_same_iff in E. split; [discriminate|tauto].
  - apply str_same_false in E. rewrite IH. tauto.
Qed.
Lemma slookup_some : forall l f q, NoDup (map s_filter l) -> (slookup l f = Some q <-> In (f, q) (pairs l)).
Proof.
  induction l as [|s l IH]; intros f q ND; cbn [slookup pairs map In]; [split; [discriminate|tauto]|].
  cbn [map] in ND. apply NoDup_cons_iff in ND as [N ND]. fold (pairs l). destruct (str_same (s_filter s) f) eqn:E.
  - apply str_same_iff in E. subst f. split.
    + intros [= <-]. auto.
    + intros [[= ->]|I]; auto. exfalso. apply N. unfold pairs in I. apply in_map_iff in I as (x & [= E _] & I). rewrite <- E. apply in_map. auto.
  - apply str_same_false in E. rewrite IH by auto. split; auto. intros [[= A _]|I]; auto. congruence.
Qed.

(** *** The requests, as a function *)
Definition req_step (f : list Z) (m : option Z) (r : request) : option Z :=
  match r with
  | Sub g q => if str_same g f then Some q else m
  | Unsub g => if str_same g f then None else m
  | Forget => None
  end.
Definition cur (rs : list request) (f : list Z) : option Z := fold_left (req_step f) rs None.

Lemma req_step_other : forall f m r, ~ about f r -> req_step f m r = m.
Proof.
  intros f m [g q|g|] H; cbn [about req_step] in *; try tauto; apply str_same_false in H; rewrite H; auto.
Qed.
Lemma cur_app : forall a b f, cur (a ++ b) f = fold_left (req_step f) b (cur a f).
Proof. intros. unfold cur. apply fold_left_app. Qed.
Lemma cur_spec : forall rs f q, cur rs f = Some q <-> subscribed rs f q.
Proof.
  intros rs f q. split.
  - revert q. induction rs as [|r rs IH] using rev_ind; intros q; [discriminate|]. rewrite cur_app. cbn [fold_left].
    destruct r as [g q'|g|]; cbn [req_step]; try discriminate.
    + destruct (str_same g f) eqn:E.
      * intros [= ->]. apply str_same_iff in E. subst g. exists rs, []. split; auto.
      * intros H. apply IH in H as (b & a & -> & F). exists b, (a ++ [Sub g q']). split; [rewrite <- app_assoc; auto|].
        apply Forall_app. split; auto. repeat constructor. cbn. apply str_same_false. auto.
    + destruct (str_same g f) eqn:E; [discriminate|].
      intros H. apply IH in H as (b & a & -> & F). exists b, (a ++ [Unsub g]). split; [rewrite <- app_assoc; auto|].
      apply Forall_app. split; auto. repeat constructor. cbn. apply str_same_false. auto.
  - intros (b & a & -> & F). rewrite cur_app. cbn [fold_left req_step]. rewrite str_same_refl.
    induction F as [|r a H F IH]; auto. cbn [fold_left]. rewrite req_step_other; auto.
Qed.

(** *** Adding *)
Lemma replace_first_none : forall l s, ~ In (s_filter s) (map s_filter l) -> replace_first l s = (l, false).
Proof.
  induction l as [|x l IH]; intros s N; cbn [replace_first]; auto.
  replace (str_same (s_filter x) (s_filter s)) with false.
  - rewrite IH; auto. intros I. apply N. right. auto.
  - symmetry. apply str_same_false. intros E. apply N. left. auto.
Qed.
Lemma replace_first_some : forall l s, In (s_filter s) (map s_filter l) ->
  exists l', replace_first l s = (l', true) /\ map s_filter l' = map s_filter l /\
    (forall x, In x l' -> x = s \/ In x l) /\
    (forall f, slookup l' f = if str_same (s_filter s) f then Some (s_qos s) else slookup l f).
Proof.
  induction l as [|x l IH]; intros s I; [destruct I|]. cbn [replace_first].
  destruct (str_same (s_filter x) (s_filter s)) eqn:E.
  - apply str_same_iff in E. eexists. split; [reflexivity|]. split; [cbn [map]; congruence|]. split.
    + intros y [<-|Iy]; auto. right. right. auto.
    + intros f. cbn [slookup]. rewrite E. destruct (str_same (s_filter s) f); auto.
  - assert (E' := E). apply str_same_false in E'. destruct I as [I|I]; [congruence|]. destruct (IH s I) as (l' & -> & M & X & L).
    eexists. split; [reflexivity|]. split; [cbn [map]; congruence|]. split.
    + intros y [<-|Iy]; [right; left; auto|]. destruct (X y Iy); auto. right. right. auto.
    + intros f. cbn [slookup]. rewrite L. destruct (str_same (s_filter x) f) eqn:F; auto.
      apply str_same_iff in F. subst f. replace (str_same (s_filter s) (s_filter x)) with false; auto.
      symmetry. apply str_same_false. auto.
Qed.

Definition good_subs (l : list sub) : Prop :=
  Forall (fun x => sub_ok x /\ s_qos x <= 2) l /\ NoDup (map s_filter l).
Definition inb (f : list Z) (l : list sub) : bool := existsb (fun x => str_same (s_filter x) f) l.
Lemma inb_spec : forall f l, inb f l = true <-> In f (map s_filter l).
Proof.
  intros. unfold inb. rewrite existsb_exists. rewrite in_map_iff. split.
  - intros (x & I & E). apply str_same_iff in E. exists x. auto.
  - intros (x & E & I). exists x. split; auto. apply str_same_iff. auto.
Qed.
Lemma slookup_snoc : forall l s f, ~ In (s_filter s) (map s_filter l) ->
  slookup (l ++ [s]) f = if str_same (s_filter s) f then Some (s_qos s) else slookup l f.
Proof.
  induction l as [|x l IH]; intros s f N; cbn [slookup app]; auto.
  rewrite IH by (intros I; apply N; right; auto).
  destruct (str_same (s_filter x) f) eqn:E; auto. apply str_same_iff in E. subst f.
  replace (str_same (s_filter s) (s_filter x)) with false; auto. symmetry. apply str_same_false. intros E. apply N. left. auto.
Qed.

Lemma add_unique_spec : forall l s, good_subs l -> sub_ok s -> s_qos s <= 2 -> zlen l < 65536 ->
  exists l', add_unique l s true = (if inb (s_filter s) l then AddReplaced else AddOk, l') /\ good_subs l' /\
    zlen l' <= zlen l + 1 /\
    (forall g, In g (map s_filter l') <-> In g (map s_filter l) \/ g = s_filter s) /\
    (forall f, slookup l' f = if str_same (s_filter s) f then Some (s_qos s) else slookup l f).
Proof.
  intros l s [G1 G2] O Q Z. destruct (inb (s_filter s) l) eqn:E.
  - apply inb_spec in E. destruct (replace_first_some l s E) as (l' & R & M & X & L). exists l'.
    unfold add_unique. destruct l as [|x l]; [destruct E|]. rewrite R. split; auto. split; [split; [|rewrite M; auto]|].
    + apply Forall_forall. intros y Iy. destruct (X y Iy) as [->|Iy']; auto. rewrite Forall_forall in G1. auto.
    + split; [|split; auto].
      * rewrite <- (zlen_map _ _ s_filter l'), M, zlen_map. lia.
      * intros g. rewrite M. split; auto. intros [I| ->]; auto.
  - assert (N : ~ In (s_filter s) (map s_filter l)) by (intros C; apply inb_spec in C; congruence).
    exists (l ++ [s]). split; [|split; [|split; [|split]]].
    + unfold add_unique. destruct l as [|x l]; auto. rewrite replace_first_none by auto. unfold subs_max.
      replace (65536 <=? zlen (x :: l)) with false by lia. auto.
    + split.
      * apply Forall_app. split; auto.
      * rewrite map_app. cbn [map]. apply (NoDup_Add (Add_app (s_filter s) (map s_filter l) [])). rewrite app_nil_r. auto.
    + rewrite zlen_app. cbn. lia.
    + intros g. rewrite map_app, in_app_iff. cbn [map In]. intuition congruence.
    + intros f. apply slookup_snoc. auto.
Qed.

Lemma sub_new_ok : forall s, sub_ok s -> sub_new s = Done s.
Proof.
  intros s ((F1 & F2 & F3 & F4 & F5 & F6) & A & B & C & D). unfold sub_new. rewrite A, B.
  replace ((0 <? 0) || (0 <? 0) || (2 <? s_rh s)) with false by lia.
  destruct (filter_validate_iff (s_filter s) F1 F2) as [V _]. rewrite (proj2 V) by auto.
  destruct (s_filter s) eqn:E; auto. congruence.
Qed.

Lemma append_unique_spec : forall source target, good_subs target -> Forall sub_ok source -> zlen target + zlen source <= 65536 ->
  exists t' news, append_unique target source = Done (t', news) /\ good_subs t' /\ zlen t' <= zlen target + zlen source /\
    (forall f, slookup t' f = fold_left (req_step f) (map (fun s => Sub (s_filter s) (s_qos s)) (filter (fun s => s_qos s <=? 2) source)) (slookup target f)) /\
    (NoDup (map s_filter source) -> news = filter (fun s => (s_qos s <=? 2) && negb (inb (s_filter s) target)) source) /\
    Forall (fun s => filter_ok (s_filter s)) news.
Proof.
  induction source as [|s source IH]; intros target G F Z; cbn [append_unique filter map fold_left].
  - exists target, []. rewrite zlen_nil. repeat (split; auto). lia.
  - apply Forall_cons_iff in F as [O F]. rewrite zlen_cons in Z. pose proof (zlen_nonneg _ source). pose proof (zlen_nonneg _ target).
    destruct (Z.ltb_spec 2 (s_qos s)) as [L|L].
    + destruct (IH target G F ltac:(lia)) as (t' & news & -> & G' & Z' & LK & N & FN). exists t', news.
      rewrite zlen_cons. replace (s_qos s <=? 2) with false by lia. cbn [andb].
      split; auto. split; auto. split; [lia|]. split; auto. split; auto. intros ND. apply N. cbn [map] in ND. apply NoDup_cons_iff in ND. tauto.
    + rewrite (sub_new_ok s O). cbn [obind]. destruct (add_unique_spec target s G O L ltac:(lia)) as (l' & -> & G' & Zl & I' & LK).
      destruct (IH l' G' F ltac:(lia)) as (t' & news & E & G'' & Z' & LK' & N & FN).
      replace (s_qos s <=? 2) with true by lia. cbn [map fold_left req_step andb].
      assert (NN : NoDup (map s_filter (s :: source)) -> news = filter (fun s => (s_qos s <=? 2) && negb (inb (s_filter s) target)) source).
      { intros ND. cbn [map] in ND. apply NoDup_cons_iff in ND as [NI ND]. rewrite (N ND). apply filter_ext_in. intros x Ix. f_equal. f_equal.
        apply eq_true_iff_eq. rewrite !inb_spec, I'. split; auto. intros [J|J]; auto. exfalso. apply NI. rewrite <- J. apply in_map. auto. }
      destruct (inb (s_filter s) target) eqn:B; cbn [negb].
      * exists t', news. rewrite zlen_cons. split; auto. split; auto. split; [lia|]. split; [|split; auto].
        intros f. rewrite LK', LK. auto.
      * exists t', (s :: news). rewrite E. cbn [obind fst snd]. rewrite zlen_cons. split; auto. split; auto. split; [lia|]. split; [|split].
        -- intros f. rewrite LK', LK. auto.
        -- intros ND. f_equal. auto.
        -- constructor; auto. apply O.
Qed.

(** *** Removing *)
Lemma filter_same_le1 : forall l f, NoDup (map s_filter l) -> zlen (filter (fun x => str_same (s_filter x) f) l) <= 1.
Proof.
  induction l as [|x l IH]; intros f ND; cbn [filter]; [cbn; lia|].
  cbn [map] in ND. apply NoDup_cons_iff in ND as [N ND]. destruct (str_same (s_filter x) f) eqn:E; auto.
  apply str_same_iff in E. replace (filter (fun x => str_same (s_filter x) f) l) with (@nil sub); [cbn; lia|].
  clear IH ND. induction l as [|y l IH]; auto. cbn [filter]. replace (str_same (s_filter y) f) with false.
  - apply IH. intros I. apply N. right. auto.
  - symmetry. apply str_same_false. intros C. apply N. left. congruence.
Qed.
Lemma slookup_remove : forall l f g, slookup (filter (fun x => negb (str_same (s_filter x) f)) l) g =
  if str_same f g then None else slookup l g.
Proof.
  induction l as [|x l IH]; intros f g; cbn [filter slookup]; [destruct (str_same f g); auto|].
  destruct (str_same (s_filter x) f) eqn:E; cbn [negb slookup].
  - rewrite IH. apply str_same_iff in E. rewrite E. destruct (str_same f g); auto.
  - rewrite IH. destruct (str_same (s_filter x) g) eqn:E2; auto. apply str_same_iff in E2. subst g.
    replace (str_same f (s_filter x)) with false; auto. symmetry. apply str_same_false. apply str_same_false in E. auto.
Qed.
Lemma good_filter : forall (h : sub -> bool) l, good_subs l -> good_subs (filter h l).
Proof.
  intros h l [A B]. split.
  - apply Forall_forall. intros x I. apply filter_In in I as [I _]. rewrite Forall_forall in A. auto.
  - clear A. induction l as [|x l IH]; auto. cbn [map] in B. apply NoDup_cons_iff in B as [N B]. cbn [filter]. destruct (h x); auto.
    cbn [map]. constructor; auto. intros I. apply N. apply in_map_iff in I as (y & E & I). apply filter_In in I as [I _]. rewrite <- E. apply in_map. auto.
Qed.
Lemma remove_topic_spec : forall l f, good_subs l ->
  exists l', remove_topic l f = Done (inb f l, l') /\ good_subs l' /\ zlen l' <= zlen l /\
    (forall g, slookup l' g = if str_same f g then None else slookup l g).
Proof.
  intros l f G. unfold remove_topic. pose proof (filter_same_le1 l f (proj2 G)) as L.
  replace (1 <? _) with false by lia. eexists. split; [f_equal; f_equal|].
  - apply eq_true_iff_eq. unfold inb. rewrite existsb_exists. rewrite negb_true_iff. split.
    + intros H. destruct (filter (fun x => str_same (s_filter x) f) l) as [|y r] eqn:E; [discriminate|].
      exists y. apply (filter_In (fun x => str_same (s_filter x) f)). rewrite E. left. auto.
    + intros H. destruct (filter (fun x => str_same (s_filter x) f) l) as [|y r] eqn:E; [|rewrite zlen_cons; pose proof (zlen_nonneg _ r); lia].
      destruct H as (x & H). apply (filter_In (fun x => str_same (s_filter x) f)) in H. rewrite E in H. destruct H.
  - split; [apply good_filter; auto|]. split; [|intros; apply slookup_remove].
    clear. induction l as [|x l IH]; cbn [filter]; [lia|]. destruct (negb _); rewrite !zlen_cons; lia.
Qed.
Lemma remove_topics_spec : forall source target, good_subs target ->
  exists t' src, remove_topics target source = Done (t', src) /\ good_subs t' /\ zlen t' <= zlen target /\
    (forall f, slookup t' f = fold_left (req_step f) (map (fun s => Unsub (s_filter s)) (filter (fun s => s_qos s =? 0) source)) (slookup target f)).
Proof.
  induction source as [|s source IH]; intros target G; cbn [remove_topics filter map fold_left].
  - exists target, []. repeat (split; auto). lia.
  - destruct (s_qos s =? 0); cbn [negb].
    + destruct (remove_topic_spec target (s_filter s) G) as (l' & -> & G' & Z' & L'). cbn [obind snd fst].
      destruct (IH l' G') as (t' & src & -> & G'' & Z'' & L''). cbn [obind snd fst]. eexists t', _. split; [reflexivity|]. split; auto. split; [lia|].
      intros f. cbn [map fold_left req_step]. rewrite L'', L'. auto.
    + destruct (IH target G) as (t' & src & -> & G' & Z' & L'). cbn [obind snd fst]. eexists t', _. split; [reflexivity|]. auto.
Qed.

(** *** Retained messages for new subscriptions *)
Lemma expired_spec : forall now p, expired now p = true <-> too_old now p.
Proof. intros. unfold expired, too_old. split; intros H; lia. Qed.

Lemma iterate_retain_spec : forall now l subs, retain_ok l -> Forall (fun s => filter_ok (s_filter s)) subs ->
  exists cs, iterate_retain now l subs = Done (filter (fun p => negb (expired now p)) l, concat cs) /\
    Forall2 (fun p c => copies true p (pairs subs) c) (filter (fun p => negb (expired now p)) l) cs.
Proof.
  induction l as [|p l IH]; intros subs [F ND] S; cbn [iterate_retain filter].
  - exists []. split; auto.
  - apply Forall_cons_iff in F as [[[P _] [P2 _]] F]. cbn [map] in ND. apply NoDup_cons_iff in ND as [_ ND].
    destruct (zlen (p_payload p) =? 0) eqn:Z0; [apply zlen_zero in Z0; congruence|].
    destruct (IH subs (conj F ND) S) as (cs & E & C). destruct (expired now p); cbn [negb]; [exists cs; auto|].
    destruct (match_all_spec subs p S P) as (m & -> & _ & M). rewrite E. cbn [obind fst snd].
    exists (map (retain_copy p) m :: cs). split; auto.
Qed.
Lemma retain_ok_filter : forall (h : pub -> bool) l, retain_ok l -> retain_ok (filter h l).
Proof.
  intros h l [A B]. split.
  - apply Forall_forall. intros x I. apply filter_In in I as [I _]. rewrite Forall_forall in A. auto.
  - clear A. induction l as [|x l IH]; auto. cbn [map] in B. apply NoDup_cons_iff in B as [N B]. cbn [filter]. destruct (h x); auto.
    cbn [map]. constructor; auto. intros I. apply N. apply in_map_iff in I as (y & E & I). apply filter_In in I as [I _]. rewrite <- E. apply in_map. auto.
Qed.
