(** With one client and without crashes every message is delivered once. *)
From Coq Require Import ZArith List Bool Lia Sorting.Sorted Sorting.Permutation.
From Verif Require Import Common ReadModel AsdModel AsdSpec AsdQueue AsdProofs AsdLoss.
Import ListNotations.
Open Scope Z_scope.

Record once (ch : list (Z * message)) (L : list held) (D : list (Z * message)) (st : Z) : Prop := {
  o_nodup : NoDup (map fst D);
  o_fresh : forall e, In e L -> h_grace e = 0 -> ~ In (h_id e) (map fst D);
  o_copy : forall i C1 m C2, ch = C1 ++ (i, m) :: C2 -> In i (map fst D) -> exists e, In e L /\ h_id e = i /\
    forall U, NoDup U -> (forall x, In x U -> ~ In x (map fst D) /\ (In x (map h_id L) \/ In x (map fst C1))) -> zlen U < h_grace e - st;
  o_recent : forall e, In e L -> h_grace e <> 0 -> h_grace e <= 1500 /\ In (h_id e) (firstn (Z.to_nat (1500 - h_grace e + st)) (map fst D)) }.

Lemma split_app : forall A (a b C1 C2 : list A) x, a ++ b = C1 ++ x :: C2 -> (exists C3, a = C1 ++ x :: C3) \/ In x b.
Proof.
  induction a as [ | y a IH ]; intros b C1 C2 x E; cbn [app] in E.
  - right. rewrite E. apply in_or_app. right. left. reflexivity.
  - destruct C1 as [ | z C1 ]; cbn [app] in E; injection E as -> E.
    + left. exists a. reflexivity.
    + destruct (IH b C1 C2 x E) as [ (C3 & ->) | H ]; [ left; exists C3; reflexivity | right; exact H ].
Qed.
Lemma nodup_incl_zlen : forall (U V : list Z), NoDup U -> incl U V -> zlen U <= zlen V.
Proof. intros U V N I. pose proof (NoDup_incl_length N I). unfold zlen. lia. Qed.

Lemma once_sent : forall ch L D st ms, once ch L D st -> (forall x, In x ms -> ~ In (fst x) (map fst D)) -> once (ch ++ ms) L D st.
Proof.
  intros ch L D st ms O H. constructor; try (apply O). intros i C1 m C2 E J. destruct (split_app _ _ _ _ _ _ E) as [ (C3 & E3) | I ].
  - exact (o_copy _ _ _ _ O i C1 m C3 E3 J).
  - destruct (H _ I J).
Qed.
Lemma once_lost : forall ch L D st, once ch L D st -> once [] L D st.
Proof. intros ch L D st O. constructor; try (apply O). intros i C1 m C2 E. destruct C1; discriminate. Qed.
Lemma once_data : forall i m rest L D st L', once ((i, m) :: rest) L D st ->
  ((In i (map h_id L) /\ L' = L) \/ (~ In i (map h_id L) /\ (forall e, In e L' <-> e = mk_held i m 0 \/ In e L))) ->
  once rest L' D st.
Proof.
  intros i m rest L D st L' O C.
  assert (IN : forall e, In e L -> In e L') by (intros e J; destruct C as [ (_ & ->) | (_ & C) ]; [ exact J | apply C; right; exact J ]).
  assert (BACK : forall e, In e L' -> (e = mk_held i m 0 /\ ~ In i (map fst D)) \/ In e L).
  { intros e J. destruct C as [ (_ & ->) | (N & C) ]; [ auto | ]. apply C in J. destruct J as [ -> | J ]; [ left | auto ]. split; [ reflexivity | ]. intros K.
    destruct (o_copy _ _ _ _ O i [] m rest eq_refl K) as (e & J & <- & _). apply N, in_map, J. }
  constructor.
  - apply O.
  - intros e J G. destruct (BACK e J) as [ (-> & K) | J' ]; [ exact K | apply (o_fresh _ _ _ _ O); assumption ].
  - intros j C1 m' C2 E J. destruct (o_copy _ _ _ _ O j ((i, m) :: C1) m' C2) as (e & J1 & J2 & J3); [ rewrite E; reflexivity | exact J | ].
    exists e. split; [ apply IN, J1 | split; [ exact J2 | ] ]. intros U NU HU. apply J3; [ exact NU | ]. intros x X. destruct (HU x X) as (X1 & X2). split; [ exact X1 | ].
    destruct X2 as [X2|X2]; [ | right; right; exact X2 ]. apply in_map_iff in X2. destruct X2 as (y & <- & Y). destruct (BACK y Y) as [ (-> & _) | Y' ]; [ right; left; reflexivity | left; apply in_map, Y' ].
  - intros e J G. destruct (BACK e J) as [ (-> & _) | J' ]; [ cbn [h_grace] in G; congruence | apply (o_recent _ _ _ _ O); assumption ].
Qed.
Lemma once_maintain : forall ch L D st, once ch L D st -> 0 <= st -> (forall e, In e L -> 0 <= h_grace e) -> once ch (update_grace L st) D 0.
Proof.
  intros ch L D st O ST G0. constructor.
  - apply O.
  - intros e J G. destruct (update_grace_in _ _ _ J) as (e0 & J0 & (-> & _ & K)). apply (o_fresh _ _ _ _ O e0 J0). pose proof (G0 e0 J0). lia.
  - intros i C1 m C2 E J. destruct (o_copy _ _ _ _ O i C1 m C2 E J) as (e0 & J0 & <- & J1).
    pose proof (J1 [] (NoDup_nil _) ltac:(intros x [])) as B. change (zlen (@nil Z)) with 0 in B.
    destruct (update_grace_keeps L st e0 J0 ltac:(lia)) as (e & Je & (K1 & _ & K2)). exists e. split; [ exact Je | split; [ exact K1 | ] ].
    intros U NU HU. assert (B2 : zlen U < h_grace e0 - st); [ | lia ]. apply J1; [ exact NU | ]. intros x X. destruct (HU x X) as (X1 & X2). split; [ exact X1 | ].
    destruct X2 as [X2|X2]; [ left | right; exact X2 ]. apply in_map_iff in X2. destruct X2 as (y & <- & Y). destruct (update_grace_in _ _ _ Y) as (y0 & Y0 & (-> & _)). apply in_map, Y0.
  - intros e J G. destruct (update_grace_in _ _ _ J) as (e0 & J0 & (-> & _ & K)). pose proof (G0 e0 J0) as G00. destruct (Z.eq_dec (h_grace e0) 0) as [Z0|NZ]; [ lia | ].
    destruct (o_recent _ _ _ _ O e0 J0 NZ) as (B1 & B2). split; [ lia | ]. replace (1500 - h_grace e + 0) with (1500 - h_grace e0 + st) by lia. exact B2.
Qed.
Lemma once_taken : forall k ch up down A L D st e, inv k ch up down A L D -> once ch L D st -> zlen (c_queue k) <= 500 -> 0 <= st -> st + 1 <= 1000 ->
  (forall e, In e L -> 0 <= h_grace e) -> In e L -> h_grace e = 0 ->
  once ch (map (fun y => if h_id y =? h_id e then mk_held (h_id y) (h_msg y) ASD_GRACE else y) L) ([(h_id e, h_msg e)] ++ D) (st + 1).
Proof.
  intros k ch up down A L D st e I O QC S0 ST G0 IE GE. pose proof (o_fresh _ _ _ _ O e IE GE) as FE.
  set (L' := map _ L).
  assert (IDS : map h_id L' = map h_id L) by (apply change_ids; intros y; destruct (h_id y =? h_id e); reflexivity).
  assert (BACK : forall y, In y L' -> (h_id y = h_id e /\ h_grace y = 1500) \/ (h_id y <> h_id e /\ In y L)).
  { intros y J. apply in_map_iff in J. destruct J as (z & <- & J). destruct (Z.eqb_spec (h_id z) (h_id e)); [ left; split; [ assumption | reflexivity ] | right; auto ]. }
  constructor.
  - cbn [app map fst]. constructor; [ exact FE | apply O ].
  - intros y J G. destruct (BACK y J) as [ (_ & K) | (N & K) ]; [ lia | ]. intros [ H | H ]; [ apply N; symmetry; exact H | ]. exact (o_fresh _ _ _ _ O y K G H).
  - intros i C1 m C2 E J. destruct (Z.eq_dec i (h_id e)) as [->|NE].
    + exists (mk_held (h_id e) (h_msg e) ASD_GRACE). split; [ apply in_map_iff; exists e; rewrite Z.eqb_refl; auto | split; [ reflexivity | ] ].
      intros U NU HU. cbn [h_grace]. change ASD_GRACE with 1500.
      assert (B : zlen (h_id e :: U) <= zlen (map t_id (c_queue k))).
      { apply nodup_incl_zlen.
        - constructor; [ | exact NU ]. intros X. destruct (HU _ X) as (X1 & _). apply X1. left. reflexivity.
        - assert (QI : forall x, 1 <= x <= zlen A -> ~ In x (map fst D) -> In x (map t_id (c_queue k))) by (intros x R N; destruct (i_all _ _ _ _ _ _ _ I x R); [ assumption | contradiction ]).
          intros x [ <- | X ].
          + apply QI; [ apply (valid_range A (hkey e)), (i_held _ _ _ _ _ _ _ I), IE | exact FE ].
          + destruct (HU x X) as (X1 & X2). apply QI; [ | intros H; apply X1; right; exact H ].
            rewrite IDS in X2. destruct X2 as [X2|X2]; apply in_map_iff in X2; destruct X2 as (y & <- & Y).
            * apply (valid_range A (hkey y)), (i_held _ _ _ _ _ _ _ I), Y.
            * apply valid_range, (i_channel _ _ _ _ _ _ _ I). rewrite E. apply in_or_app. left. exact Y. }
      rewrite zlen_cons, zlen_map in B. lia.
    + destruct J as [ J | J ]; [ cbn [fst] in J; congruence | ]. destruct (o_copy _ _ _ _ O i C1 m C2 E J) as (e0 & J0 & J1 & J2).
      exists e0. split; [ | split; [ exact J1 | ] ].
      * apply in_map_iff. exists e0. destruct (Z.eqb_spec (h_id e0) (h_id e)); [ congruence | auto ].
      * intros U NU HU. assert (B : zlen (h_id e :: U) < h_grace e0 - st).
        { apply J2.
          - constructor; [ | exact NU ]. intros X. destruct (HU _ X) as (X1 & _). apply X1. left. reflexivity.
          - intros x [ <- | X ]; [ split; [ exact FE | left; apply in_map, IE ] | ]. destruct (HU x X) as (X1 & X2). rewrite IDS in X2. split; [ intros H; apply X1; right; exact H | exact X2 ]. }
        rewrite zlen_cons in B. lia.
  - intros y J G. destruct (BACK y J) as [ (K1 & K2) | (N & K) ].
    + rewrite K1, K2. split; [ lia | ]. replace (Z.to_nat (1500 - 1500 + (st + 1))) with (S (Z.to_nat st)) by lia. left. reflexivity.
    + destruct (o_recent _ _ _ _ O y K G) as (B1 & B2). split; [ exact B1 | ]. pose proof (G0 y K).
      replace (Z.to_nat (1500 - h_grace y + (st + 1))) with (S (Z.to_nat (1500 - h_grace y + st))) by lia. right. exact B2.
Qed.

(** The receiver has one queue *)
Definition shape (c : Z) (s : system) : Prop :=
  (r_queues (s_receiver s) = [] /\ r_started (s_receiver s) = 0 /\ got s c = []) \/ exists L, r_queues (s_receiver s) = [(c, L)].
Definition once_of (s : system) (c : Z) : Prop := once (s_channel s c) (queue_of (s_receiver s) c) (got s c) (r_started (s_receiver s)).
Lemma shape_set : forall c s q n, shape c s -> set_queue (r_queues (s_receiver s)) c q = [(c, q)] /\ (0 <= n -> True).
Proof.
  intros c s q n [ (-> & _) | (L & ->) ]; (split; [ | auto ]); cbn [set_queue fst]; [ reflexivity | rewrite Z.eqb_refl; reflexivity ].
Qed.

Lemma step_once : forall n s o s' c, wf n s -> (forall x, n x + tally o x < 2^32 - 1) -> no_restart o -> only c o -> inv_of s c -> shape c s -> once_of s c ->
  step s o = Ok s' -> ticking s' -> shape c s' /\ once_of s' c.
Proof.
  intros n s o s' c W B NR OC I SH O E TK.
  assert (T : forall x, 0 <= tally o x) by (intros x; destruct o; cbn [tally]; try lia; destruct (_ =? _); lia).
  assert (BP : 0 <= c_pos (s_client s c) < 2^32 - 1) by (pose proof (wf_pos n s W c); specialize (B c); specialize (T c); lia).
  assert (B0 : zlen (s_accepted s c) < 2^32 - 1) by (rewrite <- (i_pos _ _ _ _ _ _ _ I); lia).
  unfold inv_of, once_of in *.
  destruct o as [ d m | d now room | d k | d | d k accept | | d now | d | ]; cbn [step only] in *; try subst d; [ | | | | | | | destruct NR | destruct NR ].
  - destruct (queue_message_ok (s_client s c) m (wf_sorted n s W c) (wf_ids n s W c) BP) as [ (_ & Q) | (L & q' & Q & S1 & S2 & S3) ]; rewrite Q in E; injection E as <-; auto.
  - destruct (send_tasks_ok now (c_queue (s_client s c)) room) as (q' & ms & cs & Q & S1 & S2 & S3); [ rewrite Forall_forall; apply (wf_flags n s W c) | ].
    rewrite Q in E. injection E as <-. split; [ exact SH | ]. unfold got. cbn [s_channel s_receiver s_given]. fold (got s c). rewrite set_same. apply once_sent; [ exact O | ].
    intros x J K. destruct (S2 x J) as (e & E1 & -> & E2). pose proof (i_rack _ _ _ _ _ _ _ I _ K e E1 eq_refl). congruence.
  - destruct (nth_error (s_down s c) k) as [ app | ]; [ | injection E as <-; auto ].
    destruct (client_control (s_client s c) app) as (k', cs). injection E as <-. auto.
  - destruct (s_channel s c) as [ | (i, m) rest ] eqn:CH; [ injection E as <-; rewrite CH; auto | ]. destruct (possible (s_receiver s)); [ | injection E as <-; rewrite CH; auto ].
    assert (V : valid (s_accepted s c) (i, m)) by (apply (i_channel _ _ _ _ _ _ _ I); left; reflexivity).
    apply valid_range in V. cbn [fst] in V. unfold receive_message in E. destruct (Z.ltb_spec (2^32 - 1) i); [ lia | ].
    assert (U : u32 i = i) by (unfold u32; apply Z.mod_small; lia). rewrite U in E.
    destruct (collect_ok (s_receiver s) c i m (wf_held n s W c)) as (q' & Q & S1 & S2). rewrite Q in E. injection E as <-. split.
    + right. exists q'. cbn [s_receiver r_queues]. apply (shape_set c s q' 0 SH).
    + unfold got. cbn [s_channel s_receiver s_given r_started]. fold (got s c). rewrite queue_of_set, Z.eqb_refl, set_same. eapply once_data; [ exact O | ]. destruct S2 as [S2|(S2 & S4 & _)]; auto.
  - destruct (nth_error (s_up s c) k) as [ app | ] eqn:NE; [ | injection E as <-; auto ]. apply nth_error_In in NE.
    destruct (i_up _ _ _ _ _ _ _ I app NE) as (i & -> & R & KN & FL).
    destruct (receiver_rack accept (s_receiver s) c i (wf_held n s W c) ltac:(lia)) as (r' & d & cs & RC & C). rewrite RC in E. injection E as <-.
    destruct C as [ (-> & -> & ->) | [ (-> & -> & -> & C) | (-> & e & TKN & EI) ] ]; [ auto | auto | ].
    unfold got. cbn [s_channel s_receiver s_given]. rewrite got_add, Z.eqb_refl. fold (got s c). unfold ticking in TK. cbn [s_receiver] in TK.
    destruct TKN as (G & J & -> & ST & ->). cbn [r_started] in *. split.
    + right. cbn [s_receiver r_queues]. eexists. apply (shape_set c s _ 0 SH).
    + rewrite queue_of_set, Z.eqb_refl. eapply once_taken; eauto; [ apply W | apply (wf_started n s W) | apply (wf_grace n s W c) ].
  - injection E as <-. unfold got, shape. cbn [s_channel s_receiver s_given]. fold (got s c). unfold maintain.
    destruct SH as [ (S1 & S2 & S3) | (L & S1) ]; rewrite S1; cbn [maintain_queues r_queues r_started].
    + split; [ left; cbn [s_receiver r_queues r_started]; auto | ]. unfold queue_of in *. rewrite S1 in O. exact O.
    + split; [ right; eexists; reflexivity | ]. unfold queue_of in *. rewrite S1 in O. cbn [r_queues find fst snd] in *. rewrite Z.eqb_refl in *. cbn [snd] in *.
      apply once_maintain; [ exact O | apply (wf_started n s W) | ]. intros e J. apply (wf_grace n s W c). unfold queue_of. rewrite S1. cbn [find fst]. rewrite Z.eqb_refl. exact J.
  - injection E as <-. split; [ exact SH | ]. cbn [s_channel s_receiver]. rewrite set_same. eapply once_lost. exact O.
Qed.
Lemma once_start : forall c, shape c start /\ once_of start c.
Proof.
  intros c. split; [ left; auto | ]. change (once [] [] [] 0). constructor; [ apply NoDup_nil | intros ? [] | intros i C1 m C2 E; destruct C1; discriminate | intros ? [] ].
Qed.
Lemma run_once : forall os n s s' c, wf n s -> (forall x, n x + queued x os < 2^32 - 1) -> Forall no_restart os -> Forall (only c) os -> (forall x, inv_of s x) -> shape c s -> once_of s c ->
  along ticking s os -> run s os = Ok s' -> exists n', wf n' s' /\ inv_of s' c /\ shape c s' /\ once_of s' c /\ ticking s'.
Proof.
  induction os as [ | o os IH ]; intros n s s' c W B NR OC I SH O TK E; cbn [run along] in *.
  - injection E as <-. exists n. split; [ exact W | split; [ apply I | split; [ exact SH | split; [ exact O | apply TK ] ] ] ].
  - assert (B1 : forall x, n x + tally o x < 2^32 - 1) by (intros x; specialize (B x); rewrite queued_cons in B; pose proof (queued_nonneg x os); lia).
    destruct (step_wf n s o W B1) as (s1 & E1 & W1). rewrite E1 in E, TK. inversion NR; subst. inversion OC; subst. destruct TK as (_ & TK).
    assert (T1 : ticking s1) by (destruct os; cbn [along] in TK; tauto).
    destruct (step_once n s o s1 c W B1 ltac:(assumption) ltac:(assumption) (I c) SH O E1 T1) as (SH1 & O1).
    apply (IH _ s1 s' c W1); auto.
    + intros x. specialize (B x). rewrite queued_cons in B. lia.
    + exact (step_inv n s o s1 W B1 ltac:(assumption) I E1).
Qed.

(** ** Consequences *)
Lemma room_lemma : forall os s c, few os -> Forall no_restart os -> Forall (only c) os -> along ticking start os -> run start os = Ok s -> possible (s_receiver s) = true.
Proof.
  intros os s c FW NR OC TK E. destruct (once_start c) as (SH & O).
  destruct (run_once os (fun _ => 0) start s c wf_start (fun x => FW x) NR OC inv_start SH O TK E) as (n & W & I & SH' & O' & T). clear SH O TK.
  unfold inv_of, once_of, ticking in *. unfold possible. apply Z.ltb_lt. change ASD_RELEASE_QUEUE_MAX with 4500.
  set (L := queue_of (s_receiver s) c) in *. set (D := got s c) in *. set (st := r_started (s_receiver s)) in *. set (Q := c_queue (s_client s c)) in *.
  assert (CE : count_entries (r_queues (s_receiver s)) = zlen L).
  { subst L. unfold queue_of. destruct SH' as [ (-> & _) | (L & ->) ]; cbn [count_entries find fst]; [ reflexivity | rewrite Z.eqb_refl; cbn [snd]; lia ]. }
  rewrite CE. pose proof (wf_held n s W c) as HS. fold L in HS. pose proof (sorted_nodup _ _ _ HS) as ND.
  assert (P : forall l : list held, zlen l = zlen (filter (fun e => h_grace e =? 0) l) + zlen (filter (fun e => negb (h_grace e =? 0)) l)).
  { induction l as [ | e l IH ]; [ reflexivity | ]. cbn [filter]. destruct (h_grace e =? 0); cbn [negb]; rewrite ?zlen_cons, IH; lia. }
  assert (NF : forall f, NoDup (map h_id (filter f L))).
  { intros f. clear - HS. induction L as [ | e l IH ]; cbn [filter map]; [ constructor | ]. apply sorted_cons in HS. destruct HS as [H1 H2]. destruct (f e); [ | auto ]. cbn [map]. constructor; [ | auto ].
    intros J. apply in_map_iff in J. destruct J as (y & EQ & J). apply filter_In in J. destruct J as [J _]. specialize (H2 y J). lia. }
  pose proof (wf_started n s W) as ST0. fold st in ST0. pose proof (wf_count n s W c) as QC. fold Q in QC.
  assert (B1 : zlen (filter (fun e => h_grace e =? 0) L) <= zlen Q).
  { rewrite <- (zlen_map _ _ h_id), <- (zlen_map _ _ t_id Q). apply nodup_incl_zlen; [ apply NF | ]. intros x J. apply in_map_iff in J. destruct J as (e & <- & J). apply filter_In in J. destruct J as [J G].
    pose proof (o_fresh _ _ _ _ O' e J ltac:(lia)) as F. pose proof (valid_range _ _ (i_held _ _ _ _ _ _ _ I e J)) as R. destruct (i_all _ _ _ _ _ _ _ I _ R) as [K|K]; [ exact K | contradiction ]. }
  assert (B2 : zlen (filter (fun e => negb (h_grace e =? 0)) L) <= 1500 + st).
  { rewrite <- (zlen_map _ _ h_id).
    assert (IN : incl (map h_id (filter (fun e => negb (h_grace e =? 0)) L)) (firstn (Z.to_nat (1500 + st)) (map fst D))).
    { intros x J. apply in_map_iff in J. destruct J as (e & <- & J). apply filter_In in J. destruct J as [J G].
      destruct (o_recent _ _ _ _ O' e J ltac:(lia)) as (G1 & G2). pose proof (wf_grace n s W c e J) as G0.
      replace (Z.to_nat (1500 + st)) with (Z.to_nat (1500 - h_grace e + st) + Z.to_nat (h_grace e))%nat by lia.
      revert G2. generalize (Z.to_nat (1500 - h_grace e + st)) (Z.to_nat (h_grace e)) (map fst D). clear. intros a. induction a as [ | a IH ]; intros b l H; [ destruct H | ]. destruct l as [ | y l ]; [ destruct H | ].
      destruct H as [ <- | H ]; [ left; reflexivity | right; apply IH, H ]. }
    pose proof (nodup_incl_zlen _ _ (NF _) IN) as B. unfold zlen in B |- *. rewrite firstn_length in B. lia. }
  rewrite (P L). lia.
Qed.

Lemma sublist_map : forall A B (f : A -> B) l m, sublist l m -> sublist (map f l) (map f m).
Proof. induction 1; cbn [map]; constructor; assumption. Qed.
Lemma sublist_filter : forall A (f : A -> bool) l, sublist (filter f l) l.
Proof. induction l as [ | x l IH ]; cbn [filter]; [ constructor | ]. destruct (f x); constructor; assumption. Qed.
Lemma nth_positions : forall (A : list message), map (fun i => nth (Z.to_nat (i - 1)) A []) (map (fun p => Z.of_nat p + 1) (seq 0 (length A))) = A.
Proof.
  intros A. rewrite map_map. rewrite (map_ext (fun p => nth (Z.to_nat (Z.of_nat p + 1 - 1)) A []) (fun p => nth p A [])) by (intros p; f_equal; lia).
  induction A as [ | a A IH ]; [ reflexivity | ]. cbn [length seq map nth]. f_equal. rewrite <- seq_shift, map_map. exact IH.
Qed.
Lemma once_lemma : forall os s c, few os -> Forall no_restart os -> Forall (only c) os -> along ticking start os -> run start os = Ok s ->
  exists rest, Permutation (delivered s c ++ rest) (accepted s c) /\ sublist rest (outstanding s c).
Proof.
  intros os s c FW NR OC TK E. destruct (once_start c) as (SH & O).
  destruct (run_once os (fun _ => 0) start s c wf_start (fun x => FW x) NR OC inv_start SH O TK E) as (n & W & I & SH' & O' & T). clear SH O TK.
  unfold inv_of, once_of in *. set (D := got s c) in *. set (Q := c_queue (s_client s c)) in *. set (A := s_accepted s c) in *.
  set (fr := fun e => negb (existsb (Z.eqb (t_id e)) (map fst D))).
  assert (FR : forall e, fr e = true <-> ~ In (t_id e) (map fst D)).
  { intros e. unfold fr. rewrite negb_true_iff. split.
    - intros H J. rewrite <- not_true_iff_false in H. apply H. apply existsb_exists. exists (t_id e). split; [ exact J | apply Z.eqb_refl ].
    - intros H. apply not_true_iff_false. intros X. apply existsb_exists in X. destruct X as (y & Y & EQ). apply H. apply Z.eqb_eq in EQ. rewrite EQ. exact Y. }
  set (R := filter fr Q). exists (map t_msg R). split.
  2: { unfold outstanding. fold Q. apply sublist_map, sublist_filter. }
  rewrite delivered_got. fold D. unfold accepted. fold A.
  set (f := fun i : Z => nth (Z.to_nat (i - 1)) A []).
  assert (VF : forall x, valid A x -> snd x = f (fst x)) by (intros x (_ & X); unfold f; symmetry; apply nth_error_nth, X).
  assert (E1 : map snd D = map f (map fst D)) by (rewrite map_map; apply map_ext_in; intros x J; apply VF, (i_got _ _ _ _ _ _ _ I), J).
  assert (E2 : map t_msg R = map f (map t_id R)).
  { rewrite map_map. apply map_ext_in. intros e J. apply filter_In in J. destruct J as [J _]. exact (VF (key e) (i_queue _ _ _ _ _ _ _ I e J)). }
  rewrite E1, E2, <- map_app. rewrite <- (nth_positions A) at 1. fold f. apply Permutation_map.
  assert (NR2 : NoDup (map t_id R)).
  { pose proof (wf_sorted n s W c) as HS. fold Q in HS. subst R. clear - HS. induction Q as [ | e q IH ]; cbn [filter map]; [ constructor | ]. apply sorted_cons in HS. destruct HS as [H1 H2].
    destruct (fr e); [ | auto ]. cbn [map]. constructor; [ | auto ]. intros J. apply in_map_iff in J. destruct J as (y & EQ & J). apply filter_In in J. destruct J as [J _]. specialize (H2 y J). lia. }
  apply NoDup_Permutation.
  - pose proof (o_nodup _ _ _ _ O') as ND. revert ND. assert (DJ : forall x, In x (map fst D) -> ~ In x (map t_id R)).
    { intros x J K. apply in_map_iff in K. destruct K as (e & <- & K). apply filter_In in K. destruct K as [_ K]. apply FR in K. contradiction. }
    revert DJ NR2. generalize (map fst D) (map t_id R). clear. intros l0 r. induction l0 as [ | x l IH ]; intros DJ NR2 ND; cbn [app]; [ exact NR2 | ]. inversion ND; subst. constructor.
    + intros J. apply in_app_or in J. destruct J as [J|J]; [ contradiction | exact (DJ x (or_introl eq_refl) J) ].
    + apply IH; [ intros y Y; apply DJ; right; exact Y | exact NR2 | assumption ].
  - apply FinFun.Injective_map_NoDup; [ intros a b H; lia | apply seq_NoDup ].
  - intros x. assert (RG : In x (map (fun p => Z.of_nat p + 1) (seq 0 (length A))) <-> 1 <= x <= zlen A).
    { rewrite in_map_iff. unfold zlen. split.
      - intros (p & <- & J). apply in_seq in J. lia.
      - intros H. exists (Z.to_nat (x - 1)). split; [ lia | ]. apply in_seq. lia. }
    rewrite RG, in_app_iff. split.
    + intros [J|J]; apply in_map_iff in J; destruct J as (y & <- & J).
      * apply valid_range, (i_got _ _ _ _ _ _ _ I), J.
      * apply filter_In in J. destruct J as [J _]. apply (valid_range A (key y)), (i_queue _ _ _ _ _ _ _ I), J.
    + intros H. destruct (in_dec Z.eq_dec x (map fst D)) as [J|J]; [ left; exact J | right ]. destruct (i_all _ _ _ _ _ _ _ I x H) as [K|K]; [ | contradiction ].
      apply in_map_iff in K. destruct K as (e & EQ & K). subst x. apply in_map. apply filter_In. split; [ exact K | apply FR, J ].
Qed.
