(** Without crashes nothing is lost, for any number of clients. *)
From Coq Require Import ZArith List Bool Lia Sorting.Sorted.
From Verif Require Import Common ReadModel AsdModel AsdSpec AsdQueue AsdProofs.
Import ListNotations.
Open Scope Z_scope.

(** What has been delivered of a client *)
Definition got (s : system) (c : Z) : list (Z * message) := map snd (filter (fun x => fst x =? c) (s_given s)).
Lemma delivered_got : forall s c, delivered s c = map snd (got s c).
Proof. intros s c. unfold delivered, got. rewrite map_map. reflexivity. Qed.
Lemma got_add : forall c d given x,
  map snd (filter (fun y : Z * (Z * message) => fst y =? x) (map (fun y => (c, y)) d ++ given)) =
  (if x =? c then d else []) ++ map snd (filter (fun y => fst y =? x) given).
Proof.
  intros c d given x. induction d as [ | y d IH ]; cbn [map app filter fst].
  - destruct (x =? c); reflexivity.
  - rewrite (Z.eqb_sym c x). destruct (x =? c); cbn [map snd app]; [ f_equal | ]; exact IH.
Qed.

(** The message with an id *)
Definition valid (A : list message) (x : Z * message) : Prop := 1 <= fst x /\ nth_error A (Z.to_nat (fst x - 1)) = Some (snd x).
Lemma valid_range : forall A x, valid A x -> 1 <= fst x <= zlen A.
Proof.
  intros A x (L & H). split; [ exact L | ]. assert (N : (Z.to_nat (fst x - 1) < length A)%nat) by (apply nth_error_Some; congruence). unfold zlen. lia.
Qed.
Lemma valid_app : forall A B x, valid A x -> valid (A ++ B) x.
Proof.
  intros A B x (L & H). split; [ exact L | ]. rewrite nth_error_app1; [ exact H | ]. apply nth_error_Some. congruence.
Qed.
Lemma valid_last : forall A m, valid (A ++ [m]) (zlen A + 1, m).
Proof.
  intros A m. split; cbn [fst snd]; [ pose proof (zlen_nonneg _ A); lia | ]. replace (Z.to_nat (zlen A + 1 - 1)) with (length A) by (unfold zlen; lia).
  rewrite nth_error_app2, Nat.sub_diag by lia. reflexivity.
Qed.

Definition hkey (e : held) : Z * message := (h_id e, h_msg e).
Definition known (i : Z) (L : list held) (D : list (Z * message)) : Prop := In i (map h_id L) \/ In i (map fst D).
Definition flagged (i : Z) (Q : list sent) : Prop := forall e, In e Q -> t_id e = i -> has (t_flags e) DACK = true.
Record inv (k : client) (ch : list (Z * message)) (up down : list Z) (A : list message) (L : list held) (D : list (Z * message)) : Prop := {
  i_pos : c_pos k = zlen A;
  i_queue : forall e, In e (c_queue k) -> valid A (key e);
  i_channel : forall x, In x ch -> valid A x;
  i_held : forall e, In e L -> valid A (hkey e);
  i_grace : forall e, In e L -> h_grace e <> 0 -> In (h_id e) (map fst D);
  i_got : forall x, In x D -> valid A x;
  i_all : forall i, 1 <= i <= zlen A -> In i (map t_id (c_queue k)) \/ In i (map fst D);
  i_down : forall a, In a down -> exists i, 1 <= i <= zlen A /\ ((a = ctl_join DACK i /\ known i L D) \/ (a = ctl_join CACK i /\ In i (map fst D)));
  i_up : forall a, In a up -> exists i, a = ctl_join RACK i /\ 1 <= i <= zlen A /\ known i L D /\ flagged i (c_queue k);
  i_flag : forall e, In e (c_queue k) -> has (t_flags e) DACK = true -> known (t_id e) L D;
  i_rack : forall i, In i (map fst D) -> flagged i (c_queue k) }.
Definition inv_of (s : system) (c : Z) : Prop :=
  inv (s_client s c) (s_channel s c) (s_up s c) (s_down s c) (s_accepted s c) (queue_of (s_receiver s) c) (got s c).

Lemma known_mono : forall i L D L' D', incl (map h_id L) (map h_id L') -> incl D D' -> known i L D -> known i L' D'.
Proof. intros i L D L' D' H1 H2 [K|K]; [ left; auto | right ]. apply in_map_iff in K. destruct K as (x & E & K). apply in_map_iff. exists x. auto. Qed.

Lemma inv_queue : forall k ch up down A L D q' m, inv k ch up down A L D -> zlen A < 2^32 - 1 ->
  (forall e, In e q' <-> e = mk_sent (c_pos k + 1) m 0 0 \/ In e (c_queue k)) ->
  inv (mk_client q' (c_pos k + 1)) ch up down (A ++ [m]) L D.
Proof.
  intros k ch up down A L D q' m I B S2. pose proof (i_pos _ _ _ _ _ _ _ I) as P.
  assert (F : forall i, 1 <= i <= zlen A -> flagged i (c_queue k) -> flagged i q').
  { intros i R H e J E. apply S2 in J. destruct J as [ -> | J ]; [ cbn [t_id] in E; lia | auto ]. }
  constructor; cbn [c_pos c_queue].
  - rewrite zlen_app. cbn. lia.
  - intros e J. apply S2 in J. destruct J as [ -> | J ]; [ unfold key; cbn [t_id t_msg]; rewrite P; apply valid_last | apply valid_app, I, J ].
  - intros x J. apply valid_app, I, J.
  - intros x J. apply valid_app, (i_held _ _ _ _ _ _ _ I), J.
  - apply I.
  - intros x J. apply valid_app, (i_got _ _ _ _ _ _ _ I), J.
  - intros i R. rewrite zlen_app in R. change (zlen [m]) with 1 in R. destruct (Z.eq_dec i (zlen A + 1)) as [->|N].
    + left. apply in_map_iff. exists (mk_sent (c_pos k + 1) m 0 0). split; [ cbn [t_id]; lia | apply S2; left; reflexivity ].
    + destruct (i_all _ _ _ _ _ _ _ I i ltac:(lia)) as [J|J]; [ left | right; exact J ]. apply in_map_iff in J. destruct J as (e & E & J). apply in_map_iff. exists e. split; [ exact E | apply S2; right; exact J ].
  - intros a J. destruct (i_down _ _ _ _ _ _ _ I a J) as (i & R & H). exists i. split; [ rewrite zlen_app; change (zlen [m]) with 1; lia | exact H ].
  - intros a J. destruct (i_up _ _ _ _ _ _ _ I a J) as (i & E & R & H & G). exists i. split; [ exact E | ]. split; [ rewrite zlen_app; change (zlen [m]) with 1; lia | split; [ exact H | apply F; assumption ] ].
  - intros e J H. apply S2 in J. destruct J as [ -> | J ]; [ cbn [t_flags] in H; discriminate | apply I; assumption ].
  - intros i J. apply F; [ | apply I, J ]. apply in_map_iff in J. destruct J as (x & <- & J). apply valid_range, (i_got _ _ _ _ _ _ _ I), J.
Qed.
Lemma inv_tick : forall k ch up down A L D q' ms cs, inv k ch up down A L D ->
  Forall2 same_entry (c_queue k) q' ->
  (forall x, In x ms -> exists e, In e (c_queue k) /\ x = key e /\ has (t_flags e) DACK = false) ->
  (forall a, In a cs -> exists e, In e (c_queue k) /\ a = ctl_join RACK (t_id e) /\ has (t_flags e) DACK = true) ->
  sorted sent t_id (c_queue k) ->
  inv (mk_client q' (c_pos k)) (ch ++ ms) (up ++ cs) down A L D.
Proof.
  intros k ch up down A L D q' ms cs I S1 S2 S3 HS.
  assert (F : forall i, flagged i (c_queue k) -> flagged i q').
  { intros i H e J E. destruct (same_in _ _ e S1 J) as (e0 & J0 & (K1 & _ & K2)). injection K1 as K1 _. rewrite K2. apply H; [ exact J0 | congruence ]. }
  constructor; cbn [c_pos c_queue]; try (apply I).
  - intros e J. destruct (same_in _ _ e S1 J) as (e0 & J0 & (K1 & _)). rewrite K1. apply I, J0.
  - intros x J. apply in_app_or in J. destruct J as [J|J]; [ apply I, J | ]. destruct (S2 x J) as (e & E1 & -> & _). apply I, E1.
  - rewrite (same_ids _ _ S1). apply I.
  - intros a J. apply in_app_or in J. destruct J as [J|J].
    + destruct (i_up _ _ _ _ _ _ _ I a J) as (i & E & R & H & G). exists i. auto.
    + destruct (S3 a J) as (e & E1 & -> & E2). exists (t_id e). split; [ reflexivity | ]. split; [ apply (valid_range A (key e)), I, E1 | ].
      split; [ apply (i_flag _ _ _ _ _ _ _ I); assumption | ]. apply F. intros e' J' EQ. rewrite <- (sorted_inj _ _ _ e e' HS E1 J' (eq_sym EQ)). exact E2.
  - intros e J H. destruct (same_in _ _ e S1 J) as (e0 & J0 & (K1 & _ & K2)). injection K1 as K1 _. rewrite K1. apply (i_flag _ _ _ _ _ _ _ I); [ exact J0 | congruence ].
  - intros i J. apply F, I, J.
Qed.
Lemma inv_to_client : forall k ch up down A L D a k' cs, inv k ch up down A L D -> zlen A < 2^32 - 1 -> sorted sent t_id (c_queue k) ->
  (forall e, In e (c_queue k) -> flags_ok (t_flags e)) ->
  In a down -> client_control k a = (k', cs) -> inv k' ch (up ++ cs) down A L D.
Proof.
  intros k ch up down A L D a k' cs I B HS HF J E. destruct (i_down _ _ _ _ _ _ _ I a J) as (i & R & [ (-> & K) | (-> & K) ]); unfold client_control in E.
  - rewrite split_dack in E by lia. change (DACK =? DACK) with true in E. cbv iota in E. injection E as <- <-. rewrite q_change_map by assumption.
    assert (FL : forall e, In e (c_queue k) -> forall e', e' = (if t_id e =? i then mk_sent (t_id e) (t_msg e) (Z.lor (t_flags e) DACK) (t_time e) else e) ->
      key e' = key e /\ (has (t_flags e') DACK = true <-> has (t_flags e) DACK = true \/ t_id e = i)).
    { intros e IE e' ->. destruct (Z.eqb_spec (t_id e) i) as [EI|N]; unfold key; cbn [t_id t_msg t_flags]; (split; [ reflexivity | ]).
      - pose proof (flags_cases _ (HF e IE)) as (_ & _ & FD & _). rewrite FD. tauto.
      - split; [ auto | intros [H|H]; [ exact H | contradiction ] ]. }
    assert (F : forall x, flagged x (c_queue k) -> flagged x (map (fun e => if t_id e =? i then mk_sent (t_id e) (t_msg e) (Z.lor (t_flags e) DACK) (t_time e) else e) (c_queue k))).
    { intros x H e' J' EQ. apply in_map_iff in J'. destruct J' as (e & E & J'). destruct (FL e J' e' (eq_sym E)) as (K1 & K2). apply K2. left. apply H; [ exact J' | injection K1 as K1; congruence ]. }
    constructor; cbn [c_pos c_queue]; try (apply I).
    + intros e' J'. apply in_map_iff in J'. destruct J' as (e & E & J'). destruct (FL e J' e' (eq_sym E)) as (-> & _). apply I, J'.
    + intros x X. destruct (i_all _ _ _ _ _ _ _ I x X) as [H|H]; [ left | right; exact H ]. rewrite change_ids; [ exact H | intros e; destruct (t_id e =? i); reflexivity ].
    + intros b JB. apply in_app_or in JB. destruct JB as [JB|[<-|[]]].
      * destruct (i_up _ _ _ _ _ _ _ I b JB) as (x & EX & RX & HX & G). exists x. auto.
      * exists i. repeat split; try lia; [ exact K | ]. intros e' J' EQ. apply in_map_iff in J'. destruct J' as (e & E & J'). destruct (FL e J' e' (eq_sym E)) as (K1 & K2). apply K2. right. injection K1 as K1. congruence.
    + intros e' J' H. apply in_map_iff in J'. destruct J' as (e & E & J'). destruct (FL e J' e' (eq_sym E)) as (K1 & K2). injection K1 as K1. rewrite K1. apply K2 in H. destruct H as [H|H]; [ apply (i_flag _ _ _ _ _ _ _ I); assumption | rewrite H; exact K ].
    + intros x X. apply F, I, X.
  - rewrite split_cack in E by lia. change (CACK =? DACK) with false in E. change (CACK =? CACK) with true in E. cbv iota in E. injection E as <- <-. rewrite app_nil_r.
    destruct (q_remove_in sent t_id (c_queue k) i HS) as [R1 R2].
    assert (F : forall x, flagged x (c_queue k) -> flagged x (q_remove sent t_id (c_queue k) i)) by (intros x H e J' EQ; apply R2 in J'; apply H; tauto).
    constructor; cbn [c_pos c_queue]; try (apply I).
    + intros e J'. apply R2 in J'. apply I, J'.
    + intros x X. destruct (Z.eq_dec x i) as [->|N]; [ right; exact K | ]. destruct (i_all _ _ _ _ _ _ _ I x X) as [H|H]; [ left | right; exact H ].
      apply in_map_iff in H. destruct H as (e & E & H). apply in_map_iff. exists e. split; [ exact E | apply R2; split; [ exact H | congruence ] ].
    + intros b JB. destruct (i_up _ _ _ _ _ _ _ I b JB) as (x & EX & RX & HX & G). exists x. auto.
    + intros e J' H. apply R2 in J'. apply (i_flag _ _ _ _ _ _ _ I); tauto.
    + intros x X. apply F, I, X.
Qed.
Lemma inv_data : forall k i m rest up down A L D L', inv k ((i, m) :: rest) up down A L D -> 
  ((In i (map h_id L) /\ L' = L) \/ (~ In i (map h_id L) /\ (forall e, In e L' <-> e = mk_held i m 0 \/ In e L))) ->
  inv k rest up (down ++ [ctl_join DACK i]) A L' D.
Proof.
  intros k i m rest up down A L D L' I C.
  assert (V : valid A (i, m)) by (apply (i_channel _ _ _ _ _ _ _ I); left; reflexivity).
  assert (KN : incl (map h_id L) (map h_id L')).
  { destruct C as [ (_ & ->) | (_ & C) ]; [ apply incl_refl | ]. intros x H. apply in_map_iff in H. destruct H as (e & E & H). apply in_map_iff. exists e. split; [ exact E | apply C; right; exact H ]. }
  assert (KI : In i (map h_id L')).
  { destruct C as [ (H & ->) | (_ & C) ]; [ exact H | ]. apply in_map_iff. exists (mk_held i m 0). split; [ reflexivity | apply C; left; reflexivity ]. }
  constructor; try (apply I).
  - intros x J. apply I. right. exact J.
  - intros e J. destruct C as [ (_ & ->) | (_ & C) ]; [ apply (i_held _ _ _ _ _ _ _ I), J | ]. apply C in J. destruct J as [ -> | J ]; [ exact V | apply (i_held _ _ _ _ _ _ _ I), J ].
  - intros e J G. destruct C as [ (_ & ->) | (_ & C) ]; [ apply I; assumption | ]. apply C in J. destruct J as [ -> | J ]; [ cbn [h_grace] in G; congruence | apply I; assumption ].
  - intros a J. apply in_app_or in J. destruct J as [J|[<-|[]]].
    + destruct (i_down _ _ _ _ _ _ _ I a J) as (x & R & H). exists x. split; [ exact R | ]. destruct H as [ (E & H) | H ]; [ left; split; [ exact E | ] | right; exact H ].
      eapply known_mono; [ exact KN | apply incl_refl | exact H ].
    + exists i. split; [ apply (valid_range A (i, m)), V | ]. left. split; [ reflexivity | left; exact KI ].
  - intros a J. destruct (i_up _ _ _ _ _ _ _ I a J) as (x & E & R & H & G). exists x. repeat split; try tauto. eapply known_mono; [ exact KN | apply incl_refl | exact H ].
  - intros e J H. eapply known_mono; [ exact KN | apply incl_refl | apply (i_flag _ _ _ _ _ _ _ I); assumption ].
Qed.
(** The release queue of one client changes its grace counters only *)
Lemma inv_keep : forall k ch up down A L D L' down', inv k ch up down A L D ->
  (forall e, In e L' -> exists e0, In e0 L /\ hkey e = hkey e0 /\ (h_grace e <> 0 -> h_grace e0 <> 0)) ->
  (forall i, known i L D -> known i L' D) ->
  (forall a, In a down' -> In a down \/ exists i, 1 <= i <= zlen A /\ a = ctl_join CACK i /\ In i (map fst D)) ->
  inv k ch up down' A L' D.
Proof.
  intros k ch up down A L D L' down' I H K DN. constructor; try (apply I).
  - intros e J. destruct (H e J) as (e0 & J0 & -> & _). apply (i_held _ _ _ _ _ _ _ I), J0.
  - intros e J G. destruct (H e J) as (e0 & J0 & E & G0). injection E as -> _. apply (i_grace _ _ _ _ _ _ _ I e0 J0). auto.
  - intros a J. destruct (DN a J) as [J0|(i & R & E & J0)]; [ | exists i; split; [ exact R | right; auto ] ].
    destruct (i_down _ _ _ _ _ _ _ I a J0) as (i & R & [ (E & X) | X ]); exists i; (split; [ exact R | ]); [ left; split; [ exact E | auto ] | right; exact X ].
  - intros a J. destruct (i_up _ _ _ _ _ _ _ I a J) as (x & E & R & X & G). exists x. repeat split; try tauto. auto.
  - intros e J X. apply K, (i_flag _ _ _ _ _ _ _ I); assumption.
Qed.
Lemma inv_taken : forall k ch up down A L D e cs, inv k ch up down A L D -> In e L -> flagged (h_id e) (c_queue k) ->
  cs = [ctl_join CACK (h_id e)] ->
  inv k ch up (down ++ cs) A (map (fun y => if h_id y =? h_id e then mk_held (h_id y) (h_msg y) ASD_GRACE else y) L) ([(h_id e, h_msg e)] ++ D).
Proof.
  intros k ch up down A L D e cs I IE FL ->. pose proof (i_held _ _ _ _ _ _ _ I e IE) as V.
  set (L' := map _ L). assert (IDS : map h_id L' = map h_id L) by (apply change_ids; intros y; destruct (h_id y =? h_id e); reflexivity).
  assert (KN : forall i, known i L D -> known i L' ([(h_id e, h_msg e)] ++ D)) by (intros i; apply known_mono; [ rewrite IDS; apply incl_refl | apply incl_tl, incl_refl ]).
  constructor; try (apply I).
  - intros y J. apply in_map_iff in J. destruct J as (z & <- & J). replace (hkey (if h_id z =? h_id e then _ else z)) with (hkey z) by (destruct (h_id z =? h_id e); reflexivity). apply (i_held _ _ _ _ _ _ _ I), J.
  - intros y J G. apply in_map_iff in J. destruct J as (z & <- & J). cbn [app map fst In]. destruct (Z.eqb_spec (h_id z) (h_id e)); [ left; cbn [h_id]; congruence | right; apply I; assumption ].
  - intros x [ <- | J ]; [ exact V | apply (i_got _ _ _ _ _ _ _ I), J ].
  - intros i R. destruct (i_all _ _ _ _ _ _ _ I i R) as [H|H]; [ left; exact H | right; right; exact H ].
  - intros a J. apply in_app_or in J. destruct J as [J|[<-|[]]].
    + destruct (i_down _ _ _ _ _ _ _ I a J) as (i & R & [ (E & X) | (E & X) ]); exists i; (split; [ exact R | ]); [ left; auto | right; split; [ exact E | right; exact X ] ].
    + exists (h_id e). split; [ apply (valid_range A (hkey e)), V | ]. right. split; [ reflexivity | left; reflexivity ].
  - intros a J. destruct (i_up _ _ _ _ _ _ _ I a J) as (x & E & R & X & G). exists x. repeat split; try tauto. auto.
  - intros y J X. apply KN, (i_flag _ _ _ _ _ _ _ I); assumption.
  - intros i [ <- | J ]; [ exact FL | apply I, J ].
Qed.

Lemma step_inv : forall n s o s', wf n s -> (forall c, n c + tally o c < 2^32 - 1) -> no_restart o -> (forall c, inv_of s c) -> step s o = Ok s' -> forall c, inv_of s' c.
Proof.
  intros n s o s' W B NR IA E x.
  assert (T : forall c, 0 <= tally o c) by (intros c; destruct o; cbn [tally]; try lia; destruct (_ =? _); lia).
  assert (B0 : forall c, zlen (s_accepted s c) < 2^32 - 1).
  { intros c. pose proof (wf_pos n s W c). specialize (B c). specialize (T c). rewrite <- (i_pos _ _ _ _ _ _ _ (IA c)). lia. }
  assert (BP : forall c, 0 <= c_pos (s_client s c) < 2^32 - 1) by (intros c; pose proof (wf_pos n s W c); specialize (B c); specialize (T c); lia).
  unfold inv_of. pose proof (IA x) as IX. unfold inv_of in IX.
  destruct o as [ c m | c now room | c k | c | c k accept | | c now | c | ]; cbn [step] in E; [ | | | | | | | destruct NR | destruct NR ].
  - destruct (queue_message_ok (s_client s c) m (wf_sorted n s W c) (wf_ids n s W c) (BP c)) as [ (_ & Q) | (L & q' & Q & S1 & S2 & S3) ]; rewrite Q in E; injection E as <-; [ exact IX | ].
    unfold got. cbn [s_client s_channel s_up s_down s_accepted s_receiver s_given]. fold (got s x).
    destruct (Z.eq_dec x c) as [->|N]; [ rewrite !set_same; apply inv_queue; auto | rewrite !set_other by assumption; exact IX ].
  - destruct (send_tasks_ok now (c_queue (s_client s c)) room) as (q' & ms & cs & Q & S1 & S2 & S3); [ rewrite Forall_forall; apply (wf_flags n s W c) | ].
    rewrite Q in E. injection E as <-. unfold got. cbn [s_client s_channel s_up s_down s_accepted s_receiver s_given]. fold (got s x).
    destruct (Z.eq_dec x c) as [->|N]; [ rewrite !set_same; apply inv_tick; auto; apply W | rewrite !set_other by assumption; exact IX ].
  - destruct (nth_error (s_down s c) k) as [ app | ] eqn:NE; [ | injection E as <-; exact IX ].
    destruct (client_control (s_client s c) app) as (k', cs) eqn:CC. injection E as <-. unfold got. cbn [s_client s_channel s_up s_down s_accepted s_receiver s_given]. fold (got s x).
    destruct (Z.eq_dec x c) as [->|N]; [ rewrite !set_same | rewrite !set_other by assumption; exact IX ].
    eapply inv_to_client; eauto; [ apply W | apply (wf_flags n s W c) | apply nth_error_In in NE; exact NE ].
  - destruct (s_channel s c) as [ | (i, m) rest ] eqn:CH; [ injection E as <-; exact IX | ]. destruct (possible (s_receiver s)); [ | injection E as <-; exact IX ].
    assert (V : valid (s_accepted s c) (i, m)) by (apply (i_channel _ _ _ _ _ _ _ (IA c)); rewrite CH; left; reflexivity).
    apply valid_range in V. cbn [fst] in V. specialize (B0 c). unfold receive_message in E. destruct (Z.ltb_spec (2^32 - 1) i); [ lia | ].
    assert (U : u32 i = i) by (unfold u32; apply Z.mod_small; lia). rewrite U in E.
    destruct (collect_ok (s_receiver s) c i m (wf_held n s W c)) as (q' & Q & S1 & S2). rewrite Q in E. injection E as <-.
    unfold got. cbn [s_client s_channel s_up s_down s_accepted s_receiver s_given]. fold (got s x). rewrite queue_of_set.
    destruct (Z.eqb_spec x c) as [->|N]; [ rewrite !set_same | rewrite !set_other by assumption; exact IX ]. rewrite CH in IX. eapply inv_data; [ exact IX | ]. destruct S2 as [S2|(S2 & S4 & _)]; auto.
  - destruct (nth_error (s_up s c) k) as [ app | ] eqn:NE; [ | injection E as <-; exact IX ]. apply nth_error_In in NE.
    destruct (i_up _ _ _ _ _ _ _ (IA c) app NE) as (i & -> & R & KN & FL). specialize (B0 c).
    destruct (receiver_rack accept (s_receiver s) c i (wf_held n s W c) ltac:(lia)) as (r' & d & cs & RC & C). rewrite RC in E. injection E as <-.
    unfold got. cbn [s_client s_channel s_up s_down s_accepted s_receiver s_given]. rewrite got_add. fold (got s x).
    destruct C as [ (-> & -> & ->) | [ (-> & -> & -> & C) | (-> & e & TK & EI) ] ].
    + destruct (Z.eqb_spec x c) as [->|N]; [ rewrite !set_same, app_nil_r; exact IX | rewrite !set_other by assumption; exact IX ].
    + destruct (Z.eqb_spec x c) as [->|N]; [ rewrite !set_same | rewrite !set_other by assumption; exact IX ]. cbn [app].
      apply (inv_keep _ _ _ _ _ _ _ _ _ IX); auto.
      * intros e J. exists e. auto.
      * intros a J. apply in_app_or in J. destruct J as [J|[<-|[]]]; [ left; exact J | right ]. exists i. split; [ exact R | split; [ reflexivity | ] ].
        destruct C as [ C | (e & J & E & G) ]; [ destruct KN as [KN|KN]; [ contradiction | exact KN ] | rewrite <- E; apply (i_grace _ _ _ _ _ _ _ IX); assumption ].
    + rewrite (taken_queue _ _ _ _ _ x TK). destruct TK as (G & J & -> & _ & _).
      destruct (Z.eqb_spec x c) as [->|N]; [ rewrite !set_same | rewrite !set_other by assumption; exact IX ]. subst i. apply inv_taken; auto.
  - injection E as <-. unfold got. cbn [s_client s_channel s_up s_down s_accepted s_receiver s_given]. fold (got s x).
    destruct (maintain_of (s_receiver s) x) as (k & _ & ->). apply (inv_keep _ _ _ _ _ _ _ _ _ IX); auto.
    + intros e J. destruct (update_grace_in _ _ _ J) as (e0 & J0 & (K1 & K2 & K3)). exists e0. split; [ exact J0 | ]. split; [ unfold hkey; congruence | ]. lia.
    + intros i [KN|KN]; [ | right; exact KN ]. apply in_map_iff in KN. destruct KN as (e0 & <- & J). pose proof (wf_grace n s W x e0 J).
      destruct (Z.eq_dec (h_grace e0) 0) as [Z0|NZ]; [ | right; apply (i_grace _ _ _ _ _ _ _ IX); assumption ].
      destruct (update_grace_keeps _ k e0 J ltac:(lia)) as (e & J1 & (K1 & _)). left. rewrite <- K1. apply in_map, J1.
  - injection E as <-. unfold got. cbn [s_client s_channel s_up s_down s_accepted s_receiver s_given]. fold (got s x).
    destruct (Z.eq_dec x c) as [->|N]; [ rewrite !set_same | rewrite !set_other by assumption; exact IX ].
    assert (K : forall e e', e' = (if t_time e =? 0 then e else mk_sent (t_id e) (t_msg e) (t_flags e) (u64 (now - 2 * ASD_RESEND_INTERVAL))) -> key e' = key e /\ t_flags e' = t_flags e /\ t_id e' = t_id e)
      by (intros e e' ->; destruct (t_time e =? 0); repeat split; reflexivity).
    assert (F : forall i, flagged i (c_queue (s_client s c)) -> flagged i (reset_send_times now (c_queue (s_client s c)))).
    { intros i H e' J' EQ. apply in_map_iff in J'. destruct J' as (e & E & J). destruct (K e e' (eq_sym E)) as (_ & -> & K2). apply H; congruence. }
    constructor; cbn [c_pos c_queue]; try (apply IX).
    + intros e' J'. apply in_map_iff in J'. destruct J' as (e & E & J). destruct (K e e' (eq_sym E)) as (-> & _). apply IX, J.
    + intros y [].
    + intros i R. destruct (i_all _ _ _ _ _ _ _ IX i R) as [H|H]; [ left | right; exact H ]. unfold reset_send_times. rewrite change_ids; [ exact H | ]. intros e. destruct (K e _ eq_refl) as (_ & _ & ->). reflexivity.
    + intros a J. destruct (i_up _ _ _ _ _ _ _ IX a J) as (i & E & R & X & G). exists i. auto.
    + intros e' J' H. apply in_map_iff in J'. destruct J' as (e & E & J). destruct (K e e' (eq_sym E)) as (_ & KF & ->). apply (i_flag _ _ _ _ _ _ _ IX); [ exact J | congruence ].
    + intros i J. apply F, IX, J.
Qed.
Lemma inv_start : forall c, inv_of start c.
Proof.
  intros c. change (inv new_client [] [] [] [] [] []). constructor; try (intros ? ?; contradiction); [ reflexivity | ].
  intros i R. change (zlen (@nil message)) with 0 in R. lia.
Qed.
Lemma run_inv : forall os n s s', wf n s -> (forall c, n c + queued c os < 2^32 - 1) -> Forall no_restart os -> (forall c, inv_of s c) -> run s os = Ok s' -> forall c, inv_of s' c.
Proof.
  induction os as [ | o os IH ]; intros n s s' W B NR I E; cbn [run] in E.
  - injection E as <-. exact I.
  - assert (B1 : forall c, n c + tally o c < 2^32 - 1) by (intros c; specialize (B c); rewrite queued_cons in B; pose proof (queued_nonneg c os); lia).
    destruct (step_wf n s o W B1) as (s1 & E1 & W1). rewrite E1 in E. inversion NR; subst.
    apply (IH _ s1 s' W1); auto.
    + intros c. specialize (B c). rewrite queued_cons in B. lia.
    + exact (step_inv n s o s1 W B1 H1 I E1).
Qed.

Lemma no_loss_lemma : forall os s c, few os -> Forall no_restart os -> run start os = Ok s ->
  incl (accepted s c) (delivered s c ++ outstanding s c) /\ incl (delivered s c) (accepted s c).
Proof.
  intros os s c FW NR E. pose proof (run_inv os (fun _ => 0) start s wf_start (fun c => FW c) NR inv_start E c) as I.
  assert (INJ : forall x y, valid (s_accepted s c) x -> valid (s_accepted s c) y -> fst x = fst y -> snd x = snd y) by (intros x y (_ & X) (_ & Y) EQ; rewrite EQ in X; congruence).
  split.
  - intros m J. apply In_nth_error in J. destruct J as (p & J). set (i := Z.of_nat p + 1).
    assert (V : valid (s_accepted s c) (i, m)) by (split; cbn [fst snd]; [ lia | replace (Z.to_nat (i - 1)) with p by lia; exact J ]).
    apply in_or_app. destruct (i_all _ _ _ _ _ _ _ I i (valid_range _ _ V)) as [H|H]; apply in_map_iff in H; destruct H as (e & EQ & H).
    + right. unfold outstanding. pose proof (INJ (key e) (i, m) (i_queue _ _ _ _ _ _ _ I e H) V EQ) as EM. cbn [snd key] in EM. rewrite <- EM. apply (in_map t_msg), H.
    + left. rewrite delivered_got. pose proof (INJ e (i, m) (i_got _ _ _ _ _ _ _ I e H) V EQ) as EM. cbn [snd] in EM. rewrite <- EM. apply in_map, H.
  - intros m J. rewrite delivered_got in J. apply in_map_iff in J. destruct J as (x & <- & J). destruct (i_got _ _ _ _ _ _ _ I x J) as (_ & H). apply nth_error_In in H. exact H.
Qed.
