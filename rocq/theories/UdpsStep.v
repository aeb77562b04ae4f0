(** The invariant of UDP-streams is kept by every step. *)
From Coq Require Import ZArith List Bool Lia.
From Verif Require Import Common MsgModel ReadModel UdpsModel UdpsSpec UdpsProofs UdpsInv.
Import ListNotations.
Open Scope Z_scope.

Definition kept (valid : list Z -> bool) (e' p : endpoint) : Prop := dir valid e' p /\ dir valid p e'.

Lemma make_in_ids : forall fuel id app data i, id <= i < id + zlen (make_frames fuel id app data) -> In i (ids (make_frames fuel id app data)).
Proof.
  intros fuel id app data i H. destruct (nth_error (make_frames fuel id app data) (Z.to_nat (i - id))) as [ f | ] eqn:N.
  - apply in_ids. exists f. split; [ eapply nth_error_In; exact N | ]. pose proof (make_ids _ _ _ _ _ _ N). lia.
  - apply nth_error_None in N. unfold zlen in H. lia.
Qed.
Lemma step_queue : forall valid e p s app data, zlen data < 2^32 -> e_stream e = Some s -> dir valid e p -> dir valid p e ->
  exists e', end_step valid e p (Queue app data) = Ok (Some e') /\ kept valid e' p.
Proof.
  intros valid e p s app data SZ Es D D'. unfold end_step. rewrite Es. unfold queue_data.
  destruct (BUFFER_LIMIT <=? zlen (s_send s)).
  { eexists. split; [ reflexivity | ]. split.
    - eapply dir_sender_same with (o := []); [ exact D | reflexivity | cbn; now rewrite app_nil_r | constructor | ]. cbn [e_stream]. intros s' E. injection E as <-. eauto.
    - eapply dir_receiver_same with (o := []); [ exact D' | reflexivity | cbn; now rewrite app_nil_r | constructor | ]. cbn [e_stream]. intros s' E. injection E as <-. eauto. }
  destruct (FRAME_ID_LIMIT <? s_send_counter s + (zlen data / DATA_SIZE_LIMIT + 1)) eqn:LIM.
  { eexists. split; [ reflexivity | ]. split.
    - eapply dir_sender_same with (o := []); [ exact D | reflexivity | cbn; now rewrite app_nil_r | constructor | ]. cbn [e_stream]. intros s' E. injection E as <-. eauto.
    - eapply dir_receiver_same with (o := []); [ exact D' | reflexivity | cbn; now rewrite app_nil_r | constructor | ]. cbn [e_stream]. intros s' E. injection E as <-. eauto. }
  cbv zeta. set (fs := make_frames (length data) (s_send_counter s + 1) app data).
  eexists. split; [ reflexivity | ]. change (0 =? 0) with true. cbv iota.
  split; [ | eapply dir_receiver_same with (o := []); [ exact D' | reflexivity | cbn; now rewrite app_nil_r | constructor | ]; cbn [e_stream]; intros s' E; injection E as <-; exists s; auto ].
  destruct D as (D1 & D2 & D3 & D4 & D5 & D6 & D7). destruct (D3 s Es) as (C & A & K).
  pose proof (make_count (length data) (s_send_counter s + 1) app data) as MC. fold fs in MC.
  set (q := e_queued e) in *. assert (QE : all_cores (q ++ [(app, data)]) = all_cores q ++ cores fs).
  { unfold all_cores. rewrite frames_app. unfold cores. rewrite map_app. f_equal. cbn [frames_from]. cbv zeta. rewrite app_nil_r. unfold fs.
    assert (zlen (frames_from 1 q) = s_send_counter s) as -> by (rewrite C; unfold all_cores; now rewrite zlen_cores). now rewrite Z.add_comm. }
  assert (KQ : Forall (known (all_cores q ++ cores fs)) fs).
  { rewrite <- QE. apply Forall_forall. intros f I. apply frames_known. rewrite frames_app. apply in_or_app. right. cbn [frames_from]. cbv zeta. rewrite app_nil_r.
    assert (zlen (frames_from 1 q) = s_send_counter s) as -> by (rewrite C; unfold all_cores; now rewrite zlen_cores). rewrite Z.add_comm. exact I. }
  assert (W : forall l, Forall (known (all_cores q)) l -> Forall (known (all_cores q ++ cores fs)) l) by (intros l; apply Forall_impl; intros f; apply known_app).
  unfold dir, recv_ok. cbn [e_queued e_stream e_out e_delivered]. fold q. rewrite QE, zlen_app, zlen_cores.
  split; [ apply Forall_app; split; [ exact D1 | constructor; [ exact SZ | constructor ] ] | ].
  split; [ lia | ].
  split.
  { intros s' E. injection E as <-. cbn [s_send_counter s_send]. split; [ lia | ]. split; [ | apply Forall_app; split; [ now apply W | exact KQ ] ].
    apply ascending_join with (mid := s_send_counter s); [ rewrite C; apply zlen_nonneg | exact A | | ].
    - eapply Forall_impl; [ | exact K ]. intros f Kf. apply known_bound in Kf. lia.
    - pose proof (make_ascending (length data) (s_send_counter s + 1) app data) as MA. now replace (s_send_counter s + 1 - 1) with (s_send_counter s) in MA by lia. }
  split. { eapply Forall_impl; [ | exact D4 ]. intros pk [ H | [ H | [ H | H ] ] ]; unfold data_ok; auto. right. right. right. now apply known_app. }
  split. { destruct D5 as (dn & td & E1 & E2 & E3). exists dn, (td ++ [(app, data)]). fold q in E1. split; [ rewrite E1; now rewrite app_assoc | ]. split; [ exact E2 | ]. intros t Et. destruct (E3 t Et) as (F1 & F2 & F3). auto. }
  split; [ exact D6 | ].
  intros s' t E Et i I. injection E as <-. cbn [s_send]. unfold ids. rewrite map_app.
  destruct (Z.leb_spec i (zlen (all_cores q))) as [ H | H ].
  - destruct (D7 s t Es Et i ltac:(unfold q in *; lia)) as [ J | J ]; [ left; apply in_or_app; left; exact J | right; exact J ].
  - left. apply in_or_app. right. apply make_in_ids. fold fs. lia.
Qed.

Lemma frame_data_ok : forall Q s f g, known Q g -> core f = core g -> data_ok Q (frame_packet s f).
Proof. intros Q s f g K E. right. right. right. eapply known_core; [ | exact K ]. unfold core in *. cbn. congruence. Qed.
Lemma not_ack : forall q s f g, known (all_cores q) g -> core f = core g -> ftype (p_ft (frame_packet s f)) <> TYPE_ACK.
Proof. intros q s f g K E. cbn [frame_packet p_ft]. apply known_type in K. unfold core in E. injection E as _ E _ _. rewrite E, K. discriminate. Qed.
Lemma sent_packets : forall q s l out, Forall (known (all_cores q)) l -> Forall (fun f => exists g, In g l /\ core f = core g) out ->
  Forall (data_ok (all_cores q)) (map (frame_packet s) out) /\ Forall (fun p => ftype (p_ft p) <> TYPE_ACK) (map (frame_packet s) out).
Proof.
  intros q s l out K O. rewrite Forall_forall in K. split; apply Forall_map; (eapply Forall_impl; [ | exact O ]); cbv beta; intros f (g & I & E); [ eapply frame_data_ok | eapply not_ack ]; eauto.
Qed.
Lemma step_send : forall valid e p s now, e_stream e = Some s -> dir valid e p -> dir valid p e ->
  exists r, end_step valid e p (Send now) = Ok r /\ match r with Some e' => kept valid e' p | None => True end.
Proof.
  intros valid e p s now Es D D'. unfold end_step. rewrite Es. destruct (negb (s_pending s)); [ exists None; split; [ reflexivity | exact I ] | ].
  pose proof D as (_ & _ & D3 & _). destruct (D3 s Es) as (C & A & K). unfold event_send.
  destruct (send_loop_spec (s_send s) now (s_from_remote s) 0 0) as (l' & out & c & -> & CL & O). { eapply Forall_impl; [ | exact K ]. intros f Kf. apply known_bound in Kf. lia. }
  eexists. split; [ reflexivity | ]. cbv iota beta.
  destruct (sent_packets _ s _ _ K O) as (P1 & P2).
  split.
  - eapply dir_sender; [ exact D | reflexivity | reflexivity | exact P1 | ]. cbn [on_stream e_stream]. intros s' E. exists s. split; [ exact Es | ].
    assert (X : s_send_counter s' = s_send_counter s /\ s_send s' = l') by (injection E as <-; destruct c; auto). destruct X as (-> & ->). split; [ reflexivity | ].
    split; [ eapply ascending_ids; [ apply ids_cores; symmetry; exact CL | exact A ] | ]. split; [ eapply known_cores; [ symmetry; exact CL | exact K ] | ]. intros i I. left. rewrite (ids_cores _ _ CL). exact I.
  - eapply dir_receiver_same; [ exact D' | reflexivity | reflexivity | exact P2 | ]. cbn [on_stream e_stream]. intros s' E. exists s. split; [ exact Es | ]. injection E as <-. destruct c; auto.
Qed.

Lemma step_receive_gone : forall valid e p now i, e_stream e = None -> dir valid e p -> dir valid p e ->
  exists r, end_step valid e p (Receive now i) = Ok r /\ match r with Some e' => kept valid e' p | None => True end.
Proof.
  intros valid e p now i Es D D'. unfold end_step. rewrite Es. destruct (nth_error (e_out p) i) as [ pk | ]; [ | exists None; split; [ reflexivity | exact I ] ].
  eexists. split; [ reflexivity | ]. cbv iota beta.
  assert (R : Forall (fun p => ftype (p_ft p) = TYPE_RESET) (handle_unknown pk)) by (unfold handle_unknown; destruct (_ || _); [ constructor | apply repeat_Forall; reflexivity ]).
  split; [ eapply dir_sender_gone | eapply dir_receiver_gone ]; eauto; reflexivity.
Qed.

Lemma step_receive : forall valid e p s now i, e_stream e = Some s -> dir valid e p -> dir valid p e ->
  exists r, end_step valid e p (Receive now i) = Ok r /\ match r with Some e' => kept valid e' p | None => True end.
Proof.
  intros valid e p s now i Es D D'. unfold end_step. rewrite Es. destruct (nth_error (e_out p) i) as [ pk | ] eqn:NT; [ | exists None; split; [ reflexivity | exact I ] ].
  apply nth_error_In in NT. unfold handle_frame.
  assert (NOTHING : forall s' c, s_send_counter s' = s_send_counter s -> s_send s' = s_send s -> s_prev s' = s_prev s -> s_recv s' = s_recv s ->
    kept valid (mk_endpoint (Some s') (e_out e ++ []) (e_queued e) (e_delivered e) c (e_freed e)) p).
  { intros s' c H1 H2 H3 H4. split.
    - eapply dir_sender_same with (o := []); [ exact D | reflexivity | reflexivity | constructor | ]. cbn [e_stream]. intros t E. injection E as <-. exists s. auto.
    - eapply dir_receiver_same with (o := []); [ exact D' | reflexivity | reflexivity | constructor | ]. cbn [e_stream]. intros t E. injection E as <-. exists s. auto. }
  assert (GONE : forall o c b, Forall (fun p => ftype (p_ft p) = TYPE_RESET) o -> kept valid (mk_endpoint None (e_out e ++ o) (e_queued e) (e_delivered e) c b) p).
  { intros o c b O. split; [ eapply dir_sender_gone | eapply dir_receiver_gone ]; eauto; reflexivity. }
  destruct (p_version pk <? VERSION_MINIMUM). { eexists. split; [ reflexivity | ]. cbv iota beta. apply NOTHING; reflexivity. }
  destruct (Z.eqb_spec (ftype (p_ft pk)) TYPE_RESET) as [ T0 | T0 ].
  { destruct (p_id pk =? 0); [ eexists; split; [ reflexivity | ]; cbv iota beta; apply GONE; constructor | ].
    destruct (p_id pk =? s_handle s); eexists; (split; [ reflexivity | ]); cbv iota beta; [ apply GONE; constructor | apply NOTHING; reflexivity ]. }
  set (s1 := if has_window (p_ft pk) then _ else s).
  assert (S1 : s_send_counter s1 = s_send_counter s /\ s_send s1 = s_send s /\ s_prev s1 = s_prev s /\ s_recv s1 = s_recv s) by (unfold s1; destruct (has_window (p_ft pk)); repeat split; reflexivity).
  destruct S1 as (S1 & S2 & S3 & S4).
  destruct (Z.eqb_spec (ftype (p_ft pk)) TYPE_ACK) as [ T1 | T1 ].
  { unfold handle_ack. set (ns := if ack_first pk =? ack_last pk then _ else _). destruct ns as (nag, s2) eqn:NS.
    assert (S2' : s_send_counter s2 = s_send_counter s /\ s_send s2 = s_send s /\ s_prev s2 = s_prev s /\ s_recv s2 = s_recv s).
    { unfold ns in NS. destruct (ack_first pk =? ack_last pk); [ destruct (ack_last pk =? s_last_ack s1) | ]; injection NS as _ <-; auto. }
    destruct S2' as (U1 & U2 & U3 & U4). clear ns NS.
    pose proof D as (_ & _ & D3 & _). destruct (D3 s Es) as (C & A & K).
    pose proof (ack_loop_spec (s_send s2) 0 now (ack_first pk) (ack_last pk) nag ltac:(rewrite U2; exact A)) as AL.
    destruct (ack_loop now (ack_first pk) (ack_last pk) nag (s_send s2)) as (l', out). destruct AL as (A' & G & R). rewrite U2 in G, R.
    assert (O : Forall (fun f => exists g, In g (s_send s) /\ core f = core g) out) by (apply Forall_forall; intros f I; apply G; auto).
    destruct (sent_packets _ s2 _ _ K O) as (P1 & P2).
    eexists. split; [ reflexivity | ]. cbv iota beta. split.
    - eapply dir_sender; [ exact D | reflexivity | reflexivity | exact P1 | ]. cbn [e_stream]. intros s' E. injection E as <-. exists s. split; [ exact Es | ]. cbn [set_send s_send_counter s_send].
      split; [ exact U1 | ]. split; [ exact A' | ]. split.
      + apply Forall_forall. intros f I. destruct (G f (or_introl I)) as (g & J & E). rewrite Forall_forall in K. eapply known_core; [ symmetry; exact E | auto ].
      + intros j J. destruct (R j J) as [ B | B ]; [ right | left; exact B ]. intros t Et. destruct D as (_ & _ & _ & _ & _ & D6 & _). specialize (D6 t Et). rewrite Forall_forall in D6. apply (D6 pk NT T1 j B).
    - eapply dir_receiver_same; [ exact D' | reflexivity | reflexivity | exact P2 | ]. cbn [e_stream]. intros s' E. injection E as <-. exists s. auto. }
  destruct (Z.eqb_spec (ftype (p_ft pk)) TYPE_CONTROL) as [ T2 | T2 ]. { eexists. split; [ reflexivity | ]. cbv iota beta. apply NOTHING; assumption. }
  destruct (p_id pk =? 0) eqn:ID0. { eexists. split; [ reflexivity | ]. cbv iota beta. apply NOTHING; assumption. }
  destruct ((s_recv_counter s1 =? 0) && negb (p_id pk =? 1)). { eexists. split; [ reflexivity | ]. cbv iota beta. apply GONE. cbv zeta. repeat (constructor; [ reflexivity | ]). constructor. }
  set (s3 := if p_id pk =? u32 (s_recv_counter s1 + 1) then _ else s1).
  assert (S3' : s_send_counter s3 = s_send_counter s /\ s_send s3 = s_send s /\ s_prev s3 = s_prev s /\ s_recv s3 = s_recv s) by (unfold s3; destruct (p_id pk =? u32 (s_recv_counter s1 + 1)); auto).
  destruct S3' as (V1 & V2 & V3 & V4). cbv zeta. rewrite V4. fold (packet_frame pk).
  assert (KN : known (all_cores (e_queued p)) (packet_frame pk)).
  { destruct D' as (_ & _ & _ & D4 & _). rewrite Forall_forall in D4. destruct (D4 _ NT) as [ H | [ H | [ H | H ] ] ]; congruence || exact H. }
  pose proof D' as (_ & _ & _ & _ & (dn & td & Q1 & Q2 & Q3) & _). destruct (Q3 s Es) as (B1 & B2 & B3).
  destruct (insert_frame_spec (s_recv s) (packet_frame pk)) as (l' & -> & I1 & I2 & I3 & I4); [ apply known_bound in KN; lia | exact B2 | ].
  eexists. split; [ reflexivity | ]. cbv iota beta. split.
  - eapply dir_sender_same with (o := []); [ exact D | reflexivity | reflexivity | constructor | ]. cbn [e_stream]. intros s' E. injection E as <-. exists s. auto.
  - eapply dir_receiver with (o := []); [ exact D' | | reflexivity | ].
    + exists dn, td. split; [ exact Q1 | ]. split; [ exact Q2 | ]. cbn [e_stream]. intros s' E. injection E as <-. cbn [set_recv s_prev s_recv]. rewrite V3. split; [ exact B1 | ]. split; [ exact I1 | ].
      apply Forall_forall. intros g J. destruct (I2 g J) as [ -> | J' ]; [ exact KN | ]. rewrite Forall_forall in B3. auto.
    + cbn [e_stream]. intros s' E. injection E as <-. exists s. split; [ exact Es | ]. split; [ | constructor ]. intros j [ H | H ]; [ left; cbn [set_recv s_prev]; now rewrite V3 | right ].
      cbn [set_recv s_recv]. apply in_ids in H as (g & J & <-). apply in_ids. exists g. auto.
Qed.

Lemma step_deliver : forall valid e p s possible cb, e_stream e = Some s -> dir valid e p -> dir valid p e ->
  exists e', end_step valid e p (Deliver possible cb) = Ok (Some e') /\ kept valid e' p.
Proof.
  intros valid e p s possible cb Es D D'. unfold end_step. rewrite Es. unfold event_deliver.
  pose proof D' as (Z1 & Z2 & _ & _ & (dn & td & Q1 & Q2 & Q3) & _). destruct (Q3 s Es) as (B1 & B2 & B3). rewrite Q1 in Z1.
  assert (PB : 0 <= s_prev s <= FRAME_ID_LIMIT).
  { rewrite B1. split; [ apply zlen_nonneg | ]. rewrite Q1 in Z2. unfold all_cores in Z2. rewrite frames_app, zlen_cores, zlen_app in Z2. match type of Z2 with _ + zlen ?x <= _ => pose proof (zlen_nonneg _ x) end. lia. }
  assert (FL : FRAME_ID_LIMIT < 2^32) by reflexivity.
  pose proof (ack_list_spec (fun i => has_frame s i) (s_prev s) (s_recv s) 0 0 (s_regulation s) ltac:(lia) ltac:(left; lia) ltac:(left; auto) B2) as AL.
  destruct (ack_list (s_prev s) 0 0 (s_regulation s) (s_recv s)) as ((l, acks), adjust).
  destruct AL as (CL & AK). { apply Forall_forall. intros f I. rewrite Forall_forall in B3. pose proof (known_bound _ _ (B3 f I)). split; [ lia | ]. right. apply in_ids. eauto. }
  set (s1 := set_windows _ _ _ _).
  pose proof (send_acks_keep acks s1 adjust) as SA. destruct (send_acks s1 adjust acks) as (s2, out).
  destruct SA as (H1 & H2 & H3 & H4 & H5 & H6 & H7 & H8 & H9). cbn [s1 set_windows set_recv s_send s_send_counter s_recv s_prev] in *.
  assert (A' : ascending 0 l) by (eapply ascending_ids; [ apply ids_cores; symmetry; exact CL | exact B2 ]).
  assert (K' : Forall (known (all_cores (dn ++ td))) l) by (rewrite <- Q1; eapply known_cores; [ symmetry; exact CL | exact B3 ]).
  rewrite H6, B1.
  destruct (deliver_spec (S (length l)) valid possible cb 0 dn td l Z1 A' K') as (ret & l' & prev' & ms & mid & td' & -> & E1 & E2 & E3 & E4 & E5 & E6 & E7).
  eexists. split; [ reflexivity | ].
  assert (HF : forall s' i, s_prev s' = prev' -> s_recv s' = l' -> has_frame s i -> has_frame s' i).
  { intros s' i P R [ H | H ]; [ left; rewrite P; lia | ]. rewrite <- (ids_cores _ _ CL) in H. apply in_ids in H as (f & I & <-). destruct (E7 f I) as [ J | J ]; [ left; rewrite P; exact J | right; rewrite R; apply in_ids; eauto ]. }
  split.
  - eapply dir_sender_same; [ exact D | reflexivity | reflexivity | | ].
    + eapply Forall_impl; [ | exact H9 ]. cbv beta. intros pk (a & w & _ & ->). right. left. apply ftype_ack.
    + cbn [e_stream]. intros s' E. exists s. split; [ exact Es | ]. destruct (ret =? 0); [ injection E as <-; auto | discriminate ].
  - eapply dir_receiver; [ exact D' | | reflexivity | ].
    + exists (dn ++ mid), td'. split; [ rewrite Q1, E1, app_assoc; reflexivity | ]. split; [ cbn [e_delivered]; rewrite Q2, E2; symmetry; apply expected_app | ].
      cbn [e_stream]. intros s' E. destruct (ret =? 0); [ injection E as <- | discriminate ]. cbn [s_prev s_recv]. rewrite Q1. auto.
    + cbn [e_stream]. intros s' E. destruct (ret =? 0); [ | discriminate ]. assert (P : s_prev s' = prev' /\ s_recv s' = l') by (injection E as <-; auto). destruct P as (P & R).
      exists s. split; [ exact Es | ]. split; [ intros i; now apply HF | ]. eapply Forall_impl; [ | exact H9 ]. cbv beta. intros pk (a & w & I & ->) _ i B.
      rewrite Forall_forall in AK. destruct (AK a I) as (R1 & R2 & R3). destruct (ack_ids s1 a w R1 R2) as (F1 & F2). rewrite F1, F2 in B. apply HF; auto.
Qed.

Lemma step_other : forall valid e p s l, match l with Control _ | Regulate _ | Timeout => True | _ => False end -> e_stream e = Some s -> dir valid e p -> dir valid p e ->
  exists e', end_step valid e p l = Ok (Some e') /\ kept valid e' p.
Proof.
  intros valid e p s l L Es D D'. unfold end_step. rewrite Es. destruct l; try contradiction; (eexists; split; [ reflexivity | ]); split.
  - eapply dir_sender_same; [ exact D | reflexivity | reflexivity | constructor; [ right; right; left; reflexivity | constructor ] | ]. cbn [on_stream e_stream]. intros s' E. injection E as <-. exists s. auto.
  - eapply dir_receiver_same; [ exact D' | reflexivity | reflexivity | constructor; [ discriminate | constructor ] | ]. cbn [on_stream e_stream]. intros s' E. injection E as <-. exists s. auto.
  - eapply dir_sender_same; [ exact D | reflexivity | reflexivity | constructor | ]. cbn [on_stream e_stream]. intros s' E. injection E as <-. exists s. auto.
  - eapply dir_receiver_same; [ exact D' | reflexivity | reflexivity | constructor | ]. cbn [on_stream e_stream]. intros s' E. injection E as <-. exists s. auto.
  - eapply dir_sender_gone; [ exact D | reflexivity | reflexivity | apply repeat_Forall; reflexivity | reflexivity ].
  - eapply dir_receiver_gone; [ exact D' | reflexivity | reflexivity | reflexivity ].
Qed.
Lemma end_step_ok : forall valid e p l, label_ok l -> dir valid e p -> dir valid p e ->
  exists r, end_step valid e p l = Ok r /\ match r with Some e' => kept valid e' p | None => True end.
Proof.
  intros valid e p l L D D'. destruct (e_stream e) as [ s | ] eqn:Es.
  - destruct l as [ app data | now | now i | possible cb | app | change | ].
    + destruct (step_queue valid e p s app data L Es D D') as (e' & -> & K). eauto.
    + eapply step_send; eauto.
    + eapply step_receive; eauto.
    + destruct (step_deliver valid e p s possible cb Es D D') as (e' & -> & K). eauto.
    + destruct (step_other valid e p s (Control app) I Es D D') as (e' & -> & K). eauto.
    + destruct (step_other valid e p s (Regulate change) I Es D D') as (e' & -> & K). eauto.
    + destruct (step_other valid e p s Timeout I Es D D') as (e' & -> & K). eauto.
  - destruct l; try (exists None; unfold end_step; rewrite Es; auto; fail). now apply step_receive_gone.
Qed.
Definition inv (valid : list Z -> bool) (y : system) : Prop := dir valid (fst y) (snd y) /\ dir valid (snd y) (fst y).
Lemma step_ok : forall valid y who l, label_ok l -> inv valid y -> exists r, step valid y who l = Ok r /\ match r with Some y' => inv valid y' | None => True end.
Proof.
  intros valid (a, b) who l L (D & D'). unfold step. cbn [fst snd] in *. destruct who.
  - destruct (end_step_ok valid a b l L D D') as ([ a' | ] & -> & K); eexists; (split; [ reflexivity | ]); [ exact K | exact I ].
  - destruct (end_step_ok valid b a l L D' D) as ([ b' | ] & -> & K); eexists; (split; [ reflexivity | ]); [ destruct K; split; assumption | exact I ].
Qed.
Lemma run_ok : forall valid ls y, Forall (fun l => label_ok (snd l)) ls -> inv valid y -> exists r, run valid y ls = Ok r /\ match r with Some y' => inv valid y' | None => True end.
Proof.
  induction ls as [ | (who, l) ls IH ]; intros y F H; cbn [run]; [ exists (Some y); auto | ]. inversion F; subst.
  destruct (step_ok valid y who l ltac:(assumption) H) as ([ y' | ] & -> & K); [ apply IH; auto | exists None; auto ].
Qed.
Lemma new_dir : forall valid id handle, dir valid (new_endpoint id handle) (new_endpoint id handle).
Proof.
  intros valid id handle. unfold dir, recv_ok, new_endpoint. cbn [e_queued e_stream e_out e_delivered]. split; [ constructor | ]. split; [ unfold zlen, FRAME_ID_LIMIT; cbn; lia | ].
  split. { intros s E. injection E as <-. cbn. repeat split; constructor. }
  split; [ constructor | ]. split. { exists [], []. split; [ reflexivity | ]. split; [ reflexivity | ]. intros s E. injection E as <-. cbn. repeat split; constructor. }
  split; [ constructor | ]. intros s t _ _ i H. unfold zlen in H. cbn in H. lia.
Qed.
Lemma run_new : forall valid id handle ls, Forall (fun l => label_ok (snd l)) ls -> exists r, run valid (new_system id handle) ls = Ok r /\ match r with Some y => inv valid y | None => True end.
Proof. intros. apply run_ok; auto. split; apply new_dir. Qed.
Lemma reachable_inv : forall valid y, reachable valid y -> inv valid y.
Proof. intros valid y (id & handle & ls & F & R). destruct (run_new valid id handle ls F) as (r & E & K). rewrite R in E. injection E as <-. exact K. Qed.
