(** Proofs about UDP-streams with hostile peers, and about lost datagrams. *)
From Coq Require Import ZArith List Bool Lia.
From Verif Require Import Common MsgModel ReadModel UdpsModel UdpsSpec UdpsProofs UdpsInv UdpsStep UdpsMore.
Import ListNotations.
Open Scope Z_scope.

Fixpoint data_sum (l : list frame) : Z := match l with [] => 0 | f :: r => zlen (fr_data f) + data_sum r end.
Lemma data_sum_nonneg : forall l, 0 <= data_sum l.
Proof. induction l as [ | f l IH ]; cbn [data_sum]; [ lia | pose proof (zlen_nonneg _ (fr_data f)); lia ]. Qed.
Lemma data_sum_app : forall a b, data_sum (a ++ b) = data_sum a + data_sum b.
Proof. induction a as [ | f a IH ]; intros b; cbn [data_sum List.app]; [ lia | rewrite IH; lia ]. Qed.
Lemma data_sum_joined : forall l, zlen (joined l) = data_sum l.
Proof. induction l as [ | f l IH ]; [ reflexivity | ]. unfold joined in *. cbn [map concat data_sum]. rewrite zlen_app, IH. reflexivity. Qed.
Lemma data_sum_cores : forall a b, cores a = cores b -> data_sum a = data_sum b.
Proof.
  induction a as [ | f a IH ]; intros [ | g b ] E; try discriminate; [ reflexivity | ]. unfold cores in E. cbn [map] in E. assert (E1 : core f = core g) by congruence. assert (E2 : map core a = map core b) by congruence.
  cbn [data_sum]. rewrite (IH b E2). unfold core in E1. assert (fr_data f = fr_data g) as -> by congruence. reflexivity.
Qed.
Lemma insert_sum : forall l f max l', insert f max l = Ok l' -> data_sum l' <= data_sum l + zlen (fr_data f).
Proof.
  induction l as [ | g r IH ]; intros f max l' H; cbn [insert] in H; pose proof (zlen_nonneg _ (fr_data f)) as Z0.
  - injection H as <-. cbn [data_sum]. lia.
  - destruct (fr_id g =? fr_id f); [ injection H as <-; lia | ]. destruct (fr_id f <? fr_id g); [ injection H as <-; cbn [data_sum]; lia | ]. destruct (fr_id g <? max); [ discriminate | ].
    destruct (insert f (fr_id g) r) as [ r' | | ] eqn:Q; try discriminate. injection H as <-. apply IH in Q. cbn [data_sum]. lia.
Qed.
Lemma insert_frame_sum : forall l f l', insert_frame f l = Ok l' -> data_sum l' <= data_sum l + zlen (fr_data f).
Proof.
  intros l f l' H. unfold insert_frame in H. destruct (match rev l with [] => false | g :: _ => fr_id g <? fr_id f end); [ | eapply insert_sum; exact H ].
  injection H as <-. rewrite data_sum_app. cbn [data_sum]. lia.
Qed.
Lemma ack_list_cores : forall l prev first last adjust, cores (fst (fst (ack_list prev first last adjust l))) = cores l.
Proof.
  induction l as [ | f r IH ]; intros prev first last adjust; [ reflexivity | ]. cbn [ack_list].
  assert (NEXT : forall fst0 adj g (add : list (Z * Z)), core g = core f ->
    cores (fst (fst (let '(r', acks, adjust) := ack_list prev fst0 (fr_id f) adj r in (g :: r', add ++ acks, adjust)))) = cores (f :: r)).
  { intros fst0 adj g add CG. specialize (IH prev fst0 (fr_id f) adj). destruct (ack_list prev fst0 (fr_id f) adj r) as ((r', acks), ad). cbn [fst] in *. unfold cores in *. cbn [map]. now rewrite IH, CG. }
  destruct (_ && _ && _ && _); [ now apply NEXT | ]. destruct (_ && _ && _); [ now apply NEXT | ]. destruct r; [ | now apply NEXT ]. destruct (_ <=? 0); now apply NEXT.
Qed.
Lemma deliver_safe : forall fuel valid possible cb n prev l, 0 <= prev -> ascending 0 l -> data_sum l < 2^32 ->
  exists ret l' prev' ms, deliver fuel valid possible cb n prev l = Ok (ret, l', prev', ms) /\ 0 <= prev' /\ ascending 0 l' /\ data_sum l' <= data_sum l.
Proof.
  induction fuel as [ | fuel IH ]; intros valid possible cb n prev l P A S; cbn [deliver]; [ do 4 eexists; split; [ reflexivity | ]; repeat split; auto; lia | ].
  destruct (negb (possible n)); [ do 4 eexists; split; [ reflexivity | ]; repeat split; auto; lia | ].
  destruct (scan_old l prev P A) as (o & b & -> & O & B & ->). rewrite data_sum_app in *. pose proof (data_sum_nonneg o). apply ascending_app_r in A.
  pose proof (scan_new b prev 0 0 P ltac:(lia) ltac:(now rewrite Z.add_0_r)) as SN.
  destruct (scan prev 0 0 b) as [ (l', [ (m, rest) | ]) | | ]; try contradiction.
  2: { subst l'. do 4 eexists. split; [ reflexivity | ]. repeat split; auto; lia. }
  destruct SN as (-> & -> & (x & y & -> & _ & _) & N). rewrite last_app. rewrite data_sum_app in *. pose proof (data_sum_nonneg (x ++ [y])). pose proof (data_sum_nonneg rest). cbv zeta.
  rewrite data_sum_joined. assert (u32 (data_sum (x ++ [y])) =? data_sum (x ++ [y]) = true) as -> by (unfold u32; apply Z.eqb_eq, Z.mod_small; lia). cbn [negb].
  assert (Y : 0 <= fr_id y). { rewrite (N (length x) y); [ lia | ]. rewrite nth_error_app2, Nat.sub_diag; [ reflexivity | lia ]. }
  apply ascending_app_r in A.
  destruct (negb (valid _)).
  - destruct (IH valid possible cb n (fr_id y) rest Y A ltac:(lia)) as (ret & l2 & p2 & ms & -> & R1 & R2 & R3). do 4 eexists. split; [ reflexivity | ]. repeat split; auto; lia.
  - destruct (negb (cb n =? 0)); [ do 4 eexists; split; [ reflexivity | ]; repeat split; auto; lia | ].
    destruct (IH valid possible cb (n + 1) (fr_id y) rest Y A ltac:(lia)) as (ret & l2 & p2 & ms & -> & R1 & R2 & R3). do 4 eexists. split; [ reflexivity | ]. repeat split; auto; lia.
Qed.
(** what holds at an end whoever its peer is; [n] octets of data have arrived *)
Definition sound (n : Z) (e : endpoint) : Prop :=
  forall s, e_stream e = Some s -> 0 <= s_send_counter s /\ Forall (fun f => 1 <= fr_id f) (s_send s) /\ 0 <= s_prev s /\ ascending 0 (s_recv s) /\ data_sum (s_recv s) <= n.
Definition arriving (sent : list packet) (l : label) : Z := match l with Receive _ i => match nth_error sent i with Some p => zlen (p_data p) | None => 0 end | _ => 0 end.
Lemma make_id_pos : forall fuel id app data, 1 <= id -> Forall (fun f => 1 <= fr_id f) (make_frames fuel id app data).
Proof. induction fuel as [ | fuel IH ]; intros id app [ | a data ] H; cbn [make_frames]; constructor; auto. apply IH. lia. Qed.
Lemma ids_pos : forall a b, cores a = cores b -> Forall (fun f => 1 <= fr_id f) a -> Forall (fun f => 1 <= fr_id f) b.
Proof.
  intros a b E F. apply ids_cores in E. assert (G : forall l, Forall (fun f => 1 <= fr_id f) l <-> Forall (fun i => 1 <= i) (ids l)) by (intros l; unfold ids; now rewrite Forall_map).
  apply G. rewrite <- E. now apply G.
Qed.
Lemma end_step_sound : forall valid e sent l n, Forall (fun p => 0 <= p_id p) sent -> sound n e -> n + arriving sent l < 2^32 ->
  exists r, end_step valid e (stranger sent) l = Ok r /\ match r with Some e' => sound (n + arriving sent l) e' | None => True end.
Proof.
  intros valid e sent l n PK S N. unfold end_step. destruct (e_stream e) as [ s | ] eqn:Es.
  2: { destruct l; try (exists None; split; [ reflexivity | exact I ]; fail). cbn [stranger e_out]. destruct (nth_error sent i); [ eexists; split; [ reflexivity | ] | exists None; split; [ reflexivity | exact I ] ].
       intros s E. discriminate E. }
  destruct (S s Es) as (C & F & P & A & D). destruct l as [ app data | now | now i | possible cb | app | change | ]; cbn [arriving] in *; rewrite ?Z.add_0_r in *.
  - unfold queue_data. destruct (BUFFER_LIMIT <=? _); [ eexists; split; [ reflexivity | ]; intros s' E; injection E as <-; auto | ]. destruct (FRAME_ID_LIMIT <? _); [ eexists; split; [ reflexivity | ]; intros s' E; injection E as <-; auto | ].
    eexists. split; [ reflexivity | ]. intros s' E. injection E as <-. cbn [s_send_counter s_send s_prev s_recv]. match goal with |- context [zlen ?x] => pose proof (zlen_nonneg _ x) end. split; [ lia | ]. split; [ apply Forall_app; split; [ exact F | apply make_id_pos; lia ] | auto ].
  - destruct (negb (s_pending s)); [ exists None; split; [ reflexivity | exact I ] | ]. unfold event_send. destruct (send_loop_spec (s_send s) now (s_from_remote s) 0 0 F) as (l' & out & c & -> & CL & _).
    eexists. split; [ reflexivity | ]. intros s' E. assert (X : s_send_counter s' = s_send_counter s /\ s_send s' = l' /\ s_prev s' = s_prev s /\ s_recv s' = s_recv s) by (cbn [on_stream e_stream] in E; injection E as <-; destruct c; auto).
    destruct X as (-> & -> & -> & ->). split; [ exact C | ]. split; [ eapply ids_pos; [ symmetry; exact CL | exact F ] | auto ].
  - cbn [stranger e_out]. destruct (nth_error sent i) as [ pk | ] eqn:NT; [ | exists None; split; [ reflexivity | exact I ] ]. pose proof (zlen_nonneg _ (p_data pk)) as ZN.
    apply nth_error_In in NT. rewrite Forall_forall in PK. specialize (PK pk NT). unfold handle_frame.
    assert (SAME : forall s' out c, s_send_counter s' = s_send_counter s -> s_send s' = s_send s -> s_prev s' = s_prev s -> s_recv s' = s_recv s ->
      sound (n + zlen (p_data pk)) (mk_endpoint (Some s') out (e_queued e) (e_delivered e) c (e_freed e))).
    { intros s' out c H1 H2 H3 H4 t E. injection E as <-. rewrite H1, H2, H3, H4. repeat split; auto. lia. }
    destruct (p_version pk <? VERSION_MINIMUM); [ eexists; split; [ reflexivity | ]; cbv iota beta; now apply SAME | ].
    destruct (ftype (p_ft pk) =? TYPE_RESET).
    { destruct (p_id pk =? 0); [ eexists; split; [ reflexivity | ]; intros t E; discriminate E | ]. destruct (p_id pk =? s_handle s); (eexists; split; [ reflexivity | ]); cbv iota beta; [ intros t E; discriminate E | now apply SAME ]. }
    set (s1 := if has_window (p_ft pk) then _ else s).
    assert (S1 : s_send_counter s1 = s_send_counter s /\ s_send s1 = s_send s /\ s_prev s1 = s_prev s /\ s_recv s1 = s_recv s) by (unfold s1; destruct (has_window (p_ft pk)); repeat split; reflexivity). destruct S1 as (S1 & S2 & S3 & S4).
    destruct (ftype (p_ft pk) =? TYPE_ACK).
    { unfold handle_ack. set (ns := if ack_first pk =? ack_last pk then _ else _). destruct ns as (nag, s2) eqn:NS.
      assert (S2' : s_send_counter s2 = s_send_counter s /\ s_send s2 = s_send s /\ s_prev s2 = s_prev s /\ s_recv s2 = s_recv s).
      { unfold ns in NS. destruct (ack_first pk =? ack_last pk); [ destruct (ack_last pk =? s_last_ack s1) | ]; injection NS as _ <-; auto. }
      destruct S2' as (U1 & U2 & U3 & U4). clear ns NS.
      assert (AL : Forall (fun f => 1 <= fr_id f) (fst (ack_loop now (ack_first pk) (ack_last pk) nag (s_send s2)))).
      { rewrite U2. clear - F. induction (s_send s) as [ | f r IH ]; [ constructor | ]. inversion F; subst. specialize (IH ltac:(assumption)). cbn [ack_loop]. destruct (ack_loop now (ack_first pk) (ack_last pk) nag r) as (r', out). cbn [fst] in IH.
        destruct (_ && _); [ exact IH | ]. destruct (_ =? _); constructor; auto. }
      destruct (ack_loop now (ack_first pk) (ack_last pk) nag (s_send s2)) as (l', out). cbn [fst] in AL. eexists. split; [ reflexivity | ]. cbv iota beta. intros t E. injection E as <-. cbn [set_send s_send_counter s_send s_prev s_recv]. rewrite U1, U3, U4. repeat split; auto. lia. }
    destruct (ftype (p_ft pk) =? TYPE_CONTROL); [ eexists; split; [ reflexivity | ]; cbv iota beta; now apply SAME | ].
    destruct (p_id pk =? 0) eqn:ID0; [ eexists; split; [ reflexivity | ]; cbv iota beta; now apply SAME | ].
    destruct ((s_recv_counter s1 =? 0) && negb (p_id pk =? 1)); [ eexists; split; [ reflexivity | ]; intros t E; discriminate E | ].
    set (s3 := if p_id pk =? u32 (s_recv_counter s1 + 1) then _ else s1).
    assert (S3' : s_send_counter s3 = s_send_counter s /\ s_send s3 = s_send s /\ s_prev s3 = s_prev s /\ s_recv s3 = s_recv s) by (unfold s3; destruct (p_id pk =? u32 (s_recv_counter s1 + 1)); auto).
    destruct S3' as (V1 & V2 & V3 & V4). cbv zeta. rewrite V4. fold (packet_frame pk).
    destruct (insert_frame_spec (s_recv s) (packet_frame pk) ltac:(cbn [packet_frame fr_id]; lia) A) as (l' & IN & I1 & _). pose proof (insert_frame_sum _ _ _ IN) as SM. rewrite IN. cbn [packet_frame fr_data] in SM.
    eexists. split; [ reflexivity | ]. cbv iota beta. intros t E. injection E as <-. cbn [set_recv s_send_counter s_send s_prev s_recv]. rewrite V1, V2, V3. repeat split; auto. lia.
  - unfold event_deliver. pose proof (ack_list_cores (s_recv s) (s_prev s) 0 0 (s_regulation s)) as CL. destruct (ack_list (s_prev s) 0 0 (s_regulation s) (s_recv s)) as ((l, acks), adjust). cbn [fst] in CL.
    set (s1 := set_windows _ _ _ _). pose proof (send_acks_keep acks s1 adjust) as SA. destruct (send_acks s1 adjust acks) as (s2, out). destruct SA as (_ & H2 & H3 & _ & _ & H6 & _). cbn [s1 set_windows set_recv s_send s_send_counter s_prev] in *.
    rewrite H6. destruct (deliver_safe (Datatypes.S (length l)) valid possible cb 0 (s_prev s) l P) as (ret & l' & p' & ms & -> & R1 & R2 & R3); [ eapply ascending_ids; [ apply ids_cores; symmetry; exact CL | exact A ] | rewrite (data_sum_cores _ _ CL); lia | ].
    eexists. split; [ reflexivity | ]. intros t E. cbn [e_stream] in E. destruct (ret =? 0); [ | discriminate E ]. assert (X : s_send_counter t = s_send_counter s2 /\ s_send t = s_send s2 /\ s_prev t = p' /\ s_recv t = l') by (injection E as <-; auto). destruct X as (-> & -> & -> & ->).
    rewrite H2, H3. rewrite (data_sum_cores _ _ CL) in R3. repeat split; auto. lia.
  - eexists. split; [ reflexivity | ]. intros t E. cbn [on_stream e_stream] in E. injection E as <-. auto.
  - eexists. split; [ reflexivity | ]. intros t E. cbn [on_stream e_stream] in E. injection E as <-. cbn. auto.
  - eexists. split; [ reflexivity | ]. intros t E. discriminate E.
Qed.
Lemma hostile_lemma : forall valid ls n e, sound n e -> packets_ok ls -> n + data_arriving ls < 2^32 -> exists r, hostile_run valid e ls = Ok r.
Proof.
  intros valid. induction ls as [ | (sent, l) ls IH ]; intros n e S P N; cbn [hostile_run]; [ eauto | ]. inversion P as [ | ? ? P1 P2 ]; subst. cbn [fst] in P1.
  assert (DN : forall k, 0 <= data_arriving k) by (clear; induction k as [ | (x, y) k IH ]; cbn [data_arriving]; [ lia | destruct y; auto; destruct (nth_error x i); [ pose proof (zlen_nonneg _ (p_data p)); lia | lia ] ]).
  assert (E : data_arriving ((sent, l) :: ls) = arriving sent l + data_arriving ls) by (destruct l; reflexivity). rewrite E in N. specialize (DN ls).
  destruct (end_step_sound valid e sent l n P1 S ltac:(lia)) as ([ e' | ] & -> & S'); [ | eauto ]. apply (IH (n + arriving sent l) e' S' P2). lia.
Qed.

(** ** A lost datagram at the end *)
(** what [x] has sent since [n] packets had been sent carries no data; [y] has got nothing, and [x] will not send *)
Definition lost (n : nat) (x y : endpoint) : Prop :=
  (forall s, e_stream x = Some s -> s_pending s = false) /\ (n <= length (e_out x))%nat /\
  Forall (fun p => ftype (p_ft p) = TYPE_RESET \/ ftype (p_ft p) = TYPE_ACK \/ ftype (p_ft p) = TYPE_CONTROL) (skipn n (e_out x)) /\
  Forall (fun p => ftype (p_ft p) <> TYPE_ACK) (e_out y) /\
  (forall s, e_stream y = Some s -> s_recv s = [] /\ Forall (fun f => ftype (fr_ft f) = TYPE_DATA) (s_send s)) /\ e_delivered y = [].
Definition nodata (p : packet) : Prop := ftype (p_ft p) = TYPE_RESET \/ ftype (p_ft p) = TYPE_ACK \/ ftype (p_ft p) = TYPE_CONTROL.
Lemma skipn_grows : forall (A : Type) n (l o : list A), (n <= length l)%nat -> skipn n (l ++ o) = skipn n l ++ o.
Proof. intros A n l o H. rewrite skipn_app. replace (n - length l)%nat with 0%nat by lia. reflexivity. Qed.
Lemma make_type : forall fuel id app data, Forall (fun f => ftype (fr_ft f) = TYPE_DATA) (make_frames fuel id app data).
Proof. induction fuel as [ | fuel IH ]; intros id app [ | a data ]; cbn [make_frames]; constructor; auto. cbn [fr_ft]. now destruct (skipn (Z.to_nat DATA_SIZE_LIMIT) (a :: data)). Qed.
Lemma lost_x : forall valid n x y l x', lost n x y -> after_loss n (true, l) -> end_step valid x y l = Ok (Some x') -> lost n x' y.
Proof.
  intros valid n x y l x' (L1 & L2 & L3 & L4 & L5 & L6) AL H.
  assert (KEEP : forall st o q d c b, (forall s, st = Some s -> s_pending s = false) -> Forall nodata o -> lost n (mk_endpoint st (e_out x ++ o) q d c b) y).
  { intros st o q d c b P O. split; [ exact P | ]. cbn [e_out]. split; [ rewrite app_length; lia | ]. split; [ | auto ]. rewrite skipn_grows by exact L2. apply Forall_app. auto. }
  assert (RST : forall a b k, Forall nodata (repeat (reset_packet a b) k)) by (intros; apply repeat_Forall; left; reflexivity).
  unfold end_step in H. destruct (e_stream x) as [ s | ] eqn:Es.
  2: { destruct l; try discriminate. destruct (nth_error (e_out y) i); [ | discriminate ]. injection H as <-. apply KEEP; [ discriminate | ]. unfold handle_unknown. destruct (_ || _); [ constructor | apply RST ]. }
  specialize (L1 s eq_refl). destruct l as [ app data | now | now i | possible cb | app | change | ].
  - destruct AL.
  - rewrite L1 in H. discriminate.
  - destruct (nth_error (e_out y) i) as [ pk | ] eqn:NT; [ | discriminate ]. apply nth_error_In in NT. rewrite Forall_forall in L4. specialize (L4 pk NT). unfold handle_frame in H.
    destruct (p_version pk <? VERSION_MINIMUM); [ injection H as <-; apply KEEP; [ intros t E; injection E as <-; exact L1 | constructor ] | ].
    destruct (ftype (p_ft pk) =? TYPE_RESET).
    { destruct (p_id pk =? 0); [ injection H as <-; apply KEEP; [ discriminate | constructor ] | ]. destruct (p_id pk =? s_handle s); injection H as <-; (apply KEEP; [ intros t E; try discriminate E; injection E as <-; exact L1 | constructor ]). }
    destruct (Z.eqb_spec (ftype (p_ft pk)) TYPE_ACK); [ contradiction | ]. set (s1 := if has_window (p_ft pk) then _ else s) in H. assert (P1 : s_pending s1 = false) by (unfold s1; destruct (has_window (p_ft pk)); exact L1).
    destruct (ftype (p_ft pk) =? TYPE_CONTROL); [ injection H as <-; apply KEEP; [ intros t E; injection E as <-; exact P1 | constructor ] | ].
    destruct (p_id pk =? 0); [ injection H as <-; apply KEEP; [ intros t E; injection E as <-; exact P1 | constructor ] | ].
    destruct ((s_recv_counter s1 =? 0) && negb (p_id pk =? 1)); [ injection H as <-; apply KEEP; [ discriminate | exact (RST (p_stream pk) (p_id pk) 3%nat) ] | ].
    cbv zeta in H. destruct (insert_frame _ _) as [ l' | | ]; [ | discriminate | discriminate ]. injection H as <-. apply KEEP; [ | constructor ]. intros t E. injection E as <-. cbn [set_recv s_pending]. destruct (p_id pk =? u32 (s_recv_counter s1 + 1)); exact P1.
  - unfold event_deliver in H. destruct (ack_list (s_prev s) 0 0 (s_regulation s) (s_recv s)) as ((l, acks), adjust). set (s1 := set_windows _ _ _ _) in H. pose proof (send_acks_keep acks s1 adjust) as SA. destruct (send_acks s1 adjust acks) as (s2, out).
    destruct SA as (_ & _ & _ & _ & _ & _ & _ & SP & AK). destruct (deliver _ _ _ _ _ _ _) as [ (((ret, l'), prev'), ms) | | ]; [ | discriminate | discriminate ]. injection H as <-. apply KEEP.
    + intros t E. destruct (ret =? 0); [ injection E as <- | discriminate E ]. cbn [s_pending]. rewrite SP. exact L1.
    + eapply Forall_impl; [ | exact AK ]. cbv beta. intros pk (a & w & _ & ->). right. left. apply ftype_ack.
  - injection H as <-. apply KEEP; [ intros t E; injection E as <-; exact L1 | constructor; [ right; right; reflexivity | constructor ] ].
  - injection H as <-. apply KEEP; [ intros t E; injection E as <-; exact L1 | constructor ].
  - injection H as <-. apply KEEP; [ discriminate | exact (RST (s_id s) (s_handle s) 3%nat) ].
Qed.
Lemma data_not_ack : forall s l, Forall (fun f => ftype (fr_ft f) = TYPE_DATA) l -> Forall (fun p => ftype (p_ft p) <> TYPE_ACK) (map (frame_packet s) l).
Proof. intros s l F. apply Forall_map. eapply Forall_impl; [ | exact F ]. cbv beta. intros f E. cbn [frame_packet p_ft]. rewrite E. discriminate. Qed.
Lemma core_type : forall f g, core f = core g -> ftype (fr_ft g) = TYPE_DATA -> ftype (fr_ft f) = TYPE_DATA.
Proof. intros f g E H. unfold core in E. assert (fr_ft f = fr_ft g) as -> by congruence. exact H. Qed.
Lemma send_loop_types : forall l now window missing sent l' out c, Forall (fun f => ftype (fr_ft f) = TYPE_DATA) l -> send_loop now window missing sent l = Ok (l', out, c) ->
  Forall (fun f => ftype (fr_ft f) = TYPE_DATA) l' /\ Forall (fun f => ftype (fr_ft f) = TYPE_DATA) out.
Proof.
  induction l as [ | f r IH ]; intros now window missing sent l' out c F H; cbn [send_loop] in H; [ injection H as <- <- <-; auto | ]. inversion F; subst. destruct (fr_id f =? 0); [ discriminate | ].
  destruct (if fr_sent f =? 0 then _ else _) as ([ | ], missing').
  - destruct (BURST_SEND <=? sent + 1); [ injection H as <- <- <-; split; repeat constructor; assumption | ].
    destruct (send_loop now window missing' (sent + 1) r) as [ ((r', o), c') | | ] eqn:Q; try discriminate. injection H as <- <- <-. destruct (IH _ _ _ _ _ _ _ ltac:(assumption) Q). split; constructor; assumption.
  - destruct (send_loop now window missing' sent r) as [ ((r', o), c') | | ] eqn:Q; try discriminate. injection H as <- <- <-. destruct (IH _ _ _ _ _ _ _ ltac:(assumption) Q). split; [ constructor | ]; assumption.
Qed.
Lemma ack_loop_types : forall l now first last nag, Forall (fun f => ftype (fr_ft f) = TYPE_DATA) l ->
  Forall (fun f => ftype (fr_ft f) = TYPE_DATA) (fst (ack_loop now first last nag l)) /\ Forall (fun f => ftype (fr_ft f) = TYPE_DATA) (snd (ack_loop now first last nag l)).
Proof.
  induction l as [ | f r IH ]; intros now first last nag F; [ auto | ]. inversion F; subst. specialize (IH now first last nag ltac:(assumption)). cbn [ack_loop]. destruct (ack_loop now first last nag r) as (r', out). cbn [fst snd] in IH. destruct IH.
  destruct (_ && _); [ auto | ]. destruct (_ =? _); cbn [fst snd]; split; try (constructor; assumption); assumption.
Qed.
Lemma lost_y : forall valid n x y l y', lost n x y -> after_loss n (false, l) -> end_step valid y x l = Ok (Some y') -> lost n x y'.
Proof.
  intros valid n x y l y' (L1 & L2 & L3 & L4 & L5 & L6) AL H.
  assert (KEEP : forall st o q d c b, (forall s, st = Some s -> s_recv s = [] /\ Forall (fun f => ftype (fr_ft f) = TYPE_DATA) (s_send s)) -> Forall (fun p => ftype (p_ft p) <> TYPE_ACK) o -> d = [] -> lost n x (mk_endpoint st (e_out y ++ o) q d c b)).
  { intros st o q d c b P O E. split; [ exact L1 | ]. split; [ exact L2 | ]. split; [ exact L3 | ]. cbn [e_out e_stream e_delivered]. split; [ apply Forall_app; auto | auto ]. }
  assert (RST : forall a b k, Forall (fun p => ftype (p_ft p) <> TYPE_ACK) (repeat (reset_packet a b) k)) by (intros; apply repeat_Forall; discriminate).
  unfold end_step in H. destruct (e_stream y) as [ s | ] eqn:Es.
  2: { destruct l; try discriminate. destruct (nth_error (e_out x) i); [ | discriminate ]. injection H as <-. apply KEEP; [ discriminate | | exact L6 ]. unfold handle_unknown. destruct (_ || _); [ constructor | apply RST ]. }
  destruct (L5 s eq_refl) as (R & T). destruct l as [ app data | now | now i | possible cb | app | change | ].
  - assert (E : e_out y = e_out y ++ []) by (now rewrite app_nil_r). rewrite E in H. unfold queue_data in H. destruct (BUFFER_LIMIT <=? _); [ injection H as <-; apply KEEP; [ intros t Et; injection Et as <-; auto | constructor | exact L6 ] | ].
    destruct (FRAME_ID_LIMIT <? _); [ injection H as <-; apply KEEP; [ intros t Et; injection Et as <-; auto | constructor | exact L6 ] | ]. injection H as <-. apply KEEP; [ | constructor | exact L6 ]. intros t Et. injection Et as <-. cbn [s_recv s_send]. split; [ exact R | ]. apply Forall_app. split; [ exact T | apply make_type ].
  - destruct (negb (s_pending s)); [ discriminate | ]. unfold event_send in H. destruct (send_loop _ _ _ _ _) as [ ((l', out), c) | | ] eqn:SL; try discriminate. destruct (send_loop_types _ _ _ _ _ _ _ _ T SL) as (T1 & T2). injection H as <-. apply KEEP; [ | now apply data_not_ack | exact L6 ].
    intros t Et. assert (X : s_recv t = s_recv s /\ s_send t = l') by (injection Et as <-; destruct c; auto). destruct X as (-> & ->). auto.
  - destruct (nth_error (e_out x) i) as [ pk | ] eqn:NT; [ | discriminate ]. cbn [after_loss] in AL.
    assert (ND : nodata pk). { rewrite Forall_forall in L3. apply L3. replace i with (n + (i - n))%nat in NT by lia. rewrite <- nth_skipn in NT. eapply nth_error_In. exact NT. }
    unfold handle_frame in H. destruct (p_version pk <? VERSION_MINIMUM); [ injection H as <-; apply KEEP; [ intros t E; injection E as <-; auto | constructor | exact L6 ] | ].
    destruct (Z.eqb_spec (ftype (p_ft pk)) TYPE_RESET) as [ T0 | T0 ].
    { destruct (p_id pk =? 0); [ injection H as <-; apply KEEP; [ discriminate | constructor | exact L6 ] | ]. destruct (p_id pk =? s_handle s); injection H as <-; (apply KEEP; [ intros t E; try discriminate E; injection E as <-; auto | constructor | exact L6 ]). }
    set (s1 := if has_window (p_ft pk) then _ else s) in H. assert (S1 : s_recv s1 = [] /\ s_send s1 = s_send s) by (unfold s1; destruct (has_window (p_ft pk)); auto). destruct S1 as (S1 & S2).
    destruct (Z.eqb_spec (ftype (p_ft pk)) TYPE_ACK) as [ T1 | T1 ].
    { unfold handle_ack in H. set (ns := if ack_first pk =? ack_last pk then _ else _) in H. destruct ns as (nag, s2) eqn:NS.
      assert (S2' : s_send s2 = s_send s /\ s_recv s2 = []) by (unfold ns in NS; destruct (ack_first pk =? ack_last pk); [ destruct (ack_last pk =? s_last_ack s1) | ]; injection NS as _ <-; auto). destruct S2' as (U1 & U2).
      pose proof (ack_loop_types (s_send s2) now (ack_first pk) (ack_last pk) nag ltac:(rewrite U1; exact T)) as (A1 & A2). destruct (ack_loop now (ack_first pk) (ack_last pk) nag (s_send s2)) as (l', out). cbn [fst snd] in A1, A2. injection H as <-.
      apply KEEP; [ | now apply data_not_ack | exact L6 ]. intros t E. injection E as <-. cbn [set_send s_recv s_send]. auto. }
    destruct (Z.eqb_spec (ftype (p_ft pk)) TYPE_CONTROL) as [ T2 | T2 ]; [ injection H as <-; apply KEEP; [ intros t E; injection E as <-; rewrite S2; auto | constructor | exact L6 ] | ]. destruct ND as [ | [ | ] ]; contradiction.
  - unfold event_deliver in H. rewrite R in H. cbn [ack_list send_acks length deliver scan] in H. destruct (negb (possible 0)); injection H as <-; (apply KEEP; [ intros t E; injection E as <-; auto | constructor | now rewrite app_nil_r ]).
  - injection H as <-. apply KEEP; [ intros t E; injection E as <-; auto | constructor; [ discriminate | constructor ] | exact L6 ].
  - injection H as <-. apply KEEP; [ intros t E; injection E as <-; auto | constructor | exact L6 ].
  - injection H as <-. apply KEEP; [ discriminate | exact (RST (s_id s) (s_handle s) 3%nat) | exact L6 ].
Qed.
Lemma lost_run : forall valid n ls y y', lost n (fst y) (snd y) -> Forall (after_loss n) ls -> run valid y ls = Ok (Some y') -> lost n (fst y') (snd y').
Proof.
  intros valid n. induction ls as [ | (who, l) ls IH ]; intros (a, b) y' L F H; cbn [run] in H; [ injection H as <-; exact L | ]. inversion F as [ | ? ? F1 F2 ]; subst. cbn [fst snd] in L. unfold step in H. destruct who.
  - destruct (end_step valid a b l) as [ [ a' | ] | | ] eqn:E; try discriminate. eapply (IH (a', b)); [ | exact F2 | exact H ]. cbn [fst snd]. eapply lost_x; eauto.
  - destruct (end_step valid b a l) as [ [ b' | ] | | ] eqn:E; try discriminate. eapply (IH (a, b')); [ | exact F2 | exact H ]. cbn [fst snd]. eapply lost_y; eauto.
Qed.

(** ** A message too large *)
Section Flood.
  Variable N : nat.
  Hypothesis HN : Z.of_nat N * 1024 = 2^32.
  Definition flood_ft (i : nat) : Z := if (i =? N - 1)%nat then 19 else 3.
  Definition flood_data : list Z := repeat 0 1024.
  Definition flood_packet (i : nat) : packet := mk_packet (flood_ft i) VERSION 5 (Z.of_nat i + 1) 0 flood_data.
  Definition flood_frame (i : nat) : frame := mk_frame (Z.of_nat i + 1) (flood_ft i) 0 flood_data 0 0 0.
  Definition flood_packets : list packet := map flood_packet (seq 0 N).
  Definition flood_end (k : nat) : endpoint :=
    mk_endpoint (Some (mk_stream 5 [] 0 (map flood_frame (seq 0 k)) (Z.of_nat k) 0 WINDOW_INITIAL WINDOW_INITIAL 0 0 9 false)) [] [] [] [] false.
  Lemma flood_step : forall valid k, (k < N)%nat -> end_step valid (flood_end k) (stranger flood_packets) (Receive 0 k) = Ok (Some (flood_end (S k))).
  Proof.
    intros valid k L. unfold end_step, flood_end at 1. cbn [e_stream stranger e_out].
    assert (nth_error flood_packets k = Some (flood_packet k)) as ->.
    { unfold flood_packets. rewrite nth_error_map, (nth_error_nth' _ 0%nat) by (rewrite seq_length; exact L). rewrite seq_nth by exact L. reflexivity. }
    unfold handle_frame. cbn [flood_packet p_version p_ft p_id p_stream p_app p_data s_recv_counter s_recv].
    assert (FT : flood_ft k = 19 \/ flood_ft k = 3) by (unfold flood_ft; destruct (_ =? _)%nat; auto).
    assert (ftype (flood_ft k) = 3) as -> by (destruct FT as [ -> | -> ]; reflexivity). assert (has_window (flood_ft k) = false) as -> by (destruct FT as [ -> | -> ]; reflexivity).
    change (VERSION <? VERSION_MINIMUM) with false. change (3 =? TYPE_RESET) with false. change (3 =? TYPE_ACK) with false. change (3 =? TYPE_CONTROL) with false. cbv iota zeta. cbn [s_recv_counter s_recv].
    destruct (Z.eqb_spec (Z.of_nat k + 1) 0); [ lia | ].
    assert ((Z.of_nat k =? 0) && negb (Z.of_nat k + 1 =? 1) = false) as -> by lia.
    assert (u32 (Z.of_nat k + 1) = Z.of_nat k + 1) as -> by (unfold u32; apply Z.mod_small; lia). rewrite Z.eqb_refl. cbv zeta. cbn [set_recv_counter s_recv]. fold (flood_frame k).
    assert (insert_frame (flood_frame k) (map flood_frame (seq 0 k)) = Ok (map flood_frame (seq 0 (S k)))) as ->.
    { rewrite seq_S, map_app. cbn [map Nat.add]. destruct k as [ | k ]; [ reflexivity | ]. unfold insert_frame. rewrite seq_S at 1. rewrite map_app, rev_app_distr. cbn [map rev List.app Nat.add flood_frame fr_id].
      assert (Z.of_nat k + 1 <? Z.of_nat (S k) + 1 = true) as -> by lia. reflexivity. }
    unfold flood_end, set_recv. cbn [s_id s_send s_send_counter s_recv_counter s_prev s_to_remote s_from_remote s_regulation s_last_ack s_handle s_pending e_out e_queued e_delivered e_control e_freed List.app]. replace (Z.of_nat k + 1) with (Z.of_nat (S k)) by lia. reflexivity.
  Qed.
  Lemma flood_run : forall valid tail m k, (k + m = N)%nat -> hostile_run valid (flood_end k) (map (fun i => (flood_packets, Receive 0 i)) (seq k m) ++ tail) = hostile_run valid (flood_end N) tail.
  Proof.
    intros valid tail. induction m as [ | m IH ]; intros k E; cbn [seq map List.app hostile_run]; [ now replace N with k by lia | ]. rewrite flood_step by lia. apply IH. lia.
  Qed.
  Lemma flood_message : message_frames (map flood_frame (seq 0 N)).
  Proof.
    destruct N as [ | k ] eqn:EN; [ cbn in HN; lia | ]. rewrite seq_S, map_app. exists (map flood_frame (seq 0 k)), (flood_frame k). split; [ reflexivity | ]. split.
    - cbn [flood_frame fr_ft]. unfold flood_ft. rewrite EN. replace (k =? S k - 1)%nat with true; [ reflexivity | ]. symmetry. apply Nat.eqb_eq. lia.
    - apply Forall_map. apply Forall_forall. intros i I. apply in_seq in I. cbn [flood_frame fr_ft]. unfold flood_ft. rewrite EN. replace (i =? S k - 1)%nat with false; [ reflexivity | ]. symmetry. apply Nat.eqb_neq. lia.
  Qed.
  Lemma flood_sum : forall m k, data_sum (map flood_frame (seq k m)) = Z.of_nat m * 1024.
  Proof. induction m as [ | m IH ]; intros k; cbn [seq map data_sum]; [ reflexivity | ]. rewrite IH. cbn [flood_frame fr_data]. change (zlen flood_data) with 1024. lia. Qed.
  Lemma flood_ascending : forall m k, ascending (Z.of_nat k) (map flood_frame (seq k m)).
  Proof. induction m as [ | m IH ]; intros k; cbn [seq map ascending]; [ exact I | ]. cbn [flood_frame fr_id]. split; [ lia | ]. specialize (IH (S k)). now replace (Z.of_nat (S k)) with (Z.of_nat k + 1) in IH by lia. Qed.
  Lemma flood_lemma : forall valid cb, hostile_run valid (new_endpoint 5 9) (map (fun i => (flood_packets, Receive 0 i)) (seq 0 N) ++ [([], Deliver (fun _ => true) cb)]) = Ub.
  Proof.
    intros valid cb. change (new_endpoint 5 9) with (flood_end 0). rewrite flood_run by reflexivity. cbn [hostile_run]. unfold end_step, flood_end at 1. cbn [e_stream]. unfold event_deliver. cbn [s_prev s_regulation s_recv].
    pose proof (ack_list_cores (map flood_frame (seq 0 N)) 0 0 0 0) as CL. destruct (ack_list 0 0 0 0 (map flood_frame (seq 0 N))) as ((l, acks), adjust). cbn [fst] in CL.
    set (s1 := set_windows _ _ _ _). pose proof (send_acks_keep acks s1 adjust) as SA. destruct (send_acks s1 adjust acks) as (s2, out). destruct SA as (_ & _ & _ & _ & _ & H6 & _). cbn [s1 set_windows set_recv s_prev] in H6. rewrite H6.
    cbn [deliver negb].
    assert (A : ascending 0 l) by (eapply ascending_ids; [ apply ids_cores; symmetry; exact CL | apply (flood_ascending N 0) ]).
    assert (M : message_frames l).
    { destruct flood_message as (a & b & E & B & F). rewrite E in CL. unfold cores in CL. rewrite map_app in CL. cbn [map] in CL. apply map_eq_app in CL as (a' & b' & -> & C1 & C2). destruct b' as [ | g [ | h t ] ]; try discriminate C2.
      exists a', g. split; [ reflexivity | ]. cbn [map] in C2. assert (CG : core g = core b) by congruence. split; [ unfold core in CG; assert (fr_ft g = fr_ft b) as -> by congruence; exact B | ].
      clear - C1 F. revert a' C1. induction F as [ | x a X F IH ]; intros [ | y a' ] C; try discriminate C; constructor; cbn [map] in C; [ assert (Cy : core y = core x) by congruence; unfold core in Cy; assert (fr_ft y = fr_ft x) as -> by congruence; exact X | apply IH; congruence ]. }
    assert (D : data_sum l = 2^32) by (rewrite (data_sum_cores _ _ CL), flood_sum; exact HN).
    assert (NI : forall i f, nth_error l i = Some f -> fr_id f = 0 + 0 + 1 + Z.of_nat i).
    { intros i f Hf. pose proof (ids_cores _ _ CL) as EI. assert (X : nth_error (ids l) i = Some (fr_id f)) by (unfold ids; rewrite nth_error_map, Hf; reflexivity). rewrite EI in X. unfold ids in X. rewrite map_map in X. cbn [flood_frame fr_id] in X. rewrite nth_error_map in X.
      destruct (nth_error (seq 0 N) i) as [ j | ] eqn:Q; [ | discriminate ]. assert (LI : (i < N)%nat) by (rewrite <- (seq_length N 0); apply nth_error_Some; congruence).
      rewrite (nth_error_nth' _ 0%nat) in Q by (rewrite seq_length; exact LI). rewrite seq_nth in Q by exact LI. injection Q as <-. injection X as <-. lia. }
    destruct (scan_some l 0 0 0 ltac:(lia) ltac:(lia) NI) as (l' & m & rest & SC); [ destruct M as (a & b & E & B & _); exists b; split; [ rewrite E; apply in_or_app; right; left; reflexivity | exact B ] | ].
    pose proof (scan_new l 0 0 0 ltac:(lia) ltac:(lia) A) as SN. rewrite SC in *. destruct SN as (_ & E & M' & _).
    assert (m = l). { assert (X : cores m ++ cores rest = cores l ++ []) by (unfold cores; rewrite E, map_app, app_nil_r; reflexivity). destruct (mf_unique _ _ _ _ (mf_cores _ M') (mf_cores _ M) X) as (_ & R). destruct rest; [ now rewrite E, app_nil_r | discriminate R ]. }
    subst m. rewrite data_sum_joined, D. reflexivity.
  Qed.
End Flood.
