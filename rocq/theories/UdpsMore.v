(** More proofs about UDP-streams: complete delivery, datagrams, hostile peers and lost datagrams. *)
From Coq Require Import ZArith List Bool Lia.
From Verif Require Import Common MsgModel MsgProofs Crc32Model Crc32Proofs ReadModel UdpsModel UdpsSpec UdpsProofs UdpsInv UdpsStep.
Import ListNotations.
Open Scope Z_scope.

(** ** All is delivered when all has arrived *)
Lemma scan_some : forall l prev count size, 0 <= prev -> 0 <= count -> (forall i f, nth_error l i = Some f -> fr_id f = prev + count + 1 + Z.of_nat i) ->
  (exists f, In f l /\ is_boundary (fr_ft f) = true) -> exists l' m rest, scan prev count size l = Ok (l', Some (m, rest)).
Proof.
  induction l as [ | f r IH ]; intros prev count size P C N (b & B1 & B2); [ destruct B1 | ]. cbn [scan]. pose proof (N 0%nat f eq_refl) as F.
  destruct (Z.ltb_spec prev (fr_id f)); [ | lia ]. destruct (Z.ltb_spec (1 + count) (fr_id f - prev)); [ lia | ].
  destruct (is_boundary (fr_ft f)) eqn:B; [ do 3 eexists; reflexivity | ].
  destruct (IH prev (count + 1) (u32 (size + zlen (fr_data f))) P ltac:(lia)) as (l' & m & rest & ->).
  - intros i g G. pose proof (N (S i) g G). lia.
  - exists b. split; [ destruct B1 as [ -> | B1 ]; [ congruence | exact B1 ] | exact B2 ].
  - do 3 eexists. reflexivity.
Qed.
Lemma consecutive : forall l lo hi, ascending lo l -> Forall (fun f => fr_id f <= hi) l -> (forall i, lo < i <= hi -> In i (ids l)) ->
  forall i f, nth_error l i = Some f -> fr_id f = lo + 1 + Z.of_nat i.
Proof.
  induction l as [ | g r IH ]; intros lo hi A F C i f N; [ destruct i; discriminate | ]. cbn [ascending] in A. destruct A as (A1 & A2). inversion F as [ | ? ? F1 F2 ]; subst.
  pose proof (ascending_all _ _ A2) as AA.
  assert (G : fr_id g = lo + 1).
  { destruct (C (lo + 1) ltac:(lia)) as [ E | I ]; [ exact E | ]. apply in_ids in I as (h & I & E). rewrite Forall_forall in AA. specialize (AA h I). cbn beta in AA. lia. }
  destruct i as [ | i ]; cbn [nth_error] in N; [ injection N as <-; lia | ].
  rewrite (IH (fr_id g) hi A2 F2) with (i := i) (f := f); [ lia | | exact N ]. intros j J. destruct (C j ltac:(lia)) as [ E | I ]; [ lia | exact I ].
Qed.
Lemma all_empty_dec : forall ms : list message, Forall (fun m => snd m = []) ms \/ exists e app data r, ms = e ++ (app, data) :: r /\ data <> [].
Proof.
  induction ms as [ | (app, [ | a data ]) ms [ IH | (e & app' & data' & r & -> & N) ] ]; try (right; exists [], app, (a :: data); eexists; split; [ reflexivity | discriminate ]; fail).
  - left. constructor.
  - left. constructor; auto.
  - right. exists ((app, []) :: e), app', data', r. auto.
Qed.
Lemma has_boundary : forall ms id, (exists e app data r, ms = e ++ (app, data) :: r /\ data <> []) -> exists f, In f (frames_from id ms) /\ is_boundary (fr_ft f) = true.
Proof.
  intros ms id (e & app & data & r & -> & N). rewrite frames_app. cbn [frames_from]. cbv zeta.
  destruct (make_boundary (length data) (id + zlen (frames_from id e)) app data (le_n _) N) as (a & b & E & B & _). exists b. split; [ | exact B ].
  apply in_or_app. right. apply in_or_app. left. rewrite E. apply in_or_app. right. left. reflexivity.
Qed.
Lemma deliver_all : forall fuel valid n done todo l, let q := done ++ todo in let prev := zlen (frames_from 1 done) in
  sized q -> ascending 0 l -> Forall (known (all_cores q)) l -> (forall i, prev < i <= zlen (all_cores q) -> In i (ids l)) -> (length l < fuel)%nat ->
  exists l' prev', deliver fuel valid (fun _ => true) (fun _ => 0) n prev l = Ok (0, l', prev', expected valid todo).
Proof.
  induction fuel as [ | fuel IH ]; intros valid n done todo l q prev S A K C L; [ lia | ]. cbn [deliver negb].
  destruct (scan_old l prev (zlen_nonneg _ _) A) as (o & b & -> & O & B & ->).
  assert (Cb : forall i, prev < i <= zlen (all_cores q) -> In i (ids b)).
  { intros i I. specialize (C i I). unfold ids in C. rewrite map_app in C. apply in_app_or in C as [ C | C ]; [ | exact C ]. apply in_ids in C as (f & F & <-). rewrite Forall_forall in O. specialize (O f F). cbn beta in O. lia. }
  apply Forall_app in K as (_ & K). apply ascending_app_r in A. rewrite app_length in L.
  assert (N : forall i f, nth_error b i = Some f -> fr_id f = prev + 1 + Z.of_nat i).
  { apply consecutive with (hi := zlen (all_cores q)); [ exact B | | exact Cb ]. eapply Forall_impl; [ | exact K ]. intros f Kf. apply known_bound in Kf. lia. }
  destruct (all_empty_dec todo) as [ E | NE ].
  { (* nothing more *)
    assert (b = []) as ->. { destruct b as [ | f b ]; [ reflexivity | ]. exfalso. inversion K as [ | ? ? Kf _ ]; subst. apply known_bound in Kf. rewrite (N 0%nat f eq_refl) in Kf. unfold q, all_cores in Kf. rewrite frames_app, (frames_empty _ _ E), app_nil_r, zlen_cores in Kf. fold prev in Kf. lia. }
    cbn [scan]. rewrite (expected_empty _ _ E). eauto. }
  assert (HB : exists f, In f b /\ is_boundary (fr_ft f) = true).
  { destruct (has_boundary todo (1 + prev) NE) as (f & I & BF). apply In_nth_error in I as (i & I). pose proof (frames_ids _ _ _ _ I) as FI.
    assert (IQ : In f (frames_from 1 q)) by (unfold q; rewrite frames_app; apply in_or_app; right; fold prev; eapply nth_error_In; exact I).
    pose proof (frames_known q f IQ) as KF. pose proof (known_bound _ _ KF) as KB. pose proof (Cb (fr_id f) ltac:(lia)) as J. apply in_ids in J as (g & J & EI). exists g. split; [ exact J | ].
    rewrite Forall_forall in K. destruct (K g J) as (_ & Kg). destruct KF as (_ & KF). rewrite EI in Kg. rewrite KF in Kg. assert (CE : core f = core g) by congruence. unfold core in CE. assert (fr_ft g = fr_ft f) as -> by congruence. exact BF. }
  destruct (scan_some b prev 0 0 (zlen_nonneg _ _) ltac:(lia) ltac:(intros i f; rewrite Z.add_0_r; apply N) HB) as (l' & m & rest & SC).
  pose proof (scan_new b prev 0 0 (zlen_nonneg _ _) ltac:(lia) ltac:(now rewrite Z.add_0_r)) as SN. rewrite SC in SN. destruct SN as (-> & -> & M & NM). rewrite SC. rewrite Z.add_0_r in NM.
  destruct (one_message done todo m rest K M NM) as (e & app & data & todo' & -> & E & D & J & LA & LI & PR).
  fold prev in LI, PR. cbv zeta. rewrite J, LI.
  assert (SZ : zlen data < 2^32). { unfold sized, q in S. rewrite !Forall_app in S. destruct S as (_ & _ & S). inversion S; subst. assumption. }
  assert (U : u32 (zlen data) =? zlen data = true) by (pose proof (zlen_nonneg _ data); unfold u32; apply Z.eqb_eq, Z.mod_small; lia).
  rewrite U. cbn [negb]. set (done' := done ++ e ++ [(app, data)]) in *.
  assert (QQ : q = done' ++ todo') by (unfold q, done'; now rewrite <- !app_assoc). rewrite QQ in *.
  pose proof (ascending_app_r _ _ _ A) as A'. pose proof K as K'. apply Forall_app in K' as (_ & K').
  assert (XP : expected valid (e ++ (app, data) :: todo') = (if valid data then [(app, data)] else []) ++ expected valid todo').
  { rewrite expected_app, (expected_empty _ _ E). unfold expected. cbn [List.app filter snd]. assert (negb (zlen data =? 0) = true) as -> by (destruct data; [ congruence | rewrite zlen_cons; pose proof (zlen_nonneg _ data); lia ]). destruct (valid data); reflexivity. }
  assert (C' : forall i, zlen (frames_from 1 done') < i <= zlen (all_cores (done' ++ todo')) -> In i (ids rest)).
  { intros i I. rewrite PR in I. specialize (Cb i ltac:(pose proof (zlen_nonneg _ m); lia)). unfold ids in Cb. rewrite map_app in Cb. apply in_app_or in Cb as [ X | X ]; [ | exact X ].
    exfalso. apply in_ids in X as (f & F & <-). apply In_nth_error in F as (j & F). pose proof (NM _ _ F). assert ((j < length m)%nat) by (apply nth_error_Some; congruence). unfold zlen in *. lia. }
  assert (LR : (length rest < fuel)%nat). { destruct M as (x & y & -> & _). rewrite !app_length in L. cbn [length] in L. lia. }
  rewrite <- PR, XP. destruct (valid data); cbn [negb].
  - rewrite LA. change (negb (0 =? 0)) with false. cbv iota. destruct (IH valid (n + 1) done' todo' rest S A' K' C' LR) as (l2 & p2 & ->). do 2 eexists. reflexivity.
  - destruct (IH valid n done' todo' rest S A' K' C' LR) as (l2 & p2 & ->). do 2 eexists. reflexivity.
Qed.

Lemma acknowledged_lemma : forall valid x y s t, dir valid x y -> dir valid y x -> e_stream x = Some s -> e_stream y = Some t -> s_send s = [] ->
  exists y', end_step valid y x (Deliver (fun _ => true) (fun _ => 0)) = Ok (Some y') /\ e_delivered y' = expected valid (e_queued x).
Proof.
  intros valid x y s t D D' Ex Ey SE. unfold end_step. rewrite Ey. unfold event_deliver.
  pose proof D as (Z1 & Z2 & _ & _ & (dn & td & Q1 & Q2 & Q3) & _ & R). destruct (Q3 t Ey) as (B1 & B2 & B3). specialize (R s t Ex Ey).
  assert (PB : 0 <= s_prev t <= FRAME_ID_LIMIT).
  { rewrite B1. split; [ apply zlen_nonneg | ]. rewrite Q1 in Z2. unfold all_cores in Z2. rewrite frames_app, zlen_cores, zlen_app in Z2. match type of Z2 with _ + zlen ?x <= _ => pose proof (zlen_nonneg _ x) end. lia. }
  assert (FL : FRAME_ID_LIMIT < 2^32) by reflexivity.
  pose proof (ack_list_spec (fun i => has_frame t i) (s_prev t) (s_recv t) 0 0 (s_regulation t) ltac:(lia) ltac:(left; lia) ltac:(left; auto) B2) as AL.
  destruct (ack_list (s_prev t) 0 0 (s_regulation t) (s_recv t)) as ((l, acks), adjust).
  destruct AL as (CL & AK). { apply Forall_forall. intros f I. rewrite Forall_forall in B3. pose proof (known_bound _ _ (B3 f I)). split; [ lia | ]. right. apply in_ids. eauto. }
  set (s1 := set_windows _ _ _ _). pose proof (send_acks_keep acks s1 adjust) as SA. destruct (send_acks s1 adjust acks) as (s2, out).
  destruct SA as (_ & _ & _ & _ & _ & H6 & _). cbn [s1 set_windows set_recv s_prev] in H6. rewrite H6, B1.
  rewrite Q1 in Z1, R, B3.
  destruct (deliver_all (S (length l)) valid 0 dn td l Z1) as (l' & p' & ->).
  - eapply ascending_ids; [ apply ids_cores; symmetry; exact CL | exact B2 ].
  - eapply known_cores; [ symmetry; exact CL | exact B3 ].
  - intros i I. rewrite (ids_cores _ _ CL). pose proof (zlen_nonneg _ (frames_from 1 dn)) as ZN. destruct (R i ltac:(lia)) as [ H | [ H | H ] ]; [ rewrite SE in H; destruct H | rewrite B1 in H; lia | exact H ].
  - lia.
  - eexists. split; [ reflexivity | ]. cbn [e_delivered]. rewrite Q2, Q1. symmetry. apply expected_app.
Qed.

(** ** Datagrams *)
Definition covered (p : packet) : list Z :=
  [p_ft p; VERSION] ++ be_enc 2 (p_stream p) ++ be_enc 4 (p_id p) ++ be_enc 8 (p_app p) ++ be_enc 2 (zlen (p_data p)) ++ be_enc 4 (if 0 <? zlen (p_data p) then crc32buf (p_data p) else 0).
Lemma packed_eq : forall p, packed p = be_enc 4 (crc32buf (covered p)) ++ covered p ++ p_data p. Proof. reflexivity. Qed.
Lemma covered_len : forall p, zlen (covered p) = 22.
Proof. intros p. unfold covered. rewrite !zlen_app, !be_enc_len. reflexivity. Qed.
Lemma covered_bytes : forall p, packet_in_range p -> bytes (covered p).
Proof. intros p (A & _). unfold covered. repeat (apply bytes_app; split); try apply be_enc_bytes. repeat constructor; unfold VERSION; lia. Qed.
Lemma packed_len : forall p, zlen (packed p) = 26 + zlen (p_data p).
Proof. intros p. rewrite packed_eq, !zlen_app, be_enc_len, covered_len. lia. Qed.
Ltac peel := rewrite (sub_skip (be_enc _ _)) by (rewrite ?be_enc_len; lia); rewrite ?be_enc_len.
Lemma packed_fields : forall p r, packet_in_range p -> let m := be_enc 4 (crc32buf (covered p)) ++ covered p ++ r in
  be_field m 4 1 = p_ft p /\ be_field m 5 1 = VERSION /\ be_field m 6 2 = p_stream p /\ be_field m 8 4 = p_id p /\ be_field m 12 8 = p_app p /\
  be_field m 20 2 = zlen (p_data p) /\ be_field m 22 4 = (if 0 <? zlen (p_data p) then crc32buf (p_data p) else 0) /\ sub_mem m 4 22 = covered p /\ be_field m 0 4 = crc32buf (covered p) /\
  (forall n, sub_mem m 26 n = sub_mem r 0 n).
Proof.
  intros p r R. pose proof (covered_bytes p R) as CB. destruct R as (A1 & A2 & A3 & A4 & A5 & A6 & A7). cbv zeta.
  assert (CL : zlen (covered p) = 22) by apply covered_len. unfold be_field.
  rewrite !(sub_skip (be_enc 4 (crc32buf (covered p))) _ _ _ 4) by (rewrite ?be_enc_len; lia).
  assert (H : covered p ++ r = [p_ft p] ++ [VERSION] ++ be_enc 2 (p_stream p) ++ be_enc 4 (p_id p) ++ be_enc 8 (p_app p) ++ be_enc 2 (zlen (p_data p)) ++ be_enc 4 (if 0 <? zlen (p_data p) then crc32buf (p_data p) else 0) ++ r)
    by (unfold covered; rewrite <- !app_assoc; reflexivity).
  assert (DB : 0 <= (if 0 <? zlen (p_data p) then crc32buf (p_data p) else 0) < 2^32) by (destruct (0 <? zlen (p_data p)); [ now apply crc32buf_bound | lia ]).
  pose proof (zlen_nonneg _ (p_data p)) as ZN. unfold DATA_SIZE_LIMIT in A7.
  split; [ | split; [ | split; [ | split; [ | split; [ | split; [ | split; [ | split; [ | split ] ] ] ] ] ] ] ].
  - rewrite H. rewrite sub_here by (reflexivity || lia). cbn. lia.
  - rewrite H. rewrite (sub_skip [p_ft p] _ _ _ 1) by (reflexivity || lia). rewrite sub_here by (reflexivity || lia). reflexivity.
  - rewrite H. rewrite (sub_skip [p_ft p] _ _ _ 1) by (reflexivity || lia). rewrite (sub_skip [VERSION] _ _ _ 1) by (reflexivity || lia). rewrite sub_here by (rewrite ?be_enc_len; lia). apply be_dec_enc. cbn; lia.
  - rewrite H. rewrite (sub_skip [p_ft p] _ _ _ 1) by (reflexivity || lia). rewrite (sub_skip [VERSION] _ _ _ 1) by (reflexivity || lia). rewrite (sub_skip (be_enc 2 (p_stream p)) _ _ _ 2) by (rewrite ?be_enc_len; lia).
    rewrite sub_here by (rewrite ?be_enc_len; lia). apply be_dec_enc. cbn; lia.
  - rewrite H. rewrite (sub_skip [p_ft p] _ _ _ 1) by (reflexivity || lia). rewrite (sub_skip [VERSION] _ _ _ 1) by (reflexivity || lia). rewrite (sub_skip (be_enc 2 (p_stream p)) _ _ _ 2) by (rewrite ?be_enc_len; lia).
    rewrite (sub_skip (be_enc 4 (p_id p)) _ _ _ 4) by (rewrite ?be_enc_len; lia). rewrite sub_here by (rewrite ?be_enc_len; lia). apply be_dec_enc. cbn; lia.
  - rewrite H. rewrite (sub_skip [p_ft p] _ _ _ 1) by (reflexivity || lia). rewrite (sub_skip [VERSION] _ _ _ 1) by (reflexivity || lia). rewrite (sub_skip (be_enc 2 (p_stream p)) _ _ _ 2) by (rewrite ?be_enc_len; lia).
    rewrite (sub_skip (be_enc 4 (p_id p)) _ _ _ 4) by (rewrite ?be_enc_len; lia). rewrite (sub_skip (be_enc 8 (p_app p)) _ _ _ 8) by (rewrite ?be_enc_len; lia). rewrite sub_here by (rewrite ?be_enc_len; lia). apply be_dec_enc. cbn; lia.
  - rewrite H. rewrite (sub_skip [p_ft p] _ _ _ 1) by (reflexivity || lia). rewrite (sub_skip [VERSION] _ _ _ 1) by (reflexivity || lia). rewrite (sub_skip (be_enc 2 (p_stream p)) _ _ _ 2) by (rewrite ?be_enc_len; lia).
    rewrite (sub_skip (be_enc 4 (p_id p)) _ _ _ 4) by (rewrite ?be_enc_len; lia). rewrite (sub_skip (be_enc 8 (p_app p)) _ _ _ 8) by (rewrite ?be_enc_len; lia). rewrite (sub_skip (be_enc 2 (zlen (p_data p))) _ _ _ 2) by (rewrite ?be_enc_len; lia).
    rewrite sub_here by (rewrite ?be_enc_len; lia). apply be_dec_enc. exact DB.
  - rewrite sub_here by lia. reflexivity.
  - rewrite sub_here by (rewrite ?be_enc_len; lia). apply be_dec_enc. exact (crc32buf_bound _ CB).
  - intros n. rewrite (sub_skip (be_enc 4 (crc32buf (covered p))) _ _ _ 4) by (rewrite ?be_enc_len; lia). rewrite (sub_skip (covered p) _ _ _ 22) by lia. f_equal.
Qed.
Lemma crc_same : forall m, bytes m -> (crc32cmp m (crc32buf m) =? 0) = true.
Proof. intros m B. apply Z.eqb_eq. apply crc32cmp_zero; [ exact B | now apply crc32buf_bound | reflexivity ]. Qed.
Lemma round_trip_lemma : forall p, packet_in_range p -> udp_framer (packed p) = FSize (zlen (packed p)) false /\ unpack (packed p) = Ok (Some p).
Proof.
  intros p R. pose proof (covered_bytes p R) as CB. pose proof (packed_len p) as LEN. destruct (packed_fields p (p_data p) R) as (F1 & F2 & F3 & F4 & F5 & F6 & F7 & F8 & F9 & F10). rewrite <- packed_eq in *.
  pose proof R as (A1 & A2 & A3 & A4 & A5 & A6 & A7). pose proof (zlen_nonneg _ (p_data p)) as ZN. split.
  - unfold udp_framer. rewrite F8, F9, F6, LEN, (crc_same _ CB). unfold HEADER_SIZE, DATA_SIZE_LIMIT in *. destruct (Z.ltb_spec (26 + zlen (p_data p)) 26); [ lia | ]. cbn [negb]. cbv zeta. destruct (Z.ltb_spec 1024 (zlen (p_data p))); [ lia | reflexivity ].
  - unfold unpack. rewrite F1, F2, F3, F4, F5, F6, F7, LEN, F10. unfold HEADER_SIZE. rewrite Z.eqb_refl. cbn [negb]. cbv zeta. rewrite sub_all by lia.
    assert ((0 <? zlen (p_data p)) && negb (crc32cmp (p_data p) (if 0 <? zlen (p_data p) then crc32buf (p_data p) else 0) =? 0) = false) as ->.
    { destruct (0 <? zlen (p_data p)); [ | reflexivity ]. now rewrite (crc_same _ A6). }
    unfold DATA_SIZE_LIMIT in *. destruct (Z.ltb_spec 1024 (zlen (p_data p))); [ lia | ]. destruct p as [ x1 x2 x3 x4 x5 x6 ]. cbn [p_version] in A2. subst x2. reflexivity.
Qed.
Lemma unpack_safe_lemma : forall buf n e, udp_framer buf = FSize n e -> unpack buf <> Bug /\ unpack buf <> Ub.
Proof.
  intros buf n e F. unfold udp_framer in F. unfold unpack. cbv zeta in *. destruct (zlen buf <? HEADER_SIZE); [ discriminate | ]. destruct (negb (crc32cmp (sub_mem buf 4 22) (be_field buf 0 4) =? 0)); [ discriminate | ].
  destruct (DATA_SIZE_LIMIT <? be_field buf 20 2) eqn:Q; [ discriminate | ]. destruct (negb (zlen buf =? HEADER_SIZE + be_field buf 20 2)); [ split; discriminate | ]. destruct ((0 <? be_field buf 20 2) && _); split; discriminate.
Qed.
(** Damage of up to four neighbouring octets *)
Lemma framer_covered : forall c cov r, zlen c = 4 -> zlen cov = 22 -> bytes c -> bytes cov -> be_dec c <> crc32buf cov -> accepted (c ++ cov ++ r) = None.
Proof.
  intros c cov r LC LV BC BV N. unfold accepted, udp_framer. rewrite !zlen_app, LC, LV. pose proof (zlen_nonneg _ r). unfold HEADER_SIZE. destruct (Z.ltb_spec (4 + (22 + zlen r)) 26); [ lia | ].
  unfold be_field at 1. rewrite (sub_skip c _ _ _ 4) by lia. rewrite sub_here by lia. rewrite sub_here by lia.
  assert (crc32cmp cov (be_dec c) =? 0 = false) as ->; [ | reflexivity ]. apply Z.eqb_neq. intros E. pose proof (be_dec_bound c BC) as BB. rewrite LC in BB. apply crc32cmp_zero in E; [ congruence | exact BV | exact BB ].
Qed.
Lemma split_at : forall (A : Type) (a : list A) k, 0 <= k <= zlen a -> exists x y, a = x ++ y /\ zlen x = k.
Proof. intros A a k L. exists (firstn (Z.to_nat k) a), (skipn (Z.to_nat k) a). split; [ now rewrite firstn_skipn | unfold zlen in *; rewrite firstn_length_le; lia ]. Qed.
Lemma app_split : forall (A : Type) (a b c d : list A), a ++ b = c ++ d -> zlen a <= zlen c -> exists x, c = a ++ x /\ b = x ++ d.
Proof.
  induction a as [ | h a IH ]; intros b c d E L; [ exists c; auto | ]. destruct c as [ | k c ]; [ rewrite zlen_cons, zlen_nil in L; pose proof (zlen_nonneg _ a); lia | ].
  cbn in E. injection E as -> E. rewrite !zlen_cons in L. destruct (IH b c d E ltac:(lia)) as (x & -> & ->). exists x. auto.
Qed.
Lemma be_dec_inj : forall a b, bytes a -> bytes b -> zlen a = zlen b -> be_dec a = be_dec b -> a = b.
Proof.
  induction a as [ | x a IH ]; intros [ | y b ] A B L E; try reflexivity; rewrite ?zlen_cons, ?zlen_nil in L; try (pose proof (zlen_nonneg _ a); lia); try (pose proof (zlen_nonneg _ b); lia).
  apply bytes_cons in A as (A1 & A2). apply bytes_cons in B as (B1 & B2). rewrite !be_dec_cons in E. assert (L' : zlen a = zlen b) by lia. rewrite L' in E.
  pose proof (be_dec_bound _ A2) as BA. pose proof (be_dec_bound _ B2) as BB. rewrite L' in BA.
  assert (x = y) by nia. subst y. f_equal. apply IH; auto. lia.
Qed.
Lemma refused_header : forall p a w w' b r, packet_in_range p -> covered p = a ++ w ++ b -> bytes w' -> zlen w = zlen w' -> zlen w <= 4 -> w <> w' ->
  accepted (be_enc 4 (crc32buf (covered p)) ++ (a ++ w' ++ b) ++ r) = None.
Proof.
  intros p a w w' b r R C B L L4 N. pose proof (covered_bytes p R) as CB. pose proof (covered_len p) as CL. rewrite C in CL, CB. rewrite !zlen_app in CL.
  apply framer_covered; [ apply be_enc_len | rewrite !zlen_app; lia | apply be_enc_bytes | | ].
  - rewrite !bytes_app in *. tauto.
  - rewrite be_dec_enc by (apply (crc32buf_bound (covered p)); now apply covered_bytes). rewrite C. apply crc32_burst_octets; auto; unfold zlen in *; lia.
Qed.
Lemma refused_data : forall p a w w' b, packet_in_range p -> p_data p = a ++ w ++ b -> bytes w' -> zlen w = zlen w' -> zlen w <= 4 -> w <> w' ->
  accepted (be_enc 4 (crc32buf (covered p)) ++ covered p ++ (a ++ w' ++ b)) = None.
Proof.
  intros p a w w' b R D B L L4 N. unfold accepted. destruct (packed_fields p (a ++ w' ++ b) R) as (F1 & F2 & F3 & F4 & F5 & F6 & F7 & F8 & F9 & F10).
  set (m := be_enc 4 (crc32buf (covered p)) ++ covered p ++ a ++ w' ++ b) in *. destruct (udp_framer m); try reflexivity. destruct (zlen m =? n); [ | reflexivity ].
  unfold unpack. rewrite F6, F7, F10. cbv zeta. destruct (negb (zlen m =? HEADER_SIZE + zlen (p_data p))); [ reflexivity | ].
  assert (LD : zlen (a ++ w' ++ b) = zlen (p_data p)) by (rewrite D, !zlen_app; lia). rewrite sub_all by lia.
  assert (LP : 0 < zlen (p_data p)). { rewrite D, !zlen_app. pose proof (zlen_nonneg _ a). pose proof (zlen_nonneg _ b). destruct w as [ | x w ]; [ rewrite zlen_nil in L; destruct w' as [ | y w' ]; [ congruence | rewrite zlen_cons in L; pose proof (zlen_nonneg _ w'); lia ] | rewrite zlen_cons; pose proof (zlen_nonneg _ w); lia ]. }
  destruct (Z.ltb_spec 0 (zlen (p_data p))); [ | lia ]. cbn [andb].
  destruct R as (_ & _ & _ & _ & _ & BD & _).
  assert (BN : bytes (a ++ w' ++ b)) by (rewrite D in BD; rewrite !bytes_app in *; tauto).
  assert (crc32cmp (a ++ w' ++ b) (crc32buf (p_data p)) =? 0 = false) as ->; [ | reflexivity ]. apply Z.eqb_neq. intros E. apply crc32cmp_zero in E; [ | exact BN | now apply crc32buf_bound ].
  rewrite D in E, BD. symmetry in E. revert E. apply crc32_burst_octets; auto; unfold zlen in *; lia.
Qed.
Lemma damage_lemma : forall p a w w' b, packet_in_range p -> packed p = a ++ w ++ b -> bytes w' -> zlen w = zlen w' -> zlen w <= 4 -> w <> w' -> (4 <= zlen a \/ zlen a + zlen w <= 4) ->
  accepted (a ++ w' ++ b) = None.
Proof.
  intros p a w w' b R E B L L4 N O. rewrite packed_eq in E. set (c := be_enc 4 (crc32buf (covered p))) in *. assert (LC : zlen c = 4) by apply be_enc_len. pose proof (covered_len p) as LV. destruct O as [ O | O ].
  - destruct (app_split _ _ _ _ _ E ltac:(lia)) as (a' & -> & E'). rewrite <- app_assoc.
    destruct (Z.leb_spec (zlen a') 22) as [ H | H ].
    + destruct (Z.leb_spec (zlen a' + zlen w) 22) as [ G | G ].
      * rewrite app_assoc in E'. symmetry in E'. destruct (app_split _ _ _ _ _ E' ltac:(rewrite zlen_app; lia)) as (x & C & ->). rewrite <- app_assoc in C.
        replace (a' ++ w' ++ x ++ p_data p) with ((a' ++ w' ++ x) ++ p_data p) by (now rewrite <- !app_assoc). eapply refused_header; eauto.
      * (* part in the header, part in the data *)
        pose proof (zlen_nonneg _ a'). destruct (split_at _ w (22 - zlen a') ltac:(lia)) as (w1 & w2 & -> & L1). destruct (split_at _ w' (22 - zlen a') ltac:(lia)) as (w1' & w2' & -> & L1').
        rewrite (zlen_app _ w1' w2') in L. rewrite (zlen_app _ w1 w2) in L, L4. apply bytes_app in B as (B1 & B2). pose proof (zlen_nonneg _ w2).
        rewrite <- !app_assoc in *. rewrite !app_assoc in E'. rewrite <- (app_assoc (a' ++ w1)) in E'. symmetry in E'. destruct (app_split _ _ _ _ _ E' ltac:(rewrite zlen_app; lia)) as (x & C & D).
        assert (x = []) as ->. { apply (f_equal (@zlen _)) in C. rewrite !zlen_app in C. destruct x as [ | ? x ]; [ reflexivity | rewrite zlen_cons in C; pose proof (zlen_nonneg _ x); lia ]. }
        rewrite app_nil_r in C. cbn [List.app] in D.
        destruct (list_eq_dec Z.eq_dec w1 w1') as [ EQ | NE ].
        -- subst w1'. assert (w2 <> w2') by congruence. replace (a' ++ w1 ++ w2' ++ b) with ((a' ++ w1) ++ [] ++ w2' ++ b) by (now rewrite <- !app_assoc). rewrite <- C. unfold c. apply (refused_data p [] w2 w2' b R); [ cbn [List.app]; congruence | exact B2 | lia | pose proof (zlen_nonneg _ w1); lia | assumption ].
        -- replace (a' ++ w1' ++ w2' ++ b) with ((a' ++ w1' ++ []) ++ w2' ++ b) by (now rewrite app_nil_r, <- !app_assoc). unfold c. apply (refused_header p a' w1 w1' [] _ R); [ now rewrite app_nil_r | exact B1 | lia | lia | exact NE ].
    + destruct (app_split _ _ _ _ _ E' ltac:(lia)) as (x & -> & D). rewrite <- app_assoc. unfold c. eapply refused_data; eauto.
  - rewrite (app_assoc a w b) in E. symmetry in E. destruct (app_split _ _ _ _ _ E ltac:(rewrite zlen_app; lia)) as (x & C & ->). rewrite <- app_assoc in C.
    replace (a ++ w' ++ x ++ covered p ++ p_data p) with ((a ++ w' ++ x) ++ covered p ++ p_data p) by (now rewrite <- !app_assoc).
    pose proof (covered_bytes p R) as CB. pose proof (be_enc_bytes 4 (crc32buf (covered p))) as BC. fold c in BC.
    assert (LX : zlen (a ++ w' ++ x) = 4) by (rewrite <- LC, C, !zlen_app; lia). assert (BX : bytes (a ++ w' ++ x)) by (rewrite C in BC; rewrite !bytes_app in *; tauto).
    apply framer_covered; [ exact LX | exact LV | exact BX | exact CB | ]. intros Q. apply N.
    assert (a ++ w' ++ x = c). { apply be_dec_inj; [ exact BX | exact BC | rewrite LX, LC; reflexivity | ]. rewrite Q. unfold c. symmetry. apply be_dec_enc. exact (crc32buf_bound _ CB). }
    rewrite C in H. apply app_inv_head in H. assert (LL : length w' = length w) by (unfold zlen in L; lia). symmetry. clear - H LL.
    revert w H LL. induction w' as [ | h t IH ]; intros [ | k w ] H LL; cbn in *; try lia; [ reflexivity | ]. injection H as -> H. f_equal. apply IH; auto.
Qed.
