(** The database of a server is a map, over any number of runs. *)
From Coq Require Import ZArith List Bool Lia.
From Verif Require Import Common Crc32Model MsgModel MsgSpec MsgProofs MsgdbModel MsgdbSpec MsgdbFsProofs MsgdbProofs.
Import ListNotations.
Open Scope Z_scope.

(** ** Names *)
Lemma hex_digit_inj : forall a b, 0 <= a < 16 -> 0 <= b < 16 -> hex_digit a = hex_digit b -> a = b.
Proof. intros a b A B. unfold hex_digit. destruct (a <? 10) eqn:E1, (b <? 10) eqn:E2; lia. Qed.
Lemma hex_inj : forall a b, bytes a -> bytes b -> hex a = hex b -> a = b.
Proof.
  induction a as [|x a IH]; intros [|y b] A B E; cbn [hex flat_map app] in E; auto; try discriminate.
  inversion A; inversion B; subst. injection E as E1 E2 E3. unfold byte in *.
  apply hex_digit_inj in E1; [|lia|lia]. apply hex_digit_inj in E2; [|lia|lia]. f_equal; [lia|]. apply IH; auto.
Qed.
Lemma hex_len : forall a, Datatypes.length (hex a) = (2 * Datatypes.length a)%nat.
Proof. induction a; cbn [hex flat_map app length]; auto. fold (hex a0). rewrite IHa. lia. Qed.
Lemma hex_chars : forall a, bytes a -> Forall hexchar (hex a).
Proof.
  induction a as [|x a IH]; intros A; cbn [hex flat_map app]; [constructor|]. inversion A; subst. unfold byte in *.
  assert (D : forall d, 0 <= d < 16 -> hexchar (hex_digit d)) by (intros d X; unfold hexchar, hex_digit; destruct (d <? 10) eqn:E; lia).
  constructor; [apply D; lia|]. constructor; [apply D; lia|]. apply IH; auto.
Qed.
Lemma hex_name : forall a, bytes a -> zlen a = 32 -> name_ok (hex a).
Proof. intros a A L. split; [apply hex_chars; auto|]. rewrite hex_len. unfold zlen in L. lia. Qed.

(** ** Messages in files *)
Lemma type_sweep : forall tc, byte tc -> set_type tc 1 = tc / 16 * 16 + 1 /\ byte (set_type tc 1) /\ Z.land (set_type tc 1) 15 = 1 /\ Z.land (set_type tc 1) 240 = Z.land tc 240.
Proof.
  intros tc B.
  pose proof (sweep_byte (fun tc => (set_type tc 1 =? tc / 16 * 16 + 1) && ((0 <=? set_type tc 1) && (set_type tc 1 <? 256)) && (Z.land (set_type tc 1) 15 =? 1) && (Z.land (set_type tc 1) 240 =? Z.land tc 240)) ltac:(vm_compute; reflexivity) tc B) as H.
  cbv beta in H. unfold byte. lia.
Qed.
Lemma as_plain : forall m, mm_ok m -> as_msg m = plain m.
Proof. intros m H. unfold as_msg, plain. f_equal. apply type_sweep. unfold mm_ok in H. tauto. Qed.
Lemma plain_ok : forall m, mm_ok m -> mm_ok (plain m).
Proof.
  intros m H. rewrite <- as_plain by auto. unfold mm_ok in *. destruct H as (H1 & H2 & H3 & H4 & H5 & H6 & H7 & H8 & H9 & H10 & H11 & H12 & H13).
  destruct (type_sweep _ H6) as (_ & T2 & T3 & T4). cbn [as_msg mm_head mm_timestamp mm_type_and_class mm_version mm_topic_length mm_data].
  sp; try lia.
  - unfold MSG_CLASS_OK, MSG_CLASS in *. cbn [as_msg mm_type_and_class]. rewrite T4. auto.
  - unfold MSG_TYPE_OK, MSG_TYPE. cbn [as_msg mm_type_and_class]. rewrite T3. reflexivity.
Qed.
Definition octets (m : rrr_msg_msg) : list Z := msg_msg_to_network (plain m).
Lemma tail_bytes : forall m, mm_ok m -> bytes (msg_msg_tail_bytes m).
Proof.
  intros m (Ht & Hs & Hmax & Hv & Hts & Htc & Hver & Htl & Htl2 & HB & HC & HT & HU).
  unfold msg_msg_tail_bytes. repeat (apply bytes_app; split); auto using be_enc_bytes; apply bytes_cons; split; auto; constructor.
Qed.
Lemma tail_head : forall m, mm_ok m -> head_ok (mm_head m) (zlen (msg_msg_tail_bytes m)).
Proof.
  intros m (Ht & Hs & Hmax & Hv & Hts & Htc & Hver & Htl & Htl2 & HB & HC & HT & HU). pose proof (zlen_nonneg _ (mm_data m)).
  unfold head_ok. rewrite mm_tail_len, Ht, Hs. unfold T_MESSAGE. lia.
Qed.
Lemma net_len : forall m, zlen (msg_msg_to_network m) = 30 + zlen (mm_data m).
Proof. intros. unfold msg_msg_to_network. rewrite cn_len, mm_tail_len. lia. Qed.
(** What is made of the octets, with the checksum as it was sent *)
Definition with_crc (m : rrr_msg_msg) : rrr_msg_msg :=
  mk_mm (mk_msg 0 (msg_size (mm_head m)) T_MESSAGE (msg_value (mm_head m)) (crc32buf (msg_msg_tail_bytes m)))
    (mm_timestamp m) (mm_type_and_class m) (mm_version m) (mm_topic_length m) (mm_data m).
Lemma host_head : forall h h' buf after n m, msg_size h = msg_size h' -> msg_msg_to_host_and_verify h buf after n = Ok m ->
  msg_msg_to_host_and_verify h' buf after n = Ok (mk_mm h' (mm_timestamp m) (mm_type_and_class m) (mm_version m) (mm_topic_length m) (mm_data m)).
Proof.
  intros h h' buf after n m E H. unfold msg_msg_to_host_and_verify in *. destruct (n <? MSG_MSG_MIN); [discriminate|].
  cbn [read_msg_msg mm_head] in *. rewrite <- E. destruct (negb (msg_size h =? n)); [discriminate|].
  replace (message_validate (read_msg_msg h' buf) after) with (message_validate (read_msg_msg h buf) after).
  - destruct (message_validate (read_msg_msg h buf) after); [|discriminate]. injection H as <-. reflexivity.
  - unfold message_validate, MSG_CLASS_OK, MSG_CLASS, MSG_TYPE_OK, MSG_TYPE. cbn [read_msg_msg mm_head mm_type_and_class mm_topic_length mm_data]. rewrite E. reflexivity.
Qed.
Lemma read_head : forall m, mm_ok m ->
  let buf := msg_msg_to_network m in
  get_target_size buf = Ok (zlen buf) /\
  head_to_host_and_verify buf (zlen buf) = Ok (mm_head (with_crc m)) /\
  msg_msg_to_host_and_verify (mm_head (with_crc m)) buf [] (zlen buf) = Ok (with_crc m).
Proof.
  intros m H buf. pose proof (tail_bytes m H) as HB. pose proof (tail_head m H) as HH.
  destruct (cn_fields (mm_head m) (msg_msg_tail_bytes m) HB HH) as (E1 & E2 & E3 & E4 & E5 & E6).
  fold (msg_msg_to_network m) in E1, E2, E3, E4, E5, E6. fold buf in E1, E2, E3, E4, E5, E6.
  assert (L : zlen buf = 18 + zlen (msg_msg_tail_bytes m)) by (unfold buf, msg_msg_to_network; apply cn_len).
  pose proof H as (Ht & Hs & _). rewrite L. split; auto. split.
  - unfold head_to_host_and_verify, head_validate. rewrite E2, E3, E4, E5. cbn [msg_size msg_type]. rewrite Ht, Hs, mm_tail_len.
    replace (30 + zlen (mm_data m) =? 18 + (12 + zlen (mm_data m))) with true by lia. cbn [negb with_crc mm_head]. rewrite Hs. reflexivity.
  - pose proof (mm_receive m [] H) as R. unfold msg_msg_to_network in R. rewrite receive_sent in R; auto; [|rewrite Ht; reflexivity].
    cbn [msg_type msg_size] in R. rewrite Ht in R. change (T_MESSAGE =? T_MESSAGE) with true in R. cbv iota in R. fold (msg_msg_to_network m) in R. fold buf in R.
    destruct (msg_msg_to_host_and_verify _ buf [] _) as [x| |] eqn:E; try discriminate. injection R as ->.
    eapply host_head in E; [exact E|reflexivity].
Qed.
Lemma with_crc_net : forall m, mm_ok m -> msg_msg_to_network (with_crc m) = msg_msg_to_network m.
Proof.
  intros m (Ht & _). unfold msg_msg_to_network, checksum_and_to_network.
  cbn [with_crc mm_head msg_size msg_type msg_value]. change (msg_msg_tail_bytes (with_crc m)) with (msg_msg_tail_bytes m). rewrite Ht. reflexivity.
Qed.
Lemma c_string_no : forall t, ~ In 0 t -> c_string t = t.
Proof. induction t as [|x t IH]; intros H; auto. cbn [c_string In] in *. destruct (x =? 0) eqn:E; [exfalso; apply H; left; lia|]. f_equal. apply IH. tauto. Qed.
Lemma topic_len : forall m, mm_ok m -> zlen (MSG_TOPIC m) = mm_topic_length m.
Proof. intros m (_ & _ & _ & _ & _ & _ & _ & Htl & _). unfold MSG_TOPIC. apply sub_len; lia. Qed.

Lemma read_full : forall m t, mm_ok m -> ~ In 0 t -> MSG_TOPIC m = t ->
  exists m', read_file (Some (File (msg_msg_to_network m))) false (Some t) = Some m' /\ msg_msg_to_network m' = msg_msg_to_network m.
Proof.
  intros m t H NZ HT. destruct (read_head m H) as (E1 & E2 & E3). set (buf := msg_msg_to_network m) in *. exists (with_crc m). split; [|apply with_crc_net; auto].
  pose proof H as (Ht & Hs & Hmax & Hv & Hts & Htc & Hver & Htl & Htl2 & _). pose proof (net_len m) as L. fold buf in L. pose proof (zlen_nonneg _ (mm_data m)).
  assert (U : u32 (zlen buf) = zlen buf) by (unfold u32; rewrite Z.mod_small; lia).
  unfold read_file. cbv zeta. rewrite U. replace (zlen buf <? MSG_HEAD_SIZE) with false by (unfold MSG_HEAD_SIZE; lia).
  replace (4294967295 <? zlen buf) with false by lia. rewrite E1, Z.eqb_refl. cbn [negb andb]. rewrite E2.
  change (msg_type (mm_head (with_crc m)) =? T_MESSAGE) with true. cbn [negb]. rewrite E3.
  change (mm_topic_length (with_crc m)) with (mm_topic_length m). replace (zlen buf <? 30 + mm_topic_length m) with false by lia.
  unfold c_string_len. rewrite c_string_no by auto. rewrite <- HT. rewrite topic_len, Z.eqb_refl by auto.
  change (MSG_TOPIC (with_crc m)) with (MSG_TOPIC m).
  replace (sub_mem (MSG_TOPIC m) 0 (mm_topic_length m)) with (MSG_TOPIC m) by (symmetry; apply sub_all; auto; rewrite topic_len by auto; lia).
  rewrite (proj2 (name_eqb_iff _ _) eq_refl). reflexivity.
Qed.
(** A file with less than the message *)
Lemma read_torn : forall m t j, mm_ok m -> (j < Datatypes.length (msg_msg_to_network m))%nat ->
  read_file (Some (File (firstn j (msg_msg_to_network m)))) false t = None.
Proof.
  intros m t j H HJ. pose proof (tail_bytes m H) as HB. pose proof (tail_head m H) as HH.
  destruct (cn_fields (mm_head m) (msg_msg_tail_bytes m) HB HH) as (_ & E2 & _). fold (msg_msg_to_network m) in E2.
  pose proof (net_len m) as L. set (buf := msg_msg_to_network m) in *. pose proof H as (_ & Hs & Hmax & _).
  assert (ZL : zlen (firstn j buf) = Z.of_nat j) by (unfold zlen; rewrite firstn_length; lia). assert (Z.of_nat j < zlen buf) by (unfold zlen; lia).
  unfold read_file. cbv zeta. rewrite ZL. unfold MSG_HEAD_SIZE. destruct (Z.of_nat j <? 18) eqn:E18; auto.
  replace (4294967295 <? Z.of_nat j) with false by lia.
  assert (F : be_field (firstn j buf) 4 4 = msg_size (mm_head m)).
  { rewrite <- E2. unfold be_field. f_equal. change (firstn j buf) with (firstn j (skipn (Z.to_nat 0) buf)). rewrite <- (Nat2Z.id j). fold (sub_mem buf 0 (Z.of_nat j)). apply sub_sub0; lia. }
  replace (match get_target_size (firstn j buf) with Ok n => u32 (Z.of_nat j) =? n | _ => false end) with false; [reflexivity|].
  unfold get_target_size. destruct (zlen (firstn j buf) <? MSG_HEAD_SIZE); auto. destruct (negb _); auto. rewrite F, Hs. unfold u32. rewrite Z.mod_small by lia. lia.
Qed.

(** ** The files of a database *)
Section Map.
Context (base : path) (H : list Z -> list Z) (T : list (list Z)).
Context (HD : digest_ok H T).
Definition nm (t : list Z) : name := hex (H t).
Definition CC (n : name) (c : list Z) : Prop :=
  exists m j, request_ok m /\ In (MSG_TOPIC m) T /\ n = nm (MSG_TOPIC m) /\ c = firstn j (octets m).
Lemma nm_ok : forall t, name_ok (nm t).
Proof using HD. intros t. destruct HD as [H1 _]. destruct (H1 t). apply hex_name; auto. Qed.
Lemma nm_inj : forall t u, In t T -> In u T -> nm t = nm u -> t = u.
Proof using HD. intros t u A B E. destruct HD as [H1 H2]. apply H2; auto. apply hex_inj; auto; apply H1. Qed.

Definition torn (t c : list Z) : Prop := exists m j, mm_ok m /\ MSG_TOPIC m = t /\ c = firstn j (octets m) /\ (j < Datatypes.length (octets m))%nat.
Definition Rep (d : db) (f : fs) : Prop := forall t, In t T ->
  match d t with
  | Some m => request_ok m /\ MSG_TOPIC m = t /\ has base f (nm t) (octets m)
  | None => forall c, has base f (nm t) c -> torn t c
  end.
Notation Good := (Good base CC).
Notation keeps := (keeps base).
Notation same := (same base).
Lemma rep_keeps : forall d f g, keeps f g -> Rep d f -> Rep d g.
Proof using HD.
  intros d f g K R t HT. specialize (R t HT). destruct (d t) as [m|].
  - destruct R as (R1 & R2 & R3). split; auto. split; auto. apply K; auto. apply nm_ok.
  - intros c X. apply R. apply K; auto. apply nm_ok.
Qed.
Lemma rep_same : forall d f g, same f g -> Rep d f -> Rep d g.
Proof using HD. intros. eapply rep_keeps; eauto. apply same_keeps; auto. Qed.
Lemma assign_eq : forall d t v, assign d t v t = v.
Proof using. intros. unfold assign. destruct (list_eq_dec Z.eq_dec t t); congruence. Qed.
Lemma assign_ne : forall d t v u, t <> u -> assign d t v u = d u.
Proof using. intros. unfold assign. destruct (list_eq_dec Z.eq_dec t u); congruence. Qed.
Lemma rep_others : forall d t v w f g, In t T -> becomes base (nm t) v f g -> Rep d f ->
  match w with Some m => request_ok m /\ MSG_TOPIC m = t /\ v = Some (octets m) | None => match v with Some c => torn t c | None => True end end ->
  Rep (assign d t w) g.
Proof using HD.
  intros d t v w f g HT [B O] R X u HU. destruct (list_eq_dec Z.eq_dec t u) as [<-|E].
  - rewrite assign_eq. destruct w as [m|].
    + destruct X as (X1 & X2 & ->). split; auto. split; auto. apply O. reflexivity.
    + intros c Y. apply O in Y. subst v. exact X.
  - rewrite assign_ne by auto. specialize (R u HU). assert (NE : nm u <> nm t) by (intros Q; apply E; symmetry; apply nm_inj; auto).
    destruct (d u) as [m|].
    + destruct R as (R1 & R2 & R3). split; auto. split; auto. apply (B _ _ NE). auto.
    + intros c Y. apply R. apply (B _ _ NE). auto.
Qed.
(** What a process which was killed leaves behind *)
Definition left (d : db) (m : rrr_msg_msg) (ms : list rrr_msg_msg) (f : fs) : Prop := Good f /\ exists d', ran d (m :: ms) [] d' /\ Rep d' f.

Lemma request_step : forall c m ms d s, c_abs c = true -> c_dir c = base -> (c_levels c <= 4)%nat -> request_ok m -> In (MSG_TOPIC m) T ->
  St base CC s -> at_level base (c_levels c) (s_fs s) -> Rep d (s_fs s) -> at_ base (s_fs s) [] = Some Dir ->
  wp (db_request H c m) (fun a s' => a = answer d m /\ (St base CC s' /\ at_ base (s_fs s') [] = Some Dir) /\ at_level base (c_levels c) (s_fs s') /\ Rep (effect d m) (s_fs s')) (left d m ms) s.
Proof using HD.
  intros c m ms d s HA HC HL HM HT S0 A0 R0 D0. unfold db_request, answer, effect. cbv zeta. fold (nm (MSG_TOPIC m)).
  destruct HM as [HM HZ]. pose proof HM as (_ & _ & _ & _ & _ & HB & _ & Htl & _ & _ & _ & HTY & _).
  destruct (mm_topic_length m =? 0) eqn:E0; [apply wp_ret; auto|].
  pose proof (nm_ok (MSG_TOPIC m)) as N.
  assert (STOP : forall f, Good f /\ same (s_fs s) f -> left d m ms f) by (intros f [G S1]; split; auto; exists d; split; [constructor|eapply rep_same; eauto]).
  destruct (MSG_TYPE m =? 4) eqn:E4.
  { replace (MSG_TYPE m =? 3) with false by lia. cbn [orb].
    assert (EO : msg_msg_to_network (as_msg m) = octets m) by (unfold octets; rewrite as_plain; auto).
    eapply wp_bind with (P := fun e s' => e = 0 /\ (St base CC s' /\ at_ base (s_fs s') [] = Some Dir) /\ at_level base (c_levels c) (s_fs s') /\ becomes base (nm (MSG_TOPIC m)) (Some (octets m)) (s_fs s) (s_fs s')).
    - eapply wp_mono; [apply put_ok; eauto|..].
      + intros j. exists m, j. rewrite EO. split; [split; auto|auto].
      + intros e s' (X1 & X2 & XD & X3 & X4). rewrite EO in X4. auto.
      + rewrite EO. intros f [G [S1|[j B]]]; [apply STOP; auto|]. split; auto. destruct (Nat.lt_ge_cases j (Datatypes.length (octets m))) as [J|J].
        * exists (assign d (MSG_TOPIC m) None). split; [apply R_lost; [lia|left; unfold is_put; lia]|]. eapply rep_others; eauto. exists m, j. auto.
        * exists (assign d (MSG_TOPIC m) (Some m)). split; [apply R_put; [lia|unfold is_put; lia]|]. rewrite firstn_all2 in B by lia. eapply rep_others; eauto.
          split; [split; auto|auto].
    - intros e s' (-> & S1 & A1 & B1). apply wp_ret. split; [reflexivity|]. split; auto. split; auto. eapply rep_others; eauto. split; [split; auto|auto]. }
  destruct (MSG_TYPE m =? 5) eqn:E5.
  { replace (MSG_TYPE m =? 3) with false by lia. cbn [orb].
    eapply wp_bind with (P := fun e s' => e = 0 /\ (St base CC s' /\ at_ base (s_fs s') [] = Some Dir) /\ at_level base (c_levels c) (s_fs s') /\ becomes base (nm (MSG_TOPIC m)) None (s_fs s) (s_fs s')).
    - eapply wp_mono; [apply del_ok; eauto| |apply STOP]. intros e s' (X1 & X2 & XD & X3 & X4). auto.
    - intros e s' (-> & S1 & A1 & B1). apply wp_ret. split; [reflexivity|]. split; auto. split; auto. eapply rep_others; eauto. exact I. }
  destruct (MSG_TYPE m =? 3) eqn:E3; [|apply wp_ret; auto].
  eapply wp_bind; [eapply wp_mono; [apply get_ok; eauto|intros r s' X; exact X|apply STOP]|].
  intros r s' (S1 & DD & SS & v & V & ->). apply wp_ret. split; [|split; auto; split; [eapply same_level; eauto|eapply rep_same; eauto]].
  specialize (R0 _ HT). destruct (d (MSG_TOPIC m)) as [p|].
  - destruct R0 as ([R1 _] & R2 & R3). apply V in R3. rewrite R3.
    destruct (read_full (plain p) (MSG_TOPIC m) (plain_ok p R1) HZ R2) as (m' & RF & EN). unfold octets. rewrite RF. cbn [fst]. change (0 =? 0) with true. cbv iota. rewrite EN. reflexivity.
  - assert (X : read_file v false (Some (MSG_TOPIC m)) = None).
    { destruct v as [[|x]|]; auto. destruct (R0 x) as (q & j & Q1 & Q2 & -> & Q4); [apply V; auto|]. apply read_torn; auto. apply plain_ok; auto. }
    rewrite X. reflexivity.
Qed.
Lemma serve_ok : forall c ms d s, c_abs c = true -> c_dir c = base -> (c_levels c <= 4)%nat -> Forall request_ok ms -> Forall (fun m => In (MSG_TOPIC m) T) ms ->
  St base CC s -> at_level base (c_levels c) (s_fs s) -> Rep d (s_fs s) -> at_ base (s_fs s) [] = Some Dir ->
  let '(a, f) := serve H c ms s in
  Good f /\ (exists d', ran d ms a d' /\ Rep d' f) /\ (s_life s = None -> Datatypes.length a = Datatypes.length ms).
Proof using HD.
  induction ms as [|m ms IH]; intros d s HA HC HL HM HT S0 A0 R0 D0; cbn [serve].
  - split; [apply S0|]. split; auto. exists d. split; [constructor|auto].
  - inversion HM; inversion HT; subst. pose proof (request_step c m ms d s HA HC HL) as X. specialize (X ltac:(auto) ltac:(auto) S0 A0 R0 D0).
    pose proof (im_request H c m s) as IM. unfold wp in X. destruct (db_request H c m s) as [a s'|f].
    + destruct X as (-> & [S1 D1] & A1 & R1). specialize (IH (effect d m) s' HA HC HL ltac:(auto) ltac:(auto) S1 A1 R1 D1).
      destruct (serve H c ms s') as [l f]. destruct IH as (G & (d' & RN & RP) & LEN). split; auto. split.
      * exists d'. split; auto. constructor. auto.
      * intros L. cbn [length]. rewrite LEN; auto.
    + destruct X as (G & d' & RN & RP). split; auto. split; eauto. intros L. destruct (IM L).
Qed.
Lemma run_ok : forall levels life ms home d f, (levels <= 4)%nat -> Forall request_ok ms -> Forall (fun m => In (MSG_TOPIC m) T) ms -> Good f -> Rep d f ->
  let '(a, f') := run H (mk_cfg true base levels) home life ms f in
  Good f' /\ (exists d', ran d ms a d' /\ Rep d' f') /\ (life = None -> Datatypes.length a = Datatypes.length ms).
Proof using HD.
  intros levels life ms home d f HL HM HT G R. unfold run, server_start. set (c := mk_cfg true base levels).
  pose proof (restructure_ok base CC c (mk_st f home None life) eq_refl eq_refl HL) as X. specialize (X ltac:(split; cbn; [auto|discriminate])).
  pose proof (im_restructure c (mk_st f home None life)) as IM. unfold wp in X. destruct (restructure c (mk_st f home None life)) as [e s|g].
  - destruct X as (-> & S1 & D1 & K1 & A1). cbn [s_fs] in K1. pose proof (serve_ok c ms d s eq_refl eq_refl HL HM HT S1 A1 (rep_keeps _ _ _ K1 R) D1) as Y.
    destruct (serve H c ms s) as [a f']. destruct Y as (Y1 & Y2 & Y3). split; auto.
  - destruct X as (X1 & X2). cbn [s_fs] in X2. split; auto. split; [exists d; split; [constructor|eapply rep_keeps; eauto]|]. intros ->. destruct (IM eq_refl).
Qed.
Lemma all_runs_ok : forall rs home d f, Forall (fun r => (fst (fst r) <= 4)%nat /\ Forall request_ok (snd r)) rs -> incl (topics rs) T -> Good f -> Rep d f ->
  exists e, history d rs (run_all H base home rs f) e /\ Good (runs_fs H base home rs f) /\ Rep e (runs_fs H base home rs f).
Proof using HD.
  induction rs as [|[[levels life] ms] rs IH]; intros home d f HR HT G R; cbn [run_all history runs_fs]; [eauto|].
  inversion HR as [|? ? [HL HM] HR2]; subst. cbn [fst snd] in *.
  assert (HT1 : Forall (fun m => In (MSG_TOPIC m) T) ms) by (apply Forall_forall; intros m X; apply HT; cbn [topics flat_map snd]; apply in_or_app; left; apply in_map; auto).
  pose proof (run_ok levels life ms home d f HL HM HT1 G R) as X. destruct (run H (mk_cfg true base levels) home life ms f) as [a f'].
  destruct X as (G' & (d' & RN & RP) & LEN). cbn [snd].
  destruct (IH home d' f' HR2) as (e & X1 & X2 & X3); auto; [intros t X; apply HT; cbn [topics flat_map]; apply in_or_app; right; exact X|].
  exists e. split; auto. exists d'. auto.
Qed.
Lemma serve_to_ok : forall c ms d s s', c_abs c = true -> c_dir c = base -> (c_levels c <= 4)%nat -> Forall request_ok ms -> Forall (fun m => In (MSG_TOPIC m) T) ms ->
  St base CC s -> at_level base (c_levels c) (s_fs s) -> Rep d (s_fs s) -> at_ base (s_fs s) [] = Some Dir -> serve_to H c ms s = Some s' ->
  St base CC s' /\ at_ base (s_fs s') [] = Some Dir /\ at_level base (c_levels c) (s_fs s') /\ Rep (fold_left effect ms d) (s_fs s').
Proof using HD.
  induction ms as [|m ms IH]; intros d s s' HA HC HL HM HT S0 A0 R0 D0 E; cbn [serve_to fold_left] in *; [injection E as <-; auto|].
  inversion HM; inversion HT; subst. pose proof (request_step c m ms d s HA HC HL) as X. specialize (X ltac:(auto) ltac:(auto) S0 A0 R0 D0).
  unfold wp in X. destruct (db_request H c m s) as [a s1|f]; [|discriminate]. destruct X as (_ & [S1 D1] & A1 & R1). eapply IH; eauto.
Qed.
Lemma fresh_good : forall f, fresh f base -> Good f /\ Rep empty f.
Proof using.
  intros f (F1 & F2 & F3).
  assert (N : forall q, q <> [] -> at_ base f q = None) by (intros; apply F2; auto).
  split; [split|].
  - exact F1.
  - unfold at_. rewrite app_nil_r. destruct F3 as [F3|[F3 F4]]; auto. right. split; auto. split; auto. intros q. destruct q; [rewrite app_nil_r; auto|]. apply N. discriminate.
  - intros q n Q X. rewrite N in X by auto. discriminate.
  - intros n k k' c c' _ _ _ X. rewrite N in X by apply make_path_nonnil. discriminate.
  - intros q n Q X. rewrite N in X by auto. discriminate.
  - intros t _ c (k & _ & X). rewrite N in X by apply make_path_nonnil. discriminate.
Qed.
End Map.

Lemma history_ok : forall H dir home rs f, fresh f dir -> digest_ok H (topics rs) -> Forall (fun r => (fst (fst r) <= 4)%nat /\ Forall request_ok (snd r)) rs ->
  exists e, history empty rs (run_all H dir home rs f) e.
Proof.
  intros H dir home rs f F D R. destruct (fresh_good dir H (topics rs) f F) as [G RP]. destruct (all_runs_ok dir H (topics rs) D rs home empty f) as (e & X & _); auto; [apply incl_refl|]. eauto.
Qed.
