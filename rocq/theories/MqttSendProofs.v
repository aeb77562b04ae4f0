(** What is assembled is what the standard says. *)
From Coq Require Import Strings.String.
From Coq Require Import ZArith List Bool Lia.
From Verif Require Import Common Utf8Spec TopicModel TopicProofs MqttModel MqttSpec MqttGoodProofs MqttReadProofs MqttPacketProofs MqttConnProofs.
Import ListNotations.
Open Scope Z_scope.
Notation len := Datatypes.length.

Lemma aapp_ok : forall a b x y, a = AOk x -> b = AOk y -> aapp a b = AOk (x ++ y).
Proof. intros a b x y -> ->. reflexivity. Qed.
Lemma put_raw_ok : forall l, l <> [] -> put_raw l = AOk l.
Proof. intros [|c l] H; [congruence|reflexivity]. Qed.
Lemma put_u8_ok : forall n, byte n -> put_u8 n = AOk [n].
Proof. intros n H. unfold byte in H. unfold put_u8. cbn [be_enc]. change (2 ^ (8 * Z.of_nat 0)) with 1. rewrite Z.div_1_r, Z.mod_small by lia. reflexivity. Qed.
Lemma put_u16_ok : forall n, put_u16 n = AOk (be_enc 2 n).
Proof. reflexivity. Qed.
Lemma put_string_ok : forall s, s <> [] -> zlen s <= 65535 -> put_string s = AOk (mstr s).
Proof.
  intros s H L. unfold put_string. replace (65535 <? zlen s) with false by lia. rewrite put_u16_ok, put_raw_ok by auto. reflexivity.
Qed.

(** Variable byte integers *)
Lemma land127 : forall v, Z.land v 127 = v mod 128.
Proof. intros. change 127 with (2 ^ 7 - 1). rewrite land_ones_mod by lia. reflexivity. Qed.
Lemma shiftr7 : forall v, Z.shiftr v 7 = v / 128.
Proof. intros. rewrite Z.shiftr_div_pow2 by lia. reflexivity. Qed.
Lemma lor128 : forall c, 0 <= c < 128 -> Z.lor c 128 = 128 + c.
Proof. intros c H. rewrite Z.lor_comm. change 128 with (1 * 2 ^ 7) at 1. rewrite lor_add by (cbn; lia). cbn. lia. Qed.
Ltac leq := repeat (refine (f_equal2 (@cons Z) _ _); [lia|]); reflexivity.
Lemma vint_bytes_vint : forall n, 0 <= n <= VINT_MAX -> vint_bytes 4 n = vint n /\ vint_size 5 n = zlen (vint n).
Proof.
  intros n H. unfold VINT_MAX in H. unfold vint. cbn [vint_bytes vint_size]. rewrite !shiftr7, !land127.
  rewrite !lor128 by lia.
  destruct (n <? 128) eqn:E1; [|destruct (n <? 16384) eqn:E2; [|destruct (n <? 2097152) eqn:E3]].
  - replace (n / 128 =? 0) with true by lia. split; [f_equal; lia|reflexivity].
  - replace (n / 128 =? 0) with false by lia. replace (n / 128 / 128 =? 0) with true by lia. split; [leq|reflexivity].
  - replace (n / 128 =? 0) with false by lia. replace (n / 128 / 128 =? 0) with false by lia.
    replace (n / 128 / 128 / 128 =? 0) with true by lia. split; [leq|reflexivity].
  - replace (n / 128 =? 0) with false by lia. replace (n / 128 / 128 =? 0) with false by lia.
    replace (n / 128 / 128 / 128 =? 0) with false by lia. replace (n / 128 / 128 / 128 / 128 =? 0) with true by lia.
    split; [leq|reflexivity].
Qed.
Lemma put_vint_ok : forall n, 0 <= n <= VINT_MAX -> put_vint n = AOk (vint n).
Proof.
  intros n H. unfold put_vint. destruct (vint_bytes_vint n H) as [-> _]. unfold VINT_MAX in H. replace (268435455 <? n) with false by lia.
  apply put_raw_ok. intros E. pose proof (vint_len n) as X. rewrite E in X. cbn in X. lia.
Qed.

(** Properties *)
Lemma mstr_len : forall s, zlen (mstr s) = 2 + zlen s.
Proof. intros. unfold mstr. rewrite zlen_app, be_enc_len. lia. Qed.
Lemma put_prop_ok : forall p, prop_legal p -> val_nonempty (pr_val p) ->
  put_prop p = AOk (wire_prop p) /\ prop_size p + 1 = zlen (wire_prop p).
Proof.
  intros [id v] (t & K & L) N. cbn [pr_id pr_val] in *. unfold put_prop, wire_prop, prop_size. cbn [pr_id pr_val].
  rewrite kind_def, K. rewrite zlen_cons.
  change (id :: wire_val t v) with ([id] ++ wire_val t v).
  rewrite put_u8_ok by (eapply kind_byte; eauto).
  destruct t, v; cbn [val_legal val_nonempty wire_val put_prop_val] in *; try contradiction.
  - split; [apply aapp_ok; reflexivity|rewrite be_enc_len; lia].
  - split; [apply aapp_ok; reflexivity|rewrite be_enc_len; lia].
  - split; [apply aapp_ok; reflexivity|rewrite be_enc_len; lia].
  - split; [apply aapp_ok; [reflexivity|apply put_vint_ok; auto]|destruct (vint_bytes_vint n L) as [_ ->]; lia].
  - split; [apply aapp_ok; [reflexivity|]|rewrite mstr_len; lia]. destruct d; [congruence|]. apply put_string_ok; [auto|apply L].
  - split; [apply aapp_ok; [reflexivity|]|rewrite mstr_len; lia]. destruct d; [congruence|]. apply put_string_ok; [auto|apply L].
  - split; [apply aapp_ok; [reflexivity|]|rewrite zlen_app, !mstr_len; lia]. destruct L as [L1 L2]. destruct N as [N1 N2]. destruct k; [congruence|].
    apply aapp_ok; apply put_string_ok; auto; [apply L1|apply L2].
Qed.
Lemma put_prop_list_ok : forall l, Forall prop_legal l -> Forall (fun p => val_nonempty (pr_val p)) l ->
  put_prop_list l = AOk (flat_map wire_prop l) /\ props_size l + zlen l = zlen (flat_map wire_prop l).
Proof.
  induction l as [|p l IH]; intros L N; [split; reflexivity|]. inversion L; inversion N; subst. cbn [put_prop_list props_size flat_map].
  destruct (put_prop_ok p) as [P1 P2]; auto. destruct IH as [I1 I2]; auto. rewrite zlen_app, zlen_cons. split; [|lia].
  apply aapp_ok; auto.
Qed.
Lemma put_props_ok : forall ver l, props_legal ver l -> props_writable l -> put_props l = AOk (wire_props l).
Proof.
  intros ver l (L & H & _) (N & W). unfold put_props, wire_props. cbv zeta.
  destruct (put_prop_list_ok l L N) as [-> ->]. unfold VINT_MAX in *. replace (268435455 <? _) with false by lia.
  rewrite Z.eqb_refl. apply aapp_ok; [|reflexivity]. apply put_vint_ok. unfold VINT_MAX. split; auto. apply zlen_nonneg.
Qed.
Lemma put_props_v5_ok : forall ver l, 3 <= ver <= 5 -> props_legal ver l -> props_writable l ->
  put_props_v5 ver l = AOk (if5 ver (wire_props l)).
Proof.
  intros ver l V L W. unfold put_props_v5, if5. replace (5 <=? ver) with (ver =? 5) by lia.
  destruct (ver =? 5); [eapply put_props_ok; eauto|reflexivity].
Qed.

Lemma asm_subs_ok : forall ver type subs, 3 <= ver <= 5 -> (type = 8 \/ type = 10) -> Forall (sub_legal ver type) subs ->
  Forall (fun s => sb_nl s = 0 /\ sb_rap s = 0) subs -> asm_subs ver (type =? 8) subs = AOk (flat_map (wire_sub type) subs).
Proof.
  intros ver type subs V T L. induction L as [|[f rt rap nl q] l Ls L IH]; intros N; [reflexivity|].
  inversion N as [|? ? [N1 N2] N']; subst. cbn [asm_subs flat_map].
  apply aapp_ok; auto. clear IH N N'. destruct Ls as (Hf & Hq & Hr & _ & _ & V3 & T10).
  cbn [sb_filter sb_retain sb_rap sb_nl sb_qos] in *. subst nl rap.
  unfold asm_sub, wire_sub. cbn [sb_filter sb_retain sb_rap sb_nl sb_qos].
  replace (2 <? rt) with false by lia. replace (2 <? q) with false by lia. change (0 <? 0) with false. cbn [orb].
  apply aapp_ok; [apply put_string_ok; [apply Hf|apply string_len; apply Hf]|].
  destruct (type =? 8); [|reflexivity].
  assert (O : (if ver =? 5 then Z.lor (Z.lor (Z.lor q (Z.shiftl 0 2)) (Z.shiftl 0 3)) (Z.shiftl rt 4) else q) = q + 4 * 0 + 8 * 0 + 16 * rt).
  { destruct (ver =? 5) eqn:E.
    - assert (Q : q = 0 \/ q = 1 \/ q = 2) by lia. assert (RT : rt = 0 \/ rt = 1 \/ rt = 2) by lia.
      destruct Q as [->|[->| ->]], RT as [->|[->| ->]]; reflexivity.
    - destruct V3 as (-> & _); lia. }
  rewrite O. apply put_u8_ok. unfold byte. lia.
Qed.
Lemma asm_acks_ok : forall ver acks, acks <> [] -> bytes acks -> (ver <> 5 -> Forall (fun c => In c suback_codes_v3) acks) ->
  asm_acks ver acks = AOk acks.
Proof.
  intros ver acks N B V. unfold asm_acks. destruct acks as [|a acks]; [congruence|]. f_equal.
  rewrite <- (map_id (a :: acks)) at 2. apply map_ext_in. intros c Hc.
  assert (Bc : byte c) by (unfold bytes in B; rewrite Forall_forall in B; auto). unfold byte in Bc.
  assert (U : u8 c = c) by (unfold u8; apply Z.mod_small; cbn; lia).
  destruct (ver =? 5) eqn:E; [exact U|]. cbn [orb].
  specialize (V ltac:(lia)). rewrite Forall_forall in V. specialize (V c Hc). cbn in V.
  destruct V as [<-|[<-|[<-|[<-|[]]]]]; reflexivity.
Qed.
Lemma translate_ok : forall r, In r connack_codes_v3 -> translate_v5 r = Some (connack_v3 r) /\ connack_v3 r <= 5 /\ byte (connack_v3 r) .
Proof.
  intros r H. unfold connack_codes_v3 in H. unfold byte.
  repeat (destruct H as [<-|H]; [split; [reflexivity|cbn; lia]|]). contradiction.
Qed.
Lemma suback_in_byte : forall ver type acks,
  Forall (fun c => In c (if 5 <=? ver then if type =? 9 then suback_codes else unsuback_codes else suback_codes_v3)) acks -> bytes acks.
Proof.
  intros ver type acks H. unfold bytes. eapply Forall_impl; [|exact H]. cbv beta. intros c Hc.
  eapply in_codes_byte; [|exact Hc]. destruct (5 <=? ver); [destruct (type =? 9)|]; reflexivity.
Qed.

Definition payload_bytes (p : packet) : list Z := match payload_of p with Some l => l | None => [] end.
Lemma assemble_ok : forall p, writable p -> exists a, assemble p = AOk a /\ a ++ payload_bytes p = wire_rest p.
Proof.
  intros [t f v b] [[L [V _]] W]. cbn [pk_type pk_flags pk_ver pk_body] in *.
  unfold wire_rest, payload_bytes, payload_of, assemble. cbn [pk_type pk_flags pk_ver pk_body].
  destruct b as [v' cf keep props cid w user pass|ack r props|topic pid props pl|pid r props|pid props subs|pid props acks| |r props];
    cbn [body_legal body_writable] in *.
  - destruct L as (_ & -> & -> & Hv & Bcf & C0 & Cw & Cq & Cp & Hk & Hp & Hc & Pw & Hw & Pu & Hu & Pp & Hpw).
    destruct W as (W1 & W2 & W3 & W4 & W5).
    eexists. split; [|apply app_nil_r].
    unfold asm_connect.
    assert (VN : version_name v = Some (proto_name v)) by (destruct Hv as [->|[->| ->]]; reflexivity). rewrite VN.
    unfold c_will, c_user, c_pass.
    destruct (bit_testbit cf 2) as (-> & _); [lia|]. destruct (bit_testbit cf 6) as (-> & _); [lia|].
    destruct (bit_testbit cf 7) as (-> & _); [lia|]. rewrite <- Pw, <- Pu, <- Pp.
    repeat apply aapp_ok.
    + apply put_string_ok; destruct Hv as [->|[->| ->]]; cbn; (discriminate || lia).
    + apply put_u8_ok. unfold byte. lia.
    + apply put_u8_ok. auto.
    + reflexivity.
    + apply put_props_v5_ok; auto.
    + destruct cid as [cid|]; [apply put_string_ok; [exact W2|apply string_len, Hc]|reflexivity].
    + destruct w as [w|]; cbn [present]; [|reflexivity]. destruct Hw as (X1 & X2 & X3). destruct W3 as [Y1 Y2].
      repeat apply aapp_ok; [apply put_props_v5_ok; auto| |].
      * apply put_string_ok; [apply X2|apply string_len, X2].
      * apply put_string_ok; [auto|apply X3].
    + destruct user as [user|]; cbn [present put_opt opt_str]; [|reflexivity]. apply put_string_ok; [exact W4|apply string_len, Hu].
    + destruct pass as [pass|]; cbn [present put_opt opt_str]; [|reflexivity]. apply put_string_ok; [exact W5|apply Hpw].
  - destruct L as (_ & -> & Ha & Hr & Hp). eexists. split; [|apply app_nil_r].
    unfold asm_connack. replace (5 <=? v) with (v =? 5) in * by lia.
    assert (BA : byte ack) by (unfold byte; lia).
    pose proof (put_props_v5_ok v props V Hp W) as PP. unfold if5, put_props_v5 in *. replace (5 <=? v) with (v =? 5) in * by lia.
    destruct (v =? 5).
    + rewrite PP. repeat apply aapp_ok; try apply put_u8_ok; auto. eapply in_codes_byte; [|exact Hr]. reflexivity.
    + destruct (translate_ok r Hr) as (-> & T1 & T2). replace (5 <? connack_v3 r) with false by lia.
      rewrite app_nil_r. apply aapp_ok; apply put_u8_ok; auto.
  - destruct L as (_ & Hf & Hq & Q0 & Qn & Ht & Hp & Hl).
    destruct (publish_flags f Hf) as [FQ _].
    exists (mstr topic ++ (if pid =? 0 then [] else be_enc 2 pid) ++ if5 v (wire_props props)). split; [|rewrite <- !app_assoc; reflexivity].
    unfold asm_publish. rewrite FQ. repeat apply aapp_ok.
    + apply put_string_ok; [apply Ht|apply string_len, Ht].
    + destruct (Z.eq_dec (f / 2 mod 4) 0) as [E|E].
      * destruct (Q0 E) as [_ ->]. rewrite E. reflexivity.
      * specialize (Qn E). replace (pid =? 0) with false by lia. replace (0 <? f / 2 mod 4) with true by lia. reflexivity.
    + apply put_props_v5_ok; auto.
  - destruct L as (T & Hf & Hpid & Hp & Hr). eexists. split; [|apply app_nil_r].
    unfold asm_ack. apply aapp_ok; [reflexivity|].
    pose proof (put_props_v5_ok v props V Hp W) as PP. unfold if5, put_props_v5 in *. replace (5 <=? v) with (v =? 5) in * by lia.
    destruct (v =? 5); [|reflexivity]. apply aapp_ok; auto. apply put_u8_ok. apply (ack_code t r T Hr).
  - destruct L as (T & -> & Hpid & Hp & Hn & Hs). destruct W as [W1 W2]. eexists. split; [|apply app_nil_r].
    unfold asm_sub_usub. apply aapp_ok; [reflexivity|]. apply aapp_ok; [apply put_props_v5_ok; auto|].
    pose proof (asm_subs_ok v t subs V T Hs W2). destruct subs; [congruence|]. auto.
  - destruct L as (T & -> & Hpid & Hp & Ha). eexists. split; [|apply app_nil_r].
    unfold asm_suback. pose proof (put_props_v5_ok v props V Hp W) as PP.
    destruct T as [-> | ->].
    + change (9 =? 9) with true in *. change (9 =? 11) with false in *. cbn [andb] in Ha. cbv iota. destruct Ha as [Hn Ha].
      apply aapp_ok; [reflexivity|]. apply aapp_ok; auto.
      apply asm_acks_ok; auto; [eapply (suback_in_byte v 9); exact Ha|].
      intros N. replace (5 <=? v) with false in Ha by lia. exact Ha.
    + change (11 =? 9) with false in *. change (11 =? 11) with true in *. cbn [andb] in Ha. cbv iota.
      apply aapp_ok; [reflexivity|].
      unfold if5, put_props_v5 in *. replace (5 <=? v) with (v =? 5) in * by lia. destruct (v =? 5) eqn:E5.
      * replace (v <? 5) with false in Ha by lia. destruct Ha as [Hn Ha]. apply aapp_ok; auto.
        apply asm_acks_ok; auto; [|lia]. eapply (suback_in_byte 5 11). exact Ha.
      * replace (v <? 5) with true in Ha by lia. subst acks. reflexivity.
  - exists []. split; reflexivity.
  - subst props. destruct L as (_ & -> & Hp & Hr). eexists. split; [|apply app_nil_r].
    unfold asm_disconnect, if5. replace (5 <=? v) with (v =? 5) in * by lia. destruct (v =? 5); [|reflexivity].
    apply aapp_ok; [apply put_u8_ok; auto|reflexivity].
Qed.
Lemma send_ok : forall p, writable p -> send_packet p = AOk (wire p).
Proof.
  intros p W. destruct (assemble_ok p W) as (a & A1 & A2). unfold send_packet. rewrite A1.
  destruct W as [L _]. destruct (flags_range p L) as [_ F].
  replace (match reserved_flags (pk_type p) with Some f => negb (f =? pk_flags p) | None => false end) with false
    by (destruct (reserved_flags (pk_type p)); [subst; rewrite Z.eqb_refl; reflexivity|reflexivity]).
  cbv zeta. change (match payload_of p with Some l => l | None => [] end) with (payload_bytes p).
  assert (Z : zlen a + zlen (payload_bytes p) = zlen (wire_rest p)) by (rewrite <- A2, zlen_app; reflexivity).
  rewrite Z. destruct L as (Lb & _ & L2). unfold VINT_MAX in L2. pose proof (zlen_nonneg _ (wire_rest p)).
  replace (4294967295 <? zlen (wire_rest p)) with false by lia.
  replace (268435455 <? zlen (wire_rest p)) with false by lia.
  replace (match payload_of p with Some [] => true | _ => false end) with false.
  - destruct (vint_bytes_vint (zlen (wire_rest p)) ltac:(unfold VINT_MAX; lia)) as [-> _]. rewrite A2. reflexivity.
  - unfold payload_of. destruct (pk_body p); auto. destruct payload as [[|c l]|]; auto.
    cbn [body_legal] in Lb. destruct Lb as (_ & _ & _ & _ & _ & _ & _ & _ & X). congruence.
Qed.

(** ASCII text is legal (for the examples). *)
Lemma ascii_legal : forall s, forallb (fun c => (1 <=? c) && (c <? 128)) s = true -> zlen s <= 65535 -> string_legal s.
Proof.
  intros s H L. rewrite forallb_forall in H. repeat apply conj; auto.
  - apply Forall_forall. intros c Hc. apply H in Hc. unfold byte. lia.
  - exists s. split; [apply Forall_forall; intros c Hc; apply H in Hc; unfold scalar; lia|].
    clear L. induction s as [|c s IH]; [reflexivity|]. unfold utf8_encode_all in *. cbn [flat_map]. rewrite <- IH by (intros; apply H; right; auto).
    specialize (H c (or_introl eq_refl)). unfold utf8_encode. replace (c <? 128) with true by lia. reflexivity.
  - intros I. apply H in I. discriminate.
Qed.
