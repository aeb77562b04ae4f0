(** Every packet of the standard which is [readable] is parsed as it is. *)
From Coq Require Import Strings.String.
From Coq Require Import ZArith List Bool Lia.
From Verif Require Import Common TopicModel TopicProofs MqttModel MqttSpec MqttGoodProofs MqttReadProofs.
Import ListNotations.
Open Scope Z_scope.
Notation len := Datatypes.length.

Definition hver (h : hdr) (ver : option Z) : Z :=
  match h with HConnect v _ _ _ => v | _ => match ver with Some v => v | None => 0 end end.
Definition parses (ver : option Z) (p : packet) (rest : list Z) : Prop :=
  forall pre suf tgt, zlen pre + zlen rest = tgt -> exists h pp q ck,
    p_hdr tgt ver (pk_type p) (pk_flags p) (pre ++ rest ++ suf) (zlen pre) = POk h pp /\
    zlen pre <= pp <= tgt /\ hver h ver = pk_ver p /\
    p_payload tgt (pk_ver p) (pk_type p) h [] (pre ++ rest ++ suf) pp = (POk (pk_body p) q, ck).

Lemma parses_intro : forall ver p hw pw h,
  (forall tgt, reads tgt (p_hdr tgt ver (pk_type p) (pk_flags p)) hw h) ->
  hver h ver = pk_ver p ->
  (forall pre suf tgt, zlen pre + zlen pw = tgt -> exists q ck,
     p_payload tgt (pk_ver p) (pk_type p) h [] (pre ++ pw ++ suf) (zlen pre) = (POk (pk_body p) q, ck)) ->
  parses ver p (hw ++ pw).
Proof.
  intros ver p hw pw h H1 H2 H3 pre suf tgt E. rewrite zlen_app in E.
  pose proof (zlen_nonneg _ hw). pose proof (zlen_nonneg _ pw).
  destruct (H3 (pre ++ hw) suf tgt) as (q & ck & H4); [rewrite zlen_app; lia|].
  exists h, (zlen pre + zlen hw), q, ck. rewrite <- app_assoc. split; [apply H1; lia|]. split; [lia|]. split; auto.
  rewrite zlen_app in H4. rewrite <- app_assoc in H4. exact H4.
Qed.
Lemma parses_end : forall ver p w h,
  (forall tgt, reads_end tgt (p_hdr tgt ver (pk_type p) (pk_flags p)) w h) ->
  hver h ver = pk_ver p ->
  (forall buf tgt, exists q ck,
     p_payload tgt (pk_ver p) (pk_type p) h [] buf tgt = (POk (pk_body p) q, ck)) ->
  parses ver p w.
Proof.
  intros ver p w h H1 H2 H3 pre suf tgt E. pose proof (zlen_nonneg _ w).
  destruct (H3 (pre ++ w ++ suf) tgt) as (q & ck & H4).
  exists h, tgt, q, ck. split; [apply H1; auto|]. split; [lia|]. auto.
Qed.

(** *** CONNECT *)
Lemma bit_testbit : forall x n, 0 <= n -> (bit x n =? 1) = Z.testbit x n /\ (bit x n =? 0) = negb (Z.testbit x n).
Proof.
  intros x n H. unfold bit. change 1 with (2 ^ 1 - 1) at 1 3. rewrite !land_ones_mod by lia. change (2 ^ 1) with 2.
  rewrite Z.shiftr_div_pow2 by lia. rewrite <- Z.testbit_spec' by lia. destruct (Z.testbit x n); auto.
Qed.
Lemma two_bits_div : forall x n, 0 <= n -> two_bits x n = x / 2 ^ n mod 4.
Proof.
  intros. unfold two_bits. change 3 with (2 ^ 2 - 1). rewrite land_ones_mod by lia. rewrite Z.shiftr_div_pow2 by lia. reflexivity.
Qed.
Lemma will_qos_bits : forall cf, c_will_qos cf = Z.b2z (Z.testbit cf 3) + 2 * Z.b2z (Z.testbit cf 4).
Proof.
  intros. unfold c_will_qos. rewrite two_bits_div by lia. rewrite !Z.testbit_spec' by lia.
  change (2 ^ 3) with 8. change (2 ^ 4) with 16. lia.
Qed.
Lemma connect_parses : forall ver p, readable p -> pk_type p = 1 -> parses ver p (wire_rest p).
Proof.
  intros ver [type fl v b] [[L [Vb _]] Rd] T. cbn [pk_type pk_flags pk_ver pk_body] in *.
  unfold wire_rest. cbn [pk_type pk_flags pk_ver pk_body].
  destruct b as [v' cf keep props cid w user pass|ack r props|topic pid props pl|pid r props|pid props subs|pid props acks| |r props];
    cbn [body_legal] in L; try (exfalso; intuition lia).
  destruct L as (_ & -> & -> & Hv & Bcf & C0 & Cw & Cq & Cp & Hk & Hp & Hc & Pw & Hw & Pu & Hu & Pp & Hpw).
  destruct Rd as (NB & NC & NW & NU & NP). subst type.
  rewrite app_assoc, (app_assoc _ [cf]), (app_assoc _ (be_enc 2 keep)), (app_assoc _ (if5 v _)).
  apply (parses_intro ver _ _ _ (HConnect v cf keep props)); [|reflexivity|].
  - intros tgt. cbn [pk_type pk_flags]. unfold p_hdr. change (1 =? 1) with true. cbv iota. unfold p_connect_hdr.
    rewrite <- !app_assoc. unfold mstr. rewrite <- !app_assoc.
    eapply reads_bind; [apply reads_u16; destruct Hv as [->|[->| ->]]; cbn; lia|].
    apply reads_check; [destruct Hv as [->|[->| ->]]; reflexivity|].
    eapply reads_bind; [apply reads_take; reflexivity|].
    eapply reads_bind; [apply reads_u8; unfold byte; lia|].
    assert (VN : exists vn, version_name v = Some vn /\ str_same vn (map toupper (cstr (proto_name v))) = true).
    { destruct Hv as [->|[->| ->]]; eexists; split; reflexivity. }
    destruct VN as (vn & -> & VN). apply reads_check; [exact VN|].
    eapply reads_bind; [apply reads_u8; auto|].
    unfold c_will, c_pass, c_user, c_will_retain.
    pose proof (will_qos_bits cf) as WQ.
    destruct (bit_testbit cf 0) as (_ & ->); [lia|]. destruct (bit_testbit cf 2) as (-> & _); [lia|].
    destruct (bit_testbit cf 5) as (_ & ->); [lia|]. destruct (bit_testbit cf 6) as (-> & _); [lia|].
    destruct (bit_testbit cf 7) as (-> & _); [lia|]. rewrite WQ.
    apply reads_check; [rewrite C0; reflexivity|].
    apply reads_check.
    { destruct (Z.testbit cf 2); [reflexivity|]. destruct Cw as (-> & -> & ->); auto. }
    apply reads_check.
    { destruct (5 <=? v) eqn:E5; [reflexivity|]. destruct (Z.testbit cf 6); [|reflexivity]. rewrite Cp; auto. lia. }
    apply reads_check.
    { destruct (Z.testbit cf 3), (Z.testbit cf 4); try reflexivity. exfalso. apply Cq. auto. }
    eapply reads_bind; [apply reads_u16; auto|].
    apply (reads_map _ _ _ _ (HConnect v cf keep)). apply reads_props_v5; auto.
  - intros pre suf tgt E. cbn [pk_type pk_ver pk_body p_payload].
    cut (reads_end tgt (p_connect_payload tgt v cf keep props)
      (mstr match cid with Some s => s | None => [] end ++
       match w with
       | Some w => if5 v (wire_props (w_props w)) ++ mstr (w_topic w) ++ mstr (w_msg w)
       | None => []
       end ++ opt_str user ++ opt_str pass) (BConnect v cf keep props cid w user pass)).
    { intros X. rewrite X by auto. eauto. }
    clear pre suf E. destruct cid as [cid|]; [|congruence]. cbn [opt_legal] in Hc.
    unfold p_connect_payload.
    eapply reads_end_bind; [apply reads_utf8; auto; apply zlen_nonneg|]. rewrite string_cstr by auto.
    unfold c_will, c_user, c_pass.
    destruct (bit_testbit cf 2) as (-> & _); [lia|]. destruct (bit_testbit cf 6) as (-> & _); [lia|].
    destruct (bit_testbit cf 7) as (-> & _); [lia|]. rewrite <- Pw, <- Pu, <- Pp.
    eapply (reads_end_bind _ _ _ _ _ _ _ w).
    { destruct w as [[wp wt wm]|]; cbn [present w_props w_topic w_msg] in *; [|apply reads_ret].
      destruct Hw as (W1 & W2 & W3).
      eapply reads_bind; [apply reads_props_v5; auto|].
      eapply reads_bind; [apply reads_utf8; [apply W2|apply nonempty_len, W2]|].
      rewrite string_cstr by apply W2.
      apply reads_check; [apply topic_name_ok; auto|].
      apply (reads_map _ _ _ _ (fun wm => Some (mk_will wp wt wm))). apply reads_blob. apply W3. }
    assert (O : forall o, opt_legal (fun s => string_legal s /\ s <> []) o ->
      reads tgt (if present o then fun buf pos => if tgt <? pos + 1 then PSoft
                   else pbind (p_utf8 tgt 1) (fun s => pret (Some (cstr s))) buf pos
                 else pret None) (opt_str o) o).
    { intros [s|] Ho; cbn [present opt_str]; [|apply reads_ret]. destruct Ho as [Ho1 Ho2].
      intros pre suf E. pose proof (nonempty_len s Ho2).
      assert (zlen (mstr s) = 2 + zlen s) by (unfold mstr; rewrite zlen_app, be_enc_len; reflexivity).
      replace (tgt <? zlen pre + 1) with false by lia.
      rewrite <- (string_cstr s) at 2 by auto.
      apply (reads_map _ _ tgt _ (fun s => Some (cstr s))); auto. apply reads_utf8; auto. }
    eapply (reads_end_bind _ _ _ _ _ _ _ user).
    { apply O. destruct user; cbn [opt_legal] in *; auto. }
    rewrite <- (app_nil_r (opt_str pass)).
    eapply (reads_end_bind _ _ _ _ _ _ _ pass).
    { apply O. destruct pass; cbn [opt_legal] in *; auto. }
    intros pre suf E. rewrite zlen_nil in E. replace (tgt <? zlen pre + 1) with true by lia. f_equal. lia.
Qed.

(** *** The others *)
Ltac in_cases H := repeat (destruct H as [H|H]; [subst; clear; cbv; eauto|]); try contradiction.

Lemma connack_code : forall v r, 3 <= v <= 5 -> (if 5 <=? v then In r connack_codes else In r connack_codes_v3) ->
  byte (if 5 <=? v then r else connack_v3 r) /\
  exists rr, reason_get v (if 5 <=? v then r else connack_v3 r) = Some rr /\ r_connack rr = true /\ r_v5 rr = r.
Proof.
  intros v r Hv H. unfold reason_get. destruct (5 <=? v).
  - unfold connack_codes in H. unfold byte.
    repeat (destruct H as [H|H]; [subst; split; [lia|eexists; split; [reflexivity|split; reflexivity]]|]). contradiction.
  - unfold connack_codes_v3 in H.
    repeat (destruct H as [H|H]; [subst; split; [unfold byte; cbn; lia|eexists; split; [reflexivity|split; reflexivity]]|]). contradiction.
Qed.
Lemma connack_parses : forall p, readable p -> pk_type p = 2 -> parses (Some (pk_ver p)) p (wire_rest p).
Proof.
  intros [type fl v b] [[L [Vb _]] Rd] T. cbn [pk_type pk_flags pk_ver pk_body] in *.
  unfold wire_rest. cbn [pk_type pk_flags pk_ver pk_body].
  destruct b as [v' cf keep props cid w user pass|ack r props|topic pid props pl|pid r props|pid props subs|pid props acks| |r props];
    cbn [body_legal body_readable] in *; try (exfalso; intuition lia).
  destruct L as (_ & -> & Ha & Hr & Hp). subst type.
  apply (parses_end _ _ _ (HConnack ack r props)); [|reflexivity|].
  - intros tgt. apply reads_reads_end. cbn [pk_type pk_flags]. unfold p_hdr.
    change (2 =? 1) with false. change (2 =? 15) with false. change (2 =? 2) with true. cbv iota.
    unfold p_connack_hdr.
    eapply reads_bind; [apply reads_u8; unfold byte; lia|].
    apply reads_check; [destruct Ha as [->| ->]; reflexivity|].
    destruct (connack_code v r Vb Hr) as (Bc & rr & Er & Rc & Ev).
    eapply reads_bind; [apply reads_u8; exact Bc|]. rewrite Er, Ev.
    apply reads_check; auto.
    apply (reads_map _ _ _ _ (HConnack ack r)). apply reads_props_v5; auto.
  - intros. cbn [pk_type pk_ver pk_body p_payload]. replace (tgt <? tgt + 1) with true by lia. eauto.
Qed.

Lemma publish_flags : forall f, 0 <= f < 16 -> publish_qos f = f / 2 mod 4 /\ (publish_dup f =? 0) = (f <? 8).
Proof.
  intros f H.
  pose proof (sweep_byte (fun f => implb (f <? 16) ((publish_qos f =? f / 2 mod 4) && (Bool.eqb (publish_dup f =? 0) (f <? 8))))
    ltac:(vm_compute; reflexivity) f ltac:(unfold byte; lia)) as G.
  cbv beta in G. replace (f <? 16) with true in G by lia. cbn [implb] in G. rewrite andb_true_iff in G.
  destruct G as [G1 G2]. apply Bool.eqb_prop in G2. split; auto. lia.
Qed.
Lemma publish_parses : forall p, readable p -> pk_type p = 3 -> parses (Some (pk_ver p)) p (wire_rest p).
Proof.
  intros [type fl v b] [[L [Vb _]] Rd] T. cbn [pk_type pk_flags pk_ver pk_body] in *.
  unfold wire_rest. cbn [pk_type pk_flags pk_ver pk_body].
  destruct b as [v' cf keep props cid w user pass|ack r props|topic pid props pl|pid r props|pid props subs|pid props acks| |r props];
    cbn [body_legal body_readable] in *; try (exfalso; intuition lia).
  destruct L as (_ & Hf & Hq & Q0 & Qn & Ht & Hp & Hl). subst type.
  destruct (publish_flags fl Hf) as [FQ FD].
  rewrite app_assoc, (app_assoc _ (if5 v _)).
  apply (parses_intro _ _ _ _ (HPublish topic pid props)); [|reflexivity|].
  - intros tgt. cbn [pk_type pk_flags]. unfold p_hdr.
    change (3 =? 1) with false. change (3 =? 15) with false. change (3 =? 2) with false. change (3 =? 3) with true. cbv iota.
    unfold p_publish_hdr. rewrite FQ, FD. rewrite <- app_assoc.
    apply reads_check; [lia|].
    apply reads_check. { destruct (Z.eq_dec (fl / 2 mod 4) 0) as [E|E]; [destruct (Q0 E); lia|lia]. }
    eapply reads_bind; [apply reads_utf8; [apply Ht|apply nonempty_len, Ht]|].
    rewrite string_cstr by apply Ht.
    apply reads_check; [apply topic_name_ok; auto|].
    eapply (reads_bind _ _ _ _ _ _ _ pid).
    { destruct (Z.eq_dec (fl / 2 mod 4) 0) as [E|E].
      - destruct (Q0 E) as [_ ->]. rewrite E. apply reads_ret.
      - specialize (Qn E). replace (pid =? 0) with false by lia. replace (0 <? fl / 2 mod 4) with true by lia.
        apply reads_pid; auto. }
    apply (reads_map _ _ _ _ (HPublish topic pid)). apply reads_props_v5; auto.
  - intros pre suf tgt E. cbn [pk_type pk_ver pk_body p_payload]. unfold p_publish_payload.
    destruct pl as [l|].
    + destruct Hl as [_ Hl]. pose proof (nonempty_len l Hl). replace (tgt - zlen pre =? 0) with false by lia.
      replace (zlen (pre ++ l ++ suf) <? tgt) with false by (rewrite !zlen_app; pose proof (zlen_nonneg _ suf); lia).
      replace (tgt - zlen pre) with (zlen l) by lia. rewrite zsub_mid. eauto.
    + rewrite zlen_nil in E. replace (tgt - zlen pre =? 0) with true by lia. eauto.
Qed.

Lemma ack_code : forall type r, 4 <= type <= 7 ->
  In r (if (type =? 4) || (type =? 5) then puback_codes else pubrel_codes) ->
  byte r /\ exists rr, reason_get_v5 r = Some rr /\ r_v5 rr = r /\
    (if (type =? 4) || (type =? 5) then r_puback_pubrec rr else r_pubrel_pubcomp rr) = true.
Proof.
  intros type r Ht H. destruct ((type =? 4) || (type =? 5)); unfold puback_codes, pubrel_codes in H;
    repeat (destruct H as [H|H]; [subst; split; [unfold byte; lia|eexists; split; [reflexivity|split; reflexivity]]|]); contradiction.
Qed.
Lemma ack_hdr_type : forall tgt v type fl, 4 <= type <= 7 -> p_hdr tgt (Some v) type fl = p_ack_hdr tgt v type.
Proof.
  intros. unfold p_hdr. replace (type =? 1) with false by lia. replace (type =? 15) with false by lia.
  replace (type =? 2) with false by lia. replace (type =? 3) with false by lia.
  replace ((4 <=? type) && (type <=? 7)) with true by lia. reflexivity.
Qed.
Lemma ack_short : forall tgt v type pid, 0 < pid < 65536 -> reads_end tgt (p_ack_hdr tgt v type) (be_enc 2 pid) (HAck pid 0 []).
Proof.
  intros tgt v type pid Hp. unfold p_ack_hdr. rewrite <- (app_nil_r (be_enc 2 pid)).
  eapply reads_end_bind; [apply reads_pid; auto|].
  intros pre suf E. rewrite zlen_nil in E. replace (tgt <? zlen pre + 1) with true by lia. f_equal. lia.
Qed.
Lemma ack_parses : forall p w, readable p -> 4 <= pk_type p <= 7 ->
  (w = wire_rest p \/ exists pid, pk_body p = BAck pid 0 [] /\ w = be_enc 2 pid) -> parses (Some (pk_ver p)) p w.
Proof.
  intros [type fl v b] w [[L [Vb _]] Rd] T W. cbn [pk_type pk_flags pk_ver pk_body] in *.
  unfold wire_rest in W. cbn [pk_type pk_flags pk_ver pk_body] in W.
  destruct b as [v' cf keep props cid w' user pass|ack r props|topic pid props pl|pid r props|pid props subs|pid props acks| |r props];
    cbn [body_legal body_readable] in *; try (exfalso; intuition lia).
  destruct L as (_ & Hf & Hpid & Hp & Hr).
  apply (parses_end _ _ _ (HAck pid r props)); [|reflexivity|].
  - intros tgt. cbn [pk_type pk_flags]. rewrite ack_hdr_type by auto.
    destruct W as [-> | (pid' & E & ->)].
    + unfold if5. destruct (5 <=? v) eqn:E5.
      * unfold p_ack_hdr. eapply reads_end_bind; [apply reads_pid; auto|]. rewrite E5.
        destruct (ack_code type r T Hr) as (Br & rr & Er & Ev & Eb).
        intros pre suf E. assert (1 <= zlen ([r] ++ wire_props props)).
        { rewrite zlen_app. change (zlen [r]) with 1. pose proof (zlen_nonneg _ (wire_props props)). lia. }
        replace (tgt <? zlen pre + 1) with false by lia. revert pre suf E.
        change (reads_end tgt (pbind p_u8 (fun code =>
           match reason_get v code with
           | None => psoft
           | Some r =>
             pcheck (if (type =? 4) || (type =? 5) then r_puback_pubrec r else r_pubrel_pubcomp r) (
             pbind (p_props_v5 tgt v) (fun props buf pos =>
             if tgt <? pos + 1 then POk (HAck pid (r_v5 r) props) pos else PSoft))
           end)) ([r] ++ wire_props props) (HAck pid r props)).
        eapply reads_end_bind; [apply reads_u8; auto|].
        unfold reason_get. rewrite E5, Er, Ev, Eb. unfold pcheck.
        rewrite <- (app_nil_r (wire_props props)).
        eapply reads_end_bind.
        { pose proof (reads_props_v5 tgt v props Hp Rd) as X. unfold if5 in X. rewrite E5 in X. exact X. }
        intros pre suf E. rewrite zlen_nil in E. replace (tgt <? zlen pre + 1) with true by lia. f_equal. lia.
      * destruct Hp as (_ & _ & Hp). rewrite Hp by lia. rewrite Hr. rewrite app_nil_r. apply ack_short; auto.
    + injection E as -> -> ->. apply ack_short; auto.
  - intros. cbn [pk_type pk_ver pk_body p_payload]. replace (tgt <? tgt + 1) with true by lia. eauto.
Qed.

Lemma sub_reads : forall tgt v type s, 3 <= v <= 5 -> (type = 8 \/ type = 10) -> sub_legal v type s -> sb_nl s = 0 -> sb_rap s = 0 ->
  reads tgt (p_sub tgt v (type =? 8)) (wire_sub type s) s.
Proof.
  intros tgt v type [f rt rap nl q] Hv T (Hf & Hq & Hr & _ & _ & V3 & T10) N1 N2.
  cbn [sb_filter sb_retain sb_rap sb_nl sb_qos] in *. subst nl rap.
  unfold p_sub, wire_sub. cbn [sb_filter sb_retain sb_rap sb_nl sb_qos].
  destruct Hf as (Fs & Fn & Fl).
  eapply reads_bind; [apply reads_utf8; auto; apply nonempty_len; auto|]. rewrite string_cstr by auto.
  apply reads_check; [apply Z.eqb_refl|].
  assert (F : filter_ok f = true) by (apply filter_legal_ok; split; auto).
  assert (B : sub_new_bug (mk_sub f rt 0 0 q) = false).
  { unfold sub_new_bug. cbn [sb_filter sb_retain sb_rap sb_nl sb_qos]. rewrite F. destruct f; [congruence|].
    replace (2 <? rt) with false by lia. reflexivity. }
  destruct T as [-> | ->].
  - change (8 =? 8) with true. cbv iota. rewrite <- (app_nil_r [q + _ + _ + _]).
    eapply (reads_bind _ _ _ _ _ _ _ (q + 16 * rt)).
    { replace (q + 4 * 0 + 8 * 0 + 16 * rt) with (q + 16 * rt) by lia. apply reads_u8. unfold byte. lia. }
    assert (O : two_bits (q + 16 * rt) 6 = 0 /\ two_bits (q + 16 * rt) 4 = rt /\ bit (q + 16 * rt) 3 = 0 /\
                bit (q + 16 * rt) 2 = 0 /\ two_bits (q + 16 * rt) 0 = q).
    { assert (Q : q = 0 \/ q = 1 \/ q = 2) by lia. assert (RT : rt = 0 \/ rt = 1 \/ rt = 2) by lia.
      destruct Q as [->|[->| ->]], RT as [->|[->| ->]]; vm_compute; auto. }
    destruct O as (O1 & O2 & O3 & O4 & O5). cbv zeta. rewrite O1, O2, O3, O4, O5.
    apply reads_check; [lia|]. apply reads_check; [reflexivity|].
    apply reads_check. { destruct (5 <=? v) eqn:E5; [lia|]. destruct V3 as (-> & _); [lia|]. reflexivity. }
    apply reads_check; auto. rewrite B. apply reads_ret.
  - change (10 =? 8) with false. cbv iota. destruct T10 as (-> & -> & _); auto.
    rewrite <- (app_nil_r []). eapply reads_bind; [apply reads_ret|]. cbv zeta.
    change (two_bits 0 6) with 0. change (two_bits 0 4) with 0. change (bit 0 3) with 0. change (bit 0 2) with 0. change (two_bits 0 0) with 0.
    apply reads_check; [reflexivity|]. apply reads_check; [reflexivity|].
    apply reads_check; [destruct (5 <=? v); reflexivity|]. apply reads_check; auto. rewrite B. apply reads_ret.
Qed.
Lemma replace_sub_new : forall s l, ~ In (sb_filter s) (map sb_filter l) -> replace_sub s l = None.
Proof.
  induction l as [|t l IH]; intros N; cbn [replace_sub]; auto. cbn [map In] in N.
  replace (str_same (sb_filter t) (sb_filter s)) with false.
  - rewrite IH by tauto. reflexivity.
  - symmetry. apply str_same_false. tauto.
Qed.
Lemma add_unique_new : forall s l, ~ In (sb_filter s) (map sb_filter l) -> zlen l < 65536 -> add_unique s l = Some (l ++ [s]).
Proof.
  intros s l N H. unfold add_unique. destruct l as [|t l]; auto.
  rewrite replace_sub_new by auto. unfold MAX_SUBSCRIPTIONS. replace (65536 <=? zlen (t :: l)) with false by lia. reflexivity.
Qed.
Lemma wire_sub_len : forall type s, 2 <= zlen (wire_sub type s).
Proof.
  intros. unfold wire_sub, mstr. rewrite !zlen_app, be_enc_len. pose proof (zlen_nonneg _ (sb_filter s)).
  match goal with |- context [zlen (if ?b then ?x else ?y)] => pose proof (zlen_nonneg _ (if b then x else y)) end. lia.
Qed.
Lemma same_filter_str : forall s t, same_filter s t = str_same (sb_filter t) (sb_filter s).
Proof.
  intros. unfold same_filter. destruct (list_eq_dec Z.eq_dec (sb_filter t) (sb_filter s)) as [E|E]; symmetry; [apply str_same_iff|apply str_same_false]; auto.
Qed.
Lemma replace_sub_map : forall s l, NoDup (map sb_filter l) -> In (sb_filter s) (map sb_filter l) ->
  replace_sub s l = Some (map (fun t => if same_filter s t then s else t) l).
Proof.
  induction l as [|t l IH]; intros N I; [destruct I|]. cbn [replace_sub map In] in *. apply NoDup_cons_iff in N as [N1 N2].
  rewrite same_filter_str. destruct (str_same (sb_filter t) (sb_filter s)) eqn:E.
  - f_equal. f_equal. apply str_same_iff in E. rewrite <- (map_id l) at 1. apply map_ext_in. intros u Hu.
    rewrite same_filter_str. replace (str_same (sb_filter u) (sb_filter s)) with false; auto. symmetry. apply str_same_false. intros X. apply N1. rewrite E, <- X. apply in_map. exact Hu.
  - apply str_same_false in E. rewrite IH; auto. destruct I; [contradiction|auto].
Qed.
Lemma existsb_filter : forall s l, existsb (same_filter s) l = true <-> In (sb_filter s) (map sb_filter l).
Proof.
  intros. rewrite existsb_exists, in_map_iff. split; intros (t & A & B).
  - exists t. rewrite same_filter_str in B. apply str_same_iff in B. auto.
  - exists t. rewrite same_filter_str, A, str_same_refl. auto.
Qed.
Lemma put_sub_filters : forall s l, map sb_filter (put_sub l s) = if existsb (same_filter s) l then map sb_filter l else map sb_filter l ++ [sb_filter s].
Proof.
  intros. unfold put_sub. destruct (existsb _ l); [|apply map_app]. rewrite map_map. apply map_ext. intros t.
  rewrite same_filter_str. destruct (str_same (sb_filter t) (sb_filter s)) eqn:E; auto. apply str_same_iff in E. auto.
Qed.
Lemma NoDup_snoc : forall (A : Type) (x : A) l, ~ In x l -> NoDup l -> NoDup (l ++ [x]).
Proof. intros A x l H N. apply (NoDup_Add (Add_app x l [])). rewrite app_nil_r. auto. Qed.
Lemma put_sub_nodup : forall s l, NoDup (map sb_filter l) -> NoDup (map sb_filter (put_sub l s)).
Proof.
  intros s l N. rewrite put_sub_filters. destruct (existsb _ l) eqn:E; auto. apply NoDup_snoc; auto.
  intros X. apply existsb_filter in X. congruence.
Qed.
Lemma put_sub_len : forall s l, zlen l <= zlen (put_sub l s).
Proof. intros. unfold put_sub. destruct (existsb _ l); [unfold zlen; rewrite map_length; lia|rewrite zlen_app, zlen_cons, zlen_nil; lia]. Qed.
Lemma put_subs_len : forall subs l, zlen l <= zlen (fold_left put_sub subs l).
Proof. induction subs as [|s subs IH]; intros l; cbn [fold_left]; [lia|]. pose proof (put_sub_len s l). specialize (IH (put_sub l s)). lia. Qed.
Lemma add_unique_put : forall s l, NoDup (map sb_filter l) -> zlen (put_sub l s) <= 65536 -> add_unique s l = Some (put_sub l s).
Proof.
  intros s l N H. destruct (existsb (same_filter s) l) eqn:E.
  - unfold add_unique, put_sub. rewrite E. apply existsb_filter in E. rewrite replace_sub_map by auto. destruct l; [destruct E|reflexivity].
  - unfold put_sub in *. rewrite E in *. rewrite zlen_app, zlen_cons, zlen_nil in H. apply add_unique_new; [|lia].
    intros X. apply existsb_filter in X. congruence.
Qed.
Lemma put_subs_new : forall subs acc, NoDup (map sb_filter (acc ++ subs)) -> fold_left put_sub subs acc = acc ++ subs.
Proof.
  induction subs as [|s subs IH]; intros acc N; cbn [fold_left]; [rewrite app_nil_r; auto|].
  assert (E : put_sub acc s = acc ++ [s]).
  { unfold put_sub. destruct (existsb _ acc) eqn:E; auto. apply existsb_filter in E. rewrite map_app in N. cbn [map] in N.
    apply NoDup_remove_2 in N. rewrite in_app_iff in N. tauto. }
  rewrite E, IH; rewrite <- app_assoc; auto.
Qed.
Lemma sub_loop_reads : forall subs fuel tgt v type acc pre suf, 3 <= v <= 5 -> (type = 8 \/ type = 10) ->
  Forall (sub_legal v type) subs -> Forall (fun s => sb_nl s = 0 /\ sb_rap s = 0) subs ->
  NoDup (map sb_filter acc) -> zlen (fold_left put_sub subs acc) <= 65536 ->
  zlen pre + zlen (flat_map (wire_sub type) subs) = tgt -> (Z.to_nat (zlen (flat_map (wire_sub type) subs)) <= fuel)%nat ->
  exists ck, p_sub_loop fuel tgt v (type =? 8) acc (pre ++ flat_map (wire_sub type) subs ++ suf) (zlen pre) = (POk (fold_left put_sub subs acc) tgt, ck).
Proof.
  induction subs as [|s subs IH]; intros fuel tgt v type acc pre suf Hv T L N ND ZL E HF.
  - cbn [flat_map fold_left] in *. rewrite zlen_nil in E.
    destruct fuel; cbn [p_sub_loop]; replace (tgt <? zlen pre + 1) with true by lia; replace (zlen pre) with tgt by lia; eauto.
  - inversion L; inversion N; subst x l x0 l0. cbn [flat_map fold_left] in *. rewrite zlen_app in *.
    pose proof (wire_sub_len type s). pose proof (zlen_nonneg _ (flat_map (wire_sub type) subs)).
    destruct fuel as [|fuel]; [lia|]. cbn [p_sub_loop]. replace (tgt <? zlen pre + 1) with false by lia.
    rewrite <- app_assoc. rewrite (sub_reads tgt v type s); auto; try tauto; [|lia].
    pose proof (put_subs_len subs (put_sub acc s)).
    rewrite add_unique_put; [|auto|lia].
    rewrite (app_assoc pre). replace (zlen pre + zlen (wire_sub type s)) with (zlen (pre ++ wire_sub type s)) by apply zlen_app.
    apply IH; auto; rewrite ?zlen_app; try lia. apply put_sub_nodup; auto.
Qed.
Lemma sub_hdr_type : forall tgt v type fl, type = 8 \/ type = 10 -> p_hdr tgt (Some v) type fl = p_sub_hdr tgt v.
Proof. intros tgt v type fl [-> | ->]; reflexivity. Qed.
Lemma subs_parses : forall type v pid props subs, (type = 8 \/ type = 10) -> 3 <= v <= 5 -> 0 < pid < 65536 -> props_legal v props -> Forall not_blob props ->
  Forall (sub_legal v type) subs -> Forall (fun s => sb_nl s = 0 /\ sb_rap s = 0) subs -> subs <> [] -> zlen (fold_left put_sub subs []) <= 65536 ->
  parses (Some v) (mk_packet type 2 v (BSub pid props (fold_left put_sub subs []))) (be_enc 2 pid ++ if5 v (wire_props props) ++ flat_map (wire_sub type) subs).
Proof.
  intros type v pid props subs T Vb Hpid Hp NB Hs N2 Hn ZL.
  rewrite app_assoc.
  apply (parses_intro _ _ _ _ (HSub pid props)); [|reflexivity|].
  - intros tgt. cbn [pk_type pk_flags]. rewrite sub_hdr_type by auto. unfold p_sub_hdr.
    eapply reads_bind; [apply reads_pid; auto|].
    apply (reads_map _ _ _ _ (HSub pid)). apply reads_props_v5; auto.
  - intros pre suf tgt E. cbn [pk_type pk_ver pk_body p_payload].
    assert (2 <= zlen (flat_map (wire_sub type) subs)).
    { destruct subs as [|s subs]; [congruence|]. cbn [flat_map]. rewrite zlen_app. pose proof (wire_sub_len type s).
      pose proof (zlen_nonneg _ (flat_map (wire_sub type) subs)). lia. }
    replace (tgt <? zlen pre + 1) with false by lia.
    destruct (sub_loop_reads subs (Z.to_nat (tgt - zlen pre)) tgt v type [] pre suf) as (ck & X); auto; [constructor|lia|].
    rewrite X. cbn [body_of_subs]. eauto.
Qed.
Lemma sub_parses : forall p, readable p -> pk_type p = 8 \/ pk_type p = 10 -> parses (Some (pk_ver p)) p (wire_rest p).
Proof.
  intros [type fl v b] [[L [Vb _]] Rd] T. cbn [pk_type pk_flags pk_ver pk_body] in *.
  unfold wire_rest. cbn [pk_type pk_flags pk_ver pk_body].
  destruct b as [v' cf keep props cid w user pass|ack r props|topic pid props pl|pid r props|pid props subs|pid props acks| |r props];
    cbn [body_legal body_readable] in *; try (exfalso; intuition lia).
  destruct L as (_ & -> & Hpid & Hp & Hn & Hs). destruct Rd as (NB & N2 & ND & ZL).
  rewrite <- (put_subs_new subs [] ND) at 1. apply subs_parses; auto. rewrite put_subs_new; auto.
Qed.

Lemma suback_code : forall v type c, 3 <= v <= 5 -> (type = 9 \/ (type = 11 /\ v = 5)) ->
  In c (if 5 <=? v then if type =? 9 then suback_codes else unsuback_codes else suback_codes_v3) ->
  ack_ok v type c = true.
Proof.
  intros v type c Hv T H.
  destruct T as [-> | [-> ->]].
  - change (9 =? 9) with true in *. unfold ack_ok. change (9 =? 9) with true. destruct (5 <=? v); cbv iota in H; unfold suback_codes, suback_codes_v3 in H;
      repeat (destruct H as [H|H]; [subst; reflexivity|]); contradiction.
  - cbn in H. repeat (destruct H as [H|H]; [subst; reflexivity|]). contradiction.
Qed.
Lemma suback_hdr_type : forall tgt v type fl, type = 9 \/ type = 11 -> p_hdr tgt (Some v) type fl = p_suback_hdr tgt v.
Proof. intros tgt v type fl [-> | ->]; reflexivity. Qed.
Lemma suback_parses : forall p, readable p -> pk_type p = 9 \/ pk_type p = 11 -> parses (Some (pk_ver p)) p (wire_rest p).
Proof.
  intros [type fl v b] [[L [Vb _]] Rd] T. cbn [pk_type pk_flags pk_ver pk_body] in *.
  unfold wire_rest. cbn [pk_type pk_flags pk_ver pk_body].
  destruct b as [v' cf keep props cid w user pass|ack r props|topic pid props pl|pid r props|pid props subs|pid props acks| |r props];
    cbn [body_legal body_readable] in *; try (exfalso; intuition lia).
  destruct L as (_ & -> & Hpid & Hp & Ha).
  rewrite app_assoc.
  apply (parses_intro _ _ _ _ (HSuback pid props)); [|reflexivity|].
  - intros tgt. cbn [pk_type pk_flags]. rewrite suback_hdr_type by auto. unfold p_suback_hdr.
    eapply reads_bind; [apply reads_pid; auto|].
    apply (reads_map _ _ _ _ (HSuback pid)). apply reads_props_v5; auto.
  - intros pre suf tgt E. cbn [pk_type pk_ver pk_body p_payload]. unfold p_suback_payload.
    destruct ((type =? 11) && (v <? 5)) eqn:ET.
    + subst acks. rewrite zlen_nil in E. replace (tgt <? zlen pre + 1) with true by lia. eauto.
    + destruct Ha as [Hn Ha]. pose proof (nonempty_len acks Hn).
      replace (tgt - zlen pre =? 0) with false by lia.
      replace (zlen (pre ++ acks ++ suf) <? tgt) with false by (rewrite !zlen_app; pose proof (zlen_nonneg _ suf); lia).
      replace (tgt - zlen pre) with (zlen acks) by lia. rewrite zsub_mid. cbv zeta.
      replace (forallb (ack_ok v type) acks) with true; [eauto|].
      symmetry. apply forallb_forall. rewrite Forall_forall in Ha. intros c Hc. apply suback_code; auto. lia.
Qed.

Lemma ping_parses : forall p, readable p -> pk_type p = 12 \/ pk_type p = 13 -> parses (Some (pk_ver p)) p (wire_rest p).
Proof.
  intros [type fl v b] [[L [Vb _]] Rd] T. cbn [pk_type pk_flags pk_ver pk_body] in *.
  unfold wire_rest. cbn [pk_type pk_flags pk_ver pk_body].
  destruct b as [v' cf keep props cid w user pass|ack r props|topic pid props pl|pid r props|pid props subs|pid props acks| |r props];
    cbn [body_legal body_readable] in *; try (exfalso; intuition lia).
  apply (parses_end _ _ _ HPing); [|reflexivity|].
  - intros tgt. cbn [pk_type pk_flags].
    replace (p_hdr tgt (Some v) type fl) with (p_ping_hdr tgt) by (destruct T as [-> | ->]; reflexivity).
    intros pre suf E. rewrite zlen_nil in E. unfold p_ping_hdr. replace (tgt <? zlen pre + 1) with true by lia. f_equal. lia.
  - intros. cbn [pk_type pk_ver pk_body p_payload]. replace (tgt <? tgt + 1) with true by lia. eauto.
Qed.

Lemma disconnect_parses : forall p w, readable p -> pk_type p = 14 ->
  (w = wire_rest p \/ pk_ver p = 5 /\ ((w = [] /\ pk_body p = BDisconnect 0 []) \/ exists r, w = [r] /\ pk_body p = BDisconnect r [])) ->
  parses (Some (pk_ver p)) p w.
Proof.
  intros [type fl v b] w [[L [Vb _]] Rd] T W. cbn [pk_type pk_flags pk_ver pk_body] in *.
  unfold wire_rest in W. cbn [pk_type pk_flags pk_ver pk_body] in W.
  destruct b as [v' cf keep props cid w' user pass|ack r props|topic pid props pl|pid r props|pid props subs|pid props acks| |r props];
    cbn [body_legal body_readable] in *; try (exfalso; intuition lia).
  destruct L as (_ & -> & Hp & Hr). subst type.
  apply (parses_end _ _ _ (HDisconnect r props)); [|reflexivity|].
  - intros tgt. cbn [pk_type pk_flags]. change (p_hdr tgt (Some v) 14 0) with (p_disconnect_hdr tgt v).
    assert (S0 : v < 5 \/ v = 5 -> r = 0 -> props = [] -> reads_end tgt (p_disconnect_hdr tgt v) [] (HDisconnect r props)).
    { intros _ -> -> pre suf E. rewrite zlen_nil in E. unfold p_disconnect_hdr. replace (tgt - zlen pre =? 0) with true by lia.
      destruct (v <? 5); f_equal; lia. }
    destruct W as [-> | (-> & [[-> W] | (r' & -> & W)])].
    + unfold if5. destruct (5 <=? v) eqn:E5.
      * intros pre suf E. unfold p_disconnect_hdr. replace (v <? 5) with false by lia.
        assert (2 <= zlen ([r] ++ wire_props props)).
        { unfold wire_props. cbv zeta. rewrite !zlen_app. change (zlen [r]) with 1.
          pose proof (vint_len (zlen (flat_map wire_prop props))). pose proof (zlen_nonneg _ (flat_map wire_prop props)). lia. }
        replace (tgt - zlen pre =? 0) with false by lia. replace (tgt - zlen pre =? 1) with false by lia.
        assert (G : reads tgt (pbind p_u8 (fun code => pbind (p_props_v5 tgt v) (fun props => pret (HDisconnect code props))))
                      ([r] ++ wire_props props) (HDisconnect r props)).
        { eapply reads_bind; [apply reads_u8; auto|].
          apply (reads_map _ _ _ _ (HDisconnect r)).
          pose proof (reads_props_v5 tgt v props Hp Rd) as X. unfold if5 in X. rewrite E5 in X. exact X. }
        rewrite G by lia. rewrite E. reflexivity.
      * apply S0; [lia|auto|]. destruct Hp as (_ & _ & Hp). apply Hp. lia.
    + injection W as -> ->. apply S0; auto.
    + injection W as -> ->. intros pre suf E. change (zlen [r']) with 1 in E. unfold p_disconnect_hdr.
      replace (tgt - zlen pre =? 0) with false by lia. replace (tgt - zlen pre =? 1) with true by lia.
      change (5 <? 5) with false. cbv iota.
      pose proof (reads_map _ _ tgt p_u8 (fun c => HDisconnect c []) [r'] r' (reads_u8 tgt r' Hr) pre suf) as X.
      change (zlen [r']) with 1 in X. rewrite X by lia. f_equal. lia.
  - intros. cbn [pk_type pk_ver pk_body p_payload]. replace (tgt <? tgt + 1) with true by lia. eauto.
Qed.

Lemma type_range : forall p, packet_legal p -> 1 <= pk_type p <= 14.
Proof. intros [t f v []] [L _]; cbn [pk_type pk_body body_legal] in *; intuition lia. Qed.
Lemma flags_range : forall p, packet_legal p -> 0 <= pk_flags p < 16 /\
  match reserved_flags (pk_type p) with Some f => f = pk_flags p | None => True end.
Proof.
  intros [t f v b] [L _]; cbn [pk_type pk_flags pk_body] in *.
  destruct b; cbn [body_legal] in L; unfold reserved_flags.
  - destruct L as (-> & -> & _). cbn. lia.
  - destruct L as (-> & -> & _). cbn. lia.
  - destruct L as (-> & H & _). cbn. split; auto.
  - destruct L as (H & -> & _). assert (T : t = 4 \/ t = 5 \/ t = 6 \/ t = 7) by lia. destruct T as [->|[->|[->| ->]]]; cbn; lia.
  - destruct L as ([-> | ->] & -> & _); cbn; lia.
  - destruct L as ([-> | ->] & -> & _); cbn; lia.
  - destruct L as ([-> | ->] & ->); cbn; lia.
  - destruct L as (-> & -> & _). cbn; lia.
Qed.
(** Every form allowed for a readable packet *)
Lemma readable_parses : forall ver p w, readable p -> (pk_type p = 1 \/ ver = Some (pk_ver p)) -> wires p w ->
  exists rest, w = framed p rest /\ zlen rest <= VINT_MAX /\ parses ver p rest.
Proof.
  intros ver p w H V W. pose proof (type_range p (proj1 H)) as TR.
  assert (F : parses ver p (wire_rest p)).
  { destruct V as [V | ->]; [apply connect_parses; auto|].
    destruct (Z.eq_dec (pk_type p) 1); [apply connect_parses; auto|].
    destruct (Z.eq_dec (pk_type p) 2); [apply connack_parses; auto|].
    destruct (Z.eq_dec (pk_type p) 3); [apply publish_parses; auto|].
    destruct (Z_le_dec (pk_type p) 7); [apply ack_parses; auto; lia|].
    destruct (Z.eq_dec (pk_type p) 8); [apply sub_parses; auto|].
    destruct (Z.eq_dec (pk_type p) 9); [apply suback_parses; auto|].
    destruct (Z.eq_dec (pk_type p) 10); [apply sub_parses; auto|].
    destruct (Z.eq_dec (pk_type p) 11); [apply suback_parses; auto|].
    destruct (Z.eq_dec (pk_type p) 12); [apply ping_parses; auto|].
    destruct (Z.eq_dec (pk_type p) 13); [apply ping_parses; auto|].
    apply disconnect_parses; auto. lia. }
  assert (NC : pk_type p <> 1 -> ver = Some (pk_ver p)) by (intros X; destruct V; [contradiction|auto]).
  inversion W as [p0 E1 E2|type flags pid E1 E2|flags E1 E2|flags r E1 E2|type flags v pid props subs SL SN SZ E1 E2]; subst.
  - exists (wire_rest p). split; [reflexivity|]. split; auto. apply H.
  - cbn [pk_type pk_ver] in *. eexists. split; [reflexivity|]. split; [rewrite be_enc_len; unfold VINT_MAX; lia|].
    assert (T : 4 <= type <= 7) by (destruct H as [[L _] _]; cbn in L; intuition lia).
    rewrite NC by lia. apply (ack_parses (mk_packet type flags 5 (BAck pid 0 []))); auto. right. exists pid. auto.
  - eexists. split; [reflexivity|]. split; [cbn; unfold VINT_MAX; lia|]. rewrite NC by (cbn; lia).
    apply (disconnect_parses (mk_packet 14 flags 5 (BDisconnect 0 []))); auto.
  - eexists. split; [reflexivity|]. split; [cbn; unfold VINT_MAX; lia|]. rewrite NC by (cbn; lia).
    apply (disconnect_parses (mk_packet 14 flags 5 (BDisconnect r []))); auto. right. split; auto. right. exists r. auto.
- eexists. split; [reflexivity|]. split; [exact SZ|]. destruct H as [[L [Vb _]] Rd]. cbn [pk_type pk_flags pk_ver pk_body body_legal body_readable] in *.
    destruct L as (T & -> & Hpid & Hp & Hn & Hs). destruct Rd as (NB & N2 & ND & ZL). rewrite NC by lia.
    apply subs_parses; auto. intros ->. apply Hn. reflexivity.
Qed.
