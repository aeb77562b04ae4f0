(** Packets are handed on as they were sent, however the octets arrive. *)
From Coq Require Import Strings.String.
From Coq Require Import ZArith List Bool Lia.
From Verif Require Import Common Utf8Spec TopicModel TopicProofs MqttModel MqttSpec MqttGoodProofs MqttReadProofs MqttPacketProofs.
Import ListNotations.
Open Scope Z_scope.
Notation len := Datatypes.length.

(** *** What is sent are octets *)
Lemma vint_bytes_ok : forall n, 0 <= n <= VINT_MAX -> bytes (vint n).
Proof.
  intros n H. unfold VINT_MAX in H. unfold vint.
  destruct (n <? 128) eqn:E1; [|destruct (n <? 16384) eqn:E2; [|destruct (n <? 2097152) eqn:E3]];
    repeat (apply Forall_cons; [unfold byte; lia|]); constructor.
Qed.
Lemma mstr_bytes : forall s, bytes s -> bytes (mstr s).
Proof. intros. unfold mstr. apply bytes_app. split; auto. apply be_enc_bytes. Qed.
Lemma wire_prop_bytes : forall p, prop_legal p -> bytes (wire_prop p).
Proof.
  intros [id v] (t & K & L). cbn [pr_id pr_val] in *. unfold wire_prop. cbn [pr_id pr_val]. rewrite K.
  apply bytes_cons. split; [eapply kind_byte; eauto|].
  destruct t, v; cbn [val_legal wire_val] in *; try contradiction; try apply be_enc_bytes.
  - apply vint_bytes_ok; auto.
  - apply mstr_bytes, L.
  - apply mstr_bytes, L.
  - apply bytes_app. split; apply mstr_bytes, L.
Qed.
Lemma wire_props_bytes : forall ver l, props_legal ver l -> bytes (if5 ver (wire_props l)).
Proof.
  intros ver l (L & H & _). unfold if5. destruct (5 <=? ver); [|constructor]. unfold wire_props. cbv zeta.
  apply bytes_app. split; [apply vint_bytes_ok; split; auto; apply zlen_nonneg|].
  clear H. induction L as [|p l Hp L IH]; [constructor|]. cbn [flat_map]. apply bytes_app. split; auto. apply wire_prop_bytes; auto.
Qed.
Lemma in_codes_byte : forall c l, forallb byteb l = true -> In c l -> byte c.
Proof. intros c l H I. rewrite forallb_forall in H. apply byteb_iff. auto. Qed.
Lemma byte_list1 : forall x, byte x -> bytes [x].
Proof. intros. apply bytes_cons. split; auto. constructor. Qed.
Lemma wire_rest_bytes : forall p, packet_legal p -> bytes (wire_rest p).
Proof.
  intros [t f v b] [L [V _]]. cbn [pk_type pk_flags pk_ver pk_body] in *. unfold wire_rest. cbn [pk_type pk_flags pk_ver pk_body].
  destruct b; cbn [body_legal] in L.
  - destruct L as (_ & -> & -> & Hv & Bcf & C0 & Cw & Cq & Cp & Hk & Hp & Hc & Pw & Hw & Pu & Hu & Pp & Hpw).
    rewrite !bytes_app. repeat apply conj; try (apply be_enc_bytes); try (apply wire_props_bytes; auto).
    + apply mstr_bytes. apply Forall_forall. intros x Hx. destruct Hv as [->|[->| ->]]; cbn in Hx; unfold byte; lia.
    + apply byte_list1. unfold byte. lia.
    + apply byte_list1. auto.
    + apply mstr_bytes. destruct cid; [apply Hc|constructor].
    + destruct w as [w|]; [|constructor]. destruct Hw as (W1 & W2 & W3). rewrite !bytes_app. repeat apply conj.
      * apply wire_props_bytes; auto.
      * apply mstr_bytes, W2.
      * apply mstr_bytes, W3.
    + destruct user; [apply mstr_bytes, Hu|constructor].
    + destruct pass; [apply mstr_bytes, Hpw|constructor].
  - destruct L as (_ & -> & Ha & Hr & Hp). rewrite !bytes_app. repeat apply conj; try (apply wire_props_bytes; auto).
    + apply byte_list1. unfold byte. lia.
    + apply byte_list1. apply (connack_code v reason V Hr).
  - destruct L as (_ & Hf & Hq & Q0 & Qn & Ht & Hp & Hl). rewrite !bytes_app. repeat apply conj; try (apply wire_props_bytes; auto).
    + apply mstr_bytes, Ht.
    + destruct (pid =? 0); [constructor|apply be_enc_bytes].
    + destruct payload; [apply Hl|constructor].
  - destruct L as (T & Hf & Hpid & Hp & Hr). rewrite !bytes_app. split; [apply be_enc_bytes|].
    pose proof (wire_props_bytes v props Hp) as W. unfold if5 in *. destruct (5 <=? v); [|constructor].
    rewrite bytes_app. split; auto. apply byte_list1. apply (ack_code t reason T Hr).
  - destruct L as (_ & -> & Hpid & Hp & Hn & Hs). rewrite !bytes_app. repeat apply conj; try apply be_enc_bytes; try (apply wire_props_bytes; auto).
    clear Hn. induction Hs as [|s l Hs L IH]; [constructor|]. cbn [flat_map]. apply bytes_app. split; auto.
    unfold wire_sub. apply bytes_app. split; [apply mstr_bytes, Hs|]. destruct (t =? 8); [|constructor].
    apply byte_list1. destruct Hs as (_ & Hq & Hr & H1 & H2 & _). unfold byte. lia.
  - destruct L as (T & -> & Hpid & Hp & Ha). rewrite !bytes_app. repeat apply conj; try apply be_enc_bytes; try (apply wire_props_bytes; auto).
    destruct ((t =? 11) && (v <? 5)); [subst; constructor|]. destruct Ha as [_ Ha]. apply Forall_forall. rewrite Forall_forall in Ha.
    intros c Hc. apply Ha in Hc. eapply in_codes_byte; [|exact Hc]. destruct (5 <=? v); [destruct (t =? 9)|]; reflexivity.
  - constructor.
  - destruct L as (_ & -> & Hp & Hr). pose proof (wire_props_bytes v props Hp) as W. unfold if5 in *.
    destruct (5 <=? v); [|constructor]. rewrite bytes_app. split; auto. apply byte_list1. auto.
Qed.
Lemma subs_bytes : forall v t l, Forall (sub_legal v t) l -> bytes (flat_map (wire_sub t) l).
Proof.
  intros v t l H. induction H as [|s l Hs L IH]; [constructor|]. cbn [flat_map]. apply bytes_app. split; auto.
  unfold wire_sub. apply bytes_app. split; [apply mstr_bytes, Hs|]. destruct (t =? 8); [|constructor].
  apply byte_list1. destruct Hs as (_ & Hq & Hr & H1 & H2 & _). unfold byte. lia.
Qed.
Lemma framed_bytes : forall p rest, packet_legal p -> bytes rest -> zlen rest <= VINT_MAX -> bytes (framed p rest).
Proof.
  intros p rest L B H. unfold framed. rewrite !bytes_app. repeat apply conj; auto.
  - apply byte_list1. pose proof (type_range p L). destruct (flags_range p L). unfold byte. lia.
  - apply vint_bytes_ok. split; auto. apply zlen_nonneg.
Qed.
Lemma wires_bytes : forall p w, readable p -> wires p w -> bytes w.
Proof.
  intros p w [H _] W. inversion W; subst.
  - apply framed_bytes; auto; [apply wire_rest_bytes; auto|apply H].
  - apply framed_bytes; auto; [apply be_enc_bytes|rewrite be_enc_len; unfold VINT_MAX; lia].
  - apply framed_bytes; auto; [constructor|cbn; unfold VINT_MAX; lia].
  - assert (Hr : byte r) by apply H. apply framed_bytes; auto; [apply byte_list1; auto|cbn; unfold VINT_MAX; lia].
- match goal with |- bytes (wire (mk_packet ?t ?f ?v (BSub ?i ?ps ?l))) =>
      set (q := mk_packet t f v (BSub i ps l)); set (r := wire_rest q); assert (ER : r = wire_rest q) by reflexivity;
      assert (EW : wire q = framed (mk_packet t f v (BSub i ps (fold_left put_sub l []))) r) by (unfold wire, framed, r, q; cbn [pk_type pk_flags]; reflexivity) end.
    rewrite EW. apply framed_bytes; [exact H| |rewrite ER; assumption]. rewrite ER. unfold q. clear EW ER. destruct H as [L [Vb _]]. cbn [pk_type pk_flags pk_ver pk_body body_legal] in *. destruct L as (T & -> & Hpid & Hp & Hn & Hs).
    unfold wire_rest. cbn [pk_type pk_flags pk_ver pk_body]. rewrite !bytes_app. repeat apply conj; try apply be_enc_bytes; try (apply wire_props_bytes; auto).
    eapply subs_bytes; eassumption.
Qed.

(** Payloads: the same answer with more octets; what is incomplete can be continued. *)
Lemma sub_loop_inc : forall fuel tgt ver opts acc buf pos ck acc', bytes buf -> 0 <= pos ->
  p_sub_loop fuel tgt ver opts acc buf pos = (PInc, (ck, acc')) -> pos <= ck /\ ck + 1 <= tgt.
Proof.
  induction fuel as [|fuel IH]; intros tgt ver opts acc buf pos ck acc' B Hp; cbn [p_sub_loop];
    destruct (tgt <? pos + 1) eqn:E; try discriminate.
  destruct (p_sub tgt ver opts buf pos) as [s p2| | |] eqn:ES; try discriminate.
  - apply p_sub_adv in ES; auto. destruct (add_unique s acc); [|discriminate].
    intros H. apply IH in H; auto; lia.
  - intros H. injection H as <- _. lia.
Qed.
Lemma payload_prefix : forall tgt v type h buf m pp, bytes buf -> bytes m -> 0 <= pp <= tgt ->
  match p_payload tgt v type h [] buf pp with
  | (PInc, (ck, sb)) => pp <= ck /\
      fst (p_payload tgt v type h sb (buf ++ m) ck) = fst (p_payload tgt v type h [] (buf ++ m) pp)
  | (r, _) => fst (p_payload tgt v type h [] (buf ++ m) pp) = r
  end.
Proof.
  intros tgt v type h buf m pp B1 B2 Hp.
  destruct h as [v' cf keep props|a r props|topic pid props|pid r props|pid props|pid props| |r props]; cbn [p_payload fst];
    try (destruct (tgt <? pp + 1); reflexivity).
  - pose proof (good_connect_payload tgt v' cf keep props buf m pp B1 B2 ltac:(lia)) as G.
    destruct (p_connect_payload tgt v' cf keep props buf pp); auto; [apply G|split; [lia|auto]].
  - pose proof (good_publish_payload tgt topic pid props buf m pp B1 B2 Hp) as G.
    destruct (p_publish_payload tgt topic pid props buf pp); auto. split; [lia|auto].
  - destruct (tgt <? pp + 1) eqn:E; [reflexivity|].
    pose proof (sub_loop_app (Z.to_nat (tgt - pp)) tgt v (type =? 8) [] buf m pp B1 B2 ltac:(lia)) as G.
    destruct (p_sub_loop (Z.to_nat (tgt - pp)) tgt v (type =? 8) [] buf pp) as [r [ck sb]] eqn:EL.
    destruct r; cbn [body_of_subs].
    + rewrite G. reflexivity.
    + apply sub_loop_inc in EL; auto; [|lia]. split; [lia|]. rewrite G by (split; lia).
      replace (tgt <? ck + 1) with false by lia. reflexivity.
    + rewrite G. reflexivity.
    + rewrite G. reflexivity.
  - pose proof (good_suback_payload tgt v type pid props buf m pp B1 B2 Hp) as G.
    destruct (p_suback_payload tgt v type pid props buf pp); auto. split; [lia|auto].
Qed.

(** *** One packet *)
(** What is needed of a packet and its octets *)
Definition form (ver : option Z) (p : packet) (W : list Z) : Prop :=
  bytes W /\ packet_legal p /\ exists rest, W = framed p rest /\ zlen rest <= VINT_MAX /\ parses ver p rest.
Definition fx_of (p : packet) (W : list Z) (vpos : Z) : fixed := mk_fixed (pk_type p) (pk_flags p) vpos (zlen W).

Lemma hdr_octet : forall t f, 0 <= f < 16 -> Z.shiftr (t * 16 + f) 4 = t /\ Z.land (t * 16 + f) 15 = f.
Proof.
  intros t f H. rewrite Z.shiftr_div_pow2 by lia. change 15 with (2 ^ 4 - 1). rewrite land_ones_mod by lia.
  change (2 ^ 4) with 16. lia.
Qed.
Lemma fixed_W : forall p rest suf, packet_legal p -> zlen rest <= VINT_MAX ->
  p_fixed (framed p rest ++ suf) = Some (Some (fx_of p (framed p rest) (1 + zlen (vint (zlen rest))))).
Proof.
  intros p rest suf L H. unfold framed. cbn [app]. unfold p_fixed. cbv zeta.
  destruct (flags_range p L) as [Fr Fl]. pose proof (type_range p L) as T.
  destruct (hdr_octet (pk_type p) (pk_flags p) Fr) as [-> ->].
  replace (pk_type p =? 0) with false by lia.
  replace (match reserved_flags (pk_type p) with Some f => negb (f =? pk_flags p) | None => false end) with false
    by (destruct (reserved_flags (pk_type p)); [subst; rewrite Z.eqb_refl; reflexivity|reflexivity]).
  rewrite <- app_assoc.
  pose proof (reads_vint (1 + zlen (vint (zlen rest))) (zlen rest) ltac:(pose proof (zlen_nonneg _ rest); lia)
    [pk_type p * 16 + pk_flags p] (rest ++ suf)) as X.
  change (zlen [pk_type p * 16 + pk_flags p]) with 1 in X. cbn [app] in X. rewrite X by lia.
  unfold fx_of. rewrite zlen_cons, zlen_app. do 3 f_equal. lia.
Qed.
Lemma form_ge2 : forall ver p W, form ver p W -> 2 <= zlen W.
Proof.
  intros ver p W (_ & _ & rest & -> & _ & _). unfold framed. rewrite !zlen_app. change (zlen [_]) with 1.
  pose proof (vint_len (zlen rest)). pose proof (zlen_nonneg _ rest). lia.
Qed.
(** The answers of the parsers on the whole packet *)
Definition answers (ver : option Z) (p : packet) (W : list Z) (vpos : Z) (h : hdr) (pp : Z) : Prop :=
  forall suf, bytes suf ->
    p_fixed (W ++ suf) = Some (Some (fx_of p W vpos)) /\
    p_hdr (zlen W) ver (pk_type p) (pk_flags p) (W ++ suf) vpos = POk h pp /\
    exists q ck, p_payload (zlen W) (pk_ver p) (pk_type p) h [] (W ++ suf) pp = (POk (pk_body p) q, ck).
Lemma form_answers : forall ver p W, form ver p W -> exists vpos h pp,
  0 <= vpos /\ 0 <= pp <= zlen W /\ hver h ver = pk_ver p /\ answers ver p W vpos h pp.
Proof.
  intros ver p W (B & L & rest & -> & H & P).
  set (pre := [pk_type p * 16 + pk_flags p] ++ vint (zlen rest)).
  assert (E : framed p rest = pre ++ rest ++ []) by (unfold framed, pre; rewrite app_nil_r, <- !app_assoc; reflexivity).
  assert (ZW : zlen pre + zlen rest = zlen (framed p rest)) by (unfold framed, pre; rewrite !zlen_app; lia).
  destruct (P pre [] (zlen (framed p rest)) ZW) as (h & pp & q & ck & H1 & H2 & H3 & H4).
  rewrite <- E in H1, H4.
  exists (zlen pre), h, pp. pose proof (zlen_nonneg _ pre). repeat apply conj; auto; try lia.
  intros suf Bs. split; [|split].
  - rewrite fixed_W by auto. unfold pre. rewrite zlen_app. reflexivity.
  - pose proof (good_hdr (zlen (framed p rest)) ver (pk_type p) (pk_flags p) (framed p rest) suf (zlen pre) B Bs ltac:(lia)) as G.
    rewrite H1 in G. apply G.
  - pose proof (payload_prefix (zlen (framed p rest)) (pk_ver p) (pk_type p) h (framed p rest) suf pp B Bs ltac:(lia)) as G.
    rewrite H4 in G. destruct (p_payload _ _ _ _ _ (framed p rest ++ suf) pp) as [r [c1 c2]]. cbn [fst] in G.
    destruct r; try discriminate. injection G as -> ->. eauto.
Qed.

(** A session in the middle of a packet *)
Definition mid (ver : option Z) (p : packet) (W : list Z) (s : psess) : Prop :=
  s = psess_init \/
  exists vpos, ps_fixed s = Some (fx_of p W vpos) /\
    (ps_done s = Some p \/
     ps_done s = None /\ exists s', packet_parse ver s W = RSess s' /\ ps_done s' = Some p).

Lemma packet_eta : forall p, mk_packet (pk_type p) (pk_flags p) (pk_ver p) (pk_body p) = p.
Proof. intros []. reflexivity. Qed.
Lemma parse_payload_done : forall ver p W vpos att h pp ck sb suf q c,
  pp <= zlen W -> hver h ver = pk_ver p ->
  p_payload (zlen W) (pk_ver p) (pk_type p) h sb (W ++ suf) ck = (POk (pk_body p) q, c) ->
  exists s, parse_payload ver (fx_of p W vpos) att h pp ck sb (W ++ suf) = RSess s /\
    ps_done s = Some p /\ ps_fixed s = Some (fx_of p W vpos).
Proof.
  intros ver p W vpos att h pp ck sb suf q c Hp Hv H. unfold parse_payload. cbn [fx_target fx_of fx_type fx_flags].
  replace (zlen W <? pp) with false by lia. cbv zeta. unfold hver in Hv. rewrite Hv, H. destruct c as [c1 c2].
  eexists. split; [reflexivity|]. cbn [ps_done ps_fixed]. rewrite packet_eta. auto.
Qed.
(** First attempt, everything there *)
Lemma first_full : forall ver p W suf, form ver p W -> bytes suf ->
  exists s vpos, packet_parse ver psess_init (W ++ suf) = RSess s /\ ps_fixed s = Some (fx_of p W vpos) /\ ps_done s = Some p.
Proof.
  intros ver p W suf F Bs. pose proof (form_ge2 _ _ _ F). destruct (form_answers _ _ _ F) as (vpos & h & pp & H1 & H2 & H3 & A).
  destruct (A suf Bs) as (A1 & A2 & q & ck & A3).
  destruct (parse_payload_done ver p W vpos 1 h pp pp [] suf q ck ltac:(lia) H3 A3) as (s & S1 & S2 & S3).
  exists s, vpos. split; auto. unfold packet_parse.
  replace (zlen (W ++ suf) <? 2) with false by (rewrite zlen_app; pose proof (zlen_nonneg _ suf); lia).
  cbn [psess_init ps_fixed]. rewrite A1. unfold parse_rest. cbn [ps_hdr ps_attempts fx_target fx_type fx_flags fx_vpos fx_of].
  change (10 <? 0 + 1) with false. cbv zeta iota. rewrite A2. exact S1.
Qed.
(** First attempt, only part of it there *)
Lemma fixed_prefix : forall buf m fx, bytes buf -> bytes m -> p_fixed (buf ++ m) = Some (Some fx) ->
  p_fixed buf = None \/ p_fixed buf = Some (Some fx).
Proof.
  intros buf m fx B1 B2 H. destruct buf as [|c buf]; [left; reflexivity|].
  pose proof (good_vint (c :: buf) m 1 B1 B2 ltac:(lia)) as G. cbn [app] in *. unfold p_fixed in *. cbv zeta in *.
  destruct (Z.shiftr c 4 =? 0); [discriminate|].
  destruct (match reserved_flags _ with Some f => _ | None => _ end); [discriminate|].
  destruct (p_vint (c :: buf) 1) as [n pos| | |]; auto.
  - destruct G as (_ & _ & G). rewrite G in H. auto.
  - rewrite G in H. discriminate.
  - rewrite G in H. discriminate.
Qed.
Lemma first_part : forall ver p buf m, form ver p (buf ++ m) ->
  exists s, packet_parse ver psess_init buf = RSess s /\ mid ver p (buf ++ m) s.
Proof.
  intros ver p buf m F. pose proof (form_ge2 _ _ _ F) as G2. pose proof F as (B & _).
  apply bytes_app in B as [B1 B2].
  destruct (form_answers _ _ _ F) as (vpos & h & pp & H1 & H2 & H3 & A).
  destruct (A [] ltac:(constructor)) as (A1 & A2 & q & ck & A3). rewrite app_nil_r in A1, A2, A3.
  unfold packet_parse at 1. destruct (zlen buf <? 2) eqn:E2; [exists psess_init; split; auto; left; reflexivity|].
  cbn [psess_init ps_fixed].
  destruct (fixed_prefix buf m _ B1 B2 A1) as [-> | ->]; [exists psess_init; split; auto; left; reflexivity|].
  unfold parse_rest. cbn [ps_hdr ps_attempts fx_target fx_type fx_flags fx_vpos fx_of].
  change (10 <? 0 + 1) with false. cbv zeta iota.
  assert (LF : (zlen (buf ++ m) <? 2) = false) by lia.
  pose proof (good_hdr (zlen (buf ++ m)) ver (pk_type p) (pk_flags p) buf m vpos B1 B2 H1) as G.
  destruct (p_hdr (zlen (buf ++ m)) ver (pk_type p) (pk_flags p) buf vpos) as [h' pp'| | |].
  - destruct G as (_ & _ & G). rewrite G in A2. injection A2 as -> ->.
    pose proof (payload_prefix (zlen (buf ++ m)) (pk_ver p) (pk_type p) h buf m pp B1 B2 H2) as P.
    unfold parse_payload. cbn [fx_target fx_of fx_type fx_flags]. replace (zlen (buf ++ m) <? pp) with false by lia.
    cbv zeta. change (match h with HConnect v _ _ _ => v | _ => match ver with Some v => v | None => 0 end end) with (hver h ver).
    rewrite H3. rewrite A3 in P. cbn [fst] in P.
    destruct (p_payload (zlen (buf ++ m)) (pk_ver p) (pk_type p) h [] buf pp) as [r [c1 c2]] eqn:EP. destruct r.
    + injection P as <- <-. eexists. split; [reflexivity|]. right. exists vpos. cbn [ps_fixed ps_done]. split; [reflexivity|].
      left. rewrite packet_eta. reflexivity.
    + destruct P as [P1 P2]. eexists. split; [reflexivity|]. right. exists vpos. cbn [ps_fixed ps_done]. split; [reflexivity|].
      right. split; [reflexivity|].
      destruct (p_payload (zlen (buf ++ m)) (pk_ver p) (pk_type p) h c2 (buf ++ m) c1) as [r c3] eqn:EC. cbn [fst] in P2. subst r.
      rewrite <- (app_nil_r (buf ++ m)) in EC at 2.
      destruct (parse_payload_done ver p (buf ++ m) vpos 1 h pp c1 c2 [] q c3 ltac:(lia) H3 EC) as (s & S1 & S2 & S3).
      exists s. split; auto. unfold packet_parse. rewrite LF. cbn [ps_fixed]. unfold parse_rest. cbn [ps_hdr ps_attempts ps_check ps_subs].
      rewrite app_nil_r in S1. exact S1.
    + discriminate.
    + discriminate.
  - eexists. split; [reflexivity|]. right. exists vpos. cbn [ps_fixed ps_done]. split; [reflexivity|].
    right. split; [reflexivity|]. rewrite <- (app_nil_r (buf ++ m)) in A3 at 2.
    destruct (parse_payload_done ver p (buf ++ m) vpos 2 h pp pp [] [] q ck ltac:(lia) H3 A3) as (s & S1 & S2 & S3).
    exists s. split; auto. unfold packet_parse. rewrite LF. cbn [ps_fixed]. unfold parse_rest.
    cbn [ps_hdr ps_attempts fx_target fx_type fx_flags fx_vpos fx_of]. change (10 <? 1 + 1) with false. cbv zeta iota.
    rewrite A2. rewrite app_nil_r in S1. exact S1.
  - rewrite G in A2. discriminate.
  - rewrite G in A2. discriminate.
Qed.

(** *** The stream *)
Definition finish (fuel : nat) (ver : option Z) (over : list Z) (p : packet) : option conn * list mevent :=
  match over with
  | [] => (Some (mk_conn (next_ver ver p) psess_init []), [EPacket p])
  | _ => let '(c, ev) := conn_run fuel (next_ver ver p) psess_init over in (c, EPacket p :: ev)
  end.
Definition complete (fuel : nat) (ver : option Z) (buf : list Z) (s : psess) (fx : fixed) : option conn * list mevent :=
  if zlen buf <? fx_target fx then (Some (mk_conn ver s buf), [])
  else
    let cur := zsub buf 0 (fx_target fx) in
    let over := zsub buf (fx_target fx) (zlen buf - fx_target fx) in
    match ps_done s with
    | Some p => finish fuel ver over p
    | None =>
        match packet_parse ver s cur with
        | RSess s' => match ps_done s' with Some p => finish fuel ver over p | None => (None, [EClose]) end
        | RErr => (None, [EClose])
        | RAbort => (None, [EAbort])
        end
    end.
Lemma conn_run_eq : forall fuel ver s buf, conn_run (S fuel) ver s buf =
  match ps_fixed s with
  | Some fx => complete fuel ver buf s fx
  | None =>
      match packet_parse ver s buf with
      | RErr => (None, [EClose])
      | RAbort => (None, [EAbort])
      | RSess s' =>
          match ps_fixed s' with
          | None => (Some (mk_conn ver s' buf), [])
          | Some fx => complete fuel ver buf s' fx
          end
      end
  end.
Proof. reflexivity. Qed.

Lemma next_ver_after : forall ver p, packet_legal p -> next_ver ver p = ver_after ver p.
Proof.
  intros ver [t f v b] [L _]. unfold next_ver, ver_after. cbn [pk_type pk_ver pk_body] in *.
  destruct b; cbn [body_legal] in L; try (destruct L as [L _]; replace (t =? 1) with false by lia; reflexivity).
  destruct L as (-> & _ & -> & _). reflexivity.
Qed.
Lemma zsub_all : forall W over, zsub (W ++ over) 0 (zlen W) = W /\ zsub (W ++ over) (zlen W) (zlen (W ++ over) - zlen W) = over.
Proof.
  intros. split.
  - exact (zsub_mid [] W over).
  - pose proof (zsub_mid W over []) as X. rewrite app_nil_r in X. rewrite zlen_app. replace (zlen W + zlen over - zlen W) with (zlen over) by lia. exact X.
Qed.

(** Packets and the octets of each, on a connection of version [ver] *)
Fixpoint forms (ver : option Z) (ps : list packet) (ws : list (list Z)) : Prop :=
  match ps, ws with
  | [], [] => True
  | p :: ps, w :: ws => form ver p w /\ forms (ver_after ver p) ps ws
  | _, _ => False
  end.
Definition mid_all (ver : option Z) (ps : list packet) (ws : list (list Z)) (s : psess) : Prop :=
  match ps, ws with
  | p :: _, w :: _ => mid ver p w s
  | _, _ => s = psess_init
  end.
Definition part (buf : list Z) (ws : list (list Z)) : Prop :=
  match ws with [] => buf = [] | w :: _ => zlen buf < zlen w end.

Lemma forms_bytes : forall ps ver ws, forms ver ps ws -> bytes (concat ws).
Proof.
  induction ps as [|p ps IH]; intros ver [|w ws] H; cbn [forms] in H; try contradiction; cbn [concat]; [constructor|].
  destruct H as [H1 H2]. apply bytes_app. split; [apply H1|eapply IH; eauto].
Qed.

Lemma run_packets : forall fuel ver s buf rest ps ws, forms ver ps ws -> mid_all ver ps ws s ->
  buf ++ rest = concat ws -> (len buf < fuel)%nat ->
  exists ps1 ps2 ws1 ws2 s' buf', ps = ps1 ++ ps2 /\ ws = ws1 ++ ws2 /\ buf = concat ws1 ++ buf' /\
    conn_run fuel ver s buf = (Some (mk_conn (ver_end ver ps1) s' buf'), map EPacket ps1) /\
    forms (ver_end ver ps1) ps2 ws2 /\ mid_all (ver_end ver ps1) ps2 ws2 s' /\ part buf' ws2.
Proof.
  induction fuel as [|fuel IH]; intros ver s buf rest ps ws F M E HF; [lia|].
  destruct ps as [|p ps], ws as [|w ws]; cbn [forms mid_all concat] in *; try contradiction.
  - apply app_eq_nil in E as [-> ->]. subst s. exists [], [], [], [], psess_init, []. refine (conj _ (conj _ (conj _ (conj _ (conj _ (conj _ _)))))); auto; reflexivity.
  - destruct F as [F Fs]. pose proof (form_ge2 _ _ _ F) as W2.
    assert (L : packet_legal p) by apply F.
    (* what comes after a complete packet *)
    assert (FIN : forall over, buf = w ++ over -> concat ws = over ++ rest ->
      exists ps1 ps2 ws1 ws2 s' buf', p :: ps = ps1 ++ ps2 /\ w :: ws = ws1 ++ ws2 /\ buf = concat ws1 ++ buf' /\
        finish fuel ver over p = (Some (mk_conn (ver_end ver ps1) s' buf'), map EPacket ps1) /\
        forms (ver_end ver ps1) ps2 ws2 /\ mid_all (ver_end ver ps1) ps2 ws2 s' /\ part buf' ws2).
    { intros over Eb Ec. unfold finish. rewrite next_ver_after by auto.
      destruct over as [|c over].
      - exists [p], ps, [w], ws, psess_init, []. cbn [ver_end concat map app].
        refine (conj _ (conj _ (conj _ (conj _ (conj _ (conj _ _)))))); auto.
        + rewrite Eb. rewrite !app_nil_r. reflexivity.
        + destruct ps, ws; cbn [mid_all]; auto. left. reflexivity.
        + destruct ps as [|p2 ps], ws as [|w2 ws]; cbn [part forms] in *; try contradiction; auto.
          destruct Fs as [Fs _]. pose proof (form_ge2 _ _ _ Fs). rewrite zlen_nil. lia.
      - destruct (IH (ver_after ver p) psess_init (c :: over) rest ps ws Fs) as (ps1 & ps2 & ws1 & ws2 & s' & buf' & I1 & I2 & I3 & I4 & I5 & I6 & I7).
        + destruct ps, ws; cbn [mid_all]; auto. left. reflexivity.
        + auto.
        + subst buf. rewrite app_length in HF. unfold zlen in W2. lia.
        + exists (p :: ps1), ps2, (w :: ws1), ws2, s', buf'. cbn [ver_end concat map app]. rewrite I4.
          refine (conj _ (conj _ (conj _ (conj _ (conj _ (conj _ _)))))); auto; try (rewrite I1 || rewrite I2); try reflexivity.
          rewrite Eb, I3, app_assoc. reflexivity. }
    (* what comes once the fixed header is known *)
    assert (COM : forall s2 vpos, ps_fixed s2 = Some (fx_of p w vpos) ->
      (ps_done s2 = Some p \/ ps_done s2 = None /\ exists s3, packet_parse ver s2 w = RSess s3 /\ ps_done s3 = Some p) ->
      exists ps1 ps2 ws1 ws2 s' buf', p :: ps = ps1 ++ ps2 /\ w :: ws = ws1 ++ ws2 /\ buf = concat ws1 ++ buf' /\
        complete fuel ver buf s2 (fx_of p w vpos) = (Some (mk_conn (ver_end ver ps1) s' buf'), map EPacket ps1) /\
        forms (ver_end ver ps1) ps2 ws2 /\ mid_all (ver_end ver ps1) ps2 ws2 s' /\ part buf' ws2).
    { intros s2 vpos S1 S2. unfold complete. cbn [fx_of fx_target].
      destruct (zlen buf <? zlen w) eqn:EL.
      - exists [], (p :: ps), [], (w :: ws), s2, buf. cbn [ver_end map app concat]. refine (conj _ (conj _ (conj _ (conj _ (conj _ (conj _ _)))))); auto.
        + cbn [forms]. auto.
        + right. exists vpos. auto.
        + cbn [part]. lia.
      - apply app_eq_app in E as (l & [[E1 E2]|[E1 E2]]).
        + destruct (zsub_all w l) as [Z1 Z2]. rewrite <- E1 in Z1, Z2. rewrite Z1, Z2. cbv zeta.
          destruct S2 as [-> | (-> & s3 & -> & ->)]; apply FIN; auto.
        + assert (l = []). { apply zlen_0. subst w. rewrite zlen_app in EL. pose proof (zlen_nonneg _ l). lia. }
          subst l. rewrite app_nil_r in E1. subst w. cbn [app] in E2.
          destruct (zsub_all buf []) as [Z1 Z2]. rewrite app_nil_r in Z1, Z2. rewrite Z1, Z2. cbv zeta.
          destruct S2 as [-> | (-> & s3 & -> & ->)]; apply FIN; auto; rewrite app_nil_r; reflexivity. }
    rewrite conn_run_eq.
    destruct M as [-> | (vpos & M1 & M2)].
    + change (ps_fixed psess_init) with (@None fixed). cbv iota.
      apply app_eq_app in E as (l & [[E1 E2]|[E1 E2]]).
      * assert (Bl : bytes l). { pose proof (forms_bytes _ _ _ Fs) as X. rewrite E2 in X. apply bytes_app in X. tauto. }
        destruct (first_full ver p w l F Bl) as (s2 & vpos & S1 & S2 & S3). subst buf.
        rewrite S1, S2. apply COM; auto.
      * subst w. destruct (first_part ver p buf l F) as (s2 & S1 & S2).
        rewrite S1. destruct S2 as [-> | (vpos & S2 & S3)].
        -- change (ps_fixed psess_init) with (@None fixed). cbv iota.
           destruct l as [|c l].
           { (* everything is there, so the fixed header was found *)
             exfalso. rewrite app_nil_r in F. destruct (first_full ver p buf [] F ltac:(constructor)) as (s3 & vp & T1 & T2 & _).
             rewrite app_nil_r in T1. rewrite T1 in S1. injection S1 as ->. discriminate. }
           exists [], (p :: ps), [], ((buf ++ c :: l) :: ws), psess_init, buf. cbn [ver_end map app concat]. refine (conj _ (conj _ (conj _ (conj _ (conj _ (conj _ _)))))); auto.
           ++ cbn [forms]. auto.
           ++ left. reflexivity.
           ++ cbn [part]. rewrite zlen_app, zlen_cons. pose proof (zlen_nonneg _ l). lia.
        -- rewrite S2. apply COM; auto.
    + rewrite M1. apply COM; auto.
Qed.

Lemma recv_packets : forall chunks ver s buf rest ps ws, forms ver ps ws -> mid_all ver ps ws s ->
  buf ++ concat chunks ++ rest = concat ws -> part buf ws ->
  exists ps1 ps2 ws1 ws2 s' buf', ps = ps1 ++ ps2 /\ ws = ws1 ++ ws2 /\ buf ++ concat chunks = concat ws1 ++ buf' /\
    conn_recv_all (mk_conn ver s buf) chunks = (Some (mk_conn (ver_end ver ps1) s' buf'), map EPacket ps1) /\
    forms (ver_end ver ps1) ps2 ws2 /\ mid_all (ver_end ver ps1) ps2 ws2 s' /\ part buf' ws2.
Proof.
  induction chunks as [|k chunks IH]; intros ver s buf rest ps ws F M E P; cbn [concat conn_recv_all].
  - exists [], ps, [], ws, s, buf. cbn [ver_end map app concat]. rewrite app_nil_r. refine (conj _ (conj _ (conj _ (conj _ (conj _ (conj _ _)))))); auto.
  - unfold conn_recv. cbn [cn_buf cn_ver cn_sess]. cbn [concat] in E.
    destruct (run_packets (S (len (buf ++ k))) ver s (buf ++ k) (concat chunks ++ rest) ps ws F M) as
      (ps1 & ps2 & ws1 & ws2 & s' & buf' & I1 & I2 & I3 & I4 & I5 & I6 & I7); [rewrite <- E, <- !app_assoc; reflexivity|lia|].
    rewrite I4.
    destruct (IH (ver_end ver ps1) s' buf' rest ps2 ws2 I5 I6) as (qs1 & qs2 & us1 & us2 & s2 & b2 & J1 & J2 & J3 & J4 & J5 & J6 & J7); auto.
    { rewrite I2, concat_app in E. rewrite <- app_assoc in E.
      rewrite app_assoc, I3, <- app_assoc in E. apply app_inv_head in E. exact E. }
    rewrite J4. exists (ps1 ++ qs1), qs2, (ws1 ++ us1), us2, s2, b2.
    assert (VE : forall l1 v l2, ver_end v (l1 ++ l2) = ver_end (ver_end v l1) l2).
    { induction l1; intros; cbn [app ver_end]; auto. }
    rewrite VE, map_app, concat_app. subst ps2 ws2. rewrite <- !app_assoc. refine (conj _ (conj _ (conj _ (conj _ (conj _ (conj _ _)))))); auto.
    rewrite (app_assoc buf), I3, <- app_assoc, J3. reflexivity.
Qed.

Lemma forms_of : forall ps ver ws, Forall readable ps -> sequence ver ps -> Forall2 wires ps ws -> forms ver ps ws.
Proof.
  induction ps as [|p ps IH]; intros ver ws R S W; inversion W; subst; cbn [forms]; auto.
  inversion R; subst. destruct S as [S1 S2]. split; auto.
  split; [eapply wires_bytes; eauto|]. split; [apply H2|].
  apply readable_parses; auto.
Qed.

(** Any prefix of what is sent, in any pieces: the packets complete are handed on, nothing else *)
Lemma recv_prefix : forall ver ps ws chunks rest, Forall readable ps -> sequence ver ps -> Forall2 wires ps ws ->
  concat chunks ++ rest = concat ws ->
  exists ps1 ps2 ws1 ws2 buf' s', ps = ps1 ++ ps2 /\ ws = ws1 ++ ws2 /\ concat chunks = concat ws1 ++ buf' /\ part buf' ws2 /\
    conn_recv_all (conn_init ver) chunks = (Some (mk_conn (ver_end ver ps1) s' buf'), map EPacket ps1).
Proof.
  intros ver ps ws chunks rest R S W E.
  assert (F : forms ver ps ws) by (apply forms_of; auto).
  destruct (recv_packets chunks ver psess_init [] rest ps ws F) as (ps1 & ps2 & ws1 & ws2 & s' & buf' & I1 & I2 & I3 & I4 & I5 & I6 & I7); auto.
  - destruct ps, ws; cbn; auto. left. reflexivity.
  - destruct ps as [|p ps], ws as [|w ws]; cbn [forms part] in *; try contradiction; auto.
    pose proof (form_ge2 _ _ _ (proj1 F)). rewrite zlen_nil. lia.
  - exists ps1, ps2, ws1, ws2, buf', s'. repeat apply conj; auto.
Qed.
Lemma recv_all : forall ver ps ws chunks, Forall readable ps -> sequence ver ps -> Forall2 wires ps ws ->
  concat chunks = concat ws ->
  conn_recv_all (conn_init ver) chunks = (Some (conn_init (ver_end ver ps)), map EPacket ps).
Proof.
  intros ver ps ws chunks R S W E.
  assert (F : forms ver ps ws) by (apply forms_of; auto).
  destruct (recv_packets chunks ver psess_init [] [] ps ws F) as (ps1 & ps2 & ws1 & ws2 & s' & buf' & I1 & I2 & I3 & I4 & I5 & I6 & I7); auto.
  - destruct ps, ws; cbn; auto. left. reflexivity.
  - rewrite app_nil_r. auto.
  - destruct ps as [|p ps], ws as [|w ws]; cbn [forms part] in *; try contradiction; auto.
    pose proof (form_ge2 _ _ _ (proj1 F)). rewrite zlen_nil. lia.
  - cbn [app] in I3. rewrite E, I2, concat_app in I3. apply app_inv_head in I3.
    destruct ws2 as [|w ws2].
    2:{ exfalso. cbn [concat part] in *. subst buf'. rewrite zlen_app in I7. pose proof (zlen_nonneg _ (concat ws2)). lia. }
    destruct ps2 as [|p2 ps2]; [|cbn [forms] in I5; contradiction].
    cbn [concat mid_all] in *. subst buf' s'. rewrite app_nil_r in I1. subst ps1. exact I4.
Qed.
