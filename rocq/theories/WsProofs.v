From Coq Require Import ZArith List Bool Lia.
From Verif Require Import Common MsgModel MsgProofs ReadModel ReadSpec ReadProofs WsModel WsSpec.
Import ListNotations.
Open Scope Z_scope.

(** ** Masks *)
Lemma mask_len k l : forall i, zlen (mask_from i k l) = zlen l.
Proof. induction l as [ | c l IH ]; intros i; cbn [mask_from]; [ reflexivity | ]. rewrite !zlen_cons, IH. reflexivity. Qed.
Lemma mask_nth k l : forall i j, 0 <= j < zlen l -> nth (Z.to_nat j) (mask_from i k l) 0 = Z.lxor (nth (Z.to_nat j) l 0) (nth (Z.to_nat ((i + j) mod 4)) k 0).
Proof.
  induction l as [ | c l IH ]; intros i j H; [ rewrite zlen_nil in H; lia | ]. rewrite zlen_cons in H. cbn [mask_from].
  destruct (Z.eq_dec j 0) as [ -> | N ].
  - change (Z.to_nat 0) with 0%nat. cbn [nth]. now rewrite Z.add_0_r.
  - replace (Z.to_nat j) with (Datatypes.S (Z.to_nat (j - 1))) by lia. cbn [nth]. rewrite IH by lia. do 3 f_equal. f_equal. lia.
Qed.
Lemma mask_twice k l : forall i, mask_from i k (mask_from i k l) = l.
Proof. induction l as [ | c l IH ]; intros i; cbn [mask_from]; [ reflexivity | ]. rewrite Z.lxor_assoc, Z.lxor_nilpotent, Z.lxor_0_r, IH. reflexivity. Qed.
Lemma key_nth k i : 0 <= i < 4 -> 0 <= k -> nth (Z.to_nat i) (be_enc 4 k) 0 = k / 2^(8 * (3 - i)) mod 256.
Proof.
  intros H Hk. assert (C : i = 0 \/ i = 1 \/ i = 2 \/ i = 3) by lia. destruct C as [ -> | [ -> | [ -> | -> ] ] ]; cbv [be_enc Z.to_nat Pos.to_nat Pos.iter_op nth Nat.add]; lazy -[Z.div Z.modulo Z.pow Z.mul Z.sub]; cbn; rewrite ?Z.div_div by lia; try reflexivity.
Qed.
Lemma list_ext (a b : list Z) : zlen a = zlen b -> (forall i, 0 <= i < zlen a -> nth (Z.to_nat i) a 0 = nth (Z.to_nat i) b 0) -> a = b.
Proof.
  intros L H. apply (nth_ext _ _ 0 0); [ unfold zlen in L; lia | ]. intros n Hn. specialize (H (Z.of_nat n)). rewrite Nat2Z.id in H. apply H. unfold zlen. lia.
Qed.
Lemma masked_iff k d o : 0 <= k -> masked k d o <-> o = mask_unmask d k.
Proof.
  intros Hk. unfold masked, mask_unmask. assert (E : forall i, 0 <= i -> key_octet k i = nth (Z.to_nat (i mod 4)) (be_enc 4 k) 0).
  { intros i Hi. unfold key_octet. rewrite key_nth by lia. reflexivity. }
  split.
  - intros (L & H). apply list_ext; [ now rewrite mask_len | ]. intros i Hi. rewrite L in Hi. rewrite H, mask_nth, E by lia. now rewrite Z.add_0_l.
  - intros ->. split; [ apply mask_len | ]. intros i Hi. rewrite mask_nth, E by lia. now rewrite Z.add_0_l.
Qed.

(** ** Headers *)
Lemma field_two b0 b1 r : be_field (b0 :: b1 :: r) 0 2 = b0 * 256 + b1.
Proof. unfold be_field, sub_mem. change (firstn (Z.to_nat 2) (skipn (Z.to_nat 0) (b0 :: b1 :: r))) with [b0; b1]. unfold be_dec. cbn [fold_left]. lia. Qed.
Lemma sub_mem_at (a b c : list Z) off n : off = zlen a -> n = zlen b -> sub_mem (a ++ b ++ c) off n = b.
Proof.
  intros -> ->. unfold sub_mem, zlen. rewrite !Nat2Z.id, skipn_app, skipn_all, Nat.sub_diag. cbn [skipn app].
  rewrite firstn_app, firstn_all, Nat.sub_diag. cbn [firstn]. now rewrite app_nil_r.
Qed.
Definition b2z (b : bool) : Z := if b then 1 else 0.
Definition head2 (fin : bool) (rsv op : Z) (mask : bool) (len7 : Z) : list Z := [128 * b2z fin + 16 * rsv + op; 128 * b2z mask + len7].
Lemma flags_ok fin rsv op mask len7 : 0 <= rsv < 8 -> 0 <= op < 16 -> 0 <= len7 < 128 ->
  let flags := (128 * b2z fin + 16 * rsv + op) * 256 + (128 * b2z mask + len7) in
  Z.land flags 127 = len7 /\ Z.odd (Z.shiftr flags 7) = mask /\ Z.land (Z.shiftr (Z.shiftr flags 7) 1) 15 = op /\
  Z.odd (Z.shiftr (Z.shiftr (Z.shiftr (Z.shiftr (Z.shiftr (Z.shiftr flags 7) 1) 4) 1) 1) 1) = fin.
Proof.
  intros H1 H2 H3 flags. assert (B : 0 <= b2z fin <= 1 /\ 0 <= b2z mask <= 1) by (destruct fin, mask; cbn; lia).
  assert (F : forall x, Z.odd x = negb (x mod 2 =? 0)) by (intros x; rewrite Zmod_odd; destruct (Z.odd x); reflexivity).
  rewrite !Z.shiftr_shiftr by lia. rewrite !Z.shiftr_div_pow2 by lia. change 127 with (2^7 - 1). change 15 with (2^4 - 1). rewrite !land_ones_mod by lia. rewrite !F.
  cbn [Z.add Pos.add Pos.succ]. subst flags. change (2^7) with 128. change (2^(7+1)) with 256. change (2^4) with 16. change (2 ^ (7 + 1 + 4 + 1 + 1 + 1)) with 32768.
  change (2^8) with 256. change (2^15) with 32768.
  repeat split; try lia; destruct fin, mask; unfold b2z in *; lia.
Qed.
Lemma header_ok fin rsv op mask len7 ext key body n : 0 <= rsv < 8 -> 0 <= op < 16 -> 0 <= n -> length_form n len7 ext ->
  match key with Some k => mask = true /\ 0 <= k < 2^32 | None => mask = false end ->
  get_header (head2 fin rsv op mask len7 ++ ext ++ match key with Some k => be_enc 4 k | None => [] end ++ body) =
  Some (mk_header fin op mask (2 + zlen ext + (if mask then 4 else 0)) n (match key with Some k => k | None => 0 end)).
Proof.
  intros H1 H2 Hn LF HK. assert (H3 : 0 <= len7 < 128) by (destruct LF as [ (? & ? & _) | [ (? & ? & _) | (? & ? & _) ] ]; lia).
  set (kb := match key with Some k => be_enc 4 k | None => [] end).
  assert (KL : zlen kb = if mask then 4 else 0) by (subst kb; destruct key; [ destruct HK as (-> & _); now rewrite be_enc_len | now subst mask ]).
  unfold get_header, head2. cbn [app]. rewrite field_two. pose proof (flags_ok fin rsv op mask len7 H1 H2 H3) as (-> & -> & -> & ->).
  pose proof (zlen_nonneg _ body) as Nb. pose proof (zlen_nonneg _ ext) as Ne.
  set (b0 := 128 * b2z fin + 16 * rsv + op). set (b1 := 128 * b2z mask + len7).
  assert (ZL : zlen (b0 :: b1 :: ext ++ kb ++ body) = 2 + zlen ext + (if mask then 4 else 0) + zlen body) by (rewrite !zlen_cons, !zlen_app, KL; lia).
  rewrite ZL. replace (2 + zlen ext + (if mask then 4 else 0) + zlen body <? 2) with false by (destruct mask; lia).
  assert (KEY : forall k, key = Some k -> be_field (b0 :: b1 :: ext ++ kb ++ body) (2 + zlen ext) 4 = k).
  { intros k ->. destruct HK as (-> & HK). unfold be_field. change (b0 :: b1 :: ext ++ kb ++ body) with (([b0; b1] ++ ext) ++ kb ++ body). rewrite sub_mem_at; [ | rewrite zlen_app; reflexivity | lia ]. subst kb. apply be_dec_enc. cbn. lia. }
  assert (TAIL : (if mask then if 2 + zlen ext + (if mask then 4 else 0) + zlen body <? 2 + zlen ext + 4 then None else Some (mk_header fin op true (2 + zlen ext + 4) n (be_field (b0 :: b1 :: ext ++ kb ++ body) (2 + zlen ext) 4))
                  else Some (mk_header fin op false (2 + zlen ext) n 0)) = Some (mk_header fin op mask (2 + zlen ext + (if mask then 4 else 0)) n (match key with Some k => k | None => 0 end))).
  { destruct key as [ k | ]; [ destruct HK as (-> & HK); rewrite (KEY k eq_refl); replace (2 + zlen ext + 4 + zlen body <? 2 + zlen ext + 4) with false by lia; reflexivity | subst mask; now rewrite Z.add_0_r ]. }
  destruct LF as [ (L1 & L2 & L3) | [ (L1 & L2 & L3) | (L1 & L2 & L3) ] ].
  - replace (len7 =? 126) with false by lia. replace (len7 =? 127) with false by lia. rewrite L3, zlen_nil, Z.add_0_r in *. rewrite L2. exact TAIL.
  - replace (len7 =? 126) with true by lia. assert (EL : zlen ext = 2) by (rewrite L3; apply be_enc_len). rewrite EL in *.
    replace (2 + 2 + (if mask then 4 else 0) + zlen body <? 4) with false by (destruct mask; lia).
    replace (be_field (b0 :: b1 :: ext ++ kb ++ body) 2 2) with n; [ exact TAIL | ].
    unfold be_field. change (b0 :: b1 :: ext ++ kb ++ body) with ([b0; b1] ++ ext ++ (kb ++ body)). rewrite sub_mem_at by (auto; reflexivity). rewrite L3. symmetry. apply be_dec_enc. change (256 ^ Z.of_nat 2) with (2^16). lia.
  - replace (len7 =? 126) with false by lia. replace (len7 =? 127) with true by lia. assert (EL : zlen ext = 8) by (rewrite L3; apply be_enc_len). rewrite EL in *.
    replace (2 + 8 + (if mask then 4 else 0) + zlen body <? 10) with false by (destruct mask; lia).
    replace (be_field (b0 :: b1 :: ext ++ kb ++ body) 2 8) with n; [ exact TAIL | ].
    unfold be_field. change (b0 :: b1 :: ext ++ kb ++ body) with ([b0; b1] ++ ext ++ (kb ++ body)). rewrite sub_mem_at by (auto; reflexivity). rewrite L3. symmetry. apply be_dec_enc. change (256 ^ Z.of_nat 8) with (2^64). lia.
Qed.
Definition has_key (f : wframe) : bool := match wf_key f with Some _ => true | None => false end.
Lemma skipn_zlen (a b : list Z) : skipn (Z.to_nat (zlen a)) (a ++ b) = b.
Proof. unfold zlen. rewrite Nat2Z.id, skipn_app, skipn_all, Nat.sub_diag. reflexivity. Qed.
Lemma wire_header f l rest : wire f l -> exists hlen, 2 <= hlen <= 14 /\ zlen l = hlen + zlen (wf_data f) /\ zlen (wf_data f) < 2^63 /\
  get_header (l ++ rest) = Some (mk_header (wf_fin f) (wf_op f) (has_key f) hlen (zlen (wf_data f)) (match wf_key f with Some k => k | None => 0 end)) /\
  (if has_key f then mask_unmask (skipn (Z.to_nat hlen) l) (match wf_key f with Some k => k | None => 0 end) else skipn (Z.to_nat hlen) l) = wf_data f.
Proof.
  intros (len7 & ext & kb & body & LF & HK & H1 & H2 & ->).
  pose proof (zlen_nonneg _ (wf_data f)) as Nd.
  assert (EL : 0 <= zlen ext <= 8) by (destruct LF as [ (_ & _ & ->) | [ (_ & _ & ->) | (_ & _ & ->) ] ]; [ rewrite zlen_nil | rewrite be_enc_len | rewrite be_enc_len ]; lia).
  assert (DL : zlen (wf_data f) < 2^63) by (destruct LF as [ (? & _) | [ (? & _) | (? & _) ] ]; lia).
  assert (BL : zlen body = zlen (wf_data f)) by (destruct (wf_key f); [ destruct HK as (_ & _ & (HK & _)); exact HK | destruct HK as (_ & ->); reflexivity ]).
  assert (KL : zlen kb = if has_key f then 4 else 0) by (unfold has_key; destruct (wf_key f); [ destruct HK as (_ & -> & _); apply be_enc_len | destruct HK as (-> & _); reflexivity ]).
  exists (2 + zlen ext + (if has_key f then 4 else 0)). split; [ destruct (has_key f); lia | ]. split; [ rewrite !zlen_app, !zlen_cons, zlen_nil; lia | ]. split; [ exact DL | ].
  set (hd2 := [128 * (if wf_fin f then 1 else 0) + 16 * wf_rsv f + wf_op f; 128 * match wf_key f with Some _ => 1 | None => 0 end + len7]).
  assert (HD : hd2 = head2 (wf_fin f) (wf_rsv f) (wf_op f) (has_key f) len7) by (unfold hd2, head2, has_key, b2z; destruct (wf_fin f), (wf_key f); reflexivity).
  split.
  - rewrite <- !app_assoc, HD. rewrite <- (header_ok (wf_fin f) (wf_rsv f) (wf_op f) (has_key f) len7 ext (wf_key f) (body ++ rest) (zlen (wf_data f))); auto.
    + do 3 f_equal. destruct (wf_key f); [ destruct HK as (_ & -> & _) | destruct HK as (-> & _) ]; reflexivity.
    + unfold has_key. destruct (wf_key f); [ destruct HK as (HK & _); auto | reflexivity ].
  - assert (SK : skipn (Z.to_nat (2 + zlen ext + (if has_key f then 4 else 0))) (hd2 ++ ext ++ kb ++ body) = body).
    { replace (hd2 ++ ext ++ kb ++ body) with ((hd2 ++ ext ++ kb) ++ body) by (rewrite <- !app_assoc; reflexivity).
      replace (2 + zlen ext + (if has_key f then 4 else 0)) with (zlen (hd2 ++ ext ++ kb)) by (rewrite !zlen_app, KL; unfold hd2; rewrite !zlen_cons, zlen_nil; lia). apply skipn_zlen. }
    rewrite SK. unfold has_key in *. destruct (wf_key f) as [ k | ].
    + destruct HK as (HK & _ & M). apply masked_iff in M; [ | lia ]. rewrite M. apply mask_twice.
    + now destruct HK as (_ & ->).
Qed.

(** ** Framing *)
Lemma wire_framer f l rest : wire f l -> zlen (wf_data f) < 2^32 -> ws_framer (l ++ rest) = FSize (zlen l) false /\ 0 < zlen l.
Proof.
  intros W D. destruct (wire_header f l rest W) as (hlen & H1 & H2 & H3 & H4 & _). unfold ws_framer. rewrite H4. cbn [h_len h_payload]. pose proof (zlen_nonneg _ (wf_data f)).
  rewrite <- H2. unfold u64. rewrite Z.mod_small by lia. unfold SSIZE_MAX. replace (2^63 - 1 <? zlen l) with false by lia. split; [ reflexivity | lia ].
Qed.
Lemma parse_wires fs ls : Forall2 wire fs ls -> Forall (fun f => zlen (wf_data f) < 2^32) fs -> parse ws_framer (concat ls) ls [].
Proof.
  induction 1 as [ | f l fs ls W _ IH ]; intros F; cbn [concat]; [ apply parse_stop | ]. inversion F as [ | ? ? F1 F2 ]; subst.
  destruct (wire_framer f l (concat ls) W F1) as (E & P). pose proof (zlen_nonneg _ (concat ls)).
  assert (FN : firstn (Z.to_nat (zlen l)) (l ++ concat ls) = l) by (unfold zlen; rewrite Nat2Z.id, firstn_app, firstn_all, Nat.sub_diag; cbn [firstn]; apply app_nil_r).
  rewrite <- FN at 2. apply (parse_msg ws_framer (l ++ concat ls) (zlen l) false); [ exact E | rewrite zlen_app; lia | ]. rewrite skipn_zlen. now apply IH.
Qed.
Lemma get_header_app p q : get_header p <> None -> get_header (p ++ q) = get_header p.
Proof.
  intros H. unfold get_header in *. rewrite zlen_app. pose proof (zlen_nonneg _ q).
  destruct (zlen p <? 2) eqn:Q2; [ congruence | ]. replace (zlen p + zlen q <? 2) with false by lia.
  assert (FA : forall o n, 0 <= o -> 0 <= n -> o + n <= zlen p -> be_field (p ++ q) o n = be_field p o n).
  { intros o n Ho Hn Hs. unfold be_field, sub_mem. rewrite skipn_app, firstn_app. unfold zlen in *. rewrite skipn_length.
    replace (Z.to_nat n - (length p - Z.to_nat o))%nat with 0%nat by lia. cbn [firstn]. now rewrite app_nil_r. }
  rewrite (FA 0 2) by lia. set (fl := be_field p 0 2) in *.
  destruct (Z.land fl 127 =? 126); [ | destruct (Z.land fl 127 =? 127) ].
  - destruct (zlen p <? 4) eqn:Q4; [ congruence | ]. replace (zlen p + zlen q <? 4) with false by lia. rewrite (FA 2 2) by lia.
    destruct (Z.odd (Z.shiftr fl 7)); [ | reflexivity ]. destruct (zlen p <? 4 + 4) eqn:Q8; [ congruence | ]. replace (zlen p + zlen q <? 4 + 4) with false by lia. rewrite (FA 4 4) by lia. reflexivity.
  - destruct (zlen p <? 10) eqn:Q4; [ congruence | ]. replace (zlen p + zlen q <? 10) with false by lia. rewrite (FA 2 8) by lia.
    destruct (Z.odd (Z.shiftr fl 7)); [ | reflexivity ]. destruct (zlen p <? 10 + 4) eqn:Q8; [ congruence | ]. replace (zlen p + zlen q <? 10 + 4) with false by lia. rewrite (FA 10 4) by lia. reflexivity.
  - destruct (Z.odd (Z.shiftr fl 7)); [ | reflexivity ]. destruct (zlen p <? 2 + 4) eqn:Q8; [ congruence | ]. replace (zlen p + zlen q <? 2 + 4) with false by lia. rewrite (FA 2 4) by lia. reflexivity.
Qed.
Lemma ws_stable : stable ws_framer.
Proof.
  intros p q _ H. unfold ws_framer in *. destruct (get_header p) as [ h | ] eqn:E; [ | congruence ]. rewrite get_header_app by congruence. rewrite E. destruct (SSIZE_MAX <? u64 (h_len h + h_payload h)); cbn; reflexivity.
Qed.
Lemma ws_framer_good : framer_ok ws_framer.
Proof.
  intros p _. unfold ws_framer. destruct (get_header p) as [ h | ]; [ | exact I ]. destruct (SSIZE_MAX <? u64 (h_len h + h_payload h)); [ split; discriminate | ]. unfold u64. apply Z.mod_pos_bound. lia.
Qed.
Lemma ws_params p : p_framer p = Some ws_framer -> params_ok p.
Proof. intros H. unfold params_ok, framer_of. rewrite H. split; [ exact ws_stable | split; [ exact ws_framer_good | discriminate ] ]. Qed.

(** However the stream is cut: exactly the frames sent arrive. *)
Lemma frames_arrive p ws ss ev a fs ls : p_framer p = Some ws_framer -> Forall (world_ok p) ws -> run p [] ws = Ok (ss, ev) -> ~ waiting a ss ->
  Forall2 wire fs ls -> Forall (fun f => zlen (wf_data f) < 2^32) fs -> received a [] ev = concat ls -> delivered a [] ev = ls.
Proof.
  intros PF WS R NW W F RC. assert (I : inv (framer_of p) ss ([] ++ ev)).
  { destruct (ws_params p PF) as (A1 & A2 & A3). eapply run_inv; eauto using inv_init. }
  destruct (inv_parse _ _ _ a I) as (rest & P1 & S1 & _). unfold framer_of in *. rewrite PF in *. cbn [app] in *. rewrite RC in P1.
  assert (P2 := parse_wires fs ls W F). destruct (parse_det _ _ _ _ P1 (S1 NW) _ _ P2 ltac:(left; reflexivity)) as (E & _). exact E.
Qed.

(** ** Messages *)
Definition with_header (l : list Z) : header * list Z := (match get_header l with Some h => h | None => mk_header false 0 false 0 0 0 end, l).
Definition set_opcode (s : state) (op : Z) : state := mk_state (w_fragments s) op (w_received s) (w_ping s) (w_waiting s) (w_client s) (w_queue s).
Definition set_received (s : state) (now : Z) : state := mk_state (w_fragments s) (w_opcode s) now (w_ping s) (w_waiting s) (w_client s) (w_queue s).
Lemma interpret_wire cb s f l : wire f l -> zlen (wf_data f) < 2^32 ->
  interpret_step cb s (fst (with_header l)) l =
  if wf_op f =? 0 then Ok (fragmentation_step cb s (wf_fin f) (wf_data f))
  else if control (wf_op f) then
    if (125 <? zlen (wf_data f)) || negb (wf_fin f) then Ok (READ_SOFT, clear_receive s, [])
    else Ok (fragmentation_step cb (set_opcode (clear_receive s) (wf_op f)) true (wf_data f))
  else if (wf_op f =? OP_TEXT) || (wf_op f =? OP_BINARY) then Ok (fragmentation_step cb (set_opcode (clear_receive s) (wf_op f)) (wf_fin f) (wf_data f))
  else Ok (READ_SOFT, clear_receive s, []).
Proof.
  intros W D. destruct (wire_header f l [] W) as (hlen & H1 & H2 & H3 & H4 & H5). rewrite app_nil_r in H4. pose proof (zlen_nonneg _ (wf_data f)).
  unfold with_header. cbn [fst]. rewrite H4. unfold interpret_step. cbn [h_len h_mask h_fin h_opcode h_key].
  replace (u64 (zlen l - hlen)) with (zlen (wf_data f)) by (unfold u64; rewrite Z.mod_small; lia).
  replace (zlen (wf_data f) =? zlen l - hlen) with true by lia. cbn [negb]. rewrite andb_false_r. rewrite H5. unfold LENGTH_MAX. replace (2^32 - 1 <? zlen (wf_data f)) with false by lia.
  destruct (wf_op f =? 0); [ reflexivity | ]. destruct (control (wf_op f)); [ | reflexivity ].
  destruct (125 <? zlen (wf_data f)); [ reflexivity | ]. destruct (wf_fin f); reflexivity.
Qed.
Lemma receive_app cb now : forall a b s s' out, receive_frames cb now s a = Ok (0, s', out) ->
  receive_frames cb now s (a ++ b) = match receive_frames cb now s' b with Ok (r, s2, out2) => Ok (r, s2, out ++ out2) | Bug => Bug | Ub => Ub end.
Proof.
  induction a as [ | (h, l) a IH ]; intros b s s' out; cbn [receive_frames app].
  - intros [= <- <-]. destruct (receive_frames cb now s b) as [ ((r, s2), o2) | | ]; reflexivity.
  - fold (set_received s now). destruct (interpret_step cb (set_received s now) h l) as [ ((r, s1), o1) | | ]; try discriminate.
    destruct (negb (r =? 0)) eqn:Q; [ intros [= -> _ _]; discriminate Q | ].
    destruct (receive_frames cb now s1 a) as [ ((r2, s2), o2) | | ] eqn:E; try discriminate. intros [= -> <- <-]. rewrite (IH b s1 s2 o2 E).
    destruct (receive_frames cb now s2 b) as [ ((r3, s3), o3) | | ]; try reflexivity. now rewrite app_assoc.
Qed.
Definition same_sender (s s' : state) : Prop := w_queue s' = w_queue s /\ w_client s' = w_client s /\ w_ping s' = w_ping s /\ w_waiting s' = w_waiting s.
Lemma more_fragments cb now op : op = 1 \/ op = 2 -> forall ps fs ls s acc, fragments 0 ps fs -> Forall2 wire fs ls -> Forall (fun p => zlen p < 2^32) ps ->
  w_fragments s = Some acc -> w_opcode s = op -> zlen acc + zlen (concat ps) < 2^64 -> cb (op, acc ++ concat ps) = 0 ->
  exists s', receive_frames cb now s (map with_header ls) = Ok (0, s', [(op, acc ++ concat ps)]) /\ same_sender s s' /\ w_fragments s' = None.
Proof.
  intros OP. induction ps as [ | p ps IH ]; intros fs ls s acc FR W D HF HO HL CB; [ destruct FR | ]. cbn [fragments] in FR. destruct fs as [ | f fs ]; [ now destruct ps | ].
  inversion W as [ | ? l ? ls' W1 W2 ]; subst. inversion D as [ | ? ? D1 D2 ]; subst. pose proof (zlen_nonneg _ (concat ps)) as NC. cbn [concat] in *. rewrite zlen_app in HL.
  assert (FC : wf_op f = 0 /\ wf_data f = p /\ ((ps = [] /\ fs = [] /\ wf_fin f = true) \/ (ps <> [] /\ wf_fin f = false /\ fragments 0 ps fs))).
  { destruct ps as [ | p2 ps ]; [ destruct fs as [ | f2 fs ]; [ destruct FR as (A & B & C); auto 6 | destruct FR as (_ & _ & _ & []) ] | destruct FR as (A & B & C & E); repeat split; auto; right; repeat split; auto; discriminate ]. }
  destruct FC as (O0 & DP & FC). cbn [map receive_frames]. unfold with_header at 1. fold (set_received s now).
  replace (match get_header l with Some h => h | None => mk_header false 0 false 0 0 0 end) with (fst (with_header l)) by reflexivity.
  rewrite (interpret_wire cb (set_received s now) f l W1) by (rewrite DP; exact D1). rewrite O0. cbn [Z.eqb]. rewrite DP. unfold fragmentation_step. cbn [set_received w_opcode w_fragments].
  replace (w_opcode s =? 0) with false by lia. rewrite HF. replace (2^64 <=? zlen acc + zlen p) with false by lia.
  destruct FC as [ (-> & -> & ->) | (Nps & -> & FR2) ].
  - inversion W2; subst. cbn [map receive_frames concat]. rewrite app_nil_r in *. unfold final_step. cbn [set_opcode clear_receive set_received w_opcode w_fragments w_received w_ping w_waiting w_client w_queue].
    replace (w_opcode s =? OP_CLOSE) with false by (unfold OP_CLOSE; lia). replace (w_opcode s =? OP_PING) with false by (unfold OP_PING; lia). replace (w_opcode s =? OP_PONG) with false by (unfold OP_PONG; lia).
    cbn [concat] in CB. rewrite CB. cbn [negb Z.eqb app]. eexists. split; [ reflexivity | ]. repeat split.
  - cbn [negb Z.eqb]. destruct (IH fs ls' (mk_state (Some (acc ++ p)) (w_opcode s) now (w_ping s) (w_waiting s) (w_client s) (w_queue s)) (acc ++ p)) as (s' & E & SS); auto.
    + rewrite zlen_app. lia.
    + now rewrite <- app_assoc.
    + change (w_received (set_received s now)) with now. cbn [set_received w_opcode w_ping w_waiting w_client w_queue]. rewrite E. rewrite <- app_assoc. eexists. split; [ reflexivity | exact SS ].
Qed.
Lemma item_data cb now b ps fs ls s : fragments (opcode b) ps fs -> Forall2 wire fs ls -> Forall (fun p => zlen p < 2^32) ps -> zlen (concat ps) < 2^64 -> cb (opcode b, concat ps) = 0 ->
  exists s', receive_frames cb now s (map with_header ls) = Ok (0, s', [(opcode b, concat ps)]) /\ same_sender s s' /\ w_fragments s' = None.
Proof.
  intros FR W D HL CB. assert (OP : opcode b = 1 \/ opcode b = 2) by (destruct b; auto). destruct ps as [ | p ps ]; [ destruct FR | ]. destruct fs as [ | f fs ]; [ now destruct ps | ].
  inversion W as [ | ? l ? ls' W1 W2 ]; subst. inversion D as [ | ? ? D1 D2 ]; subst. pose proof (zlen_nonneg _ (concat ps)) as NC. cbn [concat] in *. rewrite zlen_app in HL.
  assert (FC : wf_op f = opcode b /\ wf_data f = p /\ ((ps = [] /\ fs = [] /\ wf_fin f = true) \/ (ps <> [] /\ wf_fin f = false /\ fragments 0 ps fs))).
  { destruct ps as [ | p2 ps ]; [ destruct fs as [ | f2 fs ]; [ destruct FR as (A & B & C); auto 6 | destruct FR as (_ & _ & _ & []) ] | destruct FR as (A & B & C & E); repeat split; auto; right; repeat split; auto; discriminate ]. }
  destruct FC as (O0 & DP & FC). cbn [map receive_frames]. unfold with_header at 1. fold (set_received s now).
  replace (match get_header l with Some h => h | None => mk_header false 0 false 0 0 0 end) with (fst (with_header l)) by reflexivity.
  rewrite (interpret_wire cb (set_received s now) f l W1) by (rewrite DP; exact D1). rewrite O0, DP.
  replace (opcode b =? 0) with false by lia. replace (control (opcode b)) with false by (destruct b; reflexivity). replace ((opcode b =? OP_TEXT) || (opcode b =? OP_BINARY)) with true by (destruct b; reflexivity).
  unfold fragmentation_step. cbn [set_opcode clear_receive set_received w_opcode w_fragments w_received w_ping w_waiting w_client w_queue]. replace (opcode b =? 0) with false by lia.
  destruct FC as [ (-> & -> & ->) | (Nps & -> & FR2) ].
  - inversion W2; subst. cbn [map receive_frames concat]. rewrite app_nil_r in *. unfold final_step. cbn [set_opcode clear_receive set_received w_opcode w_fragments w_received w_ping w_waiting w_client w_queue].
    replace (opcode b =? OP_CLOSE) with false by (unfold OP_CLOSE; lia). replace (opcode b =? OP_PING) with false by (unfold OP_PING; lia). replace (opcode b =? OP_PONG) with false by (unfold OP_PONG; lia).
    cbn [concat] in CB. rewrite CB. cbn [negb Z.eqb app]. eexists. split; [ reflexivity | ]. repeat split.
  - rewrite zlen_nil. replace (2^64 <=? 0 + zlen p) with false by lia. cbn [negb Z.eqb app].
    destruct (more_fragments cb now (opcode b) OP ps fs ls' (mk_state (Some p) (opcode b) now (w_ping s) (w_waiting s) (w_client s) (w_queue s)) p FR2 W2 D2 eq_refl eq_refl) as (s' & E & SS); auto.
    rewrite E. eexists. split; [ reflexivity | exact SS ].
Qed.
Lemma item_control cb now op d fs ls s : op = 9 \/ op = 10 -> control_frame op d fs -> Forall2 wire fs ls ->
  exists s', receive_frames cb now s (map with_header ls) = Ok (0, s', []) /\ w_client s' = w_client s /\ w_ping s' = w_ping s /\
    w_queue s' = w_queue s ++ (if op =? 9 then [mk_frame 10 (w_client s) []] else []) /\ w_waiting s' = (if op =? 9 then w_waiting s else false) /\ w_fragments s' = None.
Proof.
  intros OP (HL & f & -> & FF & FO & FD) W. inversion W as [ | ? l ? ls' W1 W2 ]; subst. inversion W2; subst. cbn [map receive_frames]. unfold with_header at 1. fold (set_received s now).
  replace (match get_header l with Some h => h | None => mk_header false 0 false 0 0 0 end) with (fst (with_header l)) by reflexivity.
  rewrite (interpret_wire cb (set_received s now) f l W1) by lia. rewrite FF.
  replace (wf_op f =? 0) with false by lia. replace (control (wf_op f)) with true by (unfold control, OP_CLOSE, OP_PING, OP_PONG; lia). replace (125 <? zlen (wf_data f)) with false by lia. cbn [orb negb].
  unfold fragmentation_step. cbn [set_opcode clear_receive set_received w_opcode w_fragments w_received w_ping w_waiting w_client w_queue]. replace (wf_op f =? 0) with false by lia.
  unfold final_step. cbn [set_opcode clear_receive set_received w_opcode w_fragments w_received w_ping w_waiting w_client w_queue]. replace (wf_op f =? OP_CLOSE) with false by (unfold OP_CLOSE; lia).
  destruct OP as [ -> | -> ].
  - change (9 =? OP_PING) with true. cbv iota. cbn [negb Z.eqb app receive_frames]. eexists. split; [ reflexivity | ]. repeat split.
  - change (10 =? OP_PING) with false. change (10 =? OP_PONG) with true. cbv iota. cbn [negb Z.eqb app receive_frames]. eexists. split; [ reflexivity | ]. cbn. rewrite app_nil_r. repeat split.
Qed.
Lemma items_ok cb now : forall is fss lss s, Forall2 sent is fss -> Forall2 (Forall2 wire) fss lss -> small is -> Forall (fun m => cb m = 0) (messages is) ->
  exists s', receive_frames cb now s (map with_header (concat lss)) = Ok (0, s', messages is) /\ w_client s' = w_client s /\ w_ping s' = w_ping s /\
    w_queue s' = w_queue s ++ map (fun _ => mk_frame 10 (w_client s) []) (pings is) /\
    w_waiting s' = w_waiting s && forallb (fun i => match i with Pong _ => false | _ => true end) is /\ (is <> [] -> w_fragments s' = None).
Proof.
  induction is as [ | i is IH ]; intros fss lss s S W M CB; inversion S as [ | ? fs ? fss' S1 S2 ]; subst; inversion W as [ | ? ls ? lss' W1 W2 ]; subst.
  - exists s. cbn. rewrite app_nil_r, andb_true_r. repeat split; congruence.
  - unfold small in M. inversion M as [ | ? ? M1 M2 ]; subst. cbn [concat]. rewrite map_app.
    assert (MA : messages (i :: is) = messages [i] ++ messages is) by (unfold messages; cbn [flat_map]; now rewrite app_nil_r). rewrite MA in *. apply Forall_app in CB as (CB1 & CB2).
    assert (PA : pings (i :: is) = pings [i] ++ pings is) by (unfold pings; cbn [flat_map]; now rewrite app_nil_r). rewrite PA.
    assert (ONE : exists s1, receive_frames cb now s (map with_header ls) = Ok (0, s1, messages [i]) /\ w_client s1 = w_client s /\ w_ping s1 = w_ping s /\
       w_queue s1 = w_queue s ++ map (fun _ => mk_frame 10 (w_client s) []) (pings [i]) /\ w_waiting s1 = w_waiting s && forallb (fun i => match i with Pong _ => false | _ => true end) [i] /\ w_fragments s1 = None).
    { destruct i as [ b ps | d | d ]; cbn [sent] in S1.
      - destruct M1 as (M1 & M3). cbn in CB1. inversion CB1 as [ | ? ? CB3 _ ]; subst. destruct (item_data cb now b ps fs ls s S1 W1 M1 M3 CB3) as (s1 & E & (Q1 & Q2 & Q3 & Q4) & Q5). exists s1. rewrite E, Q1, Q2, Q3, Q4, Q5. cbn. rewrite app_nil_r, andb_true_r. auto 6.
      - destruct (item_control cb now 9 d fs ls s ltac:(auto) S1 W1) as (s1 & E & Q1 & Q2 & Q3 & Q4 & Q5). exists s1. rewrite E, Q1, Q2, Q3, Q4, Q5. cbn. rewrite andb_true_r. auto 6.
      - destruct (item_control cb now 10 d fs ls s ltac:(auto) S1 W1) as (s1 & E & Q1 & Q2 & Q3 & Q4 & Q5). exists s1. rewrite E, Q1, Q2, Q3, Q4, Q5. cbn. rewrite andb_false_r. auto 6. }
    destruct ONE as (s1 & E & Q1 & Q2 & Q3 & Q4 & Q5). rewrite (receive_app cb now _ _ s s1 _ E). destruct (IH fss' lss' s1 S2 W2 M2 CB2) as (s2 & E2 & P1 & P2 & P3 & P4 & P5). rewrite E2.
    exists s2. split; [ reflexivity | ]. rewrite P1, P2, P3, P4, Q1, Q2, Q3, Q4, map_app, <- app_assoc. cbn [forallb]. rewrite andb_true_r, andb_assoc. repeat split; auto. intros _. destruct is as [ | i2 is ]; [ | apply P5; discriminate ].
    inversion S2; subst. inversion W2; subst. cbn in E2. injection E2 as <-. exact Q5.
Qed.
Lemma sent_sizes : forall is fss, Forall2 sent is fss -> small is -> Forall (fun f => zlen (wf_data f) < 2^32) (concat fss).
Proof.
  intros is fss. induction 1 as [ | i fs is fss S _ IH ]; intros M; cbn [concat]; [ constructor | ]. unfold small in M. inversion M as [ | ? ? M1 M2 ]; subst. apply Forall_app. split; [ | now apply IH ].
  assert (FR : forall op ps fs, fragments op ps fs -> Forall (fun p => zlen p < 2^32) ps -> Forall (fun f => zlen (wf_data f) < 2^32) fs).
  { clear. intros op ps. revert op. induction ps as [ | p ps IH ]; intros op fs FR D; [ destruct FR | ]. destruct fs as [ | f fs ]; [ constructor | ]. inversion D as [ | ? ? D1 D2 ]; subst. cbn [fragments] in FR.
    destruct ps as [ | p2 ps ]; [ destruct fs as [ | f2 fs ]; [ constructor; [ destruct FR as (_ & _ & ->); exact D1 | constructor ] | destruct FR as (_ & _ & _ & []) ] | destruct FR as (_ & _ & <- & FR); constructor; [ exact D1 | now apply (IH 0) ] ]. }
  destruct i as [ b ps | d | d ]; cbn [sent] in S; [ destruct M1 as (M1 & _); now apply (FR (opcode b) ps) | | ]; destruct S as (HL & f & -> & _ & _ & <-); repeat constructor; lia.
Qed.

(** ** Sending *)
Lemma frame_wire key f : 0 <= key < 2^32 -> 0 <= f_opcode f < 16 -> zlen (f_payload f) < 2^63 ->
  wire (mk_wframe true 0 (f_opcode f) (if f_mask f then Some key else None) (f_payload f)) (frame_bytes key f).
Proof.
  intros HK HO HL. set (n := zlen (f_payload f)) in *. assert (Nn : 0 <= n) by apply zlen_nonneg.
  set (len7 := if n <? 126 then n else if n <=? 65535 then 126 else 127). set (ext := if n <? 126 then [] else if n <=? 65535 then be_enc 2 n else be_enc 8 n).
  exists len7, ext, (if f_mask f then be_enc 4 key else []), (if f_mask f then mask_unmask (f_payload f) key else f_payload f). cbn [wf_data wf_key wf_rsv wf_op wf_fin]. fold n.
  split.
  { unfold length_form, len7, ext. destruct (n <? 126) eqn:Q1; [ left; repeat split; lia | ]. right. destruct (n <=? 65535) eqn:Q2; [ left; repeat split; lia | right; repeat split; lia ]. }
  split; [ destruct (f_mask f); [ split; [ exact HK | split; [ reflexivity | apply masked_iff; [ lia | reflexivity ] ] ] | auto ] | ]. split; [ lia | ]. split; [ exact HO | ].
  unfold frame_bytes. fold n. cbn [app].
  assert (L1 : u8 (Z.lor (f_opcode f) 128) = 128 * 1 + 16 * 0 + f_opcode f).
  { rewrite Z.lor_comm. change 128 with (1 * 2^7) at 1. rewrite lor_add by lia. unfold u8. rewrite Z.mod_small; [ lia | change (2^8) with 256; change (2^7) with 128; lia ]. }
  rewrite L1. assert (LM : forall x, 0 <= x < 128 -> Z.lor (if f_mask f then 128 else 0) x = 128 * (match (if f_mask f then Some key else None) with Some _ => 1 | None => 0 end) + x).
  { intros x Hx. destruct (f_mask f); [ | cbn; lia ]. change 128 with (1 * 2^7) at 1. rewrite lor_add by lia. lia. }
  f_equal. unfold len7, ext. destruct (n <? 126) eqn:Q1; [ | destruct (n <=? 65535) eqn:Q2 ].
  - rewrite LM by lia. unfold u8. rewrite Z.mod_small by (destruct (f_mask f); change (2^8) with 256; lia). cbn [app]. f_equal. destruct (f_mask f); reflexivity.
  - rewrite LM by lia. unfold u16. rewrite Z.mod_small by lia. cbn [app]. f_equal. f_equal. destruct (f_mask f); reflexivity.
  - rewrite LM by lia. cbn [app]. f_equal. f_equal. destruct (f_mask f); reflexivity.
Qed.
