(** Whatever is received: the parser only aborts for a SUBSCRIBE of version 5. *)
From Coq Require Import Strings.String.
From Coq Require Import ZArith List Bool Lia.
From Verif Require Import Common Utf8Model TopicModel MqttModel MqttSpec MqttGoodProofs MqttReadProofs MqttConnProofs.
Import ListNotations.
Open Scope Z_scope.
Notation len := Datatypes.length.

Definition noab {A} (p : parser A) : Prop := forall buf pos, bytes buf -> 0 <= pos -> p buf pos <> PAbort.
Lemma noab_bind : forall A B (Q : A -> Prop) p (f : A -> parser B), goodq Q p -> noab p -> (forall a, Q a -> noab (f a)) -> noab (pbind p f).
Proof.
  intros A B Q p f G N F buf pos Bb Hp. unfold pbind. specialize (G buf [] pos Bb ltac:(constructor) Hp). specialize (N buf pos Bb Hp).
  destruct (p buf pos) as [a pos'| | |]; try discriminate; [|congruence]. destruct G as (G1 & G2 & _). apply F; auto. lia.
Qed.
Lemma noab_ret : forall A (a : A), noab (pret a).
Proof. intros A a buf pos _ _. discriminate. Qed.
Lemma noab_soft : forall A, noab (@psoft A).
Proof. intros A buf pos _ _. discriminate. Qed.
Lemma noab_check : forall A (c : bool) (p : parser A), noab p -> noab (pcheck c p).
Proof. intros A [|] p H; auto. apply noab_soft. Qed.
Lemma noab_take : forall n, noab (p_take n).
Proof. intros n buf pos _ _. unfold p_take. destruct (zlen buf <? pos + n); discriminate. Qed.
Lemma noab_u8 : noab p_u8.
Proof. eapply noab_bind; [apply (good_take 1); lia|apply noab_take|]. intros. apply noab_ret. Qed.
Lemma noab_u16 : noab p_u16.
Proof. eapply noab_bind; [apply (good_take 2); lia|apply noab_take|]. intros. apply noab_ret. Qed.
Lemma noab_pid : noab p_pid.
Proof. eapply noab_bind; [apply good_u16|apply noab_u16|]. intros. apply noab_check, noab_ret. Qed.
Lemma noab_vint_loop : forall k r e, noab (vint_loop k r e).
Proof.
  induction k as [|k IH]; intros r e buf pos B H; cbn [vint_loop]; [discriminate|].
  pose proof (noab_take 1 buf pos B H). pose proof (good_take 1 ltac:(lia) buf [] pos B ltac:(constructor) H) as G.
  destruct (p_take 1 buf pos); try discriminate; [|congruence]. destruct G as [G _]. cbv zeta.
  destruct (_ =? 0); [discriminate|]. apply IH; auto. lia.
Qed.
Lemma noab_vint : noab p_vint.
Proof. apply noab_vint_loop. Qed.
Lemma noab_blob : forall tgt, noab (p_blob tgt).
Proof.
  intros. eapply noab_bind; [apply good_u16|apply noab_u16|]. intros n _ buf pos B H.
  destruct (tgt <? pos + n); [discriminate|]. apply noab_take; auto.
Qed.
Lemma noab_utf8 : forall tgt mn, noab (p_utf8 tgt mn).
Proof. intros. eapply noab_bind; [apply good_blob|apply noab_blob|]. intros. apply noab_check, noab_ret. Qed.
Lemma noab_prop_val : forall tgt t, noab (p_prop_val tgt t).
Proof.
  intros tgt []; cbn [p_prop_val]; unfold p_prop_int, p_prop_vint, p_prop_utf8, p_prop_2utf8;
    try (eapply noab_bind; [apply good_take; lia|apply noab_take|intros; apply noab_ret]).
  - eapply noab_bind; [apply good_vint|apply noab_vint|intros; apply noab_ret].
  - intros buf pos B H. unfold p_prop_blob. pose proof (noab_blob tgt buf pos B H). destruct (p_blob tgt buf pos); congruence.
  - eapply noab_bind; [apply good_utf8|apply noab_utf8|intros; apply noab_ret].
  - eapply noab_bind; [apply good_utf8|apply noab_utf8|]. intros.
    eapply noab_bind; [apply good_utf8|apply noab_utf8|intros; apply noab_ret].
Qed.
Lemma noab_prop : forall tgt, noab (p_prop tgt).
Proof.
  intros. eapply noab_bind; [apply good_u8|apply noab_u8|]. intros id _. destruct (get_definition id); [|apply noab_soft].
  eapply noab_bind; [apply good_prop_val|apply noab_prop_val|]. intros. apply noab_ret.
Qed.
Lemma noab_prop_loop : forall fuel tgt e acc buf pos, bytes buf -> 0 <= pos -> (Z.to_nat (e - pos) <= fuel)%nat ->
  p_prop_loop fuel tgt e acc buf pos <> PAbort.
Proof.
  induction fuel as [|fuel IH]; intros tgt e acc buf pos B H HF; cbn [p_prop_loop]; destruct (pos <? e) eqn:E; try discriminate; try lia.
  pose proof (noab_prop tgt buf pos B H). destruct (p_prop tgt buf pos) as [p pos'| | |] eqn:EP; try discriminate; [|congruence].
  apply p_prop_adv in EP; auto. apply IH; auto; lia.
Qed.
Lemma noab_props_v5 : forall tgt ver, noab (p_props_v5 tgt ver).
Proof.
  intros. unfold p_props_v5. destruct (5 <=? ver); [|apply noab_ret].
  eapply noab_bind; [apply good_vint|apply noab_vint|]. cbv beta. intros n Hn buf pos B H. apply noab_prop_loop; auto. lia.
Qed.

Ltac noab_tac :=
  repeat first
    [ apply noab_ret | apply noab_soft | apply noab_check
    | match goal with
      | |- noab (pbind p_u8 _) => eapply noab_bind; [apply good_u8|apply noab_u8|intros ? ?]
      | |- noab (pbind p_u16 _) => eapply noab_bind; [apply good_u16|apply noab_u16|intros ? ?]
      | |- noab (pbind p_pid _) => eapply noab_bind; [apply good_pid|apply noab_pid|intros ? ?]
      | |- noab (pbind (p_props_v5 _ _) _) => eapply noab_bind; [apply good_props_v5|apply noab_props_v5|intros ? ?]
      | |- noab (pbind (p_utf8 _ _) _) => eapply noab_bind; [apply good_utf8|apply noab_utf8|intros ? ?]
      | |- noab (pbind (p_blob _) _) => eapply noab_bind; [apply good_blob|apply noab_blob|intros ? ?]
      | |- noab (pbind (p_take ?n) _) => eapply noab_bind; [apply good_take; cbv beta in *; lia|apply noab_take|intros ? ?]
      | |- noab (match ?x with _ => _ end) => destruct x
      end ].
Lemma noab_hdr : forall tgt ver type flags, noab (p_hdr tgt ver type flags).
Proof.
  intros. unfold p_hdr. destruct (type =? 1); [unfold p_connect_hdr; noab_tac|].
  destruct (type =? 15); [apply noab_soft|]. destruct ver as [ver|]; [|intros buf pos _ _; discriminate].
  destruct (type =? 2); [unfold p_connack_hdr; noab_tac|].
  destruct (type =? 3).
  { unfold p_publish_hdr. noab_tac. eapply (noab_bind _ _ (fun _ => True)); [| |intros; noab_tac];
      destruct (0 <? publish_qos flags); [eapply goodq_good; apply good_pid|apply good_ret|apply noab_pid|apply noab_ret]. }
  destruct ((4 <=? type) && (type <=? 7)).
  { unfold p_ack_hdr. eapply noab_bind; [apply good_pid|apply noab_pid|]. intros pid _ buf pos B H.
    destruct (tgt <? pos + 1); [discriminate|]. destruct (5 <=? ver); [|discriminate].
    revert buf pos B H. change (noab (pbind p_u8 (fun code =>
       match reason_get ver code with
       | None => psoft
       | Some r =>
           pcheck (if (type =? 4) || (type =? 5) then r_puback_pubrec r else r_pubrel_pubcomp r) (
           pbind (p_props_v5 tgt ver) (fun props buf pos =>
           if tgt <? pos + 1 then POk (HAck pid (r_v5 r) props) pos else PSoft))
       end))).
    noab_tac. intros bb pp _ _. destruct (tgt <? pp + 1); discriminate. }
  destruct ((type =? 8) || (type =? 10)); [unfold p_sub_hdr; noab_tac|].
  destruct ((type =? 9) || (type =? 11)); [unfold p_suback_hdr; noab_tac|].
  destruct ((type =? 12) || (type =? 13)).
  { intros buf pos _ _. unfold p_ping_hdr. destruct (tgt <? pos + 1); discriminate. }
  intros buf pos B H. unfold p_disconnect_hdr. destruct (ver <? 5); destruct (tgt - pos =? 0); try discriminate.
  assert (G : forall vpos, noab (pbind p_u8 (fun code => if tgt - vpos =? 1 then pret (HDisconnect code [])
       else pbind (p_props_v5 tgt ver) (fun props => pret (HDisconnect code props))))) by (intros; noab_tac).
  apply G; auto.
Qed.
Lemma noab_connect_payload : forall tgt ver cf keep props, noab (p_connect_payload tgt ver cf keep props).
Proof.
  intros. unfold p_connect_payload. eapply noab_bind; [apply good_utf8|apply noab_utf8|]. intros cid _.
  eapply (noab_bind _ _ (fun _ => True)).
  { destruct (c_will cf); [|apply good_ret]. good_tac; apply goodq_ret; auto. }
  { destruct (c_will cf); noab_tac. }
  intros w _.
  assert (O : good (fun buf pos => if tgt <? pos + 1 then PSoft
                          else pbind (p_utf8 tgt 1) (fun s => pret (Some (cstr s))) buf pos)).
  { apply (goodq_pos _ _ (fun pos => tgt <? pos + 1) psoft); [apply goodq_soft|]. good_tac; apply goodq_ret; auto. }
  assert (O2 : noab (fun buf pos => if tgt <? pos + 1 then PSoft
                          else pbind (p_utf8 tgt 1) (fun s => pret (Some (cstr s))) buf pos)).
  { intros buf pos B H. destruct (tgt <? pos + 1); [discriminate|]. revert buf pos B H.
    change (noab (pbind (p_utf8 tgt 1) (fun s => pret (Some (cstr s))))). noab_tac. }
  eapply (noab_bind _ _ (fun _ => True)).
  { destruct (c_user cf); [exact O|apply good_ret]. }
  { destruct (c_user cf); [exact O2|apply noab_ret]. }
  intros user _. eapply (noab_bind _ _ (fun _ => True)).
  { destruct (c_pass cf); [exact O|apply good_ret]. }
  { destruct (c_pass cf); [exact O2|apply noab_ret]. }
  intros pass _ buf pos B H. destruct (tgt <? pos + 1); discriminate.
Qed.

(** A topic filter with its options: the only case *)
Lemma p_sub_abort : forall tgt ver opts buf pos, bytes buf -> 0 <= pos -> p_sub tgt ver opts buf pos = PAbort -> 5 <= ver /\ opts = true.
Proof.
  intros tgt ver opts buf pos B H. unfold p_sub, pbind at 1.
  pose proof (noab_utf8 tgt 1 buf pos B H) as N. pose proof (good_utf8 tgt 1 buf [] pos B ltac:(constructor) H) as G.
  destruct (p_utf8 tgt 1 buf pos) as [f p1| | |]; try discriminate; [|congruence]. destruct G as (G1 & (_ & G2) & _).
  unfold pcheck at 1. destruct (zlen (cstr f) =? zlen f); [|discriminate].
  unfold pbind. destruct opts.
  - pose proof (noab_u8 buf p1 B ltac:(lia)) as N2. destruct (p_u8 buf p1) as [o p2| | |]; try discriminate; [|congruence].
    cbv zeta. unfold pcheck. destruct (two_bits o 0 <=? 2); [|discriminate]. destruct (two_bits o 6 =? 0); [|discriminate].
    destruct (5 <=? ver) eqn:E5; [intros _; split; auto; lia|].
    destruct ((two_bits o 4 =? 0) && (bit o 3 =? 0) && (bit o 2 =? 0)) eqn:E; [|discriminate].
    destruct (filter_ok f) eqn:EF; [|discriminate].
    unfold sub_new_bug. cbn [sb_nl sb_rap sb_retain sb_filter]. rewrite EF.
    destruct f; [change (zlen (@nil Z)) with 0 in G2; lia|].
    replace ((0 <? bit o 2) || (0 <? bit o 3) || (2 <? two_bits o 4) || negb true || false) with false by lia. discriminate.
  - unfold pret at 1. cbv zeta. unfold pcheck.
    change (two_bits 0 0) with 0. change (two_bits 0 6) with 0. change (two_bits 0 4) with 0. change (bit 0 3) with 0. change (bit 0 2) with 0.
    change (0 <=? 2) with true. change (0 =? 0) with true. cbn [andb]. cbv iota.
    replace (if 5 <=? ver then true else true) with true by (destruct (5 <=? ver); reflexivity).
    destruct (filter_ok f) eqn:EF; [|discriminate].
    unfold sub_new_bug. cbn [sb_nl sb_rap sb_retain sb_filter]. rewrite EF.
    destruct f; [change (zlen (@nil Z)) with 0 in G2; lia|]. discriminate.
Qed.
Lemma sub_loop_abort : forall fuel tgt ver opts acc buf pos r, bytes buf -> 0 <= pos -> (Z.to_nat (tgt - pos) <= fuel)%nat ->
  p_sub_loop fuel tgt ver opts acc buf pos = (PAbort, r) -> 5 <= ver /\ opts = true.
Proof.
  induction fuel as [|fuel IH]; intros tgt ver opts acc buf pos r B H HF; cbn [p_sub_loop]; destruct (tgt <? pos + 1) eqn:E; try discriminate; try lia.
  destruct (p_sub tgt ver opts buf pos) as [s p2| | |] eqn:ES; try discriminate.
  - apply p_sub_adv in ES; auto. destruct (add_unique s acc); [|discriminate]. apply IH; auto; lia.
  - intros _. eapply p_sub_abort; eauto.
Qed.
Lemma payload_abort : forall tgt v type h sb buf pos r, bytes buf -> 0 <= pos ->
  p_payload tgt v type h sb buf pos = (PAbort, r) -> 5 <= v /\ type = 8.
Proof.
  intros tgt v type h sb buf pos r B H. destruct h as [v' cf keep props|a rr props|topic pid props|pid rr props|pid props|pid props| |rr props];
    cbn [p_payload]; try (destruct (tgt <? pos + 1); discriminate).
  - intros E. exfalso. eapply noab_connect_payload; eauto. injection E as E _. exact E.
  - unfold p_publish_payload. destruct (tgt - pos =? 0); [discriminate|]. destruct (zlen buf <? tgt); discriminate.
  - destruct (tgt <? pos + 1) eqn:E; [discriminate|].
    destruct (p_sub_loop _ tgt v (type =? 8) sb buf pos) as [x ck] eqn:EL.
    destruct x; try discriminate. intros _. apply sub_loop_abort in EL; auto. lia.
  - unfold p_suback_payload. destruct ((type =? 11) && (v <? 5)); [destruct (tgt <? pos + 1); discriminate|].
    destruct (tgt - pos =? 0); [discriminate|]. destruct (zlen buf <? tgt); [discriminate|].
    cbv zeta. destruct (forallb _ _); discriminate.
Qed.
Lemma payload_ck : forall tgt v type h sb buf pos r ck sb', bytes buf -> 0 <= pos ->
  p_payload tgt v type h sb buf pos = (r, (ck, sb')) -> pos <= ck.
Proof.
  intros tgt v type h sb buf pos r ck sb' B H. destruct h as [v' cf keep props|a rr props|topic pid props|pid rr props|pid props|pid props| |rr props];
    cbn [p_payload]; try (intros E; injection E as _ <- _; lia).
  destruct (tgt <? pos + 1) eqn:E; [intros X; injection X as _ <- _; lia|].
  destruct (p_sub_loop _ tgt v (type =? 8) sb buf pos) as [x [c1 c2]] eqn:EL.
  intros X. injection X as _ <- _. eapply sub_loop_ck; eauto.
Qed.

(** Sessions in which positions make sense and the fixed header is that of what was received *)
Lemma vint_field : forall k r e pre t n pos, bytes (pre ++ t) -> 0 <= r < e -> e * 128 ^ Z.of_nat k <= 268435456 ->
  vint_loop k r e (pre ++ t) (zlen pre) = POk n pos ->
  exists l d m, t = l ++ d /\ length_field l m /\ zlen l <= Z.of_nat k /\ pos = zlen pre + zlen l /\ n = r + m * e.
Proof.
  induction k as [|k IH]; intros r e pre t n pos B R E H; [discriminate|].
  destruct t as [|c t].
  { cbn [vint_loop] in H. unfold p_take in H. rewrite app_nil_r in H. replace (zlen pre <? zlen pre + 1) with true in H by lia. discriminate. }
  assert (Bc : byte c) by (apply bytes_app in B as [_ B]; apply bytes_cons in B; tauto).
  assert (P1 : 1 <= 128 ^ Z.of_nat k) by (pose proof (Z.pow_pos_nonneg 128 (Z.of_nat k)); lia).
  rewrite Nat2Z.inj_succ, Z.pow_succ_r in E by lia.
  cbn [vint_loop] in H. rewrite take1 in H. cbv zeta in H. rewrite be_dec1 in H.
  change 127 with (2 ^ 7 - 1) in H. rewrite land_ones_mod in H by lia. change (2 ^ 7) with 128 in H.
  assert (E2 : e * 128 <= 268435456) by nia.
  assert (U : u32 (r + c mod 128 * e) = r + c mod 128 * e).
  { unfold u32. apply Z.mod_small. pose proof (Z.mod_pos_bound c 128 ltac:(lia)). split; [nia|].
    assert (c mod 128 * e <= 127 * e) by nia. lia. }
  rewrite U in H. assert (U2 : u32 (e * 128) = e * 128) by (unfold u32; apply Z.mod_small; lia). rewrite U2 in H.
  assert (T : (Z.land c 128 =? 0) = (c <? 128)).
  { pose proof (sweep_byte (fun c => Bool.eqb (Z.land c 128 =? 0) (c <? 128)) ltac:(vm_compute; reflexivity) c Bc) as S. apply eqb_prop in S. exact S. }
  rewrite T in H. unfold byte in Bc. destruct (c <? 128) eqn:C.
  - injection H as <- <-. exists [c], t, c. split; auto. split; [constructor; lia|]. split; [rewrite zlen_cons, zlen_nil; lia|].
    split; [rewrite zlen_cons, zlen_nil; lia|]. rewrite Z.mod_small by lia. lia.
  - replace (pre ++ c :: t) with ((pre ++ [c]) ++ t) in H by (rewrite <- app_assoc; reflexivity).
    replace (zlen pre + 1) with (zlen (pre ++ [c])) in H by (rewrite zlen_app, zlen_cons, zlen_nil; lia).
    assert (M : c mod 128 = c - 128) by (symmetry; apply Z.mod_unique with 1; lia).
    apply IH in H; [|rewrite <- app_assoc; exact B|rewrite M; nia|nia].
    destruct H as (l & d & m & H1 & H2 & H3 & H4 & H5). exists (c :: l), d, (c - 128 + 128 * m). rewrite H1.
    split; [reflexivity|]. split; [constructor; auto; lia|]. rewrite !zlen_app, !zlen_cons, !zlen_nil in *. split; [lia|]. split; [lia|].
    rewrite H5, M. ring.
Qed.
Definition fx_ok (fx : fixed) (buf : list Z) : Prop :=
  0 <= fx_vpos fx /\ exists c l d n, buf = c :: l ++ d /\ length_field l n /\ zlen l <= 4 /\ 0 <= n /\ fx_target fx = 1 + zlen l + n /\
  fx_type fx = Z.shiftr c 4 /\ fx_flags fx = Z.land c 15 /\
  match reserved_flags (fx_type fx) with Some f => f = Z.land c 15 | None => True end.
Definition done_ok (s : psess) (fx : fixed) : Prop :=
  match ps_done s with Some p => pk_type p = fx_type fx /\ pk_flags p = fx_flags fx | None => True end.
Definition sess_ok (s : psess) (buf : list Z) : Prop :=
  0 <= ps_check s /\ match ps_fixed s with Some fx => fx_ok fx buf /\ done_ok s fx | None => s = psess_init end.
Definition abort_cond (ver : option Z) (buf : list Z) : Prop :=
  (exists v, ver = Some v /\ 5 <= v) /\ hd_error buf = Some 130.

Lemma fx_ok_app : forall fx buf m, fx_ok fx buf -> fx_ok fx (buf ++ m).
Proof.
  intros fx buf m (A & c & l & d & n & -> & B). split; auto. exists c, l, (d ++ m), n. split; auto. cbn [app]. rewrite <- app_assoc. reflexivity.
Qed.
Lemma fx_ok_cut : forall fx buf, fx_ok fx buf -> fx_ok fx (firstn (Z.to_nat (fx_target fx)) buf).
Proof.
  intros fx buf (A & c & l & d & n & -> & B1 & B2 & B3 & B4 & B). split; auto. exists c, l, (firstn (Z.to_nat n) d), n. split; auto.
  rewrite B4. rewrite app_comm_cons, firstn_app. replace (Z.to_nat (1 + zlen l + n) - len (c :: l))%nat with (Z.to_nat n) by (unfold zlen; cbn [len]; lia).
  rewrite firstn_all2 by (unfold zlen; cbn [len]; lia). reflexivity.
Qed.
Lemma fx_ok_hd : forall fx buf, fx_ok fx buf -> exists c, hd_error buf = Some c /\ fx_type fx = Z.shiftr c 4 /\
  match reserved_flags (fx_type fx) with Some f => f = Z.land c 15 | None => True end.
Proof. intros fx buf (A & c & l & d & n & -> & B). exists c. split; [reflexivity|]. tauto. Qed.
Lemma fx_ok_target : forall fx buf, fx_ok fx buf -> 1 <= fx_target fx.
Proof. intros fx buf (A & c & l & d & n & -> & B1 & B2 & B3 & B4 & _). pose proof (zlen_nonneg _ l). lia. Qed.
Lemma sess_ok_cut : forall s buf fx, sess_ok s buf -> ps_fixed s = Some fx -> sess_ok s (firstn (Z.to_nat (fx_target fx)) buf).
Proof. intros s buf fx (H1 & H2) E. split; auto. rewrite E in *. destruct H2. split; auto. apply fx_ok_cut; auto. Qed.
Lemma sess_ok_app : forall s buf m, sess_ok s buf -> sess_ok s (buf ++ m).
Proof. intros s buf m (H1 & H2). split; auto. destruct (ps_fixed s); auto. destruct H2. split; auto. apply fx_ok_app; auto. Qed.
Lemma octet130 : forall c, byte c -> Z.shiftr c 4 = 8 -> Z.land c 15 = 2 -> c = 130.
Proof.
  intros c B H1 H2. rewrite Z.shiftr_div_pow2 in H1 by lia. change 15 with (2 ^ 4 - 1) in H2. rewrite land_ones_mod in H2 by lia.
  change (2 ^ 4) with 16 in *. lia.
Qed.
Lemma parse_payload_safe : forall ver fx att h pp ck sb buf, bytes buf -> fx_ok fx buf -> 0 <= ck ->
  match parse_payload ver fx att h pp ck sb buf with
  | RSess s => sess_ok s buf /\ ps_fixed s = Some fx
  | RErr => True
  | RAbort => match h with HConnect _ _ _ _ => False | _ => abort_cond ver buf end
  end.
Proof.
  intros ver fx att h pp ck sb buf B F H. unfold parse_payload. destruct (fx_target fx <? pp); auto. cbv zeta.
  set (v := match h with HConnect v _ _ _ => v | _ => _ end).
  destruct (p_payload (fx_target fx) v (fx_type fx) h sb buf ck) as [r [c1 c2]] eqn:E.
  destruct r; auto.
  - apply payload_ck in E; auto. split; [|reflexivity]. split; cbn [ps_check ps_fixed]; [lia|]. split; [auto|]. split; reflexivity.
  - apply payload_ck in E; auto. split; [|reflexivity]. split; cbn [ps_check ps_fixed]; [lia|]. split; [auto|]. exact I.
  - assert (X : match h with HConnect _ _ _ _ => False | _ => True end).
    { destruct h; auto. cbn [p_payload] in E. injection E as E _ _. eapply noab_connect_payload; eauto. }
    apply payload_abort in E; auto. destruct E as [E1 E2].
    assert (Y : abort_cond ver buf).
    { split.
      - destruct ver as [v'|]; [exists v'; split; auto|]; subst v; destruct h; auto; try contradiction; lia.
      - apply fx_ok_hd in F as (c & F1 & F2 & F3). rewrite F1. f_equal. rewrite E2 in F2, F3. cbn in F3.
        apply octet130; auto. destruct buf; [discriminate|]. injection F1 as ->. apply bytes_cons in B. tauto. }
    destruct h; auto.
Qed.
Lemma parse_rest_safe : forall ver fx s buf, bytes buf -> fx_ok fx buf -> 0 <= ps_check s ->
  match parse_rest ver fx s buf with
  | RSess s' => sess_ok s' buf /\ ps_fixed s' = Some fx
  | RErr => True
  | RAbort => abort_cond ver buf
  end.
Proof.
  intros ver fx s buf B F H. unfold parse_rest. destruct (ps_hdr s) as [[h pp]|].
  - pose proof (parse_payload_safe ver fx (ps_attempts s) h pp (ps_check s) (ps_subs s) buf B F H) as P.
    destruct (parse_payload _ _ _ _ _ _ _ _); auto. destruct h; auto; contradiction.
  - cbv zeta. destruct (10 <? ps_attempts s + 1); auto.
    pose proof (noab_hdr (fx_target fx) ver (fx_type fx) (fx_flags fx) buf (fx_vpos fx) B (proj1 F)) as N.
    pose proof (good_hdr (fx_target fx) ver (fx_type fx) (fx_flags fx) buf [] (fx_vpos fx) B ltac:(constructor) (proj1 F)) as G.
    destruct (p_hdr _ _ _ _ buf _) as [h pp| | |]; auto; [| |congruence].
    + destruct F as (F0 & F1). destruct G as (G & _).
      pose proof (parse_payload_safe ver fx (ps_attempts s + 1) h pp pp [] buf B ltac:(split; auto) ltac:(lia)) as P.
      destruct (parse_payload _ _ _ _ _ _ _ _); auto. destruct h; auto; contradiction.
    + split; [|reflexivity]. split; cbn [ps_check ps_fixed]; [lia|]. split; [auto|]. exact I.
Qed.
Lemma p_fixed_ok : forall buf fx, bytes buf -> p_fixed buf = Some (Some fx) -> fx_ok fx buf.
Proof.
  intros [|c buf] fx B; [discriminate|]. unfold p_fixed. cbv zeta.
  destruct (Z.shiftr c 4 =? 0); [discriminate|].
  destruct (match reserved_flags _ with Some f => _ | None => _ end) eqn:ER; [discriminate|].
  destruct (p_vint (c :: buf) 1) as [n pos| | |] eqn:EV; try discriminate. intros E. injection E as <-.
  pose proof (good_vint (c :: buf) [] 1 B ltac:(constructor) ltac:(lia)) as G. rewrite EV in G. destruct G as (G1 & G2 & _). cbv beta in G2.
  apply (vint_field 4 0 1 [c] buf n pos B ltac:(lia) ltac:(cbn; lia)) in EV. destruct EV as (l & d & m & H1 & H2 & H3 & H4 & H5).
  split; [cbn [fx_vpos]; lia|]. exists c, l, d, n. rewrite H1. split; [reflexivity|]. split; [replace n with m by lia; auto|]. split; [lia|].
  split; [lia|]. cbn [fx_type fx_flags fx_target]. split; [rewrite H4, zlen_cons, zlen_nil; lia|]. split; [auto|]. split; [auto|].
  destruct (reserved_flags (Z.shiftr c 4)); auto. lia.
Qed.
Lemma parse_safe : forall ver s buf, bytes buf -> sess_ok s buf ->
  match packet_parse ver s buf with
  | RSess s' => sess_ok s' buf
  | RErr => True
  | RAbort => abort_cond ver buf
  end.
Proof.
  intros ver s buf B S. unfold packet_parse. destruct (zlen buf <? 2); auto.
  pose proof S as (S1 & S2). destruct (ps_fixed s) as [fx|].
  - pose proof (parse_rest_safe ver fx s buf B (proj1 S2) S1) as P. destruct (parse_rest _ _ _ _); auto. tauto.
  - destruct (p_fixed buf) as [[fx|]|] eqn:E; auto.
    pose proof (parse_rest_safe ver fx s buf B (p_fixed_ok _ _ B E) S1) as P. destruct (parse_rest _ _ _ _); auto. tauto.
Qed.

(** The connection *)
Fixpoint ver_of (ver : option Z) (ps : list packet) : option Z :=
  match ps with [] => ver | p :: r => ver_of (next_ver ver p) r end.
Definition outcome (ver : option Z) (buf : list Z) (r : option conn * list mevent) : Prop :=
  exists ps ws, Forall2 frame ps ws /\ (
    (exists c, r = (Some c, map EPacket ps) /\ cn_ver c = ver_of ver ps /\ bytes (cn_buf c) /\ sess_ok (cn_sess c) (cn_buf c) /\
       buf = concat ws ++ cn_buf c) \/
    exists rest, buf = concat ws ++ rest /\
      (r = (None, map EPacket ps ++ [EClose]) \/ (r = (None, map EPacket ps ++ [EAbort]) /\ abort_cond (ver_of ver ps) rest))).
Lemma sess_init_ok : forall buf, sess_ok psess_init buf.
Proof. intros. split; [cbn; lia|reflexivity]. Qed.
Lemma zsub_skip : forall (buf : list Z) n, 0 <= n <= zlen buf -> zsub buf n (zlen buf - n) = skipn (Z.to_nat n) buf.
Proof.
  intros buf n H. unfold zsub. apply firstn_all2. rewrite skipn_length. unfold zlen in *. lia.
Qed.
Lemma zsub_first : forall (buf : list Z) n, zsub buf 0 n = firstn (Z.to_nat n) buf.
Proof. reflexivity. Qed.
Lemma outcome_shift : forall ver a b r p, frame p a -> outcome (next_ver ver p) b r ->
  outcome ver (a ++ b) (let '(c, ev) := r in (c, EPacket p :: ev)).
Proof.
  intros ver a b r p F (ps & ws & FF & [(c & -> & H1 & H2 & H3 & H4)|(rest & H0 & [->|(-> & H2)])]); exists (p :: ps), (a :: ws);
    (split; [constructor; auto|]); cbn [map app ver_of concat].
  - left. exists c. repeat (split; auto). rewrite H4, app_assoc. reflexivity.
  - right. exists rest. split; [rewrite H0, app_assoc; reflexivity|]. left. reflexivity.
  - right. exists rest. split; [rewrite H0, app_assoc; reflexivity|]. right. auto.
Qed.
Lemma fx_frame : forall fx p buf, bytes buf -> fx_ok fx buf -> pk_type p = fx_type fx -> pk_flags p = fx_flags fx -> fx_target fx <= zlen buf ->
  frame p (firstn (Z.to_nat (fx_target fx)) buf).
Proof.
  intros fx p buf B F T G L. apply fx_ok_cut in F as (_ & c & l & d & n & E & F1 & F2 & F3 & F4 & F5 & F6 & _).
  assert (LL : zlen (firstn (Z.to_nat (fx_target fx)) buf) = fx_target fx) by (unfold zlen in *; rewrite firstn_length; lia).
  rewrite E in LL |- *. rewrite zlen_cons, zlen_app in LL.
  exists c, l, d. split; [reflexivity|]. split; [replace (zlen d) with n by lia; auto|]. split; [auto|].
  rewrite T, G, F5, F6. rewrite Z.shiftr_div_pow2 by lia. change 15 with (2 ^ 4 - 1). rewrite land_ones_mod by lia. auto.
Qed.
Lemma run_safe : forall fuel ver s buf, bytes buf -> sess_ok s buf -> (len buf < fuel)%nat -> outcome ver buf (conn_run fuel ver s buf).
Proof.
  induction fuel as [|fuel IH]; intros ver s buf B S HF; [lia|]. rewrite conn_run_eq.
  assert (STAY : forall s', sess_ok s' buf -> outcome ver buf (Some (mk_conn ver s' buf), [])).
  { intros s' H. exists [], []. split; [constructor|]. left. exists (mk_conn ver s' buf). cbn [map ver_of cn_ver cn_buf cn_sess concat app]. repeat (split; auto). }
  assert (CLOSE : outcome ver buf (None, [EClose])) by (exists [], []; split; [constructor|]; right; exists buf; split; [reflexivity|]; left; reflexivity).
  assert (COM : forall s' fx, sess_ok s' buf -> ps_fixed s' = Some fx -> outcome ver buf (complete fuel ver buf s' fx)).
  { intros s' fx H1 H2. unfold complete. destruct (zlen buf <? fx_target fx) eqn:E; [apply STAY; auto|]. cbv zeta.
    pose proof H1 as (_ & F). rewrite H2 in F. destruct F as (F & D). pose proof (fx_ok_target _ _ F) as F1.
    rewrite zsub_skip by lia. rewrite zsub_first.
    assert (FIN : forall p, pk_type p = fx_type fx -> pk_flags p = fx_flags fx -> outcome ver buf (finish fuel ver (skipn (Z.to_nat (fx_target fx)) buf) p)).
    { intros p T1 T2. pose proof (fx_frame fx p buf B F T1 T2 ltac:(lia)) as FR. rewrite <- (firstn_skipn (Z.to_nat (fx_target fx)) buf) at 1.
      assert (BS : bytes (skipn (Z.to_nat (fx_target fx)) buf)).
      { rewrite <- (firstn_skipn (Z.to_nat (fx_target fx)) buf) in B. apply bytes_app in B. tauto. }
      assert (LS : (len (skipn (Z.to_nat (fx_target fx)) buf) < fuel)%nat).
      { rewrite skipn_length. unfold zlen in E. destruct buf; [cbn in E; lia|]. cbn [len] in *. lia. }
      unfold finish. destruct (skipn (Z.to_nat (fx_target fx)) buf) as [|x over].
      - exists [p], [firstn (Z.to_nat (fx_target fx)) buf]. split; [constructor; auto|]. left. eexists. split; [reflexivity|].
        cbn [cn_ver cn_buf cn_sess ver_of concat]. split; [reflexivity|]. split; [constructor|].
        split; [apply sess_init_ok|]. rewrite !app_nil_r. reflexivity.
      - apply outcome_shift; auto. apply IH; auto. apply sess_init_ok. }
    unfold done_ok in D. destruct (ps_done s'); [apply FIN; tauto|].
    assert (BC : bytes (firstn (Z.to_nat (fx_target fx)) buf)).
    { rewrite <- (firstn_skipn (Z.to_nat (fx_target fx)) buf) in B. apply bytes_app in B. tauto. }
    assert (HC : hd_error buf = hd_error (firstn (Z.to_nat (fx_target fx)) buf)).
    { apply fx_ok_hd in F as (c & F2 & _). destruct buf; [discriminate|]. replace (Z.to_nat (fx_target fx)) with (Datatypes.S (Z.to_nat (fx_target fx - 1))) by lia. reflexivity. }
    pose proof (parse_safe ver s' _ BC (sess_ok_cut _ _ _ H1 H2)) as P.
    destruct (packet_parse ver s' _) as [s2| |] eqn:EP; auto.
    - destruct (ps_done s2) eqn:ED; auto. destruct P as [P1 P2].
      assert (E2 : ps_fixed s2 = Some fx).
      { revert EP. unfold packet_parse. rewrite H2. destruct (zlen _ <? 2); [intros X; injection X as <-; exact H2|].
        pose proof (parse_rest_safe ver fx s' _ BC (fx_ok_cut _ _ F) (proj1 H1)) as PR. intros X. rewrite X in PR. tauto. }
      rewrite E2 in P2. destruct P2 as [_ P2]. unfold done_ok in P2. rewrite ED in P2. apply FIN; tauto.
    - exists [], []. split; [constructor|]. right. exists buf. split; [reflexivity|]. right. split; [reflexivity|]. cbn [ver_of].
      destruct P as [P1 P2]. split; auto. rewrite HC. auto. }
  destruct (ps_fixed s) as [fx|] eqn:EF; [apply COM; auto|].
  pose proof (parse_safe ver s buf B S) as P. destruct (packet_parse ver s buf) as [s2| |]; auto.
  - destruct (ps_fixed s2) as [fx|] eqn:E2; [apply COM; auto|apply STAY; auto].
  - exists [], []. split; [constructor|]. right. exists buf. split; [reflexivity|]. right. auto.
Qed.
Lemma ver_of_app : forall l1 v l2, ver_of v (l1 ++ l2) = ver_of (ver_of v l1) l2.
Proof. induction l1; intros; cbn [app ver_of]; auto. Qed.
Lemma abort_app : forall v a b, abort_cond v a -> abort_cond v (a ++ b).
Proof. intros v a b [H1 H2]. split; auto. destruct a; [discriminate|]. exact H2. Qed.
Lemma recv_safe : forall chunks ver s buf, bytes buf -> bytes (concat chunks) -> sess_ok s buf ->
  outcome ver (buf ++ concat chunks) (conn_recv_all (mk_conn ver s buf) chunks).
Proof.
  induction chunks as [|k chunks IH]; intros ver s buf B BC S; cbn [conn_recv_all concat].
  - exists [], []. split; [constructor|]. left. eexists. split; [reflexivity|]. cbn [cn_ver cn_buf cn_sess concat app ver_of]. rewrite app_nil_r. auto.
  - cbn [concat] in BC. apply bytes_app in BC as [B1 B2]. unfold conn_recv. cbn [cn_buf cn_ver cn_sess].
    destruct (run_safe (Datatypes.S (len (buf ++ k))) ver s (buf ++ k)) as (ps & ws & F & O); [apply bytes_app; auto|apply sess_ok_app; auto|lia|].
    destruct O as [([v' s' b'] & -> & H1 & H2 & H3 & H4)|(rest & H0 & [->|(-> & H2)])].
    + cbn [cn_buf cn_ver cn_sess] in *. destruct (IH v' s' b' H2 B2 H3) as (qs & vs & FQ & Q).
      exists (ps ++ qs), (ws ++ vs). split; [apply Forall2_app; auto|]. rewrite map_app, ver_of_app, <- H1, concat_app.
      rewrite (app_assoc buf), H4, <- app_assoc.
      destruct Q as [(c & -> & Q1 & Q2 & Q3 & Q4)|(rest & Q0 & [->|(-> & Q1)])].
      * left. exists c. repeat (split; auto). rewrite Q4, app_assoc. reflexivity.
      * right. exists rest. split; [rewrite Q0, app_assoc; reflexivity|]. left. rewrite app_assoc. reflexivity.
      * right. exists rest. split; [rewrite Q0, app_assoc; reflexivity|]. right. rewrite app_assoc. auto.
    + exists ps, ws. split; auto. right. exists (rest ++ concat chunks). split; [rewrite !app_assoc, H0; reflexivity|]. left. reflexivity.
    + exists ps, ws. split; auto. right. exists (rest ++ concat chunks). split; [rewrite !app_assoc, H0; reflexivity|]. right. split; auto. apply abort_app; auto.
Qed.
