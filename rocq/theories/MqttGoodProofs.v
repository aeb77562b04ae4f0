(** The parsers give the same answer when more octets follow, move forward and do not abort. *)
From Coq Require Import Strings.String.
From Coq Require Import ZArith List Bool Lia.
From Verif Require Import Common Utf8Model TopicModel MqttModel.
Import ListNotations.
Open Scope Z_scope.
Notation len := Datatypes.length.

Lemma zsub_app : forall buf m pos n, 0 <= pos -> 0 <= n -> pos + n <= zlen buf ->
  zsub (buf ++ m) pos n = zsub buf pos n.
Proof.
  intros buf m pos n Hp Hn Hl. unfold zsub, zlen in *.
  rewrite skipn_app. rewrite firstn_app.
  replace (Z.to_nat n - len (skipn (Z.to_nat pos) buf))%nat with 0%nat.
  - rewrite firstn_O, app_nil_r. reflexivity.
  - rewrite skipn_length. lia.
Qed.
Lemma zsub_len : forall buf pos n, 0 <= pos -> 0 <= n -> pos + n <= zlen buf -> zlen (zsub buf pos n) = n.
Proof.
  intros. unfold zsub, zlen in *. rewrite firstn_length, skipn_length. lia.
Qed.
Lemma zsub_bytes : forall buf pos n, bytes buf -> bytes (zsub buf pos n).
Proof.
  intros. unfold zsub. apply Forall_forall. intros x Hx.
  apply (In_nth _ _ 0) in Hx.
  assert (HI : In x buf).
  { destruct Hx as (k & Hk & <-).
    assert (In (nth k (firstn (Z.to_nat n) (skipn (Z.to_nat pos) buf)) 0) (firstn (Z.to_nat n) (skipn (Z.to_nat pos) buf))) by (apply nth_In; auto).
    apply (fun h => eq_ind _ (fun l => In _ l) (in_or_app _ _ _ (or_introl h)) _ (firstn_skipn (Z.to_nat n) _)) in H0.
    apply (fun h => eq_ind _ (fun l => In _ l) (in_or_app _ _ _ (or_intror h)) _ (firstn_skipn (Z.to_nat pos) buf)) in H0.
    exact H0. }
  unfold bytes in H. rewrite Forall_forall in H. auto.
Qed.
Lemma fold_be_nonneg : forall l a, bytes l -> 0 <= a -> 0 <= fold_left (fun a b => a * 256 + b) l a.
Proof.
  induction l as [|b l IH]; intros a H Ha; cbn [fold_left]; auto.
  apply bytes_cons in H as [Hb Hl]. apply IH; auto. unfold byte in Hb. lia.
Qed.
Lemma be_dec_nonneg : forall l, bytes l -> 0 <= be_dec l.
Proof. intros. unfold be_dec. apply fold_be_nonneg; auto. lia. Qed.

(** [good]: the same answer with more octets, positions do not go back, the value
    satisfies [Q]. *)
Definition goodq {A} (Q : A -> Prop) (p : parser A) : Prop :=
  forall buf m pos, bytes buf -> bytes m -> 0 <= pos ->
  match p buf pos with
  | PInc => True
  | POk a pos' => pos <= pos' /\ Q a /\ p (buf ++ m) pos = POk a pos'
  | r => p (buf ++ m) pos = r
  end.
Definition good {A} (p : parser A) : Prop := goodq (fun _ => True) p.

Lemma goodq_weaken : forall A (Q R : A -> Prop) p, (forall a, Q a -> R a) -> goodq Q p -> goodq R p.
Proof.
  intros A Q R p H G buf m pos B1 B2 H0. specialize (G buf m pos B1 B2 H0).
  destruct (p buf pos); auto. destruct G as (G1 & G2 & G3). auto.
Qed.
Lemma goodq_good : forall A (Q : A -> Prop) p, goodq Q p -> good p.
Proof. intros. eapply goodq_weaken; [|eauto]. auto. Qed.
Lemma good_ret : forall A (a : A), good (pret a).
Proof. intros A a buf m pos _ _ _. unfold pret. repeat split; lia. Qed.
Lemma goodq_ret : forall A (Q : A -> Prop) a, Q a -> goodq Q (pret a).
Proof. intros A Q a H buf m pos _ _ _. unfold pret. repeat split; auto; lia. Qed.
Lemma goodq_soft : forall A (Q : A -> Prop), goodq Q psoft.
Proof. intros A Q buf m pos _ _ _. reflexivity. Qed.
Lemma goodq_bind : forall A B (Q : A -> Prop) (S : B -> Prop) p f, goodq Q p -> (forall a, Q a -> goodq S (f a)) -> goodq S (pbind p f).
Proof.
  intros A B Q S p f G F buf m pos B1 B2 H. unfold pbind.
  specialize (G buf m pos B1 B2 H). destruct (p buf pos) as [a pos'| | |]; auto.
  - destruct G as (G1 & G2 & G3). rewrite G3.
    specialize (F a G2 buf m pos' B1 B2 ltac:(lia)).
    destruct (f a buf pos'); auto. destruct F as (F1 & F2 & F3). repeat split; auto; lia.
  - rewrite G. reflexivity.
  - rewrite G. reflexivity.
Qed.
Lemma good_bind : forall A B p (f : A -> parser B), good p -> (forall a, good (f a)) -> good (pbind p f).
Proof. intros. eapply goodq_bind; eauto. intros. apply H0. Qed.
Lemma goodq_check : forall A (Q : A -> Prop) (c : bool) p, (c = true -> goodq Q p) -> goodq Q (pcheck c p).
Proof. intros A Q [|] p H; unfold pcheck; auto. apply goodq_soft. Qed.
Lemma good_check : forall A (c : bool) (p : parser A), good p -> good (pcheck c p).
Proof. intros. apply goodq_check. auto. Qed.
Lemma good_if : forall A (c : bool) (p q : parser A), good p -> good q -> good (if c then p else q).
Proof. intros A [|] p q; auto. Qed.
(** A test of the position *)
Lemma goodq_pos : forall A (Q : A -> Prop) (c : Z -> bool) (p q : parser A), goodq Q p -> goodq Q q ->
  goodq Q (fun buf pos => if c pos then p buf pos else q buf pos).
Proof.
  intros A Q c p q Hp Hq buf m pos B1 B2 H. destruct (c pos); [apply Hp|apply Hq]; auto.
Qed.

Lemma good_take : forall n, 0 <= n -> goodq (fun b => bytes b /\ zlen b = n) (p_take n).
Proof.
  intros n Hn buf m pos B1 B2 H. unfold p_take.
  destruct (zlen buf <? pos + n) eqn:E; auto.
  apply Z.ltb_ge in E.
  assert (E2 : (zlen (buf ++ m) <? pos + n) = false).
  { apply Z.ltb_ge. rewrite zlen_app. pose proof (zlen_nonneg _ m). lia. }
  rewrite E2. rewrite zsub_app by lia. repeat split; auto; try lia.
  - apply zsub_bytes; auto.
  - apply zsub_len; lia.
Qed.
Lemma be_dec_lt : forall l a, bytes l -> 0 <= a -> fold_left (fun a b => a * 256 + b) l a < (a + 1) * 256 ^ zlen l.
Proof.
  induction l as [|b l IH]; intros a H Ha; cbn [fold_left].
  - rewrite zlen_nil. lia.
  - apply bytes_cons in H as [Hb Hl]. unfold byte in Hb. rewrite zlen_cons.
    specialize (IH (a * 256 + b) Hl ltac:(lia)).
    pose proof (zlen_nonneg _ l). rewrite Z.pow_add_r by lia. change (256 ^ 1) with 256.
    eapply Z.lt_le_trans; [exact IH|].
    replace ((a + 1) * (256 * 256 ^ zlen l)) with (((a + 1) * 256) * 256 ^ zlen l) by ring.
    apply Z.mul_le_mono_nonneg_r; [apply Z.pow_nonneg; lia | lia].
Qed.
Lemma good_u8 : goodq (fun b => 0 <= b < 256) p_u8.
Proof.
  unfold p_u8. eapply goodq_bind; [apply (good_take 1); lia|]. intros b [Hb Hl]. apply goodq_ret.
  split; [apply be_dec_nonneg; auto|]. pose proof (be_dec_lt b 0 Hb ltac:(lia)) as X. rewrite Hl in X.
  unfold be_dec. lia.
Qed.
Lemma good_u16 : goodq (fun b => 0 <= b < 65536) p_u16.
Proof.
  unfold p_u16. eapply goodq_bind; [apply (good_take 2); lia|]. intros b [Hb Hl]. apply goodq_ret.
  split; [apply be_dec_nonneg; auto|]. pose proof (be_dec_lt b 0 Hb ltac:(lia)) as X. rewrite Hl in X.
  unfold be_dec. lia.
Qed.
Lemma good_pid : goodq (fun b => 0 < b < 65536) p_pid.
Proof.
  unfold p_pid. eapply goodq_bind; [apply good_u16|]. intros i Hi. apply goodq_check. intros C. apply goodq_ret.
  cbv beta in *. apply Bool.negb_true_iff, Z.eqb_neq in C. lia.
Qed.
Lemma good_vint_loop : forall k r e, goodq (fun n => 0 <= n) (vint_loop k r e).
Proof.
  induction k as [|k IH]; intros r e buf m pos B1 B2 H; cbn [vint_loop]; auto.
  pose proof (good_take 1 ltac:(lia) buf m pos B1 B2 H) as G.
  destruct (p_take 1 buf pos) as [b pos'| | |]; auto; try (rewrite G; reflexivity).
  destruct G as (G1 & G2 & G3). rewrite G3. cbv zeta.
  destruct (Z.land (be_dec b) 128 =? 0).
  - repeat split; auto. unfold u32. apply Z.mod_pos_bound. lia.
  - specialize (IH (u32 (r + Z.land (be_dec b) 127 * e)) (u32 (e * 128)) buf m pos' B1 B2 ltac:(lia)).
    destruct (vint_loop k _ _ buf pos'); auto. destruct IH as (I1 & I2 & I3). repeat split; auto; lia.
Qed.
Lemma good_vint : goodq (fun n => 0 <= n) p_vint.
Proof. apply good_vint_loop. Qed.
Lemma good_blob : forall tgt, goodq bytes (p_blob tgt).
Proof.
  intros. unfold p_blob. eapply goodq_bind; [apply good_u16|]. intros n Hn. cbv beta in Hn.
  apply (goodq_pos _ _ (fun pos => tgt <? pos + n) psoft (p_take n)); [apply goodq_soft|].
  eapply goodq_weaken; [|apply good_take; lia]. intros a Ha. apply Ha.
Qed.
Lemma good_utf8 : forall tgt mn, goodq (fun s => bytes s /\ mn <= zlen s) (p_utf8 tgt mn).
Proof.
  intros. unfold p_utf8. eapply goodq_bind; [apply good_blob|]. intros s Hs. apply goodq_check. intros C. apply goodq_ret.
  split; auto. unfold mqtt_utf8_ok in C. destruct (zlen s <? mn) eqn:E; [discriminate|]. lia.
Qed.
Lemma good_prop_val : forall tgt t, good (p_prop_val tgt t).
Proof.
  intros tgt [] ; cbn [p_prop_val]; unfold p_prop_int, p_prop_vint, p_prop_utf8, p_prop_2utf8;
    try (eapply goodq_bind; [apply good_take; lia|intros; apply good_ret]).
  - eapply goodq_bind; [apply good_vint|intros; apply good_ret].
  - intros buf m pos B1 B2 H. unfold p_prop_blob.
    pose proof (good_blob tgt buf m pos B1 B2 H) as G.
    destruct (p_blob tgt buf pos); auto; try (rewrite G; reflexivity).
    destruct G as (G1 & _ & G3). rewrite G3. pose proof (zlen_nonneg _ a). repeat split; lia.
  - eapply goodq_bind; [apply good_utf8|intros; apply good_ret].
  - eapply goodq_bind; [apply good_utf8|]. intros. eapply goodq_bind; [apply good_utf8|intros; apply good_ret].
Qed.
Lemma good_prop : forall tgt, good (p_prop tgt).
Proof.
  intros. unfold p_prop. eapply goodq_bind; [apply good_u8|]. intros id _.
  destruct (get_definition id); [|apply goodq_soft].
  eapply goodq_bind; [apply good_prop_val|]. intros. apply good_ret.
Qed.
Lemma p_u8_adv : forall buf pos b pos', p_u8 buf pos = POk b pos' -> pos' = pos + 1 /\ pos + 1 <= zlen buf.
Proof.
  intros buf pos b pos'. unfold p_u8, pbind, p_take, pret. destruct (zlen buf <? pos + 1) eqn:E; [discriminate|].
  intros H. injection H as _ <-. lia.
Qed.
Lemma p_prop_adv : forall tgt buf pos p pos', bytes buf -> 0 <= pos -> p_prop tgt buf pos = POk p pos' -> pos + 1 <= pos'.
Proof.
  intros tgt buf pos p pos' B Hp. unfold p_prop, pbind at 1.
  destruct (p_u8 buf pos) as [id p1| | |] eqn:E; try discriminate.
  apply p_u8_adv in E as [-> _].
  destruct (get_definition id) as [t|]; [|discriminate].
  intros H.
  assert (G : good (pbind (p_prop_val tgt t) (fun v => pret (mk_prop id v)))).
  { eapply goodq_bind; [apply good_prop_val|]. intros. apply good_ret. }
  specialize (G buf [] (pos + 1) B ltac:(constructor) ltac:(lia)). rewrite H in G. lia.
Qed.
Lemma good_prop_loop : forall fuel tgt e acc, good (p_prop_loop fuel tgt e acc).
Proof.
  induction fuel as [|fuel IH]; intros tgt e acc buf m pos B1 B2 H; cbn [p_prop_loop];
    destruct (pos <? e); try (repeat split; lia).
  pose proof (good_prop tgt buf m pos B1 B2 H) as G.
  destruct (p_prop tgt buf pos) as [p pos'| | |]; auto; try (rewrite G; reflexivity).
  destruct G as (G1 & _ & G3). rewrite G3.
  specialize (IH tgt e (acc ++ [p]) buf m pos' B1 B2 ltac:(lia)).
  destruct (p_prop_loop fuel tgt e (acc ++ [p]) buf pos'); auto.
  destruct IH as (I1 & _ & I3). repeat split; auto; lia.
Qed.
Lemma good_props : forall tgt, good (p_props tgt).
Proof.
  intros. unfold p_props. eapply goodq_bind; [apply good_vint|]. intros n Hn buf m pos B1 B2 H.
  apply good_prop_loop; auto.
Qed.
Lemma good_props_v5 : forall tgt ver, good (p_props_v5 tgt ver).
Proof. intros. unfold p_props_v5. apply good_if; [apply good_props|apply good_ret]. Qed.

Ltac good_tac :=
  repeat first
    [ apply good_ret | apply goodq_soft
    | apply good_check
    | match goal with
      | |- goodq _ (pbind p_u8 _) => eapply goodq_bind; [apply good_u8|intros ? ?]
      | |- goodq _ (pbind p_u16 _) => eapply goodq_bind; [apply good_u16|intros ? ?]
      | |- goodq _ (pbind p_pid _) => eapply goodq_bind; [apply good_pid|intros ? ?]
      | |- goodq _ (pbind (p_props_v5 _ _) _) => eapply goodq_bind; [apply good_props_v5|intros ? ?]
      | |- goodq _ (pbind (p_utf8 _ _) _) => eapply goodq_bind; [apply good_utf8|intros ? ?]
      | |- goodq _ (pbind (p_blob _) _) => eapply goodq_bind; [apply good_blob|intros ? ?]
      | |- goodq _ (pbind (p_take ?n) _) => eapply goodq_bind; [apply good_take; cbv beta in *; lia|intros ? ?]
      | |- goodq _ (pcheck _ _) => apply goodq_check; intros ?
      | |- goodq _ (match ?x with _ => _ end) => destruct x
      end
    | match goal with |- good _ => unfold good end ].

Lemma good_connect_hdr : forall tgt, good (p_connect_hdr tgt).
Proof. intros. unfold p_connect_hdr. good_tac; apply goodq_ret; auto. Qed.
Lemma good_connack_hdr : forall tgt ver, good (p_connack_hdr tgt ver).
Proof. intros. unfold p_connack_hdr. good_tac; apply goodq_ret; auto. Qed.
Lemma good_publish_hdr : forall tgt ver fl, good (p_publish_hdr tgt ver fl).
Proof.
  intros. unfold p_publish_hdr. good_tac. 
  eapply goodq_bind; [|intros pid _; good_tac; apply goodq_ret; auto].
  destruct (0 <? publish_qos fl); [eapply goodq_good; apply good_pid|apply good_ret].
Qed.
Lemma good_ack_hdr : forall tgt ver type, good (p_ack_hdr tgt ver type).
Proof.
  intros. unfold p_ack_hdr. eapply goodq_bind; [apply good_pid|]. intros pid _.
  apply (goodq_pos _ _ (fun pos => tgt <? pos + 1) (pret (HAck pid 0 []))); [apply good_ret|].
  destruct (5 <=? ver); [|apply goodq_soft].
  eapply goodq_bind; [apply good_u8|]. intros code _.
  destruct (reason_get ver code); [|apply goodq_soft]. apply goodq_check. intros _.
  eapply goodq_bind; [apply good_props_v5|]. intros props _.
  apply (goodq_pos _ _ (fun pos => tgt <? pos + 1) (pret (HAck pid (r_v5 r) props)) psoft); [apply good_ret|apply goodq_soft].
Qed.
Lemma good_sub_hdr : forall tgt ver, good (p_sub_hdr tgt ver).
Proof. intros. unfold p_sub_hdr. good_tac; apply goodq_ret; auto. Qed.
Lemma good_suback_hdr : forall tgt ver, good (p_suback_hdr tgt ver).
Proof. intros. unfold p_suback_hdr. good_tac; apply goodq_ret; auto. Qed.
Lemma good_ping_hdr : forall tgt, good (p_ping_hdr tgt).
Proof.
  intros. apply (goodq_pos _ _ (fun pos => tgt <? pos + 1) (pret HPing) psoft); [apply good_ret|apply goodq_soft].
Qed.
Lemma good_disconnect_hdr : forall tgt ver, good (p_disconnect_hdr tgt ver).
Proof.
  intros tgt ver buf m pos B1 B2 H. unfold p_disconnect_hdr.
  destruct (ver <? 5); destruct (tgt - pos =? 0); try (repeat split; auto; lia); auto.
  revert buf m pos B1 B2 H.
  assert (G : forall vpos, good (pbind p_u8 (fun code => if tgt - vpos =? 1 then pret (HDisconnect code [])
       else pbind (p_props_v5 tgt ver) (fun props => pret (HDisconnect code props))))).
  { intros. good_tac; apply goodq_ret; auto. }
  intros. apply G; auto.
Qed.
Lemma good_hdr : forall tgt ver type flags, good (p_hdr tgt ver type flags).
Proof.
  intros. unfold p_hdr. destruct (type =? 1); [apply good_connect_hdr|].
  destruct (type =? 15); [apply goodq_soft|].
  destruct ver as [ver|]; [|intros buf m pos _ _ _; exact I].
  destruct (type =? 2); [apply good_connack_hdr|].
  destruct (type =? 3); [apply good_publish_hdr|].
  destruct ((4 <=? type) && (type <=? 7)); [apply good_ack_hdr|].
  destruct ((type =? 8) || (type =? 10)); [apply good_sub_hdr|].
  destruct ((type =? 9) || (type =? 11)); [apply good_suback_hdr|].
  destruct ((type =? 12) || (type =? 13)); [apply good_ping_hdr|].
  apply good_disconnect_hdr.
Qed.

(** *** Payloads *)
Lemma good_connect_payload : forall tgt ver cf keep props, good (p_connect_payload tgt ver cf keep props).
Proof.
  intros. unfold p_connect_payload. eapply goodq_bind; [apply good_utf8|]. intros cid _.
  eapply (goodq_bind _ _ (fun _ => True)).
  { destruct (c_will cf); [|apply good_ret]. good_tac; apply goodq_ret; auto. }
  intros w _.
  assert (O : good (fun buf pos => if tgt <? pos + 1 then PSoft
                          else pbind (p_utf8 tgt 1) (fun s => pret (Some (cstr s))) buf pos)).
  { apply (goodq_pos _ _ (fun pos => tgt <? pos + 1) psoft); [apply goodq_soft|]. good_tac; apply goodq_ret; auto. }
  eapply (goodq_bind _ _ (fun _ => True)).
  { destruct (c_user cf); [exact O|apply good_ret]. }
  intros user _. eapply (goodq_bind _ _ (fun _ => True)).
  { destruct (c_pass cf); [exact O|apply good_ret]. }
  intros pass _.
  apply (goodq_pos _ _ (fun pos => tgt <? pos + 1) (pret (BConnect ver cf keep props (Some (cstr cid)) w user pass)) psoft);
    [apply good_ret|apply goodq_soft].
Qed.
Lemma good_publish_payload : forall tgt topic pid props buf m pos, bytes buf -> bytes m -> 0 <= pos <= tgt ->
  match p_publish_payload tgt topic pid props buf pos with
  | PInc => True
  | r => p_publish_payload tgt topic pid props (buf ++ m) pos = r
  end.
Proof.
  intros tgt topic pid props buf m pos B1 B2 H. unfold p_publish_payload.
  destruct (tgt - pos =? 0) eqn:E0; auto.
  destruct (zlen buf <? tgt) eqn:E; auto.
  assert (E2 : (zlen (buf ++ m) <? tgt) = false).
  { apply Z.ltb_ge. rewrite zlen_app. pose proof (zlen_nonneg _ m). lia. }
  rewrite E2. rewrite zsub_app by lia. reflexivity.
Qed.
Lemma good_suback_payload : forall tgt ver type pid props buf m pos, bytes buf -> bytes m -> 0 <= pos <= tgt ->
  match p_suback_payload tgt ver type pid props buf pos with
  | PInc => True
  | r => p_suback_payload tgt ver type pid props (buf ++ m) pos = r
  end.
Proof.
  intros tgt ver type pid props buf m pos B1 B2 H. unfold p_suback_payload.
  destruct ((type =? 11) && (ver <? 5)); [destruct (tgt <? pos + 1); auto|].
  destruct (tgt - pos =? 0) eqn:E0; auto.
  destruct (zlen buf <? tgt) eqn:E; auto.
  assert (E2 : (zlen (buf ++ m) <? tgt) = false).
  { apply Z.ltb_ge. rewrite zlen_app. pose proof (zlen_nonneg _ m). lia. }
  rewrite E2. rewrite zsub_app by lia. cbv zeta.
  destruct (forallb _ _); reflexivity.
Qed.
Lemma good_p_sub : forall tgt ver opts, good (p_sub tgt ver opts).
Proof.
  intros. unfold p_sub. eapply goodq_bind; [apply good_utf8|]. intros f _. apply goodq_check. intros _.
  eapply (goodq_bind _ _ (fun _ => True)).
  { destruct opts; [eapply goodq_good; apply good_u8|apply good_ret]. }
  intros o _. cbv zeta. repeat (apply goodq_check; intros _).
  destruct (sub_new_bug _); [intros buf m pos _ _ _; reflexivity|apply good_ret].
Qed.
Lemma p_sub_adv : forall tgt ver opts buf pos s pos', bytes buf -> 0 <= pos -> p_sub tgt ver opts buf pos = POk s pos' -> pos + 2 <= pos'.
Proof.
  intros tgt ver opts buf pos s pos' B Hp. unfold p_sub, p_utf8, p_blob, p_u16.
  unfold pbind at 1 2 3 4. unfold p_take at 1. destruct (zlen buf <? pos + 2) eqn:E; [discriminate|].
  unfold pret at 1. set (n := be_dec (zsub buf pos 2)).
  assert (Hn : 0 <= n) by (apply be_dec_nonneg, zsub_bytes; auto).
  destruct (tgt <? pos + 2 + n); [discriminate|].
  unfold p_take at 1. destruct (zlen buf <? pos + 2 + n); [discriminate|].
  unfold pcheck at 1, psoft at 1. destruct (mqtt_utf8_ok _ 1); [|discriminate].
  unfold pret at 1.
  match goal with |- ?p buf ?q = _ -> _ => intros H; assert (G : good p) end.
  { apply goodq_check. intros _. eapply (goodq_bind _ _ (fun _ => True)).
    { destruct opts; [eapply goodq_good; apply good_u8|apply good_ret]. }
    intros o _. cbv zeta. repeat (apply goodq_check; intros _).
    destruct (sub_new_bug _); [intros bb m pp _ _ _; reflexivity|apply good_ret]. }
  specialize (G buf [] (pos + 2 + n) B ltac:(constructor) ltac:(lia)). rewrite H in G. lia.
Qed.

(** The loop: with more octets the same answer; left early, it can be continued from its
    checkpoint. *)
Lemma sub_loop_fuel : forall f1 f2 tgt ver opts acc buf pos, bytes buf -> 0 <= pos ->
  (Z.to_nat (tgt - pos) <= f1)%nat -> (Z.to_nat (tgt - pos) <= f2)%nat ->
  p_sub_loop f1 tgt ver opts acc buf pos = p_sub_loop f2 tgt ver opts acc buf pos.
Proof.
  induction f1 as [|f1 IH]; intros f2 tgt ver opts acc buf pos B Hp H1 H2.
  - destruct f2; cbn [p_sub_loop]; destruct (tgt <? pos + 1) eqn:E; auto; lia.
  - destruct f2 as [|f2]; cbn [p_sub_loop]; destruct (tgt <? pos + 1) eqn:E; auto; [lia|].
    destruct (p_sub tgt ver opts buf pos) as [s pos'| | |] eqn:ES; auto.
    apply p_sub_adv in ES; auto.
    destruct (add_unique s acc); auto. apply IH; auto; lia.
Qed.
Lemma sub_loop_app : forall fuel tgt ver opts acc buf m pos, bytes buf -> bytes m -> 0 <= pos ->
  match p_sub_loop fuel tgt ver opts acc buf pos with
  | (PInc, (ck, acc')) => pos <= ck /\ (Z.to_nat (tgt - pos) <= fuel)%nat ->
      p_sub_loop fuel tgt ver opts acc (buf ++ m) pos =
      p_sub_loop (Z.to_nat (tgt - ck)) tgt ver opts acc' (buf ++ m) ck
  | r => p_sub_loop fuel tgt ver opts acc (buf ++ m) pos = r
  end.
Proof.
  induction fuel as [|fuel IH]; intros tgt ver opts acc buf m pos B1 B2 Hp; cbn [p_sub_loop].
  - destruct (tgt <? pos + 1) eqn:E; reflexivity.
  - destruct (tgt <? pos + 1) eqn:E; auto.
    pose proof (good_p_sub tgt ver opts buf m pos B1 B2 Hp) as G.
    destruct (p_sub tgt ver opts buf pos) as [s pos'| | |] eqn:ES; try (rewrite G; reflexivity).
    + apply p_sub_adv in ES; auto. destruct G as (_ & _ & G). rewrite G.
      destruct (add_unique s acc) as [acc'|]; auto.
      specialize (IH tgt ver opts acc' buf m pos' B1 B2 ltac:(lia)).
      destruct (p_sub_loop fuel tgt ver opts acc' buf pos') as [r [ck a]] eqn:EL.
      destruct r; auto. intros [H1 H2].
      apply IH. split; [|lia].
      clear -EL ES B1 Hp. assert (0 <= pos') by lia. clear ES Hp. revert acc' pos' H EL.
      induction fuel as [|fuel IHf]; intros acc' pos' H; cbn [p_sub_loop].
      * destruct (tgt <? pos' + 1); [discriminate|]. discriminate.
      * destruct (tgt <? pos' + 1); [discriminate|].
        destruct (p_sub tgt ver opts buf pos') as [s2 p2| | |] eqn:E2; try discriminate.
        -- apply p_sub_adv in E2; auto. destruct (add_unique s2 acc'); [|discriminate].
           intros EL. apply IHf in EL; lia.
        -- intros EL. injection EL as <- _. lia.
    + intros [_ H2]. 
      assert (U : forall f, p_sub_loop (S f) tgt ver opts acc (buf ++ m) pos =
        if tgt <? pos + 1 then (POk acc pos, (pos, acc))
        else match p_sub tgt ver opts (buf ++ m) pos with
             | POk s pos' => match add_unique s acc with
                             | Some acc' => p_sub_loop f tgt ver opts acc' (buf ++ m) pos'
                             | None => (PSoft, (pos, acc)) end
             | PInc => (PInc, (pos, acc)) | PSoft => (PSoft, (pos, acc)) | PAbort => (PAbort, (pos, acc)) end) by reflexivity.
      pose proof (sub_loop_fuel (S fuel) (Z.to_nat (tgt - pos)) tgt ver opts acc (buf ++ m) pos
         ltac:(apply bytes_app; auto) Hp H2 ltac:(lia)) as X.
      rewrite U, E in X. exact X.
Qed.
Lemma sub_loop_ck : forall fuel tgt ver opts acc buf pos r ck acc', bytes buf -> 0 <= pos ->
  p_sub_loop fuel tgt ver opts acc buf pos = (r, (ck, acc')) -> pos <= ck.
Proof.
  induction fuel as [|fuel IH]; intros tgt ver opts acc buf pos r ck acc' B Hp; cbn [p_sub_loop].
  - destruct (tgt <? pos + 1); intros H; injection H as _ <- _; lia.
  - destruct (tgt <? pos + 1); [intros H; injection H as _ <- _; lia|].
    destruct (p_sub tgt ver opts buf pos) as [s p2| | |] eqn:E; try (intros H; injection H as _ <- _; lia).
    apply p_sub_adv in E; auto. destruct (add_unique s acc); [|intros H; injection H as _ <- _; lia].
    intros H. apply IH in H; auto; lia.
Qed.
