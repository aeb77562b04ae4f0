(** What every packet handed on has, for any octets. *)
From Coq Require Import Strings.String.
From Coq Require Import ZArith List Bool Lia.
From Verif Require Import Common Utf8Model TopicModel TopicSpec TopicProofs MqttModel MqttSpec MqttGoodProofs MqttReadProofs MqttPacketProofs MqttConnProofs MqttSafeProofs.
Import ListNotations.
Open Scope Z_scope.
Notation len := Datatypes.length.

Definition gives {A} (Q : A -> Prop) (p : parser A) : Prop :=
  forall buf pos a pos', bytes buf -> 0 <= pos -> p buf pos = POk a pos' -> Q a /\ pos <= pos'.
Lemma gives_good : forall A (Q : A -> Prop) p, goodq Q p -> gives Q p.
Proof. intros A Q p G buf pos a pos' B H E. specialize (G buf [] pos B ltac:(constructor) H). rewrite E in G. tauto. Qed.
Lemma gives_ret : forall A (Q : A -> Prop) a, Q a -> gives Q (pret a).
Proof. intros A Q a H buf pos b pos' _ _ E. injection E as <- <-. split; auto. lia. Qed.
Lemma gives_soft : forall A (Q : A -> Prop), gives Q psoft.
Proof. intros A Q buf pos b pos' _ _ E. discriminate. Qed.
Lemma gives_check : forall A (Q : A -> Prop) (c : bool) p, (c = true -> gives Q p) -> gives Q (pcheck c p).
Proof. intros A Q [|] p H; unfold pcheck; auto. apply gives_soft. Qed.
Lemma gives_bind : forall A B (Q : A -> Prop) (S : B -> Prop) p f, gives Q p -> (forall a, Q a -> gives S (f a)) -> gives S (pbind p f).
Proof.
  intros A B Q S p f G1 G2 buf pos b pos' HB H. unfold pbind. destruct (p buf pos) as [a p1| | |] eqn:E; try discriminate.
  apply G1 in E as [E1 E2]; auto. intros X. apply G2 in X; auto; [|lia]. split; [tauto|lia].
Qed.
Lemma gives_weaken : forall A (Q R : A -> Prop) p, (forall a, Q a -> R a) -> gives Q p -> gives R p.
Proof. intros A Q R p H G buf pos a pos' B H0 E. apply G in E as [E1 E2]; auto. Qed.
Lemma gives_pos : forall A (Q : A -> Prop) (c : Z -> bool) (p q : parser A), gives Q p -> gives Q q ->
  gives Q (fun buf pos => if c pos then p buf pos else q buf pos).
Proof. intros A Q c p q H1 H2 buf pos a pos' B H. destruct (c pos); [apply H1|apply H2]; auto. Qed.

Lemma gives_eta : forall A (Q : A -> Prop) (p : parser A), gives Q p -> gives Q (fun buf pos => p buf pos).
Proof. auto. Qed.
Lemma gives_blob : forall tgt, gives (fun s => bytes s /\ zlen s <= 65535) (p_blob tgt).
Proof.
  intros. unfold p_blob. eapply gives_bind; [apply gives_good, good_u16|]. intros n Hn. cbv beta in Hn.
  apply (gives_pos _ _ (fun pos => tgt <? pos + n) psoft (p_take n)); [apply gives_soft|].
  eapply gives_weaken; [|apply gives_good, good_take; lia]. intros a [H1 H2]. split; auto. lia.
Qed.
Lemma gives_utf8 : forall tgt mn, gives (fun s => bytes s /\ zlen s <= 65535) (p_utf8 tgt mn).
Proof. intros. unfold p_utf8. eapply gives_bind; [apply gives_blob|]. intros s Hs. apply gives_check. intros C. apply gives_ret. exact Hs. Qed.
Lemma cstr_facts : forall s, bytes s -> bytes (cstr s) /\ ~ In 0 (cstr s) /\ zlen (cstr s) <= zlen s.
Proof.
  induction s as [|c s IH]; intros B; cbn [cstr]; [split; [constructor|split; [intros []|lia]]|].
  apply bytes_cons in B as [B1 B2]. destruct (IH B2) as (I1 & I2 & I3). destruct (c =? 0) eqn:E.
  - split; [constructor|]. split; [intros []|]. pose proof (zlen_nonneg _ s). rewrite zlen_nil, zlen_cons. lia.
  - split; [apply bytes_cons; auto|]. split; [|rewrite !zlen_cons; lia]. intros [X|X]; [lia|auto].
Qed.
Lemma name_legal : forall s, bytes s -> zlen s <= 65535 -> name_ok (cstr s) = true -> topic_legal (cstr s).
Proof.
  intros s B L H. destruct (cstr_facts s B) as (B1 & B2 & B3). unfold name_ok in H. destruct (name_validate_iff (cstr s) B1 B2) as ((G & _) & _).
  destruct (name_validate (cstr s)) as [n|]; [|discriminate]. destruct n; try discriminate.
  destruct (G eq_refl) as (G1 & G2 & G3). split; [|auto]. split; [auto|]. split; [auto|]. split; [auto|lia].
Qed.
Lemma filter_legal_of : forall s, bytes s -> s <> [] -> ~ In 0 s -> filter_ok s = true -> filter_legal s.
Proof.
  intros s B N Z0 H. unfold filter_ok in H. destruct (filter_validate_iff s B Z0) as ((G & _) & _).
  destruct (filter_validate s) as [n|]; [|discriminate]. destruct n; try discriminate.
  destruct (G eq_refl) as (G1 & G2 & G3). split; [|split; auto]. split; [auto|]. split; [auto|]. split; auto.
Qed.

(** The codes *)
Lemma memb_in : forall x l, memb x l = true -> In x l.
Proof. intros x l H. apply existsb_exists in H as (y & H1 & H2). apply Z.eqb_eq in H2. subst. auto. Qed.
Lemma connack_code : forall ver c r, byte c -> reason_get ver c = Some r -> r_connack r = true ->
  if 5 <=? ver then In (r_v5 r) connack_codes else In (r_v5 r) connack_codes_v3.
Proof.
  intros ver c r B. unfold reason_get. destruct (5 <=? ver); intros E R.
  - assert (X : match reason_get_v5 c with Some r => negb (r_connack r) || memb (r_v5 r) connack_codes | None => true end = true)
      by (revert B; apply (sweep_byte (fun c => match reason_get_v5 c with Some r => negb (r_connack r) || memb (r_v5 r) connack_codes | None => true end)); reflexivity).
    rewrite E, R in X. apply memb_in. exact X.
  - assert (X : match reason_get_v31 c with Some r => negb (r_connack r) || memb (r_v5 r) connack_codes_v3 | None => true end = true)
      by (revert B; apply (sweep_byte (fun c => match reason_get_v31 c with Some r => negb (r_connack r) || memb (r_v5 r) connack_codes_v3 | None => true end)); reflexivity).
    rewrite E, R in X. apply memb_in. exact X.
Qed.
Lemma ack_code_in : forall ver type c r, byte c -> 5 <=? ver = true -> reason_get ver c = Some r ->
  (if (type =? 4) || (type =? 5) then r_puback_pubrec r else r_pubrel_pubcomp r) = true ->
  In (r_v5 r) (if (type =? 4) || (type =? 5) then 146 :: puback_codes else pubrel_codes).
Proof.
  intros ver type c r B V. unfold reason_get. rewrite V. intros E R. destruct ((type =? 4) || (type =? 5)).
  - assert (X : match reason_get_v5 c with Some r => negb (r_puback_pubrec r) || memb (r_v5 r) (146 :: puback_codes) | None => true end = true)
      by (revert B; apply (sweep_byte (fun c => match reason_get_v5 c with Some r => negb (r_puback_pubrec r) || memb (r_v5 r) (146 :: puback_codes) | None => true end)); reflexivity).
    rewrite E, R in X. apply memb_in. exact X.
  - assert (X : match reason_get_v5 c with Some r => negb (r_pubrel_pubcomp r) || memb (r_v5 r) pubrel_codes | None => true end = true)
      by (revert B; apply (sweep_byte (fun c => match reason_get_v5 c with Some r => negb (r_pubrel_pubcomp r) || memb (r_v5 r) pubrel_codes | None => true end)); reflexivity).
    rewrite E, R in X. apply memb_in. exact X.
Qed.
Lemma suback_code_in : forall ver type c, byte c -> type = 9 \/ (type = 11 /\ 5 <=? ver = true) -> ack_ok ver type c = true ->
  In c (if 5 <=? ver then if type =? 9 then suback_codes else unsuback_codes else suback_codes_v3).
Proof.
  intros ver type c B T. assert (O : forall v t l, forallb (fun c => negb (ack_ok v t c) || memb c l) all_bytes = true -> ack_ok v t c = true -> In c l).
  { intros v t l H A. assert (X : negb (ack_ok v t c) || memb c l = true) by (revert B; apply (sweep_byte (fun c => negb (ack_ok v t c) || memb c l)); exact H). rewrite A in X. apply memb_in. exact X. }
  unfold ack_ok. destruct (5 <=? ver) eqn:V.
  - destruct T as [-> | [-> _]]; [apply (O 5 9)|apply (O 5 11)]; reflexivity.
  - destruct T as [-> | [_ T]]; [|discriminate]. apply (O 4 9). reflexivity.
Qed.

(** Headers *)
Definition cf_ok (v cf : Z) : Prop :=
  byte cf /\ Z.testbit cf 0 = false /\
  (Z.testbit cf 2 = false -> Z.testbit cf 3 = false /\ Z.testbit cf 4 = false /\ Z.testbit cf 5 = false) /\
  ~ (Z.testbit cf 3 = true /\ Z.testbit cf 4 = true) /\ (v < 5 -> Z.testbit cf 6 = true -> Z.testbit cf 7 = true).
Definition hdr_ok (ver : option Z) (type flags : Z) (h : hdr) : Prop :=
  match h with
  | HConnect v cf keep _ => type = 1 /\ (v = 3 \/ v = 4 \/ v = 5) /\ cf_ok v cf /\ 0 <= keep < 65536
  | HConnack a r _ => type = 2 /\ (a = 0 \/ a = 1) /\ exists v, ver = Some v /\ if 5 <=? v then In r connack_codes else In r connack_codes_v3
  | HPublish topic pid _ => type = 3 /\ publish_qos flags <= 2 /\ (publish_qos flags = 0 -> publish_dup flags = 0 /\ pid = 0) /\
      (publish_qos flags <> 0 -> 0 < pid < 65536) /\ topic_legal topic
  | HAck pid r _ => 4 <= type <= 7 /\ 0 < pid < 65536 /\ exists v, ver = Some v /\ if 5 <=? v then In r (if (type =? 4) || (type =? 5) then 146 :: puback_codes else pubrel_codes) else r = 0
  | HSub pid _ => (type = 8 \/ type = 10) /\ 0 < pid < 65536 /\ ver <> None
  | HSuback pid _ => (type = 9 \/ type = 11) /\ 0 < pid < 65536 /\ ver <> None
  | HPing => type = 12 \/ type = 13
  | HDisconnect r _ => type = 14 /\ exists v, ver = Some v /\ if 5 <=? v then byte r else r = 0
  end.

Ltac gv :=
  repeat match goal with
      | |- gives _ psoft => apply gives_soft
      | |- gives _ (pbind p_u8 _) => eapply gives_bind; [apply gives_good, good_u8|intros ? ?]
      | |- gives _ (pbind p_u16 _) => eapply gives_bind; [apply gives_good, good_u16|intros ? ?]
      | |- gives _ (pbind p_pid _) => eapply gives_bind; [apply gives_good, good_pid|intros ? ?]
      | |- gives _ (pbind (p_props_v5 _ _) _) => eapply gives_bind; [apply gives_good, good_props_v5|intros ? ?]
      | |- gives _ (pbind (p_utf8 _ _) _) => eapply gives_bind; [apply gives_utf8|intros ? ?]
      | |- gives _ (pbind (p_blob _) _) => eapply gives_bind; [apply gives_blob|intros ? ?]
      | |- gives _ (pbind (p_take ?n) _) => eapply gives_bind; [apply gives_good, good_take; cbv beta in *; lia|intros ? ?]
      | |- gives _ (pcheck _ _) => apply gives_check; intros ?
      end; cbv beta in *.
Lemma hdr_gives : forall tgt ver type flags, 1 <= type <= 15 -> gives (hdr_ok ver type flags) (p_hdr tgt ver type flags).
Proof.
  intros tgt ver type flags T. unfold p_hdr. destruct (type =? 1) eqn:T1.
  { unfold p_connect_hdr. gv. destruct (version_name a1) as [vn|] eqn:EV; [|apply gives_soft]. gv. apply gives_ret. cbn [hdr_ok].
    split; [lia|]. split.
    { unfold version_name in EV. destruct (a1 =? 3) eqn:E3; [lia|]. destruct ((a1 =? 4) || (a1 =? 5)) eqn:E4; [lia|discriminate]. }
    split; [|lia]. unfold cf_ok. unfold c_will, c_will_retain, c_pass, c_user in *. rewrite will_qos_bits in *.
    destruct (bit_testbit a2 0) as (_ & E0); [lia|]. destruct (bit_testbit a2 2) as (E2 & _); [lia|]. destruct (bit_testbit a2 5) as (_ & E5); [lia|].
    destruct (bit_testbit a2 6) as (E6 & _); [lia|]. destruct (bit_testbit a2 7) as (E7 & _); [lia|]. rewrite E0, E2, E5, E6, E7 in *.
    split; [exact H4|]. split; [destruct (Z.testbit a2 0); [discriminate|reflexivity]|].
    split. { intros X. rewrite X in *. destruct (Z.testbit a2 3), (Z.testbit a2 4), (Z.testbit a2 5); try discriminate; auto. }
    split. { intros [X Y]. rewrite X, Y in *. cbn in *. discriminate. }
    intros X Y. rewrite Y in *. destruct (Z.testbit a2 7); auto. replace (5 <=? a1) with false in * by lia. discriminate. }
  destruct (type =? 15) eqn:T15; [apply gives_soft|].
  destruct ver as [ver|]; [|intros buf pos a pos' _ _ X; discriminate].
  destruct (type =? 2) eqn:T2.
  { unfold p_connack_hdr. gv. destruct (reason_get ver a0) as [r|] eqn:ER; [|apply gives_soft]. gv. apply gives_ret. cbn [hdr_ok].
    split; [lia|]. split. { rewrite Z.shiftr_div_pow2 in * by lia. change (2 ^ 1) with 2 in *. lia. }
    exists ver. split; [reflexivity|]. eapply connack_code; eauto. }
  destruct (type =? 3) eqn:T3.
  { unfold p_publish_hdr. gv. eapply (gives_bind _ _ (fun pid => (publish_qos flags = 0 -> pid = 0) /\ (publish_qos flags <> 0 -> 0 < pid < 65536))).
    { destruct (0 <? publish_qos flags) eqn:EQ.
      - eapply gives_weaken; [|apply gives_good, good_pid]. intros pid Hp. cbv beta in Hp. split; [lia|auto].
      - apply gives_ret. split; [auto|]. intros X. unfold publish_qos, two_bits in *. exfalso. assert (0 <= Z.land (Z.shiftr flags 1) 3) by (apply Z.land_nonneg; right; lia). lia. }
    intros pid [P1 P2]. gv. apply gives_ret. cbn [hdr_ok]. split; [lia|]. split; [lia|]. split; [intros X; split; [|auto]; rewrite X in *; destruct (publish_dup flags =? 0) eqn:ED; [lia|discriminate]|].
    split; [auto|]. apply name_legal; tauto. }
  destruct ((4 <=? type) && (type <=? 7)) eqn:T4.
  { unfold p_ack_hdr. gv. apply (gives_pos _ _ (fun pos => tgt <? pos + 1) (pret (HAck a 0 []))).
    - apply gives_ret. cbn [hdr_ok]. split; [lia|]. split; [auto|]. exists ver. split; [reflexivity|]. destruct (5 <=? ver); [|reflexivity]. destruct ((type =? 4) || (type =? 5)); [right|]; left; reflexivity.
    - destruct (5 <=? ver) eqn:V; [|apply gives_soft]. apply gives_eta. gv. destruct (reason_get ver a0) as [r|] eqn:ER; [|apply gives_soft]. gv.
      apply (gives_pos _ _ (fun pos => tgt <? pos + 1) (pret (HAck a (r_v5 r) a1)) psoft); [|apply gives_soft]. apply gives_ret. cbn [hdr_ok].
      split; [lia|]. split; [auto|]. exists ver. split; [reflexivity|]. rewrite V. eapply ack_code_in; eauto. }
  destruct ((type =? 8) || (type =? 10)) eqn:T8.
  { unfold p_sub_hdr. gv. apply gives_ret. cbn [hdr_ok]. split; [lia|]. split; [auto|discriminate]. }
  destruct ((type =? 9) || (type =? 11)) eqn:T9.
  { unfold p_suback_hdr. gv. apply gives_ret. cbn [hdr_ok]. split; [lia|]. split; [auto|discriminate]. }
  destruct ((type =? 12) || (type =? 13)) eqn:T12.
  { apply (gives_pos _ _ (fun pos => tgt <? pos + 1) (pret HPing) psoft); [|apply gives_soft]. apply gives_ret. cbn [hdr_ok]. lia. }
  intros buf pos h pos' B H. unfold p_disconnect_hdr.
  assert (Z0 : forall r pr, (if 5 <=? ver then byte r else r = 0) -> hdr_ok (Some ver) type flags (HDisconnect r pr)).
  { intros r pr Hr. cbn [hdr_ok]. split; [lia|]. exists ver. auto. }
  assert (B0 : if 5 <=? ver then byte 0 else 0 = 0) by (destruct (5 <=? ver); [unfold byte; lia|reflexivity]).
  destruct (ver <? 5) eqn:V5.
  - destruct (tgt - pos =? 0); [|discriminate]. intros X. injection X as <- <-. split; [auto|lia].
  - destruct (tgt - pos =? 0); [intros X; injection X as <- <-; split; [auto|lia]|].
    intros X. assert (G : gives (hdr_ok (Some ver) type flags) (pbind p_u8 (fun code => if tgt - pos =? 1 then pret (HDisconnect code [])
       else pbind (p_props_v5 tgt ver) (fun props => pret (HDisconnect code props))))).
    { gv. destruct (tgt - pos =? 1); gv; apply gives_ret; apply Z0; replace (5 <=? ver) with true by lia; auto. }
    apply G in X; auto.
Qed.

(** Payloads *)
Definition subs_ok (ver : option Z) (type : Z) (l : list sub) : Prop :=
  NoDup (map sb_filter l) /\ match ver with Some v => Forall (sub_legal v type) l | None => l = [] end.
Lemma p_sub_gives : forall tgt v type, (type = 8 \/ type = 10) -> gives (sub_legal v type) (p_sub tgt v (type =? 8)).
Proof.
  intros tgt v type T. unfold p_sub. gv. rename a into f. destruct H as [B L].
  eapply (gives_bind _ _ (fun o => byte o /\ (type = 10 -> o = 0))).
  { destruct T as [-> | ->]; cbn [Z.eqb].
    - eapply gives_weaken; [|apply gives_good, good_u8]. intros o Ho. cbv beta in Ho. split; [exact Ho|lia].
    - apply gives_ret. split; [unfold byte; lia|auto]. }
  intros o [Ho H10]. cbv zeta. gv. destruct (sub_new_bug _) eqn:EB; [intros buf pos a pos' _ _ X; discriminate|]. apply gives_ret.
  unfold sub_new_bug in EB. cbn [sb_filter sb_retain sb_rap sb_nl sb_qos] in EB.
  destruct (0 <? bit o 2) eqn:N1; [discriminate|]. destruct (0 <? bit o 3) eqn:N2; [discriminate|]. destruct (2 <? two_bits o 4) eqn:N3; [discriminate|].
  assert (P1 : forall n, 0 <= bit o n) by (intros; unfold bit; apply Z.land_nonneg; right; lia).
  assert (P2 : forall n, 0 <= two_bits o n) by (intros; unfold two_bits; apply Z.land_nonneg; right; lia).
  pose proof (P1 2). pose proof (P1 3). pose proof (P2 4). pose proof (P2 0).
  unfold sub_legal. cbn [sb_filter sb_retain sb_rap sb_nl sb_qos].
  assert (CF : f = cstr f \/ zlen (cstr f) < zlen f).
  { clear -B. induction f as [|c f IH]; [left; reflexivity|]. apply bytes_cons in B as [B1 B2]. cbn [cstr]. destruct (c =? 0) eqn:E.
    - right. rewrite zlen_nil, zlen_cons. pose proof (zlen_nonneg _ f). lia.
    - destruct (IH B2) as [I|I]; [left; congruence|right; rewrite !zlen_cons; lia]. }
  destruct CF as [CF|CF]; [|lia]. destruct (cstr_facts f B) as (_ & Z0 & _). rewrite <- CF in Z0.
  split. { apply filter_legal_of; auto. intros ->. rewrite orb_true_r in EB. discriminate. }
  split; [lia|]. split; [lia|]. split; [lia|]. split; [lia|].
  split; [intros X; replace (5 <=? v) with false in * by lia; lia|].
  intros X. rewrite (H10 X). vm_compute. auto.
Qed.
Lemma add_unique_gives : forall v type s l l', sub_legal v type s -> subs_ok (Some v) type l -> add_unique s l = Some l' -> subs_ok (Some v) type l' /\ l' <> [].
Proof.
  intros v type s l l' Hs [N F] E.
  assert (E2 : l' = put_sub l s).
  { destruct (existsb (same_filter s) l) eqn:X.
    - apply existsb_filter in X. unfold add_unique in E. destruct l as [|t l]; [destruct X|]. rewrite (replace_sub_map s (t :: l) N X) in E. injection E as <-.
      unfold put_sub. apply existsb_filter in X. rewrite X. reflexivity.
    - unfold put_sub. rewrite X. unfold add_unique in E. destruct l as [|t l]; [injection E as <-; reflexivity|].
      rewrite replace_sub_new in E; [|intros Y; apply existsb_filter in Y; congruence]. destruct (MAX_SUBSCRIPTIONS <=? zlen (t :: l)); [discriminate|]. injection E as <-. reflexivity. }
  subst l'. split.
  - split; [apply put_sub_nodup; auto|]. cbn in *. unfold put_sub. destruct (existsb (same_filter s) l).
    + apply Forall_map. eapply Forall_impl; [|exact F]. intros t Ht. destruct (same_filter s t); auto.
    + apply Forall_app. split; auto.
  - unfold put_sub. destruct (existsb (same_filter s) l) eqn:X; [destruct l; [discriminate|discriminate]|destruct l; discriminate].
Qed.
Lemma sub_loop_gives : forall fuel tgt v type acc buf pos r ck sb, (type = 8 \/ type = 10) -> bytes buf -> 0 <= pos -> subs_ok (Some v) type acc ->
  p_sub_loop fuel tgt v (type =? 8) acc buf pos = (r, (ck, sb)) ->
  subs_ok (Some v) type sb /\ match r with POk l _ => subs_ok (Some v) type l /\ (acc <> [] \/ pos + 1 <= tgt -> l <> []) | _ => True end /\ (acc <> [] -> sb <> []) /\ pos <= ck /\ (pos < ck -> sb <> []).
Proof.
  induction fuel as [|fuel IH]; intros tgt v type acc buf pos r ck sb T B Hp Ha; cbn [p_sub_loop].
  - destruct (tgt <? pos + 1) eqn:E; intros X; injection X as <- <- <-; repeat (split; auto); try lia; intros [Y|Y]; auto; lia.
  - destruct (tgt <? pos + 1) eqn:E; [intros X; injection X as <- <- <-; repeat (split; auto); try lia; intros [Y|Y]; auto; lia|].
    destruct (p_sub tgt v (type =? 8) buf pos) as [s p2| | |] eqn:ES; try (intros X; injection X as <- <- <-; repeat (split; auto); lia).
    apply p_sub_gives in ES as [ES1 ES2]; auto.
    destruct (add_unique s acc) as [l'|] eqn:EA; [|intros X; injection X as <- <- <-; repeat (split; auto); lia].
    eapply add_unique_gives in EA as [EA1 EA2]; eauto. intros X. apply IH in X; auto; [|lia]. destruct X as (X1 & X2 & X3 & X4 & X5).
    split; auto. split; [|split; [auto|split; [lia|auto]]]. destruct r; auto. destruct X2 as [X2 X2']. split; auto.
Qed.
Lemma connect_gives : forall tgt v cf keep props flags, (v = 3 \/ v = 4 \/ v = 5) -> cf_ok v cf -> 0 <= keep < 65536 -> flags = 0 ->
  gives (fun b => vetted (mk_packet 1 flags v b)) (p_connect_payload tgt v cf keep props).
Proof.
  intros tgt v cf keep props flags V C K F. unfold p_connect_payload. gv.
  destruct (bit_testbit cf 2) as (E2 & _); [lia|]. destruct (bit_testbit cf 6) as (E6 & _); [lia|]. destruct (bit_testbit cf 7) as (E7 & _); [lia|].
  unfold c_will, c_pass, c_user. rewrite E2, E6, E7.
  eapply (gives_bind _ _ (fun w => present w = Z.testbit cf 2 /\ match w with Some w => topic_legal (w_topic w) | None => True end)).
  { destruct (Z.testbit cf 2); [|apply gives_ret; auto]. gv. apply gives_ret. split; [reflexivity|]. cbn [w_topic]. apply name_legal; tauto. }
  intros w [W1 W2].
  assert (O : forall (b : bool), gives (fun o => present o = b) (if b then fun buf pos => if tgt <? pos + 1 then PSoft
                          else pbind (p_utf8 tgt 1) (fun s => pret (Some (cstr s))) buf pos else pret None)).
  { intros [|]; [|apply gives_ret; reflexivity].
    apply (gives_pos _ _ (fun pos => tgt <? pos + 1) psoft); [apply gives_soft|]. gv. apply gives_ret. reflexivity. }
  eapply gives_bind; [apply O|]. intros user U. eapply gives_bind; [apply O|]. intros pass P.
  apply (gives_pos _ _ (fun pos => tgt <? pos + 1) (pret (BConnect v cf keep props (Some (cstr a)) w user pass)) psoft); [|apply gives_soft].
  apply gives_ret. destruct C as (C1 & C2 & C3 & C4 & C5). unfold vetted. cbn [pk_type pk_flags pk_ver pk_body]. repeat (split; [auto; fail|]). auto.
Qed.
Lemma zsub_in : forall buf pos n, bytes buf -> Forall byte (zsub buf pos n).
Proof. intros. apply zsub_bytes. auto. Qed.

Definition flags_ok (type flags : Z) : Prop := 0 <= flags < 16 /\ match reserved_flags type with Some f => flags = f | None => True end.
Lemma payload_gives : forall tgt ver type flags h sb buf pos b pos' ck sb',
  let v := match h with HConnect v _ _ _ => v | _ => match ver with Some v => v | None => 0 end end in
  bytes buf -> 0 <= pos <= tgt -> flags_ok type flags -> hdr_ok ver type flags h -> subs_ok ver type sb ->
  p_payload tgt v type h sb buf pos = (POk b pos', (ck, sb')) -> vetted (mk_packet type flags v b).
Proof.
  intros tgt ver type flags h sb buf pos b pos' ck sb' v B Hp [F0 F] Hh Hs E. subst v.
  destruct h as [v cf keep props|a r props|topic pid props|pid r props|pid props|pid props| |r props]; cbn [hdr_ok p_payload] in *.
  - destruct Hh as (-> & V & C & K). cbn in F. injection E as E _ _. eapply connect_gives in E; eauto; [apply E|lia].
  - destruct Hh as (-> & Ha & v & -> & Hr). cbn in F. destruct (tgt <? pos + 1); [|discriminate]. injection E as <- _ _ _.
    unfold vetted. cbn [pk_type pk_flags pk_ver pk_body]. auto.
  - destruct Hh as (-> & H1 & H2 & H3 & H4). injection E as E _ _. unfold p_publish_payload in E.
    assert (X : exists pl, b = BPublish topic pid props pl).
    { destruct (tgt - pos =? 0); [injection E as <- _; eauto|]. destruct (zlen buf <? tgt); [discriminate|]. injection E as <- _. eauto. }
    destruct X as [pl ->]. unfold vetted. cbn [pk_type pk_flags pk_ver pk_body].
    assert (Q : publish_qos flags = flags / 2 mod 4). { unfold publish_qos. rewrite two_bits_div by lia. reflexivity. }
    assert (D : publish_dup flags = 0 -> flags < 8).
    { unfold publish_dup. intros D. destruct (bit_testbit flags 3) as (_ & X); [lia|]. rewrite D in X. change (0 =? 0) with true in X.
      destruct (Z.testbit flags 3) eqn:E3; [discriminate|]. rewrite Z.testbit_false in E3 by lia. change (2 ^ 3) with 8 in E3. lia. }
    rewrite Q in *. repeat (split; [auto; fail|]). split; [intros X; destruct (H2 X); auto|]. auto.
  - destruct Hh as (T & Hpid & v & -> & Hr). destruct (tgt <? pos + 1); [|discriminate]. injection E as <- _ _ _.
    unfold vetted. cbn [pk_type pk_flags pk_ver pk_body]. split; [auto|]. split; [|auto].
    unfold reserved_flags in F. replace (type =? 3) with false in F by lia. replace (type =? 8) with false in F by lia. replace (type =? 10) with false in F by lia. rewrite !orb_false_r in F. destruct (type =? 6); auto.
  - destruct Hh as (T & Hpid & Hv). destruct ver as [v|]; [|congruence]. destruct (tgt <? pos + 1) eqn:EP; [discriminate|].
    destruct (p_sub_loop _ tgt v (type =? 8) sb buf pos) as [r [c1 c2]] eqn:EL. apply sub_loop_gives in EL; auto. destruct EL as (_ & EL & _).
    destruct r as [l p2| | |]; cbn [body_of_subs] in E; try discriminate. injection E as <- _ _ _. destruct EL as [[EL1 EL2] EL3].
    unfold vetted. cbn [pk_type pk_flags pk_ver pk_body]. split; [auto|]. split; [destruct T as [-> | ->]; cbn in F; auto|].
    split; [auto|]. split; [apply EL3; right; lia|]. auto.
    all: try lia.
  - destruct Hh as (T & Hpid & Hv). destruct ver as [v|]; [|congruence]. injection E as E _ _. unfold p_suback_payload in E.
    assert (FF : flags = 0) by (destruct T as [-> | ->]; cbn in F; auto).
    destruct ((type =? 11) && (v <? 5)) eqn:E11.
    + destruct (tgt <? pos + 1); [|discriminate]. injection E as <- _. unfold vetted. cbn [pk_type pk_flags pk_ver pk_body]. rewrite E11. auto.
    + destruct (tgt - pos =? 0) eqn:EZ; [discriminate|]. destruct (zlen buf <? tgt) eqn:EL; [discriminate|].
      destruct (forallb (ack_ok v type) (zsub buf pos (tgt - pos))) eqn:EF; [|discriminate]. injection E as <- _. unfold vetted. cbn [pk_type pk_flags pk_ver pk_body]. rewrite E11.
      repeat (split; [auto; fail|]). split.
      * intros X. assert (Y : zlen (zsub buf pos (tgt - pos)) = tgt - pos) by (apply zsub_len; lia). rewrite X, zlen_nil in Y. lia.
      * rewrite forallb_forall in EF. pose proof (zsub_in buf pos (tgt - pos) B) as BB. rewrite Forall_forall in *. intros c Hc. apply suback_code_in; auto.
        destruct T as [-> | ->]; [left; reflexivity|right]. cbn in E11. split; [reflexivity|lia].
  - destruct (tgt <? pos + 1); [|discriminate]. injection E as <- _ _ _. unfold vetted. cbn [pk_type pk_flags pk_ver pk_body]. split; auto. destruct Hh as [-> | ->]; cbn in F; auto.
  - destruct Hh as (-> & v & -> & Hr). cbn in F. destruct (tgt <? pos + 1); [|discriminate]. injection E as <- _ _ _. unfold vetted. cbn [pk_type pk_flags pk_ver pk_body]. auto.
Qed.

(** Sessions *)
Definition SI (ver : option Z) (s : psess) (buf : list Z) : Prop :=
  sess_ok s buf /\
  match ps_fixed s with Some fx => 1 <= fx_type fx | None => True end /\
  match ps_done s with
  | Some p => vetted p
  | None =>
      match ps_hdr s with
      | Some (h, _) => exists fx, ps_fixed s = Some fx /\ hdr_ok ver (fx_type fx) (fx_flags fx) h /\ subs_ok ver (fx_type fx) (ps_subs s) /\ ps_check s <= fx_target fx
      | None => True
      end
  end.
Lemma fx_flags_ok : forall fx buf, bytes buf -> fx_ok fx buf -> fx_type fx <= 15 /\ flags_ok (fx_type fx) (fx_flags fx).
Proof.
  intros fx buf B (_ & c & l & d & n & -> & _ & _ & _ & _ & F5 & F6 & F7). apply bytes_cons in B as [B _]. unfold byte in B.
  split; [rewrite F5, Z.shiftr_div_pow2 by lia; change (2 ^ 4) with 16; lia|]. unfold flags_ok. rewrite F6.
  split; [change 15 with (2 ^ 4 - 1); rewrite land_ones_mod by lia; change (2 ^ 4) with 16; lia|]. destruct (reserved_flags (fx_type fx)); auto.
Qed.
Lemma payload_inc : forall tgt v ver type flags h sb buf pos ck sb', bytes buf -> 0 <= pos <= tgt -> hdr_ok ver type flags h -> subs_ok ver type sb ->
  v = match h with HConnect v _ _ _ => v | _ => match ver with Some v => v | None => 0 end end ->
  forall r, p_payload tgt v type h sb buf pos = (r, (ck, sb')) -> subs_ok ver type sb' /\ match r with PInc => ck <= tgt | _ => True end.
Proof.
  intros tgt v ver type flags h sb buf pos ck sb' B Hp Hh Hs Ev r E. subst v.
  destruct h as [v cf keep props|a r' props|topic pid props|pid r' props|pid props|pid props| |r' props]; cbn [p_payload] in E;
    try (injection E as <- <- <-; split; [exact Hs|]; match goal with |- match ?x with _ => _ end => destruct x; auto; lia end).
  cbn [hdr_ok] in Hh. destruct Hh as (T & _ & V). destruct ver as [v|]; [|congruence].
  destruct (tgt <? pos + 1) eqn:ET; [injection E as <- <- <-; auto|].
  destruct (p_sub_loop (Z.to_nat (tgt - pos)) tgt v (type =? 8) sb buf pos) as [r2 [c1 c2]] eqn:EL. injection E as <- <- <-.
  pose proof EL as EL2. apply sub_loop_gives in EL2; auto; [|lia]. split; [apply EL2|].
  destruct r2; cbn [body_of_subs]; auto. apply sub_loop_inc in EL; auto; lia.
Qed.
Lemma parse_payload_vet : forall ver fx att h pp ck sb buf s, bytes buf -> fx_ok fx buf -> 1 <= fx_type fx -> 0 <= ck ->
  (fx_target fx <? pp = false -> ck <= fx_target fx) -> hdr_ok ver (fx_type fx) (fx_flags fx) h -> subs_ok ver (fx_type fx) sb ->
  parse_payload ver fx att h pp ck sb buf = RSess s -> SI ver s buf /\ ps_fixed s = Some fx.
Proof.
  intros ver fx att h pp ck sb buf s B F T H C Hh Hs E.
  pose proof (parse_payload_safe ver fx att h pp ck sb buf B F H) as P. rewrite E in P. destruct P as [P1 P2]. split; [|exact P2].
  unfold parse_payload in E. destruct (fx_target fx <? pp); [discriminate|]. specialize (C eq_refl). cbv zeta in E.
  set (v := match h with HConnect v _ _ _ => v | _ => _ end) in *.
  destruct (p_payload (fx_target fx) v (fx_type fx) h sb buf ck) as [r [c1 c2]] eqn:EP.
  pose proof (payload_inc (fx_target fx) v ver (fx_type fx) (fx_flags fx) h sb buf ck c1 c2 B ltac:(lia) Hh Hs eq_refl r EP) as [I1 I2].
  split; [exact P1|]. rewrite P2. split; [exact T|].
  destruct r as [b p2| | |]; try discriminate; injection E as <-; cbn [ps_hdr ps_done ps_subs ps_check ps_fixed].
  - apply (payload_gives (fx_target fx) ver (fx_type fx) (fx_flags fx) h sb buf ck b p2 c1 c2); auto; apply (fx_flags_ok fx buf); auto.
  - exists fx. auto.
Qed.
Lemma parse_rest_vet : forall ver fx s buf s', bytes buf -> fx_ok fx buf -> 1 <= fx_type fx -> 0 <= ps_check s ->
  match ps_hdr s with Some (h, _) => hdr_ok ver (fx_type fx) (fx_flags fx) h /\ subs_ok ver (fx_type fx) (ps_subs s) /\ ps_check s <= fx_target fx | None => True end ->
  parse_rest ver fx s buf = RSess s' -> SI ver s' buf /\ ps_fixed s' = Some fx.
Proof.
  intros ver fx s buf s' B F T H Hh. unfold parse_rest. destruct (ps_hdr s) as [[h pp]|].
  - destruct Hh as (H1 & H2 & H3). apply parse_payload_vet; auto.
  - cbv zeta. destruct (10 <? ps_attempts s + 1); [discriminate|].
    destruct (p_hdr (fx_target fx) ver (fx_type fx) (fx_flags fx) buf (fx_vpos fx)) as [h pp| | |] eqn:E; try discriminate.
    + pose proof F as (F0 & _). apply hdr_gives in E as [E1 E2]; auto; [|split; [auto|apply (fx_flags_ok fx buf); auto]].
      apply parse_payload_vet; auto; [lia|lia|]. split; [constructor|]. destruct ver; constructor.
    + intros X. injection X as <-. split; [|reflexivity]. split; [split; cbn [ps_check ps_fixed]; [lia|]; split; [auto|exact I]|]. cbn [ps_fixed ps_done ps_hdr]. auto.
Qed.
Lemma SI_init : forall ver buf, SI ver psess_init buf.
Proof. intros. split; [apply sess_init_ok|]. split; exact I. Qed.
Lemma parse_vet : forall ver s buf s', bytes buf -> SI ver s buf -> ps_done s = None -> packet_parse ver s buf = RSess s' -> SI ver s' buf.
Proof.
  intros ver s buf s' B S D. unfold packet_parse. destruct (zlen buf <? 2); [intros X; injection X as <-; auto|].
  destruct S as ((S1 & S2) & S3 & S4). rewrite D in S4. destruct (ps_fixed s) as [fx|] eqn:EF.
  - intros X. apply parse_rest_vet in X; auto; [apply X|apply S2|]. destruct (ps_hdr s) as [[h pp]|]; auto. destruct S4 as (fx' & E & S4). injection E as <-. auto.
  - destruct (p_fixed buf) as [[fx|]|] eqn:E; try discriminate; [|intros X; injection X as <-; split; [split; auto; rewrite EF; auto|]; rewrite EF, D; auto].
    subst s. intros X. apply parse_rest_vet in X; auto; [apply X|apply p_fixed_ok; auto|]. 
    destruct buf as [|c buf]; [discriminate|]. unfold p_fixed in E. cbv zeta in E. apply bytes_cons in B as [B _]. unfold byte in B.
    destruct (Z.shiftr c 4 =? 0) eqn:E0; [discriminate|]. destruct (match reserved_flags _ with Some f => _ | None => _ end); [discriminate|].
    destruct (p_vint (c :: buf) 1); try discriminate. injection E as <-. cbn [fx_type]. rewrite Z.shiftr_div_pow2 in * by lia. change (2 ^ 4) with 16 in *. lia.
Qed.
Lemma SI_cut : forall ver s buf fx, SI ver s buf -> ps_fixed s = Some fx -> SI ver s (firstn (Z.to_nat (fx_target fx)) buf).
Proof. intros ver s buf fx (S1 & S2) E. split; auto. apply sess_ok_cut; auto. Qed.
Lemma SI_app : forall ver s buf m, SI ver s buf -> SI ver s (buf ++ m).
Proof. intros ver s buf m (S1 & S2). split; auto. apply sess_ok_app; auto. Qed.

(** Connections *)
Definition fine (e : mevent) : Prop := match e with EPacket p => vetted p | _ => True end.
Definition vet (r : option conn * list mevent) : Prop :=
  Forall fine (snd r) /\ match fst r with Some c => SI (cn_ver c) (cn_sess c) (cn_buf c) /\ bytes (cn_buf c) | None => True end.
Lemma run_vet : forall fuel ver s buf, bytes buf -> SI ver s buf -> vet (conn_run fuel ver s buf).
Proof.
  induction fuel as [|fuel IH]; intros ver s buf B S; [cbn; split; [repeat constructor|exact I]|]. rewrite conn_run_eq.
  assert (STAY : forall s', SI ver s' buf -> vet (Some (mk_conn ver s' buf), [])) by (intros s' H; split; cbn [fst snd]; [constructor|cbn [cn_ver cn_sess cn_buf]; auto]).
  assert (CLOSE : forall e, fine e -> vet (None, [e])) by (intros e He; split; cbn [fst snd]; [repeat constructor; auto|auto]).
  assert (COM : forall s' fx, SI ver s' buf -> ps_fixed s' = Some fx -> vet (complete fuel ver buf s' fx)).
  { intros s' fx H1 H2. unfold complete. destruct (zlen buf <? fx_target fx) eqn:E; [apply STAY; auto|]. cbv zeta.
    pose proof H1 as ((_ & F) & _ & D). rewrite H2 in F. destruct F as (F & _). pose proof (fx_ok_target _ _ F) as F1.
    rewrite zsub_skip by lia. rewrite zsub_first.
    assert (BC : bytes (firstn (Z.to_nat (fx_target fx)) buf) /\ bytes (skipn (Z.to_nat (fx_target fx)) buf)).
    { apply bytes_app. rewrite firstn_skipn. auto. }
    assert (FIN : forall p, vetted p -> vet (finish fuel ver (skipn (Z.to_nat (fx_target fx)) buf) p)).
    { intros p Vp. unfold finish. destruct (skipn (Z.to_nat (fx_target fx)) buf) as [|x over].
      - split; cbn [fst snd]; [repeat constructor; auto|]. cbn [cn_ver cn_sess cn_buf]. split; [apply SI_init|constructor].
      - specialize (IH (next_ver ver p) psess_init (x :: over) (proj2 BC) (SI_init _ _)).
        destruct (conn_run fuel (next_ver ver p) psess_init (x :: over)) as [c ev]. destruct IH as [I1 I2]. cbn [fst snd] in *. split; cbn [fst snd]; [constructor; auto|auto]. }
    destruct (ps_done s') as [p|] eqn:ED; [apply FIN; auto|].
    destruct (packet_parse ver s' (firstn (Z.to_nat (fx_target fx)) buf)) as [s2| |] eqn:EP; try (apply CLOSE; exact I).
    apply parse_vet in EP; [|apply BC|apply SI_cut; auto|auto]. destruct EP as (_ & _ & P).
    destruct (ps_done s2); [apply FIN; auto|apply CLOSE; exact I]. }
  destruct (ps_fixed s) as [fx|] eqn:EF; [apply COM; auto|].
  destruct (packet_parse ver s buf) as [s2| |] eqn:EP; try (apply CLOSE; exact I).
  assert (D : ps_done s = None). { destruct S as ((_ & S) & _). rewrite EF in S. subst s. reflexivity. }
  apply parse_vet in EP; auto. destruct (ps_fixed s2) as [fx|] eqn:E2; [apply COM; auto|apply STAY; auto].
Qed.
Lemma recv_vet : forall chunks c, bytes (concat chunks) -> SI (cn_ver c) (cn_sess c) (cn_buf c) -> bytes (cn_buf c) ->
  Forall fine (snd (conn_recv_all c chunks)).
Proof.
  induction chunks as [|k chunks IH]; intros c B S BB; cbn [conn_recv_all concat] in *; [constructor|].
  apply bytes_app in B as [B1 B2].
  assert (V : vet (conn_recv c k)). { unfold conn_recv. apply run_vet; [apply bytes_app; auto|apply SI_app; auto]. }
  destruct (conn_recv c k) as [[c'|] ev]; destruct V as [V1 V2]; cbn [fst snd] in *; auto.
  destruct V2 as [V2 V3]. specialize (IH c' B2 V2 V3). destruct (conn_recv_all c' chunks) as [c2 ev2]. cbn [snd] in *. apply Forall_app. auto.
Qed.
