(** Proofs about averages. *)
From Coq Require Import Strings.String.
From Coq Require Import ZArith List Bool Lia.
From Verif Require Import Common MsgModel MsgSpec MsgProofs TypeModel TypeSpec TypeProofs ArrayModel ArraySpec ArrayProofs ArrayProps ConvModel ConvSpec ConvProofs ConvSafe AvgModel AvgSpec.
Import ListNotations.
Open Scope Z_scope.

Lemma stored_iff d y : bytes d -> 8 <= zlen d -> stored_number d 0 y <-> y = le_dec (firstn 8 d).
Proof.
  intros B L. assert (LF : zlen (firstn 8 d) = 8) by (unfold zlen in *; rewrite firstn_length; lia).
  assert (BF : bytes (firstn 8 d)) by (rewrite <- (firstn_skipn 8 d) in B; apply Forall_app in B; tauto). split.
  - intros (b & a & -> & Lb & R). destruct b; [ | rewrite zlen_cons in Lb; pose proof (zlen_nonneg _ b); lia ]. cbn [app].
    assert (E : firstn 8 (rev (be_enc 8 y) ++ a) = le_enc 8 y). { change (rev (be_enc 8 y)) with (le_enc 8 y). rewrite firstn_app. pose proof (le_enc_len 8 y) as H. unfold zlen in H. replace (8 - length (le_enc 8 y))%nat with 0%nat by lia. rewrite firstn_all2 by lia. cbn [firstn]. apply app_nil_r. }
    rewrite E, le_dec_enc; [ reflexivity | exact R ].
  - intros ->. exists [], (skipn 8 d). split; [ | split; [ reflexivity | ] ].
    + change (rev (be_enc 8 (le_dec (firstn 8 d)))) with (le_enc 8 (le_dec (firstn 8 d))). rewrite (le_enc_dec _ BF LF). cbn [app]. now rewrite firstn_skipn.
    + exact (le_dec_bound _ BF LF).
Qed.

Definition good (v : value) : Prop := bytes (v_data v) /\ (In (v_type v) integer_types -> 8 <= zlen (v_data v)).

Lemma first_good vs tag v : Forall good vs -> first_tagged vs tag v -> good v.
Proof. intros F (b & a & -> & _). apply Forall_app in F. destruct F as (_ & F). now inversion F. Qed.

Lemma get_64_spec vs tag : Forall good vs ->
  (exists x, get_64 vs (str_bytes tag) = ROk (Some x) /\ 0 <= x < 2^64 /\ forall y, number vs tag y <-> y = x) \/
  (get_64 vs (str_bytes tag) = ROk None /\ forall y, ~ number vs tag y).
Proof.
  intros F. unfold get_64. destruct (get_by_tag vs (str_bytes tag)) as [ v | ] eqn:G.
  - pose proof (proj1 (get_by_tag_some _ _ _) G) as FT. destruct (first_good _ _ _ F FT) as (B & L).
    destruct (is_64 (v_type v)) eqn:I; cbn [negb].
    + apply is_64_iff in I. specialize (L I). replace (zlen (v_data v) <? 8) with false by lia. left. eexists. split; [ reflexivity | ].
      assert (ST : stored_number (v_data v) 0 (le_dec (firstn 8 (v_data v)))) by (apply stored_iff; auto). split; [ destruct ST as (? & ? & _ & _ & R); exact R | ].
      intros y. split.
      * intros (w & FW & _ & SW). apply get_by_tag_some in FW. rewrite G in FW. injection FW as <-. now apply stored_iff.
      * intros ->. exists v. auto.
    + right. split; [ reflexivity | ]. intros y (w & FW & IW & _). apply get_by_tag_some in FW. rewrite G in FW. injection FW as <-. apply is_64_iff in IW. congruence.
  - right. split; [ reflexivity | ]. intros y (w & FW & _). apply get_by_tag_some in FW. congruence.
Qed.

Definition add (k : calculation) (r : reading) : calculation :=
  mk_calc (if k_max k <=? r_value r then r_value r else k_max k) (if r_value r <? k_min k then r_value r else k_min k)
          (u64 (k_sum k + r_value r)) (u64 (k_entries k + 1))
          (if r_from r <? k_from k then r_from r else k_from k) (if k_to k <? r_to r then r_to r else k_to k).
Definition in_range (r : reading) : Prop := 0 <= r_value r < 2^64 /\ 0 <= r_from r < 2^64 /\ 0 <= r_to r < 2^64.
Definition can_read (m : rrr_msg_msg) : Prop := MSG_IS_ARRAY m = true /\ exists vs, contents m vs /\ Forall good vs.

Lemma process_spec after k m : can_read m ->
  (exists r, has_reading m r /\ in_range r /\ process_message after k m = ROk (add k r)) \/ ((forall r, ~ has_reading m r) /\ process_message after k m = ROk k).
Proof.
  intros (A & vs & C & F). unfold process_message. rewrite A. cbn [negb]. rewrite (C after). cbn [rbind]. change (0 =? 0) with true. cbn [negb].
  assert (U : forall r, has_reading m r -> number vs "measurement" (r_value r) /\ number vs "timestamp_from" (r_from r) /\ number vs "timestamp_to" (r_to r)).
  { intros r (ws & CW & H). specialize (CW []). rewrite (C []) in CW. injection CW as <-. exact H. }
  destruct (get_64_spec vs "measurement" F) as [ (x & -> & Rx & X) | (-> & X) ]; cbn [rbind]; [ | right; split; [ | reflexivity ]; intros r H; apply (X (r_value r)); apply U, H ].
  destruct (get_64_spec vs "timestamp_from" F) as [ (a & -> & Ra & Y) | (-> & Y) ]; cbn [rbind]; [ | right; split; [ | reflexivity ]; intros r H; apply (Y (r_from r)); apply U, H ].
  destruct (get_64_spec vs "timestamp_to" F) as [ (b & -> & Rb & Z) | (-> & Z) ]; cbn [rbind]; [ | right; split; [ | reflexivity ]; intros r H; apply (Z (r_to r)); apply U, H ].
  left. exists (mk_reading x a b). split; [ | split; [ split; [ exact Rx | split; [ exact Ra | exact Rb ] ] | reflexivity ] ].
  exists vs. split; [ exact C | ]. cbn [r_value r_from r_to]. split; [ apply X; reflexivity | split; [ apply Y; reflexivity | apply Z; reflexivity ] ].
Qed.

Lemma process_all_spec after ms : Forall can_read ms -> forall k, exists rs, readings ms rs /\ Forall in_range rs /\ process_all after k ms = ROk (fold_left add rs k) /\ zlen rs <= zlen ms.
Proof.
  induction 1 as [ | m ms H F IH ]; intros k; cbn [process_all].
  - exists []. split; [ apply readings_nil | split; [ apply Forall_nil | split; [ reflexivity | rewrite !zlen_nil; apply Z.le_refl ] ] ].
  - destruct (process_spec after k m H) as [ (r & HR & IR & ->) | (HN & ->) ]; cbn [rbind].
    + destruct (IH (add k r)) as (rs & R1 & R2 & R3 & R4). exists (r :: rs). split; [ apply readings_one; assumption | split; [ apply Forall_cons; assumption | split; [ exact R3 | rewrite !zlen_cons; lia ] ] ].
    + destruct (IH k) as (rs & R1 & R2 & R3 & R4). exists rs. split; [ apply readings_none; assumption | split; [ exact R2 | split; [ exact R3 | rewrite zlen_cons; lia ] ] ].
Qed.

Lemma total_cons r rs : total (r :: rs) = r_value r + total rs.
Proof. reflexivity. Qed.
Lemma total_nonneg rs : Forall in_range rs -> 0 <= total rs.
Proof. induction 1 as [ | r rs (A & _) F IH ]; [ unfold total; cbn; lia | rewrite total_cons; lia ]. Qed.

Lemma fold_inv rs : Forall in_range rs -> forall k, 0 <= k_sum k -> 0 <= k_entries k -> k_sum k + total rs < 2^64 -> k_entries k + zlen rs < 2^64 ->
  let k' := fold_left add rs k in
  k_sum k' = k_sum k + total rs /\ k_entries k' = k_entries k + zlen rs /\
  (k_max k' = k_max k \/ In (k_max k') (map r_value rs)) /\ Forall (fun y => y <= k_max k') (map r_value rs) /\ k_max k <= k_max k' /\
  (k_min k' = k_min k \/ In (k_min k') (map r_value rs)) /\ Forall (fun y => k_min k' <= y) (map r_value rs) /\ k_min k' <= k_min k /\
  (k_from k' = k_from k \/ In (k_from k') (map r_from rs)) /\ Forall (fun y => k_from k' <= y) (map r_from rs) /\ k_from k' <= k_from k /\
  (k_to k' = k_to k \/ In (k_to k') (map r_to rs)) /\ Forall (fun y => y <= k_to k') (map r_to rs) /\ k_to k <= k_to k'.
Proof.
  induction 1 as [ | r rs (A & B & C) F IH ]; intros k S0 E0 S1 E1; cbn [fold_left map].
  - rewrite zlen_nil in *. unfold total in *; cbn [map fold_right] in *. repeat apply conj; try lia; auto.
  - rewrite total_cons in S1 |- *. rewrite zlen_cons in E1 |- *. pose proof (total_nonneg rs F). pose proof (zlen_nonneg _ rs).
    assert (ES : k_sum (add k r) = k_sum k + r_value r) by (unfold add, u64; cbn [k_sum]; apply Z.mod_small; lia).
    assert (EE : k_entries (add k r) = k_entries k + 1) by (unfold add, u64; cbn [k_entries]; apply Z.mod_small; lia).
    specialize (IH (add k r)). rewrite ES, EE in IH.
    destruct IH as (I1 & I2 & I3 & I4 & I5 & I6 & I7 & I8 & I9 & I10 & I11 & I12 & I13 & I14); try lia.
    set (k' := fold_left add rs (add k r)) in *.
    unfold add in I3, I5, I6, I8, I9, I11, I12, I14; cbn [k_max k_min k_from k_to] in *.
    repeat apply conj; try lia; try (constructor; [ | assumption ]);
      repeat match goal with
      | |- context [_ <=? _] => idtac
      | H : context [if ?b then _ else _] |- _ => destruct b eqn:?
      end; cbn [In]; try lia; intuition (try lia).
Qed.

Lemma map_nonempty {A B} (f : A -> B) l : l <> [] -> exists x r, map f l = f x :: r /\ In x l.
Proof. destruct l as [ | x l ]; [ congruence | ]. intros _. exists x, (map f l). split; [ reflexivity | left; reflexivity ]. Qed.

Lemma fold_summary rs : Forall in_range rs -> rs <> [] -> total rs < 2^64 -> zlen rs < 2^64 ->
  let k := fold_left add rs (mk_calc 0 (2^64 - 1) 0 0 (2^64 - 1) 0) in
  k_entries k = zlen rs /\ k_sum k = total rs /\ summary rs (k_from k) (k_to k) (k_sum k / k_entries k) (k_max k) (k_min k) /\
  0 <= k_from k < 2^64 /\ 0 <= k_to k < 2^64 /\ 0 <= k_max k < 2^64 /\ 0 <= k_min k < 2^64.
Proof.
  intros F NE T L. cbv zeta. pose proof (fold_inv rs F (mk_calc 0 (2^64 - 1) 0 0 (2^64 - 1) 0)) as I. cbn [k_sum k_entries k_max k_min k_from k_to] in I. cbv zeta in I.
  destruct I as (I1 & I2 & I3 & I4 & I5 & I6 & I7 & I8 & I9 & I10 & I11 & I12 & I13 & I14); try lia.
  set (k := fold_left add rs _) in *.
  assert (RV : Forall (fun y => 0 <= y < 2^64) (map r_value rs)) by (apply Forall_map; revert F; apply Forall_impl; intros ? (? & _); assumption).
  assert (RF : Forall (fun y => 0 <= y < 2^64) (map r_from rs)) by (apply Forall_map; revert F; apply Forall_impl; intros ? (_ & ? & _); assumption).
  assert (RT : Forall (fun y => 0 <= y < 2^64) (map r_to rs)) by (apply Forall_map; revert F; apply Forall_impl; intros ? (_ & _ & ?); assumption).
  assert (HI : forall l x, Forall (fun y => 0 <= y < 2^64) l -> l <> [] -> (x = 0 \/ In x l) -> Forall (fun y => y <= x) l -> greatest x l /\ 0 <= x < 2^64).
  { clear. intros l x R N D FF. destruct D as [ -> | D ]; [ | split; [ split; assumption | rewrite Forall_forall in R; auto ] ]. destruct l as [ | y l ]; [ congruence | ]. inversion R; inversion FF; subst. assert (y = 0) by lia. subst. split; [ split; [ left; reflexivity | assumption ] | lia ]. }
  assert (LO : forall l x, Forall (fun y => 0 <= y < 2^64) l -> l <> [] -> (x = 2^64 - 1 \/ In x l) -> Forall (fun y => x <= y) l -> least x l /\ 0 <= x < 2^64).
  { clear. intros l x R N D FF. destruct D as [ -> | D ]; [ | split; [ split; assumption | rewrite Forall_forall in R; auto ] ]. destruct l as [ | y l ]; [ congruence | ]. inversion R; inversion FF; subst. assert (y = 2^64 - 1) by lia. subst. split; [ split; [ left; reflexivity | assumption ] | lia ]. }
  assert (MN : forall f : reading -> Z, map f rs <> []) by (intros f; destruct rs; [ congruence | discriminate ]).
  destruct (HI _ _ RV (MN _) I3 I4) as (G1 & B1). destruct (LO _ _ RV (MN _) I6 I7) as (G2 & B2). destruct (LO _ _ RF (MN _) I9 I10) as (G3 & B3). destruct (HI _ _ RT (MN _) I12 I13) as (G4 & B4).
  assert (E1 : k_sum k = total rs) by lia. assert (E2 : k_entries k = zlen rs) by lia.
  split; [ exact E2 | ]. split; [ exact E1 | ]. split; [ | auto ]. unfold summary. rewrite E1, E2. repeat split; auto; try apply G1; try apply G2; try apply G3; try apply G4.
Qed.

Definition five (from to average max min : Z) : list value :=
  [unsigned "timestamp_from" from; unsigned "timestamp_to" to; unsigned "average" average; unsigned "max" max; unsigned "min" min].

Lemma str_bytes_bytes t : bytes (str_bytes t).
Proof. induction t as [ | a t IH ]; cbn [str_bytes]; constructor; [ | exact IH ]. pose proof (Ascii.nat_ascii_bounded a). unfold byte. lia. Qed.
Lemma unsigned_ok tag x : bytes (str_bytes tag) -> zlen (str_bytes tag) < 2^32 -> array_value (unsigned tag x).
Proof.
  intros B L. assert (LE : zlen (rev (be_enc 8 x)) = 8) by apply (le_enc_len 8 x). unfold array_value, packable, unsigned. cbn [v_type v_flags v_tag v_import_length v_elements v_data].
  repeat split; try assumption; try lia; [ apply Forall_rev, be_enc_bytes | left; split; [ left; reflexivity | rewrite LE; reflexivity ] ].
Qed.

Lemma spawn_spec c time from to average max min : topic_fits c -> 0 <= from < 2^64 -> 0 <= to < 2^64 -> 0 <= average < 2^64 -> 0 <= max < 2^64 -> 0 <= min < 2^64 ->
  exists m, spawn_message c time from to average max min = ROk m /\ contents m (five from to average max min) /\ MSG_TOPIC m = topic_of_config c /\ mm_timestamp m = time /\ is_measurement m = true.
Proof.
  intros (TL & TB) R1 R2 R3 R4 R5. unfold spawn_message, push_u64. rewrite push_64_ok by exact R1. cbn [rbind]. rewrite push_64_ok by exact R2. cbn [rbind]. rewrite push_64_ok by exact R3. cbn [rbind]. rewrite push_64_ok by exact R4. cbn [rbind]. rewrite push_64_ok by exact R5. cbn [rbind app].
  fold (topic_of_config c).
  change (c_string (str_bytes "timestamp_from")) with (str_bytes "timestamp_from"). change (c_string (str_bytes "timestamp_to")) with (str_bytes "timestamp_to"). change (c_string (str_bytes "average")) with (str_bytes "average"). change (c_string (str_bytes "max")) with (str_bytes "max"). change (c_string (str_bytes "min")) with (str_bytes "min").
  change (new_message_from_array _ time (topic_of_config c)) with (new_message_from_array (five from to average max min) time (topic_of_config c)).
  assert (AV : Forall array_value (five from to average max min)) by (unfold five; repeat (apply Forall_cons || apply Forall_nil); apply unsigned_ok; try (vm_compute; reflexivity); apply str_bytes_bytes).
  assert (WS : wire_size (five from to average max min) = 149).
  { unfold five, wire_size, unsigned. cbn [v_tag v_data]. pose proof (fun x => le_enc_len 8 x) as LE. unfold le_enc in LE. rewrite !LE. reflexivity. }
  destruct (new_message_ok (five from to average max min) time (topic_of_config c) AV) as (o & HI & E); [ rewrite WS; lia | ].
  exists (array_msg time (topic_of_config c) o). split; [ exact E | ]. split; [ | split; [ apply topic_of | split; reflexivity ] ].
  intros after. apply (ArrayProofs.append_ok after _ time _ _ [] HI). rewrite (images_len _ _ HI), WS. lia.
Qed.

Definition rng (k : calculation) : Prop := 0 <= k_max k < 2^64 /\ 0 <= k_min k < 2^64 /\ 0 <= k_sum k < 2^64 /\ 0 <= k_entries k < 2^64 /\ 0 <= k_from k < 2^64 /\ 0 <= k_to k < 2^64.
Lemma fold_range rs : Forall in_range rs -> forall k, rng k -> rng (fold_left add rs k).
Proof.
  induction 1 as [ | r rs (A & B & C) F IH ]; intros k (K1 & K2 & K3 & K4 & K5 & K6); cbn [fold_left]; [ repeat split; lia | ]. apply IH. unfold rng, add, u64. cbn [k_max k_min k_sum k_entries k_from k_to].
  pose proof (Z.mod_pos_bound (k_sum k + r_value r) (2^64) ltac:(lia)). pose proof (Z.mod_pos_bound (k_entries k + 1) (2^64) ltac:(lia)).
  repeat apply conj; try assumption; try (apply H); try (apply H0); match goal with |- context [if ?b then _ else _] => destruct b end; lia.
Qed.
Lemma average_range k : rng k -> k_entries k <> 0 -> 0 <= k_sum k / k_entries k < 2^64.
Proof.
  intros (_ & _ & S & E & _) N. split; [ apply Z.div_pos; lia | ]. apply Z.le_lt_trans with (k_sum k); [ | lia ]. apply Z.div_le_upper_bound; nia.
Qed.

Lemma maintain_forall P c now l : Forall P l -> Forall P (maintain_buffer c now l).
Proof. intros F. unfold maintain_buffer. apply Forall_forall. intros x H. apply filter_In in H. rewrite Forall_forall in F. apply F, H. Qed.

Lemma event_out after c now time input : Forall can_read input -> topic_fits c -> exists ms, event_average after c now time input = Out ms.
Proof.
  intros F T. unfold event_average. destruct (process_all_spec after _ (maintain_forall _ c now _ F) (mk_calc 0 (2^64 - 1) 0 0 (2^64 - 1) 0)) as (rs & _ & R & -> & _).
  assert (K : rng (fold_left add rs (mk_calc 0 (2^64 - 1) 0 0 (2^64 - 1) 0))) by (apply (fold_range rs R); unfold rng; cbn [k_max k_min k_sum k_entries k_from k_to]; lia).
  set (k := fold_left _ _ _) in *. destruct (Z.eqb_spec (k_entries k) 0) as [ E | E ]; [ eauto | ]. pose proof (average_range k K E). destruct K as (K1 & K2 & K3 & K4 & K5 & K6).
  destruct (spawn_spec c time (k_from k) (k_to k) (k_sum k / k_entries k) (k_max k) (k_min k) T) as (m & -> & _); auto. eauto.
Qed.

Lemma event_spec after c now time input : Forall can_read input -> topic_fits c -> zlen input < 2^64 ->
  exists rs, readings (maintain_buffer c now input) rs /\ (total rs < 2^64 ->
    (rs = [] /\ event_average after c now time input = Out []) \/
    exists from to average max min m, summary rs from to average max min /\ event_average after c now time input = Out [m] /\
      contents m (five from to average max min) /\ MSG_TOPIC m = topic_of_config c /\ mm_timestamp m = time /\ is_measurement m = true).
Proof.
  intros F T L. unfold event_average. destruct (process_all_spec after _ (maintain_forall _ c now _ F) (mk_calc 0 (2^64 - 1) 0 0 (2^64 - 1) 0)) as (rs & RD & R & -> & LR).
  exists rs. split; [ exact RD | ]. intros TT. destruct rs as [ | r rs ]; [ left; split; reflexivity | right ].
  assert (LL : zlen (r :: rs) < 2^64). { assert (zlen (maintain_buffer c now input) <= zlen input) by (unfold maintain_buffer, zlen; apply Nat2Z.inj_le; clear; induction input as [ | a l IH ]; cbn [filter length]; [ lia | destruct (negb _); cbn [length]; lia ]). lia. }
  destruct (fold_summary (r :: rs) R ltac:(discriminate) TT LL) as (E & SM & SU & B1 & B2 & B3 & B4). set (k := fold_left add (r :: rs) _) in *.
  assert (N : k_entries k <> 0) by (rewrite E, zlen_cons; pose proof (zlen_nonneg _ rs); lia). replace (k_entries k =? 0) with false by (symmetry; apply Z.eqb_neq; exact N).
  assert (AR : 0 <= k_sum k / k_entries k < 2^64). { pose proof (total_nonneg _ R). pose proof (zlen_nonneg _ (r :: rs)). split; [ apply Z.div_pos; lia | ]. apply Z.le_lt_trans with (k_sum k); [ | lia ]. apply Z.div_le_upper_bound; nia. }
  destruct (spawn_spec c time (k_from k) (k_to k) (k_sum k / k_entries k) (k_max k) (k_min k) T B1 B2 AR B3 B4) as (m & -> & HM).
  exists (k_from k), (k_to k), (k_sum k / k_entries k), (k_max k), (k_min k), m. split; [ exact SU | ]. split; [ reflexivity | exact HM ].
Qed.


Lemma readable_can c m : readable c m -> is_measurement m = true -> can_read m.
Proof. intros (_ & _ & H) I. split; [ | exact (H I) ]. unfold is_measurement in I. apply andb_true_iff in I. tauto. Qed.

Lemma poll_out c input m : topic_fits c -> readable c m -> exists ms, snd (poll_callback c input m) = Out ms.
Proof.
  intros (T & _) (C & B & _). unfold poll_callback. destruct (is_measurement m); [ | destruct (g_discard c); eexists; reflexivity ]. cbn [snd]. destruct (g_preserve c); [ | eexists; reflexivity ]. unfold topic_of_config in *. destruct (g_topic c) as [ t | ]; [ | eexists; reflexivity ].
  rewrite (topic_set_lemma m t C B). eexists; reflexivity.
Qed.

Lemma run_app after c o os : topic_fits c -> Forall (readable c) (received os) -> forall input, Forall can_read input ->
  exists outs, length outs = length os /\ Forall (fun x => exists ms, x = Out ms) outs /\ run after c input (os ++ [o]) = outs ++ [snd (step after c (since os input) o)] /\ Forall can_read (since os input).
Proof.
  intros T. induction os as [ | a os IH ]; intros R input FI; cbn [app run].
  - exists []. cbn [since app]. destruct (step after c input o) as (i & x). split; [ reflexivity | ]. split; [ constructor | ]. split; [ | exact FI ]. cbn [snd]. destruct x; reflexivity.
  - destruct a as [ m | now time ]; cbn [step received since] in *.
    + inversion R as [ | ? ? RM RR ]; subst. destruct (poll_out c input m T RM) as (ms & E).
      assert (EI : fst (poll_callback c input m) = if is_measurement m then input ++ [m] else input). { unfold poll_callback. destruct (is_measurement m); [ reflexivity | destruct (g_discard c); reflexivity ]. }
      destruct (poll_callback c input m) as (i & x). cbn [fst snd] in *. subst x i.
      destruct (IH RR (if is_measurement m then input ++ [m] else input)) as (outs & L & FO & RU & FC).
      { destruct (is_measurement m) eqn:I; [ apply Forall_app; split; [ exact FI | constructor; [ eapply readable_can; eauto | constructor ] ] | exact FI ]. }
      exists (Out ms :: outs). cbn [length]. split; [ now rewrite L | ]. split; [ constructor; eauto | ]. split; [ cbn [app]; now rewrite RU | exact FC ].
    + destruct (event_out after c now time input FI T) as (ms & ->). destruct (IH R []) as (outs & L & FO & RU & FC); [ constructor | ].
      exists (Out ms :: outs). cbn [length]. split; [ now rewrite L | ]. split; [ constructor; eauto | ]. split; [ cbn [app]; now rewrite RU | exact FC ].
Qed.

Lemma last_app {A} (l : list A) x d : last (l ++ [x]) d = x.
Proof. induction l as [ | a [ | b l ] IH ]; [ reflexivity | reflexivity | exact IH ]. Qed.

Lemma maintain_window c now l : 0 <= g_timespan c -> g_timespan c * 1000000 <= now < 2^64 -> maintain_buffer c now l = filter (fun m => now - g_timespan c * 1000000 <=? mm_timestamp m) l.
Proof.
  intros G B. unfold maintain_buffer. replace (u64 (now - u64 (g_timespan c * 1000000))) with (now - g_timespan c * 1000000) by (unfold u64; rewrite (Z.mod_small (g_timespan c * 1000000)) by lia; rewrite Z.mod_small by lia; reflexivity).
  apply filter_ext. intros m. lia.
Qed.

Lemma msg_topic_set_exact_copy m t : mm_consistent m -> zlen t < 2^16 -> 30 + zlen t + zlen (MSG_DATA m) < 2^32 ->
  exists m', msg_msg_topic_set m t = Ok m' /\ MSG_TOPIC m' = t /\ MSG_DATA m' = MSG_DATA m /\ MSG_TYPE m' = MSG_TYPE m /\ MSG_CLASS m' = MSG_CLASS m /\ mm_timestamp m' = mm_timestamp m.
Proof.
  intros C T B. rewrite topic_set_lemma by auto. eexists. split; [ reflexivity | ]. rewrite topic_of. split; [ reflexivity | ]. split; [ apply data_of; cbn [msg_size]; auto | ]. repeat split.
Qed.
