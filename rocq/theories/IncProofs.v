(** Proofs about the incrementer. *)
From Coq Require Import ZArith List Bool Lia.
From Verif Require Import Common Dec MapModel MapProofs IncModel IncSpec.
Import ListNotations.
Open Scope Z_scope.

(** ** Bit arithmetic *)
Lemma bits_loop_spec : forall f n, 0 <= n < 2 ^ Z.of_nat f ->
  0 <= bits_loop f n <= Z.of_nat f /\ n < 2 ^ bits_loop f n /\ (0 < n -> 2 ^ (bits_loop f n - 1) <= n) /\ (n = 0 -> bits_loop f n = 0).
Proof.
  induction f as [|f IH]; intros n Hn.
  - cbn in *. lia.
  - cbn [bits_loop]. rewrite Nat2Z.inj_succ, Z.pow_succ_r in Hn by lia.
    destruct (Z.eqb_spec n 0) as [->|E]; [ cbn; lia | ].
    destruct (IH (n / 2)) as (H1 & H2 & H3 & H4); [ set (p := 2 ^ Z.of_nat f) in *; clearbody p; lia | ].
    set (b := bits_loop f (n / 2)) in *. rewrite Z.pow_add_r by lia. change (2^1) with 2.
    replace (1 + b - 1) with b by lia.
    split; [ lia | ]. split; [ lia | ]. split; [ | lia ]. intros _.
    destruct (Z.eq_dec (n / 2) 0) as [E2|E2].
    + rewrite H4 by auto. cbn. lia.
    + replace b with (1 + (b - 1)).
      2: lia. rewrite Z.pow_add_r; [ change (2^1) with 2; lia | lia | ].
      assert (b <> 0); [ intros Eb; rewrite Eb in H2; cbn in H2; lia | lia ].
Qed.

Lemma bit_requirement_spec : forall n, 0 <= n < 2^64 ->
  0 <= bit_requirement n <= 64 /\ n < 2 ^ bit_requirement n.
Proof. intros n Hn. destruct (bits_loop_spec 64 n Hn) as (H1 & H2 & _). unfold bit_requirement. split; [ lia | auto ]. Qed.
Lemma bits_loop_le : forall f n k, 0 <= k -> 0 <= n < 2 ^ k -> bits_loop f n <= k.
Proof.
  induction f as [|f IH]; intros n k Hk Hn; cbn [bits_loop]; [ lia | ].
  destruct (Z.eqb_spec n 0); [ lia | ].
  assert (1 <= k). { destruct (Z.eq_dec k 0) as [->|]; [ cbn in Hn; lia | lia ]. }
  assert (bits_loop f (n / 2) <= k - 1); [ | lia ].
  apply IH; [ lia | ]. replace k with (1 + (k - 1)) in Hn by lia. rewrite Z.pow_add_r in Hn by lia.
  change (2^1) with 2 in Hn. lia.
Qed.

Lemma pow_pos : forall b, 0 <= b -> 0 < 2 ^ b.
Proof. intros. apply Z.pow_pos_nonneg; lia. Qed.

Lemma mask_eq : forall max, 0 <= max < 2^64 -> max_to_prefix_mask max = 2^64 - 2 ^ bit_requirement max.
Proof.
  intros max Hm. destruct (bit_requirement_spec max Hm) as [Hb _]. set (b := bit_requirement max) in *.
  unfold max_to_prefix_mask, u64. fold b. rewrite Z.shiftl_mul_pow2 by lia.
  assert (E : 2^64 = 2 ^ b * 2 ^ (64 - b)) by (rewrite <- Z.pow_add_r by lia; f_equal; lia).
  pose proof (pow_pos b ltac:(lia)). pose proof (pow_pos (64 - b) ltac:(lia)).
  replace ((2^64 - 1) * 2^b) with ((2^64 - 2^b) + (2^b - 1) * 2^64) by ring.
  rewrite Z.mod_add by lia. apply Z.mod_small.
  set (P := 2^b) in *. set (Q := 2^(64-b)) in *. clearbody P Q. nia.
Qed.

Lemma land_high : forall v b, 0 <= v < 2^64 -> 0 <= b <= 64 -> Z.land v (2^64 - 2^b) = v / 2^b * 2^b.
Proof.
  intros v b Hv Hb.
  replace (2^64 - 2^b) with (Z.shiftl (Z.ones (64 - b)) b).
  2: { rewrite Z.shiftl_mul_pow2, Z.ones_equiv by lia. 
       replace (2^64) with (2 ^ (64 - b) * 2 ^ b) by (rewrite <- Z.pow_add_r by lia; f_equal; lia). lia. }
  rewrite <- Z.shiftr_div_pow2, <- Z.shiftl_mul_pow2 by lia.
  apply Z.bits_inj'. intros n Hn. rewrite Z.land_spec.
  destruct (Z.ltb_spec n b).
  - rewrite !Z.shiftl_spec_low by lia. apply andb_false_r.
  - rewrite !Z.shiftl_spec by lia. rewrite Z.shiftr_spec by lia. replace (n - b + b) with n by lia.
    destruct (Z.ltb_spec n 64).
    + rewrite Z.ones_spec_low by lia. apply andb_true_r.
    + rewrite (testbit_high 64 v n) by lia. reflexivity.
Qed.
Lemma lnot_mask : forall b, 0 <= b <= 64 -> Z.lxor (2^64 - 2^b) (2^64 - 1) = 2^b - 1.
Proof.
  intros b Hb.
  replace (2^64 - 2^b) with (Z.shiftl (Z.ones (64 - b)) b).
  2: { rewrite Z.shiftl_mul_pow2, Z.ones_equiv by lia. 
       replace (2^64) with (2 ^ (64 - b) * 2 ^ b) by (rewrite <- Z.pow_add_r by lia; f_equal; lia). lia. }
  change (2^64 - 1) with (Z.ones 64). replace (2^b - 1) with (Z.ones b) by (rewrite Z.ones_equiv; lia).
  apply Z.bits_inj'. intros n Hn. rewrite Z.lxor_spec.
  destruct (Z.ltb_spec n b).
  - rewrite Z.shiftl_spec_low, !Z.ones_spec_low by lia. reflexivity.
  - rewrite Z.shiftl_spec by lia. rewrite (Z.ones_spec_high b) by lia.
    destruct (Z.ltb_spec n 64).
    + rewrite !Z.ones_spec_low by lia. reflexivity.
    + rewrite !Z.ones_spec_high by lia. reflexivity.
Qed.

Lemma verify_value_prefix_spec : forall value max prefix, 0 <= value < 2^64 -> 0 <= max < 2^64 ->
  0 <= prefix -> prefix * 2 ^ bit_requirement max < 2^64 ->
  verify_value_prefix value max prefix = if value / 2 ^ bit_requirement max =? prefix then 0 else 1.
Proof.
  intros value max prefix Hv Hm Hp Hfit. destruct (bit_requirement_spec max Hm) as [Hb _].
  unfold verify_value_prefix. rewrite mask_eq by auto. set (b := bit_requirement max) in *.
  rewrite land_high, Z.shiftl_mul_pow2 by lia. pose proof (pow_pos b ltac:(lia)).
  unfold u64. rewrite (Z.mod_small (prefix * 2^b)) by lia.
  destruct (Z.eqb_spec (value / 2^b) prefix) as [->|N].
  - rewrite Z.eqb_refl. reflexivity.
  - destruct (Z.eqb_spec (prefix * 2^b) (value / 2^b * 2^b)) as [E|]; [ | reflexivity ].
    exfalso. apply N. apply Z.mul_reg_r in E; lia.
Qed.

Lemma strip_prefix_spec : forall value max, 0 <= value < 2^64 -> 0 <= max < 2^32 ->
  strip_prefix value max = Some (value / 2 ^ bit_requirement max, value mod 2 ^ bit_requirement max).
Proof.
  intros value max Hv Hm. destruct (bit_requirement_spec max ltac:(lia)) as [Hb _].
  assert (Hb2 : bit_requirement max <= 32) by (apply bits_loop_le; lia).
  unfold strip_prefix. rewrite mask_eq by lia. set (b := bit_requirement max) in *.
  rewrite land_high, lnot_mask, land_ones_mod by lia. rewrite Z.shiftr_div_pow2 by lia.
  pose proof (pow_pos b ltac:(lia)). rewrite Z.div_mul by lia.
  assert (2 ^ b <= 2 ^ 32) by (apply Z.pow_le_mono_r; lia).
  pose proof (Z.mod_pos_bound value (2^b) ltac:(lia)).
  replace (0xffffffff <? value mod 2^b) with false by lia. reflexivity.
Qed.

Lemma apply_prefix_spec : forall value max prefix, 0 <= max < 2^64 -> 0 <= value < 2 ^ bit_requirement max ->
  0 <= prefix -> prefix * 2 ^ bit_requirement max < 2^64 ->
  apply_prefix value max prefix = prefix * 2 ^ bit_requirement max + value.
Proof.
  intros value max prefix Hm Hv Hp Hfit. destruct (bit_requirement_spec max Hm) as [Hb _].
  unfold apply_prefix. set (b := bit_requirement max) in *. rewrite Z.shiftl_mul_pow2 by lia.
  pose proof (pow_pos b ltac:(lia)).
  unfold u64. rewrite (Z.mod_small (prefix * 2^b)) by nia.
  rewrite Z.lor_comm. apply lor_add; lia.
Qed.

Lemma bits_to_max_spec : forall n acc, (0 <= acc)%Z -> forall k, 0 <= k -> acc = 2 ^ k - 1 -> k + Z.of_nat n <= 64 ->
  bits_to_max_loop n acc = 2 ^ (k + Z.of_nat n) - 1.
Proof.
  induction n as [|n IH]; intros acc Ha k Hk E Hle; cbn [bits_to_max_loop].
  - rewrite E. replace (k + Z.of_nat 0) with k by lia. reflexivity.
  - pose proof (pow_pos k Hk).
    assert (P : 2 ^ (k + 1) <= 2 ^ 64) by (apply Z.pow_le_mono_r; lia). rewrite Z.pow_add_r in P by lia. change (2^1) with 2 in P.
    assert (EE : Z.lor (u64 (Z.shiftl acc 1)) 1 = 2 ^ (k + 1) - 1).
    { rewrite Z.shiftl_mul_pow2 by lia. change (2^1) with 2.
      unfold u64. rewrite Z.mod_small by lia.
      change 2 with (2^1) at 1. rewrite lor_add by lia. rewrite E, Z.pow_add_r by lia. change (2^1) with 2. lia. }
    pose proof (pow_pos (k + 1) ltac:(lia)).
    rewrite EE. rewrite (IH (2 ^ (k + 1) - 1) ltac:(lia) (k + 1)) by lia. f_equal. f_equal. lia.
Qed.

(** ** Verified settings *)
Definition settings_ok (m min max pos prefix : Z) : Prop :=
  1 <= m <= 255 /\ 0 <= min <= max /\ max < 2^32 /\ m <= max - min + 1 /\ 0 <= pos < m /\
  0 <= prefix /\ prefix * 2 ^ bit_requirement max < 2^64.

Lemma verify_iff : forall m min max pos prefix,
  0 <= m < 2^64 -> 0 <= min < 2^64 -> 0 <= max < 2^64 -> 0 <= pos < 2^64 -> 0 <= prefix < 2^64 ->
  increment_verify m min max pos prefix = 0 <-> settings_ok m min max pos prefix.
Proof.
  intros m min max pos prefix H1 H2 H3 H4 H5. unfold increment_verify, settings_ok.
  destruct (Z.ltb_spec 0xff m); [ split; intros; [ discriminate | lia ] | ].
  destruct (Z.ltb_spec 0xffffffff min); [ split; intros; [ discriminate | lia ] | ].
  destruct (Z.ltb_spec 0xffffffff max); [ split; intros; [ discriminate | lia ] | ].
  destruct (Z.ltb_spec 0xffffffff pos); [ split; intros; [ discriminate | lia ] | ].
  destruct (Z.ltb_spec max min); [ split; intros; [ discriminate | lia ] | ].
  destruct (Z.eqb_spec m 0); [ split; intros; [ discriminate | lia ] | ].
  unfold u64. rewrite !Z.mod_small by lia.
  destruct (Z.ltb_spec (max - min + 1) m); [ split; intros; [ discriminate | lia ] | ].
  destruct (Z.ltb_spec (m - 1) pos); [ split; intros; [ discriminate | lia ] | ].
  destruct (bit_requirement_spec max ltac:(lia)) as [Hb Hbm].
  destruct (bits_loop_spec 64 prefix H5) as (Hp1 & Hp2 & Hp3 & Hp4). fold (bit_requirement prefix) in *.
  set (b := bit_requirement max) in *. set (bp := bit_requirement prefix) in *.
  pose proof (pow_pos b ltac:(lia)). pose proof (pow_pos bp ltac:(lia)).
  destruct (Z.ltb_spec 64 (bp + b)) as [HG|HL]; split; intros HH; try discriminate.
  - exfalso. destruct HH as (_ & _ & _ & _ & _ & _ & HF).
    assert (0 < prefix). { destruct (Z.eq_dec prefix 0) as [E|]; [ specialize (Hp4 E); lia | lia ]. }
    specialize (Hp3 ltac:(lia)).
    assert (bp <> 0). { intros E. rewrite E in Hp2. change (2^0) with 1 in Hp2. lia. }
    assert (PP : 2 ^ 64 <= 2 ^ (bp - 1 + b)) by (apply Z.pow_le_mono_r; lia).
    rewrite Z.pow_add_r in PP by lia.
    set (P := 2 ^ b) in *. set (Q := 2 ^ (bp - 1)) in *. clearbody P Q. nia.
  - repeat split; try lia.
    assert (PP : 2 ^ (bp + b) <= 2 ^ 64) by (apply Z.pow_le_mono_r; lia). rewrite Z.pow_add_r in PP by lia.
    set (P := 2 ^ b) in *. set (Q := 2 ^ bp) in *. clearbody P Q. nia.
  - reflexivity.
Qed.

(** ** The next value *)
Lemma mod_mul_add : forall k m r, 0 <= r < m -> (k * m + r) mod m = r.
Proof. intros. rewrite Z.add_comm, Z.mod_add by lia. apply Z.mod_small. auto. Qed.

Lemma class_form : forall m min max pos v, 1 <= m -> in_class m min max pos v -> exists k, v = k * m + pos.
Proof. intros m min max pos v Hm [_ H]. exists (v / m). rewrite <- H. rewrite (Z.div_mod v m) at 1 by lia. lia. Qed.

Lemma mod_shift_inj : forall N x a b, 0 <= a < N -> 0 <= b < N -> a <= b -> (x + a) mod N = (x + b) mod N -> a = b.
Proof.
  intros N x a b Ha Hb Hab E.
  pose proof (Z.div_mod (x + a) N ltac:(lia)) as D1. pose proof (Z.div_mod (x + b) N ltac:(lia)) as D2.
  rewrite E in D1. set (r := (x + b) mod N) in *. set (qa := (x + a) / N) in *. set (qb := (x + b) / N) in *.
  clearbody r qa qb. clear E. assert (b - a = N * (qb - qa)) by lia. assert (qb - qa = 0) by nia. nia.
Qed.

Section Mod.
Variables m min max pos prefix : Z.
Hypothesis OK : settings_ok m min max pos prefix.

Definition least : Z := let t := min - min mod m + pos in if t <? min then t + m else t.

Lemma least_spec : least_in_class m min max pos least.
Proof.
  destruct OK as (H1 & H2 & H3 & H4 & H5 & _).
  pose proof (Z.mod_pos_bound min m ltac:(lia)) as HB. pose proof (Z.div_mod min m ltac:(lia)) as HD.
  unfold least. set (q := min / m) in *. set (r := min mod m) in *. clearbody q r.
  destruct (Z.ltb_spec (min - r + pos) min).
  - split.
    + split; [ lia | ]. replace (min - r + pos + m) with ((q + 1) * m + pos) by lia. apply mod_mul_add; lia.
    + intros w Hw. destruct (class_form m min max pos _ ltac:(lia) Hw) as [k ->]. destruct Hw as [Hw _].
      assert (q < k) by nia. nia.
  - split.
    + split; [ lia | ]. replace (min - r + pos) with (q * m + pos) by lia. apply mod_mul_add; lia.
    + intros w Hw. destruct (class_form m min max pos _ ltac:(lia) Hw) as [k ->]. destruct Hw as [Hw _].
      assert (q <= k) by nia. nia.
Qed.

Lemma increment_mod_eq : forall value, 0 <= value < 2^32 ->
  increment_mod value m min max pos =
    let t := value - value mod m + m + pos in if (max <? t) || (t <? min) then least else t.
Proof.
  intros value Hv. pose proof least_spec as [[HL _] _]. destruct OK as (H1 & H2 & H3 & H4 & H5 & _).
  pose proof (Z.mod_pos_bound value m ltac:(lia)). pose proof (Z.mod_le value m ltac:(lia) ltac:(lia)).
  pose proof (Z.mod_pos_bound min m ltac:(lia)). pose proof (Z.mod_le min m ltac:(lia) ltac:(lia)).
  unfold increment_mod. set (r := value mod m) in *. set (rm := min mod m) in *.
  unfold u64. rewrite (Z.mod_small (value - r + m + pos)) by lia. cbv zeta.
  destruct ((max <? value - r + m + pos) || (value - r + m + pos <? min)) eqn:E.
  - rewrite (Z.mod_small (min - rm + pos)) by lia. unfold least in *. fold rm in HL |- *.
    destruct (min - rm + pos <? min) eqn:E2.
    + rewrite (Z.mod_small (min - rm + pos + m)) by lia. unfold u32. rewrite Z.mod_small by lia. reflexivity.
    + unfold u32. rewrite Z.mod_small by lia. reflexivity.
  - unfold u32. rewrite Z.mod_small by lia. reflexivity.
Qed.

Lemma increment_mod_class : forall value, 0 <= value < 2^32 -> in_class m min max pos (increment_mod value m min max pos).
Proof.
  intros value Hv. rewrite increment_mod_eq by auto. cbv zeta. pose proof least_spec as [HL _].
  destruct OK as (H1 & H2 & H3 & H4 & H5 & _).
  destruct ((max <? _) || _) eqn:E; [ auto | ].
  split; [ lia | ]. pose proof (Z.div_mod value m ltac:(lia)).
  replace (value - value mod m + m + pos) with ((value / m + 1) * m + pos) by lia. apply mod_mul_add; lia.
Qed.

Lemma increment_mod_step : forall v, in_class m min max pos v ->
  increment_mod v m min max pos = if max <? v + m then least else v + m.
Proof.
  intros v Hv. destruct OK as (H1 & H2 & H3 & H4 & H5 & _). destruct Hv as [Hr Hm].
  rewrite increment_mod_eq by lia. cbv zeta. rewrite Hm. replace (v - pos + m + pos) with (v + m) by lia.
  replace (v + m <? min) with false by lia. rewrite orb_false_r. reflexivity.
Qed.

Lemma increment_mod_next : forall v, in_class m min max pos v ->
  next_in_class m min max pos v (increment_mod v m min max pos).
Proof.
  intros v Hv. pose proof least_spec as HL. pose proof (increment_mod_class v) as HC.
  destruct OK as (H1 & H2 & H3 & H4 & H5 & _).
  assert (0 <= v < 2^32) by (destruct Hv; lia). specialize (HC ltac:(auto)).
  split; [ auto | ]. rewrite increment_mod_step by auto.
  destruct (Z.ltb_spec max (v + m)) as [HG|HG].
  - right. split; [ auto | ]. intros x Hx.
    destruct (class_form m min max pos _ ltac:(lia) Hv) as [k Ek], (class_form m min max pos _ ltac:(lia) Hx) as [j Ej].
    destruct Hx as [Hx _]. subst. assert (j < k + 1) by nia. nia.
  - left. split; [ lia | ]. intros x Hx.
    destruct (class_form m min max pos _ ltac:(lia) Hv) as [k Ek], (class_form m min max pos _ ltac:(lia) Hx) as [j Ej].
    subst. assert (j <= k \/ k + 1 <= j) as [|] by lia; [ left | right ]; nia.
Qed.

Lemma next_unique : forall v w w', in_class m min max pos v ->
  next_in_class m min max pos v w -> next_in_class m min max pos v w' -> w = w'.
Proof.
  intros v w w' Hv [C1 [[L1 N1]|[[_ M1] T1]]] [C2 [[L2 N2]|[[_ M2] T2]]].
  - destruct (N1 _ C2), (N2 _ C1); lia.
  - specialize (T2 _ C1). lia.
  - specialize (T1 _ C2). lia.
  - specialize (M1 _ C2). specialize (M2 _ C1). lia.
Qed.

(** Number of values in the class and position of a value. *)
Definition class_n : Z := (max - least) / m + 1.
Definition index (v : Z) : Z := (v - least) / m.

Lemma index_spec : forall v, in_class m min max pos v -> v = least + index v * m /\ 0 <= index v < class_n.
Proof.
  intros v Hv. pose proof least_spec as [HL HM]. pose proof (HM _ Hv) as Hle.
  assert (H1 : 1 <= m) by (destruct OK; lia).
  destruct (class_form _ _ _ _ _ H1 Hv) as [k Ek], (class_form _ _ _ _ _ H1 HL) as [j Ej].
  destruct Hv as [Hv _]. unfold index, class_n.
  assert (E : v - least = (k - j) * m) by lia. rewrite E, Z.div_mul by lia.
  split; [ lia | ]. split; [ nia | ].
  assert (k - j <= (max - least) / m); [ apply Z.div_le_lower_bound; lia | lia ].
Qed.

Lemma index_next : forall v w, in_class m min max pos v -> next_in_class m min max pos v w ->
  index w = (index v + 1) mod class_n.
Proof.
  intros v w Hv Hn. rewrite (next_unique v w _ Hv Hn (increment_mod_next v Hv)).
  destruct (index_spec v Hv) as [E HB].
  pose proof least_spec as [HL HM]. assert (H1 : 1 <= m) by (destruct OK; lia).
  rewrite increment_mod_step by auto. destruct (Z.ltb_spec max (v + m)).
  - assert (index v + 1 = class_n) as ->.
    { unfold class_n in *. assert ((max - least) / m < index v + 1); [ apply Z.div_lt_upper_bound; lia | lia ]. }
    rewrite Z_mod_same_full. unfold index. rewrite Z.sub_diag. reflexivity.
  - assert (EI : index (v + m) = index v + 1).
    { unfold index. replace (v + m - least) with ((v - least) + 1 * m) by lia. rewrite Z.div_add by lia. reflexivity. }
    assert (HC : in_class m min max pos (v + m)).
    { destruct Hv as [Hv Hm]. split; [ lia | ]. replace (v + m) with (v + 1 * m) by lia. rewrite Z.mod_add by lia. auto. }
    destruct (index_spec _ HC) as [_ HB2]. rewrite EI in *. rewrite Z.mod_small by lia. reflexivity.
Qed.

Lemma class_n_bound : (max - min + 1) / m <= class_n /\ 1 <= class_n.
Proof.
  pose proof least_spec as [[HL _] _]. assert (H1 : 1 <= m) by (destruct OK; lia).
  assert (HL2 : least <= min + m - 1).
  { destruct OK as (_ & H2 & _ & _ & H5 & _). pose proof (Z.mod_pos_bound min m ltac:(lia)). unfold least.
    destruct (_ <? min) eqn:E; lia. }
  unfold class_n. split.
  - replace (max - min + 1) with ((max - min + 1 - m) + 1 * m) by lia. rewrite Z.div_add by lia.
    assert ((max - min + 1 - m) / m <= (max - least) / m); [ apply Z.div_le_mono; lia | lia ].
  - assert (0 <= (max - least) / m) by (apply Z.div_pos; lia). lia.
Qed.

Lemma linked_nth : forall l v, in_class m min max pos v ->
  linked (next_in_class m min max pos) (v :: l) ->
  forall k w, nth_error (v :: l) k = Some w -> in_class m min max pos w /\ index w = (index v + Z.of_nat k) mod class_n.
Proof.
  induction l as [|w l IH]; intros v Hv HL k x Hk.
  - destruct k as [|k]; [ | destruct k; discriminate ]. injection Hk as <-.
    split; [ auto | ]. destruct (index_spec v Hv). rewrite Z.add_0_r, Z.mod_small; auto.
  - destruct HL as [HN HL]. destruct k as [|k].
    + injection Hk as <-. split; [ auto | ]. destruct (index_spec v Hv). rewrite Z.add_0_r, Z.mod_small; auto.
    + cbn [nth_error] in Hk. assert (Hw : in_class m min max pos w) by (destruct HN; auto).
      destruct (IH w Hw HL k x Hk) as [Hx Ex]. split; [ auto | ]. rewrite Ex, (index_next v w Hv HN).
      pose proof class_n_bound. rewrite Z.add_mod_idemp_l by lia. f_equal. lia.
Qed.

Lemma linked_nodup : forall l, Forall (in_class m min max pos) l -> linked (next_in_class m min max pos) l ->
  zlen l <= (max - min + 1) / m -> NoDup l.
Proof.
  intros [|v l] HF HL Hlen; [ constructor | ]. apply NoDup_nth_error. intros i j Hi E.
  inversion HF as [|? ? Hv HF']; subst.
  destruct (nth_error (v :: l) i) as [w|] eqn:Ei; [ | apply nth_error_Some in Hi; congruence ].
  assert (Hj : (j < length (v :: l))%nat) by (apply nth_error_Some; congruence).
  destruct (linked_nth l v Hv HL i w Ei) as [_ I1], (linked_nth l v Hv HL j w (eq_sym E)) as [_ I2].
  destruct (index_spec v Hv) as [_ HI]. pose proof class_n_bound as [HN _].
  unfold zlen in Hlen. rewrite I1 in I2. set (N := class_n) in *. set (x := index v) in *. clearbody N x.
  set (D := (max - min + 1) / m) in *. clearbody D.
  assert (Hi2 : 0 <= Z.of_nat i < N) by lia. assert (Hj2 : 0 <= Z.of_nat j < N) by lia.
  destruct (Z.le_gt_cases (Z.of_nat i) (Z.of_nat j)) as [Hij|Hij].
  - pose proof (mod_shift_inj _ _ _ _ Hi2 Hj2 Hij I2). clear I1 I2. lia.
  - pose proof (mod_shift_inj _ _ _ _ Hj2 Hi2 ltac:(clear I1 I2; lia) (eq_sym I2)). clear I1 I2. lia.
Qed.
End Mod.

(** ** The module *)
(** An id an instance may emit: prefix and value. *)
Definition id_ok (c : inc_config) (e : Z) : Prop :=
  exists p v, e = p * 2 ^ bit_requirement (c_max c) + v /\
    in_class (c_mod c) (c_min c) (c_max c) (c_pos c) v /\
    0 <= p /\ p * 2 ^ bit_requirement (c_max c) < 2^64 /\ (0 < c_prefix c -> p = c_prefix c).
(** The following one: same prefix, next value. *)
Definition next_id (c : inc_config) (e e' : Z) : Prop :=
  exists p v v', e = p * 2 ^ bit_requirement (c_max c) + v /\ e' = p * 2 ^ bit_requirement (c_max c) + v' /\
    in_class (c_mod c) (c_min c) (c_max c) (c_pos c) v /\
    next_in_class (c_mod c) (c_min c) (c_max c) (c_pos c) v v'.

Definition cfg_ok (c : inc_config) : Prop := settings_ok (c_mod c) (c_min c) (c_max c) (c_pos c) (c_prefix c).

Lemma fit_plus : forall P p v, 0 < P -> (P | 2^64) -> 0 <= p -> p * P < 2^64 -> 0 <= v < P -> 0 <= p * P + v < 2^64.
Proof. intros P p v HP [q Hq] Hp Hf Hv. assert (p < q) by nia. nia. Qed.

Lemma pow_divides : forall b, 0 <= b <= 64 -> (2 ^ b | 2 ^ 64).
Proof. intros b Hb. exists (2 ^ (64 - b)). rewrite <- Z.pow_add_r by lia. f_equal. lia. Qed.

Lemma id_ok_range : forall c e, cfg_ok c -> id_ok c e -> 0 <= e < 2^64.
Proof.
  intros c e HC (p & v & -> & [Hv _] & Hp & Hf & _). destruct HC as (_ & H2 & H3 & _).
  destruct (bit_requirement_spec (c_max c) ltac:(lia)) as [Hb Hb2].
  pose proof (pow_divides _ Hb). pose proof (pow_pos _ (proj1 Hb)). apply fit_plus; auto; lia.
Qed.

(** One step from an old id. *)
Definition advance (c : inc_config) (old : Z) : Z :=
  let b := bit_requirement (c_max c) in
  let p := if old / 2^b =? 0 then c_prefix c else old / 2^b in
  p * 2^b + increment_mod (old mod 2^b) (c_mod c) (c_min c) (c_max c) (c_pos c).

Lemma advance_ok : forall c old, cfg_ok c -> 0 <= old < 2^64 ->
  (old <> 0 -> 0 < c_prefix c -> old / 2 ^ bit_requirement (c_max c) = c_prefix c) ->
  id_ok c (advance c old).
Proof.
  intros c old HC Ho HV. unfold advance. set (b := bit_requirement (c_max c)) in *.
  pose proof HC as (H1 & H2 & H3 & H4 & H5 & H6 & H7). fold b in H7.
  destruct (bit_requirement_spec (c_max c) ltac:(lia)) as [Hb Hb2]. fold b in Hb, Hb2.
  assert (Hb3 : b <= 32) by (apply bits_loop_le; lia).
  assert (HP : 2 ^ b <= 2 ^ 32) by (apply Z.pow_le_mono_r; lia).
  pose proof (pow_pos b ltac:(lia)). pose proof (Z.mod_pos_bound old (2^b) ltac:(lia)).
  exists (if old / 2^b =? 0 then c_prefix c else old / 2^b), (increment_mod (old mod 2^b) (c_mod c) (c_min c) (c_max c) (c_pos c)).
  split; [ reflexivity | ]. split; [ eapply increment_mod_class; [ exact HC | lia ] | ].
  assert (D : old / 2^b * 2^b <= old).
  { rewrite Z.mul_comm. apply Z.mul_div_le. lia. }
  assert (0 <= old / 2^b) by (apply Z.div_pos; lia).
  fold b. destruct (Z.eqb_spec (old / 2^b) 0) as [E|E].
  - repeat split; auto.
  - assert (old <> 0) by (intros ->; rewrite Z.div_0_l in E; lia). split; [ lia | ]. split; [ lia | auto ].
Qed.

Lemma advance_next : forall c e, cfg_ok c -> id_ok c e -> next_id c e (advance c e).
Proof.
  intros c e HC (p & v & E & Hv & Hp & Hf & HV). unfold advance. set (b := bit_requirement (c_max c)) in *.
  pose proof HC as (H1 & H2 & H3 & H4 & H5 & H6 & H7).
  destruct (bit_requirement_spec (c_max c) ltac:(lia)) as [Hb Hb2]. fold b in Hb, Hb2.
  pose proof (pow_pos b ltac:(lia)). assert (Hvr : 0 <= v < 2^b) by (destruct Hv; lia).
  assert (Ed : e / 2^b = p). { rewrite E, Z.add_comm, Z.div_add by lia. rewrite Z.div_small by lia. lia. }
  assert (Em : e mod 2^b = v). { rewrite E. apply mod_mul_add; lia. }
  rewrite Ed, Em. exists p, v, (increment_mod v (c_mod c) (c_min c) (c_max c) (c_pos c)).
  fold b. split; [ auto | ]. split.
  - destruct (Z.eqb_spec p 0); [ | reflexivity ]. replace (c_prefix c) with p; [ reflexivity | ].
    destruct (Z.eq_dec (c_prefix c) 0); [ lia | ]. apply HV. lia.
  - split; [ auto | ]. eapply increment_mod_next; eauto.
Qed.

(** Stored strings are decimal numbers of 64 bits. *)
Definition map_nums (m : rmap) : Prop := forall t v, map_get m t = Some v -> exists n, v = dec_str n /\ 0 <= n < 2^64.
Definition st_ok (s : inc_state) : Prop :=
  map_nums (s_initial s) /\ map_nums (s_used s) /\ (forall t v, db_get (s_db s) t = Some v -> 0 <= v < 2^64).

Lemma get_id_range : forall c s t a old, st_ok s -> get_id c s t a = Some old -> 0 <= old < 2^64.
Proof.
  intros c s t a old (HI & HU & HD) H. unfold get_id in H.
  destruct (map_get (s_used s) t) as [v|] eqn:EU.
  { destruct (HU _ _ EU) as (n & -> & Hn). rewrite strtoull_dec in H by auto. congruence. }
  destruct (get_id_from_db c s t a) as [v|] eqn:EG; [ | discriminate ].
  destruct (negb (v =? 0)).
  - injection H as <-. unfold get_id_from_db in EG. destruct (c_db c); [ | injection EG as <-; lia ].
    destruct a; try discriminate. destruct (db_get (s_db s) t) eqn:ED; injection EG as <-; [ eauto | lia ].
  - destruct (map_get (s_initial s) t) as [w|] eqn:EI; [ | injection H as <-; lia ].
    destruct (HI _ _ EI) as (n & -> & Hn). rewrite strtoull_dec in H by auto. congruence.
Qed.

(** What a subject message does: nothing, or advance from the old id. *)
Lemma process_subject_spec : forall c s t g p, cfg_ok c -> st_ok s ->
  process_subject c s t g p = (s, Drop) \/
  exists old, get_id c s t g = Some old /\
    (old <> 0 -> 0 < c_prefix c -> old / 2 ^ bit_requirement (c_max c) = c_prefix c) /\
    process_subject c s t g p =
      (let '(ok, s') := update_id c s t (advance c old) p in
       (s', if ok then Emit t (advance c old) (t ++ [47] ++ dec_str (advance c old)) else Drop)).
Proof.
  intros c s t g p HC HS. unfold process_subject.
  destruct (get_id c s t g) as [old|] eqn:EG; [ | auto ].
  pose proof (get_id_range _ _ _ _ _ HS EG) as Ho.
  pose proof HC as (H1 & H2 & H3 & H4 & H5 & H6 & H7).
  destruct (bit_requirement_spec (c_max c) ltac:(lia)) as [Hb Hb2]. 
  set (b := bit_requirement (c_max c)) in *.
  assert (Hb3 : b <= 32) by (apply bits_loop_le; lia).
  assert (HP : 2 ^ b <= 2 ^ 32) by (apply Z.pow_le_mono_r; lia).
  pose proof (pow_pos b ltac:(lia)). pose proof (Z.mod_pos_bound old (2^b) ltac:(lia)).
  match goal with |- (match ?X with Some _ => _ | None => _ end = _) \/ _ => set (st := X) end.
  assert (ST : st = Some None \/
    (st = Some (Some (old / 2^b, old mod 2^b)) /\ (old <> 0 -> 0 < c_prefix c -> old / 2^b = c_prefix c))).
  { unfold st. destruct (Z.eqb_spec old 0) as [E0|E0].
    - destruct (c_tag c && _ && _); [ auto | ]. right. rewrite E0, Z.div_0_l, Z.mod_0_l by lia. split; [ reflexivity | lia ].
    - rewrite verify_value_prefix_spec by (auto; lia). fold b.
      destruct (Z.ltb_spec 0 (c_prefix c)); cbn [andb].
      + destruct (Z.eqb_spec (old / 2^b) (c_prefix c)); cbn [negb]; [ | left; reflexivity ].
        change (negb (0 =? 0)) with false. cbv iota.
        right. rewrite strip_prefix_spec by lia. auto.
      + right. rewrite strip_prefix_spec by lia. split; [ reflexivity | lia ]. }
  clearbody st. destruct ST as [->|[-> HV]]; [ auto | ].
  replace (0xffffffff <? old mod 2^b) with false by lia.
  assert (HA : apply_prefix (increment_mod (old mod 2^b) (c_mod c) (c_min c) (c_max c) (c_pos c)) (c_max c)
      (if old / 2^b =? 0 then c_prefix c else old / 2^b) = advance c old).
  { pose proof (increment_mod_class _ _ _ _ _ HC (old mod 2^b) ltac:(lia)) as [HI _].
    assert (D : old / 2^b * 2^b <= old) by (rewrite Z.mul_comm; apply Z.mul_div_le; lia).
    assert (0 <= old / 2^b) by (apply Z.div_pos; lia).
    rewrite apply_prefix_spec; fold b; try lia.
    - reflexivity.
    - destruct (old / 2^b =? 0); lia.
    - destruct (old / 2^b =? 0); lia. }
  rewrite HA.
  destruct (65535 <? _); [ auto | ]. right. exists old. auto.
Qed.

Lemma map_nums_replace : forall m t n, map_nums m -> 0 <= n < 2^64 -> map_nums (map_replace m t (dec_str n)).
Proof.
  intros m t n H Hn t' v E. rewrite map_get_replace in E. destruct (str_eqb t t'); [ | eauto ].
  injection E as <-. exists n. auto.
Qed.
Lemma db_get_cons : forall d t v t', db_get ((t, v) :: d) t' = if str_eqb t t' then Some v else db_get d t'.
Proof. reflexivity. Qed.

Lemma update_id_ok : forall c s t id p, st_ok s -> 0 <= id < 2^64 -> st_ok (snd (update_id c s t id p)).
Proof.
  intros c s t id p (HI & HU & HD) Hid. unfold update_id, map_replace_confirm.
  assert (HD' : forall t' v, db_get (if c_db c then match p with DbFail => s_db s | _ => (t, id) :: s_db s end else s_db s) t' = Some v -> 0 <= v < 2^64).
  { intros t' v. destruct (c_db c); [ | apply HD ]. destruct p; try apply HD; rewrite db_get_cons;
      (destruct (str_eqb t t'); [ intros E; injection E as <-; auto | apply HD ]). }
  destruct (_ =? 0); cbn [snd]; (split; [ exact HI | split; [ | exact HD' ] ]); cbn [s_used]; [ apply map_nums_replace; auto | auto ].
Qed.

Lemma inc_step_ok : forall c s o, cfg_ok c -> st_ok s -> op_ok o -> st_ok (fst (inc_step c s o)).
Proof.
  intros c s o HC HS HO. destruct o as [t g p|t id|]; cbn [inc_step].
  - destruct (process_subject_spec c s t g p HC HS) as [->|(old & EG & HV & ->)]; [ auto | ].
    pose proof (advance_ok c old HC (get_id_range _ _ _ _ _ HS EG) HV) as HA.
    pose proof (update_id_ok c s t (advance c old) p HS (id_ok_range _ _ HC HA)) as HU.
    destruct (update_id c s t (advance c old) p) as [ok s']. exact HU.
  - cbn [fst]. destruct (c_tag c); [ | auto ]. unfold process_id. destruct (_ && _); [ auto | ].
    destruct HS as (HI & HU & HD). split; [ | split; auto ]. cbn [s_initial]. apply map_nums_replace; auto.
  - destruct HS as (HI & HU & HD). cbn [fst]. split; [ | split; auto ]; intros t v E; discriminate.
Qed.

(** What is stored when [last] was the last id emitted for the topic. *)
Definition remembers (s : inc_state) (t : list Z) (e : Z) : Prop :=
  map_get (s_used s) t = Some (dec_str e) \/ (map_get (s_used s) t = None /\ db_get (s_db s) t = Some e).
Definition synced (s : inc_state) : Prop :=
  forall t v, map_get (s_used s) t = Some v -> exists e, v = dec_str e /\ 0 <= e < 2^64 /\ db_get (s_db s) t = Some e.

(** [mode] true: restarts allowed, DB in sync; false: no restarts. *)
Definition op_mode (c : inc_config) (mode : bool) (o : inc_op) : Prop :=
  if mode then is_lost o = false else is_restart o = false.
Definition st_mode (c : inc_config) (mode : bool) (s : inc_state) (t : list Z) (last : option Z) : Prop :=
  (if mode then c_db c = true /\ 0 < c_min c /\ synced s /\ match last with Some e => remembers s t e | None => True end
   else match last with Some e => map_get (s_used s) t = Some (dec_str e) | None => True end).

Lemma update_id_used : forall c s t id p ok s', update_id c s t id p = (ok, s') ->
  (ok = true /\ s_used s' = map_replace (s_used s) t (dec_str id) /\ (c_db c = true -> s_db s' = (t, id) :: s_db s)) \/
  (ok = false /\ s_used s' = s_used s /\ (p <> DbLost -> s_db s' = s_db s)).
Proof.
  intros c s t id p ok s' H. unfold update_id, map_replace_confirm in H. generalize dependent (dec_str id). intros v H.
  set (u := map_replace (s_used s) t v) in *. clearbody u.
  destruct (c_db c); [ destruct p | ]; cbn [Z.eqb Pos.eqb] in H; injection H as <- <-; cbn [s_used s_db].
  - left. auto.
  - right. auto.
  - right. split; auto. split; auto. congruence.
  - left. split; auto. split; auto. discriminate.
Qed.

Lemma emitted_cons : forall t o l, emitted t (o :: l) =
  (match o with Emit t' id _ => if str_eqb t' t then [id] else [] | _ => [] end) ++ emitted t l.
Proof. reflexivity. Qed.

Lemma remembered_get : forall c s t e g old mode, cfg_ok c -> id_ok c e -> st_mode c mode s t (Some e) ->
  get_id c s t g = Some old -> old = e.
Proof.
  intros c s t e g old mode HC He HM HG. pose proof (id_ok_range _ _ HC He) as Hr. unfold get_id in HG.
  assert (A : map_get (s_used s) t = Some (dec_str e) -> old = e).
  { intros E. rewrite E, strtoull_dec in HG by auto. congruence. }
  destruct mode; cbn [st_mode] in HM; [ | auto ].
  destruct HM as (Hdb & Hmin & _ & [E|[E1 E2]]); [ auto | ].
  rewrite E1 in HG. unfold get_id_from_db in HG. rewrite Hdb, E2 in HG.
  destruct g; try discriminate.
  assert (e <> 0).
  { destruct He as (p & v & -> & [Hv _] & Hp & _). 
    pose proof (pow_pos (bit_requirement (c_max c))). 
    destruct HC as (_ & H2 & H3 & _). destruct (bit_requirement_spec (c_max c) ltac:(lia)) as [Hb _]. nia. }
  replace (negb (e =? 0)) with true in HG by lia. congruence.
Qed.

(** The invariant of one step; [last'] is the last id after it. *)
Lemma step_mode : forall c s o mode t last, cfg_ok c -> st_ok s -> op_ok o -> op_mode c mode o ->
  st_mode c mode s t last ->
  (match last with Some e => id_ok c e | None => True end) ->
  let '(s', out) := inc_step c s o in
  match emitted t [out] with
  | [] => st_mode c mode s' t last
  | [e'] => id_ok c e' /\ st_mode c mode s' t (Some e') /\
            match last with Some e => next_id c e e' | None => True end
  | _ => False
  end.
Proof.
  intros c s o mode t last HC HS HO HM HI HL.
  destruct o as [t' g p|t' id|]; cbn [inc_step].
  - destruct (process_subject_spec c s t' g p HC HS) as [->|(old & EG & HV & ->)]; [ exact HI | ].
    pose proof (advance_ok c old HC (get_id_range _ _ _ _ _ HS EG) HV) as HA.
    pose proof (id_ok_range _ _ HC HA) as HR.
    destruct (update_id c s t' (advance c old) p) as [ok s'] eqn:EU.
    apply update_id_used in EU as [(-> & EU & ED)|(-> & EU & ED)].
    + rewrite emitted_cons. cbn [emitted flat_map app]. rewrite app_nil_r.
      assert (SY : mode = true -> c_db c = true -> synced s -> synced s').
      { intros _ Hdb HY x v E. rewrite EU, map_get_replace in E. rewrite (ED Hdb), db_get_cons.
        destruct (str_eqb t' x); [ injection E as <-; eauto | apply HY; auto ]. }
      destruct (str_eqb_spec t' t) as [->|N].
      * split; [ auto | ]. split.
        { destruct mode; cbn [st_mode] in *.
          - destruct HI as (Hdb & Hmin & HY & _). repeat split; auto. left. rewrite EU, map_get_replace, str_eqb_refl. reflexivity.
          - rewrite EU, map_get_replace, str_eqb_refl. reflexivity. }
        destruct last as [e|]; [ | auto ].
        rewrite (remembered_get _ _ _ _ _ _ _ HC HL HI EG). apply advance_next; auto.
      * destruct mode; cbn [st_mode] in *.
        { destruct HI as (Hdb & Hmin & HY & HRm). repeat split; auto. destruct last as [e|]; [ | auto ].
          unfold remembers. rewrite EU, map_get_replace, (ED Hdb), db_get_cons.
          destruct (str_eqb_spec t' t); [ congruence | auto ]. }
        destruct last as [e|]; [ | auto ]. rewrite EU, map_get_replace. destruct (str_eqb_spec t' t); [ congruence | auto ].
    + cbn [emitted flat_map app].
      destruct mode; cbn [st_mode op_mode is_lost] in *.
      * assert (HnL : p <> DbLost) by (intros ->; discriminate).
        destruct HI as (Hdb & Hmin & HY & HRm). repeat split; auto.
        { intros x v E. rewrite EU in E. rewrite ED by auto. auto. }
        destruct last as [e|]; [ | auto ]. unfold remembers. rewrite EU, ED by auto. exact HRm.
      * destruct last; [ | auto ]. rewrite EU. auto.
  - cbn [emitted flat_map app]. destruct (c_tag c); [ | auto ]. unfold process_id. destruct (_ && _); [ auto | ].
    destruct mode; exact HI.
  - cbn [emitted flat_map app]. destruct mode; cbn [st_mode op_mode is_restart] in *; [ | discriminate ].
    destruct HI as (Hdb & Hmin & HY & HRm). repeat split; auto.
    { intros x v E. discriminate. }
    destruct last as [e|]; [ | auto ]. right. split; [ reflexivity | ]. cbn [s_db].
    destruct HRm as [E|[_ E]]; [ | auto ]. destruct (HY _ _ E) as (e' & Ee & Hr & Ed).
    apply dec_str_inj in Ee; [ congruence | eapply id_ok_range; eauto | auto ].
Qed.

Lemma run_chain : forall c t mode ops s last, cfg_ok c -> st_ok s -> Forall op_ok ops -> Forall (op_mode c mode) ops ->
  st_mode c mode s t last -> (match last with Some e => id_ok c e | None => True end) ->
  Forall (id_ok c) (emitted t (inc_run c s ops)) /\
  linked (next_id c) (match last with Some e => [e] | None => [] end ++ emitted t (inc_run c s ops)).
Proof.
  intros c t mode. induction ops as [|o ops IH]; intros s last HC HS HO HM HI HL.
  - cbn. split; [ constructor | ]. destruct last; exact I.
  - inversion HO; subst. inversion HM; subst. cbn [inc_run].
    pose proof (step_mode c s o mode t last HC HS H1 H3 HI HL) as ST.
    pose proof (inc_step_ok c s o HC HS H1) as OK'.
    destruct (inc_step c s o) as [s' out]. cbn [fst] in OK'.
    change (out :: inc_run c s' ops) with ([out] ++ inc_run c s' ops).
    unfold emitted in *. rewrite flat_map_app. fold (emitted t [out]) in *. fold (emitted t (inc_run c s' ops)) in *.
    destruct (emitted t [out]) as [|e' [|? ?]]; [ | | contradiction ].
    + cbn [app]. apply IH; auto.
    + destruct ST as (He & HI' & HN). destruct (IH s' (Some e') HC OK' H2 H4 HI' He) as [F L].
      cbn [app] in *. split; [ constructor; auto | ]. destruct last; cbn [app]; [ split; auto | auto ].
Qed.

(** Ids with the same prefix that follow each other do not repeat. *)
Lemma id_chain_nodup : forall c l, cfg_ok c -> Forall (id_ok c) l -> linked (next_id c) l ->
  zlen l <= (c_max c - c_min c + 1) / c_mod c -> NoDup l.
Proof.
  intros c l HC HF HL Hlen. pose proof HC as (H1 & H2 & H3 & _).
  destruct (bit_requirement_spec (c_max c) ltac:(lia)) as [Hb Hb2]. pose proof (pow_pos _ (proj1 Hb)) as HP.
  set (P := 2 ^ bit_requirement (c_max c)) in *.
  assert (V : forall v, in_class (c_mod c) (c_min c) (c_max c) (c_pos c) v -> 0 <= v < P) by (intros v [Hv _]; lia).
  assert (EV : forall p v, in_class (c_mod c) (c_min c) (c_max c) (c_pos c) v -> (p * P + v) mod P = v).
  { intros p v Hv. apply mod_mul_add. auto. }
  apply (NoDup_map_inv (fun e => e mod P)).
  eapply linked_nodup; [ exact HC | | | rewrite zlen_map; exact Hlen ].
  - apply Forall_map. eapply Forall_impl; [ | exact HF ]. intros e (p & v & -> & Hv & _). cbn beta. fold P. rewrite EV by auto. auto.
  - clear HF Hlen. induction l as [|e [|e' l] IH]; [ exact I | exact I | ].
    destruct HL as [(p & v & v' & E1 & E2 & Hv & Hn) HL]. cbn [map linked].
    split; [ | apply IH; auto ]. fold P in E1, E2. rewrite E1, E2, !EV; auto. destruct Hn; auto.
Qed.

Lemma app_slash_inj : forall t t' d d', ~ In 47 d -> ~ In 47 d' -> t ++ [47] ++ d = t' ++ [47] ++ d' -> t = t' /\ d = d'.
Proof.
  intros t t' d d' Hd Hd' E.
  assert (R : rev d ++ 47 :: rev t = rev d' ++ 47 :: rev t').
  { assert (E2 : rev (t ++ [47] ++ d) = rev (t' ++ [47] ++ d')) by congruence.
    rewrite !rev_app_distr in E2. cbn [rev app] in E2. rewrite <- !app_assoc in E2. exact E2. }
  assert (G : forall a b a' b' : list Z, ~ In 47 a -> ~ In 47 a' -> a ++ 47 :: b = a' ++ 47 :: b' -> a = a' /\ b = b').
  { clear. induction a as [|x a IH]; intros b a' b' H H' E; destruct a' as [|x' a']; cbn [app] in E.
    - injection E as ->. auto.
    - injection E as E _. exfalso. apply H'. left. auto.
    - injection E as E _. exfalso. apply H. left. auto.
    - injection E as <- E. apply IH in E as [-> ->]; [ auto | | ]; intros HH; [ apply H | apply H' ]; right; auto. }
  apply G in R as [R1 R2]; [ | rewrite <- in_rev; auto | rewrite <- in_rev; auto ].
  split; [ rewrite <- (rev_involutive t), R2, rev_involutive | rewrite <- (rev_involutive d), R1, rev_involutive ]; auto.
Qed.

Lemma run_emits : forall c ops s, cfg_ok c -> st_ok s -> Forall op_ok ops ->
  forall t id nt, In (Emit t id nt) (inc_run c s ops) -> id_ok c id /\ nt = t ++ [47] ++ dec_str id.
Proof.
  intros c. induction ops as [|o ops IH]; intros s HC HS HO t id nt H; [ contradiction | ].
  inversion HO; subst. cbn [inc_run] in H. pose proof (inc_step_ok c s o HC HS H2) as OK'.
  destruct (inc_step c s o) as [s' out] eqn:ES. destruct H as [->|H]; [ | eapply IH; eauto ].
  destruct o as [t' g p|t' i|]; cbn [inc_step] in ES; [ | discriminate | discriminate ].
  destruct (process_subject_spec c s t' g p HC HS) as [E|(old & EG & HV & E)]; rewrite E in ES; [ discriminate | ].
  pose proof (advance_ok c old HC (get_id_range _ _ _ _ _ HS EG) HV) as HA.
  destruct (update_id c s t' (advance c old) p) as [ok s'']. destruct ok; [ | discriminate ].
  injection ES as _ <- <- <-. auto.
Qed.

Lemma run_no_assertion : forall c ops s, cfg_ok c -> st_ok s -> Forall op_ok ops -> ~ In Assertion (inc_run c s ops).
Proof.
  intros c. induction ops as [|o ops IH]; intros s HC HS HO H; [ contradiction | ].
  inversion HO; subst. cbn [inc_run] in H. pose proof (inc_step_ok c s o HC HS H2) as OK'.
  destruct (inc_step c s o) as [s' out] eqn:ES. destruct H as [->|H]; [ | eapply IH; eauto ].
  destruct o as [t' g p|t' i|]; cbn [inc_step] in ES; [ | discriminate | discriminate ].
  destruct (process_subject_spec c s t' g p HC HS) as [E|(old & EG & HV & E)]; rewrite E in ES; [ discriminate | ].
  destruct (update_id c s t' (advance c old) p) as [ok s'']. destruct ok; discriminate.
Qed.

Lemma bit_requirement_width : forall max, 0 <= max < 2^64 -> bit_requirement max = width max.
Proof.
  intros max Hm. destruct (bits_loop_spec 64 max Hm) as (H1 & H2 & H3 & H4). fold (bit_requirement max) in *.
  unfold width. set (b := bit_requirement max) in *.
  destruct (Z.eq_dec max 0) as [->|N]; [ rewrite H4 by auto; reflexivity | ].
  specialize (H3 ltac:(lia)). symmetry. apply Z.log2_up_unique; [ | ].
  - destruct (Z.eq_dec b 0) as [E|]; [ rewrite E in H2; change (2^0) with 1 in H2; lia | lia ].
  - replace (Z.pred b) with (b - 1) by lia. lia.
Qed.

Lemma valid_id_iff : forall c e, cfg_ok c -> id_ok c e <-> valid_id c e.
Proof.
  intros c e HC. pose proof HC as (H1 & H2 & H3 & _).
  destruct (bit_requirement_spec (c_max c) ltac:(lia)) as [Hb Hb2]. pose proof (pow_pos _ (proj1 Hb)) as HP.
  unfold id_ok, valid_id, with_prefix. rewrite <- bit_requirement_width by lia.
  split; intros (p & v & E & Hv & Hp & Hf & HV); exists p, v; (split; [ auto | ]); (split; [ auto | ]); (split; [ auto | ]); (split; [ | auto ]).
  - apply (id_ok_range c); auto. exists p, v. auto.
  - destruct Hv. lia.
Qed.
Lemma follows_iff : forall c e e', cfg_ok c -> next_id c e e' <-> follows c e e'.
Proof.
  intros c e e' HC. pose proof HC as (H1 & H2 & H3 & _). unfold next_id, follows, with_prefix.
  rewrite <- bit_requirement_width by lia. tauto.
Qed.
Lemma linked_impl : forall A (R R' : A -> A -> Prop) l, (forall a b, R a b -> R' a b) -> linked R l -> linked R' l.
Proof. intros A R R' l H. induction l as [|x [|y l] IH]; auto. intros [HR HL]. split; auto. Qed.

Lemma cfg_accepted_ok : forall c, 0 <= c_mod c < 2^64 -> 0 <= c_min c < 2^64 -> 0 <= c_max c < 2^64 ->
  0 <= c_pos c < 2^64 -> 0 <= c_prefix c < 2^64 -> cfg_accepted c = true -> cfg_ok c.
Proof. intros c H1 H2 H3 H4 H5 H. apply Z.eqb_eq in H. apply verify_iff in H; auto. Qed.

Lemma st_ok_init : forall d, db_ok d -> st_ok (mk_inc [] [] d).
Proof.
  intros d H. split; [ intros t v E; discriminate | ]. split; [ intros t v E; discriminate | ]. cbn [s_db].
  induction H as [|[t v] d Hv HD IH]; intros t' w E; [ discriminate | ]. rewrite db_get_cons in E.
  destruct (str_eqb t t'); [ injection E as <-; auto | eauto ].
Qed.
