From Coq Require Import ZArith List Bool QArith Qround Qabs Qpower Lia Lqa.
From Verif Require Import Common FixpModel FixpSpec.
Import ListNotations.
Open Scope Z_scope.

(** ** Powers of two *)
Lemma two_nz : ~ (2#1 == 0)%Q.
Proof. intro H; discriminate H. Qed.
Lemma pow2_add a b : (pow2 (a + b) == pow2 a * pow2 b)%Q.
Proof. apply Qpower_plus, two_nz. Qed.
Lemma pow2_pos a : (0 < pow2 a)%Q.
Proof.
  unfold pow2. destruct a as [|p|p]; cbn [Qpower].
  - reflexivity.
  - assert (H : (0 < 2#1)%Q) by reflexivity.
    pose proof (Qpower_positive_0 p). 
    assert (G : (0 <= Qpower_positive (2#1) p)%Q) by (apply Qpower_pos_positive; discriminate).
    assert (N : ~ (Qpower_positive (2#1) p == 0)%Q) by (apply Qpower_not_0_positive, two_nz).
    destruct (Qle_lt_or_eq _ _ G) as [|E]; [assumption|]. exfalso; apply N; symmetry; exact E.
  - apply Qinv_lt_0_compat.
    assert (G : (0 <= Qpower_positive (2#1) p)%Q) by (apply Qpower_pos_positive; discriminate).
    assert (N : ~ (Qpower_positive (2#1) p == 0)%Q) by (apply Qpower_not_0_positive, two_nz).
    destruct (Qle_lt_or_eq _ _ G) as [|E]; [assumption|]. exfalso; apply N; symmetry; exact E.
Qed.
Lemma pow2_opp a : (pow2 a * pow2 (- a) == 1)%Q.
Proof. rewrite <- pow2_add, Z.add_opp_diag_r. reflexivity. Qed.
Lemma pow2_Z a : 0 <= a -> (pow2 a == inject_Z (2^a))%Q.
Proof. intro H. unfold pow2. rewrite Zpower_Qpower by exact H. reflexivity. Qed.
Lemma inject_le a b : (inject_Z a <= inject_Z b)%Q <-> a <= b.
Proof. rewrite <- Zle_Qle. reflexivity. Qed.
Lemma inject_lt a b : (inject_Z a < inject_Z b)%Q <-> a < b.
Proof. rewrite <- Zlt_Qlt. reflexivity. Qed.
Lemma inject_sub a b : (inject_Z (a - b) == inject_Z a - inject_Z b)%Q.
Proof. unfold Z.sub. rewrite inject_Z_plus, inject_Z_opp. reflexivity. Qed.
Lemma pow2_le a b : a <= b -> (pow2 a <= pow2 b)%Q.
Proof.
  intro H. replace b with (a + (b - a)) by lia. rewrite pow2_add, (pow2_Z (b - a)) by lia.
  assert (1 <= 2^(b-a)) by (assert (0 < 2^(b-a)) by (apply Z.pow_pos_nonneg; lia); lia).
  apply inject_le in H0. pose proof (pow2_pos a). 
  setoid_replace (pow2 a) with (pow2 a * 1)%Q at 1 by ring.
  apply Qmult_le_l; [assumption|exact H0].
Qed.

(** ** Rounding *)
Lemma nearest_err x : (Qabs (inject_Z (nearest_even x) - x) <= 1#2)%Q.
Proof.
  unfold nearest_even. pose proof (Qfloor_le x) as L. pose proof (Qlt_floor x) as U.
  set (f := Qfloor x) in *. clearbody f.
  rewrite inject_Z_plus in U. change (inject_Z 1) with 1%Q in U.
  apply Qabs_Qle_condition.
  destruct (Qcompare (x - inject_Z f) (1#2)) eqn:E.
  - apply Qeq_alt in E. destruct (Z.even f); [|rewrite inject_Z_plus; change (inject_Z 1) with 1%Q]; split; lra.
  - apply Qlt_alt in E. split; lra.
  - apply Qgt_alt in E. rewrite inject_Z_plus. change (inject_Z 1) with 1%Q. split; lra.
Qed.
Lemma nearest_Z x z : (x == inject_Z z)%Q -> nearest_even x = z.
Proof.
  intro H. unfold nearest_even.
  assert (F : Qfloor x = z) by (rewrite H; apply Qfloor_Z).
  rewrite F. replace (Qcompare (x - inject_Z z) (1#2)) with Lt; [reflexivity|].
  symmetry. apply Qlt_alt. setoid_replace (x - inject_Z z)%Q with 0%Q; [reflexivity|]. rewrite H. ring.
Qed.

Lemma num_den q : (q * inject_Z (Zpos (Qden q)) == inject_Z (Qnum q))%Q.
Proof. destruct q as [n d]. unfold Qeq, Qmult, inject_Z. cbn. lia. Qed.
Lemma abs_num_den q : (Qabs q * inject_Z (Zpos (Qden q)) == inject_Z (Z.abs (Qnum q)))%Q.
Proof. destruct q as [n d]. unfold Qeq, Qmult, inject_Z, Qabs. cbn. lia. Qed.

Lemma exponent_range q : Qnum q <> 0 ->
  (inject_Z (2^63) <= Qabs q * pow2 (- round_exponent q))%Q /\
  (Qabs q * pow2 (- round_exponent q) < inject_Z (2^64))%Q.
Proof.
  intro NZ. unfold round_exponent.
  set (n := Z.abs (Qnum q)). set (d := Zpos (Qden q)).
  assert (Hn : 0 < n) by (unfold n; lia). assert (Hd : 0 < d) by (unfold d; lia).
  pose proof (Z.log2_spec n Hn) as [n1 n2]. pose proof (Z.log2_spec d Hd) as [d1 d2].
  pose proof (Z.log2_nonneg n) as ln0. pose proof (Z.log2_nonneg d) as ld0.
  set (ln := Z.log2 n) in *. set (ld := Z.log2 d) in *.
  set (e0 := ln - ld - 63).
  pose proof (abs_num_den q) as AB. fold n d in AB.
  assert (Hd' : (0 < inject_Z d)%Q) by (apply (inject_lt 0); exact Hd).
  apply inject_le in n1. apply inject_lt in n2. apply inject_le in d1. apply inject_lt in d2.
  rewrite <- pow2_Z in n1, n2, d1, d2 by lia.
  (* A := |q| * 2^-e0 *)
  assert (LO : (inject_Z (2^62) < Qabs q * pow2 (- e0))%Q).
  { rewrite <- (pow2_Z 62) by lia.
    apply (Qmult_lt_r _ _ (inject_Z d * pow2 e0)).
    { apply Qmult_lt_0_compat; [exact Hd'|apply pow2_pos]. }
    setoid_replace (Qabs q * pow2 (- e0) * (inject_Z d * pow2 e0))%Q
      with ((Qabs q * inject_Z d) * (pow2 e0 * pow2 (- e0)))%Q by ring.
    rewrite pow2_opp, AB. setoid_replace (inject_Z n * 1)%Q with (inject_Z n) by ring.
    eapply Qlt_le_trans; [|exact n1].
    setoid_replace (pow2 62 * (inject_Z d * pow2 e0))%Q with (inject_Z d * (pow2 62 * pow2 e0))%Q by ring.
    rewrite <- pow2_add.
    apply Qlt_le_trans with (pow2 (Z.succ ld) * pow2 (62 + e0))%Q.
    - apply Qmult_lt_r; [apply pow2_pos|exact d2].
    - rewrite <- pow2_add. apply pow2_le. unfold e0; lia. }
  assert (HI : (Qabs q * pow2 (- e0) < inject_Z (2^64))%Q).
  { rewrite <- (pow2_Z 64) by lia.
    apply (Qmult_lt_r _ _ (inject_Z d * pow2 e0)).
    { apply Qmult_lt_0_compat; [exact Hd'|apply pow2_pos]. }
    setoid_replace (Qabs q * pow2 (- e0) * (inject_Z d * pow2 e0))%Q
      with ((Qabs q * inject_Z d) * (pow2 e0 * pow2 (- e0)))%Q by ring.
    rewrite pow2_opp, AB. setoid_replace (inject_Z n * 1)%Q with (inject_Z n) by ring.
    eapply Qlt_le_trans; [exact n2|].
    setoid_replace (pow2 64 * (inject_Z d * pow2 e0))%Q with (inject_Z d * (pow2 64 * pow2 e0))%Q by ring.
    rewrite <- pow2_add.
    apply Qle_trans with (pow2 ld * pow2 (64 + e0))%Q.
    - rewrite <- pow2_add. apply pow2_le. unfold e0; lia.
    - apply Qmult_le_r; [apply pow2_pos|exact d1]. }
  destruct (Qle_bool (inject_Z (2^63)) (Qabs q * pow2 (- e0))) eqn:E.
  - apply Qle_bool_iff in E. split; assumption.
  - assert (LT : (Qabs q * pow2 (- e0) < inject_Z (2^63))%Q).
    { apply Qnot_le_lt. intro X. apply Qle_bool_iff in X. congruence. }
    replace (- (e0 - 1)) with (- e0 + 1) by lia.
    rewrite pow2_add. rewrite (pow2_Z 1) by lia.
    setoid_replace (Qabs q * (pow2 (- e0) * inject_Z (2^1)))%Q
      with ((Qabs q * pow2 (- e0)) * inject_Z (2^1))%Q by ring.
    set (A := (Qabs q * pow2 (- e0))%Q) in *. clearbody A.
    change (inject_Z (2^1)) with (2#1)%Q.
    change (inject_Z (2^62)) with (4611686018427387904#1)%Q in LO.
    change (inject_Z (2^63)) with (9223372036854775808#1)%Q in *.
    change (inject_Z (2^64)) with (18446744073709551616#1)%Q in *.
    split; lra.
Qed.

Lemma rd_zero q : (q == 0)%Q -> (rd q == 0)%Q.
Proof.
  intro H. unfold rd. replace (Qnum q =? 0) with true; [reflexivity|].
  symmetry. unfold Qeq in H. cbn in H. lia.
Qed.

Lemma rd_err q : (Qabs (rd q - q) <= Qabs q * pow2 (-64))%Q.
Proof.
  unfold rd. destruct (Qnum q =? 0) eqn:Z0.
  { assert (E : (q == 0)%Q) by (unfold Qeq; cbn; lia). rewrite E. vm_compute. discriminate. }
  assert (NZ : Qnum q <> 0) by lia.
  destruct (exponent_range q NZ) as [LO HI].
  set (e := round_exponent q) in *. clearbody e.
  pose proof (nearest_err (q * pow2 (- e))) as NE.
  set (m := nearest_even (q * pow2 (- e))) in *. clearbody m.
  pose proof (pow2_pos e) as P. pose proof (pow2_opp e) as PO.
  setoid_replace (inject_Z m * pow2 e - q)%Q with ((inject_Z m - q * pow2 (- e)) * pow2 e)%Q.
  2: { setoid_replace ((inject_Z m - q * pow2 (- e)) * pow2 e)%Q
         with (inject_Z m * pow2 e - q * (pow2 e * pow2 (- e)))%Q by ring. rewrite PO. ring. }
  rewrite Qabs_Qmult. rewrite (Qabs_pos (pow2 e)) by (apply Qlt_le_weak, P).
  assert (Q1 : (inject_Z (2^63) * pow2 e <= Qabs q)%Q).
  { setoid_replace (Qabs q) with (Qabs q * pow2 (- e) * pow2 e)%Q.
    - apply Qmult_le_r; [exact P|exact LO].
    - setoid_replace (Qabs q * pow2 (- e) * pow2 e)%Q with (Qabs q * (pow2 e * pow2 (- e)))%Q by ring.
      rewrite PO. ring. }
  change (pow2 (-64)) with (1#18446744073709551616)%Q.
  change (inject_Z (2^63)) with (9223372036854775808#1)%Q in Q1.
  set (A := Qabs (inject_Z m - q * pow2 (- e))) in *. set (B := pow2 e) in *. set (C := Qabs q) in *.
  clearbody A B C. clear - NE P Q1.
  assert (A * B <= (1#2) * B)%Q by (apply Qmult_le_r; assumption). lra.
Qed.

Lemma rd_exact q : is_ldouble q -> (rd q == q)%Q.
Proof.
  intros (m & k & Hm & E). unfold rd. destruct (Qnum q =? 0) eqn:Z0.
  { unfold Qeq; cbn; lia. }
  assert (NZ : Qnum q <> 0) by lia.
  destruct (exponent_range q NZ) as [LO HI].
  set (e := round_exponent q) in *. clearbody e.
  fold (pow2 k) in E.
  assert (ME : (q * pow2 (- e) == inject_Z m * pow2 (k - e))%Q).
  { rewrite E. replace (k - e) with (k + - e) by lia. rewrite pow2_add. ring. }
  assert (AE : (Qabs q * pow2 (- e) == inject_Z (Z.abs m) * pow2 (k - e))%Q).
  { rewrite <- (Qabs_pos (pow2 (- e))) by (apply Qlt_le_weak, pow2_pos).
    rewrite <- Qabs_Qmult, ME, Qabs_Qmult.
    rewrite (Qabs_pos (pow2 (k - e))) by (apply Qlt_le_weak, pow2_pos). reflexivity. }
  assert (I : exists z, (q * pow2 (- e) == inject_Z z)%Q).
  { destruct (Z_le_gt_dec 0 (k - e)) as [G|G].
    - exists (m * 2^(k - e)). rewrite ME, pow2_Z by lia. rewrite inject_Z_mult. reflexivity.
    - rewrite AE in LO.
      assert (X : (inject_Z (Z.abs m) * pow2 (k - e) <= inject_Z (Z.abs m) * pow2 (-1))%Q).
      { destruct (Z.eq_dec (Z.abs m) 0) as [W|W].
        - rewrite W. setoid_replace (inject_Z 0) with 0%Q by reflexivity.
          setoid_replace (0 * pow2 (k - e))%Q with 0%Q by ring. 
          setoid_replace (0 * pow2 (-1))%Q with 0%Q by ring. apply Qle_refl.
        - apply Qmult_le_l; [apply (inject_lt 0); lia|apply pow2_le; lia]. }
      assert (Y : (inject_Z (2^64) <= inject_Z (Z.abs m))%Q).
      { change (pow2 (-1)) with (1#2)%Q in X. change (inject_Z (2^63)) with (9223372036854775808#1)%Q in LO.
        change (inject_Z (2^64)) with (18446744073709551616#1)%Q.
        lra. }
      apply (proj1 (inject_le _ _)) in Y.
      assert (M : Z.abs m = 2^64) by lia.
      destruct (Z_le_gt_dec (k - e) (-2)) as [G2|G2].
      + exfalso. rewrite M in LO.
        assert (U : (inject_Z (2^64) * pow2 (k - e) <= inject_Z (2^64) * pow2 (-2))%Q).
        { apply Qmult_le_l; [reflexivity|apply pow2_le; lia]. }
        change (pow2 (-2)) with (1#4)%Q in U. change (inject_Z (2^63)) with (9223372036854775808#1)%Q in LO.
        change (inject_Z (2^64)) with (18446744073709551616#1)%Q in *. lra.
      + replace (k - e) with (-1) in ME by lia.
        assert (m = 2^64 \/ m = - 2^64) as [W|W] by lia; subst m.
        * exists (2^63). rewrite ME. reflexivity.
        * exists (- 2^63). rewrite ME. reflexivity. }
  destruct I as [z Z]. rewrite (nearest_Z _ _ Z). rewrite <- Z.
  setoid_replace (q * pow2 (- e) * pow2 e)%Q with (q * (pow2 e * pow2 (- e)))%Q by ring.
  rewrite pow2_opp. ring.
Qed.

Lemma ld_compat a b : (a == b)%Q -> is_ldouble a -> is_ldouble b.
Proof. intros E (m & e & H & G). exists m, e. split; [exact H|]. rewrite <- E. exact G. Qed.
Lemma fadd_exact a b : is_ldouble (a + b)%Q -> (fadd a b == a + b)%Q.
Proof. intro H. unfold fadd. rewrite Qred_correct. apply rd_exact, H. Qed.
Lemma fsub_exact a b : is_ldouble (a - b)%Q -> (fsub a b == a - b)%Q.
Proof. intro H. unfold fsub. rewrite Qred_correct. apply rd_exact, H. Qed.
Lemma fmul_exact a b : is_ldouble (a * b)%Q -> (fmul a b == a * b)%Q.
Proof. intro H. unfold fmul. rewrite Qred_correct. apply rd_exact, H. Qed.
Lemma fdiv_exact a b : is_ldouble (a / b)%Q -> (fdiv a b == a / b)%Q.
Proof. intro H. unfold fdiv. rewrite Qred_correct. apply rd_exact, H. Qed.

(** Multiples of the unit. *)
Definition q24 (z : Z) : Q := (inject_Z z * pow2 (-24))%Q.
Lemma q24_add a b : (q24 (a + b) == q24 a + q24 b)%Q.
Proof. unfold q24. rewrite inject_Z_plus. ring. Qed.
Lemma q24_lt a b : (q24 a < q24 b)%Q <-> a < b.
Proof. unfold q24. rewrite <- (inject_lt a b). apply Qmult_lt_r. reflexivity. Qed.
Lemma q24_le a b : (q24 a <= q24 b)%Q <-> a <= b.
Proof. unfold q24. rewrite <- (inject_le a b). apply Qmult_le_r. reflexivity. Qed.
Lemma q24_nonneg x : (0 <= q24 x)%Q <-> 0 <= x.
Proof. assert (Z : (q24 0 == 0)%Q) by reflexivity. rewrite <- (q24_le 0 x), Z. reflexivity. Qed.
Lemma q24_value z : (q24 z == fixp_value z)%Q.
Proof. unfold q24, fixp_value, Qeq, Qmult, inject_Z. cbn. lia. Qed.
Lemma q24_ld z : Z.abs z <= 2^64 -> is_ldouble (q24 z).
Proof. intro H. exists z, (-24). split; [exact H|reflexivity]. Qed.
Lemma q24_floor q z : (q24 z <= q)%Q <-> z <= Qfloor (q * inject_Z 16777216).
Proof.
  assert (S : forall a b, (a * pow2 (-24) <= b)%Q <-> (a <= b * inject_Z 16777216)%Q).
  { intros a b. change (pow2 (-24)) with (1#16777216)%Q. change (inject_Z 16777216) with (16777216#1)%Q.
    split; intro H; lra. }
  unfold q24. rewrite S. split; intro H.
  - apply Qfloor_resp_le in H. rewrite Qfloor_Z in H. exact H.
  - apply Qle_trans with (inject_Z (Qfloor (q * inject_Z 16777216))); [apply inject_le; exact H|apply Qfloor_le].
Qed.
Lemma fraction_value_q24 m : (m < 24)%nat -> (fraction_value (24 - S m) == q24 (2 ^ Z.of_nat m))%Q.
Proof.
  intro H. unfold fraction_value, q24. rewrite <- pow2_Z by lia. rewrite <- pow2_add.
  replace (- (Z.of_nat (24 - S m) + 1)) with (Z.of_nat m + -24) by lia. reflexivity.
Qed.
Lemma bit_place m : (m < 24)%nat -> 23 - Z.of_nat (24 - S m) = Z.of_nat m.
Proof. lia. Qed.

(** ** Fixed point to long double *)
Lemma mod_pow_succ d (m : nat) : 0 <= d ->
  d mod 2 ^ Z.of_nat (S m) = d mod 2 ^ Z.of_nat m + (if Z.testbit d (Z.of_nat m) then 2 ^ Z.of_nat m else 0).
Proof.
  intro H. rewrite Nat2Z.inj_succ, Z.pow_succ_r by lia.
  rewrite (Z.mul_comm 2). rewrite Z.rem_mul_r by lia.
  rewrite <- Z.shiftr_div_pow2 by lia. rewrite <- Z.bit0_mod, Z.shiftr_spec by lia. rewrite Z.add_0_l.
  destruct (Z.testbit d (Z.of_nat m)); cbn [Z.b2z]; lia.
Qed.
Lemma add_fractions_exact n : (n <= 24)%nat -> forall dec R res, 0 <= dec -> 0 <= R ->
  R + dec mod 2 ^ Z.of_nat n <= 2^64 -> (res == q24 R)%Q ->
  (add_fractions n dec res == q24 (R + dec mod 2 ^ Z.of_nat n))%Q.
Proof.
  induction n as [|m IH]; intros Hn dec R res Hd HR HB E.
  - cbn [add_fractions]. change (2 ^ Z.of_nat 0) with 1 in *. rewrite Z.mod_1_r, Z.add_0_r. exact E.
  - cbn [add_fractions]. rewrite bit_place by lia. rewrite mod_pow_succ in HB by lia.
    pose proof (Z.mod_pos_bound dec (2 ^ Z.of_nat m) ltac:(apply Z.pow_pos_nonneg; lia)) as MB.
    set (b := if Z.testbit dec (Z.of_nat m) then 2 ^ Z.of_nat m else 0) in *.
    assert (Hb : 0 <= b) by (unfold b; destruct (Z.testbit _ _); [apply Z.pow_nonneg|]; lia).
    assert (EB : ((if Z.testbit dec (Z.of_nat m) then fraction_value (24 - S m) else 0) == q24 b)%Q).
    { unfold b. destruct (Z.testbit dec (Z.of_nat m)); [apply fraction_value_q24; lia|].
      unfold q24. change (inject_Z 0) with 0%Q. ring. }
    rewrite mod_pow_succ by lia. fold b.
    replace (R + (dec mod 2 ^ Z.of_nat m + b)) with (R + b + dec mod 2 ^ Z.of_nat m) by lia.
    apply IH; try lia.
    rewrite fadd_exact.
    + rewrite E, EB, <- q24_add. reflexivity.
    + eapply ld_compat; [|apply (q24_ld (R + b)); lia]. rewrite E, EB, <- q24_add. reflexivity.
Qed.

Lemma to_ldouble_exact x : - 2^63 < x < 2^63 ->
  exists d, fixp_to_ldouble x = FOk d /\ (d == q24 x)%Q.
Proof.
  intro H. unfold fixp_to_ldouble.
  set (p := if x <? 0 then - x else x). assert (Hp : 0 <= p < 2^63) by (unfold p; destruct (x <? 0) eqn:?; lia).
  replace (2^63 <=? p) with false by lia.
  set (w := Z.shiftr p 24). assert (Hw : w = p / 16777216) by (unfold w; rewrite Z.shiftr_div_pow2 by lia; reflexivity).
  assert (Hd : Z.land p 0xffffff = p mod 16777216) by (change 0xffffff with (Z.ones 24); rewrite Z.land_ones by lia; reflexivity).
  rewrite Hd. 
  assert (E0 : (fadd 0 (inject_Z w) == q24 (w * 16777216))%Q).
  { assert (E : (0 + inject_Z w == q24 (w * 16777216))%Q).
    { unfold q24. rewrite inject_Z_mult. change (pow2 (-24)) with (1#16777216)%Q.
      change (inject_Z 16777216) with (16777216#1)%Q. ring. }
    rewrite fadd_exact; [exact E|]. eapply ld_compat; [symmetry; exact E|]. apply q24_ld. lia. }
  pose proof (add_fractions_exact 24 ltac:(lia) (p mod 16777216) (w * 16777216) _ ltac:(lia) ltac:(lia)
                ltac:(change (2 ^ Z.of_nat 24) with 16777216; lia) E0) as AF.
  change (2 ^ Z.of_nat 24) with 16777216 in AF.
  rewrite Z.mod_mod in AF by lia.
  replace (w * 16777216 + p mod 16777216) with p in AF by lia.
  eexists. split; [reflexivity|].
  destruct (x <? 0) eqn:S.
  - rewrite AF. unfold p. unfold q24. rewrite inject_Z_opp. ring.
  - exact AF.
Qed.

(** ** Long double to fixed point *)
Lemma fraction_bits_exact n : (n <= 24)%nat -> forall t frac M g, 0 <= g -> 0 <= M <= 2^64 ->
  (frac == inject_Z M * pow2 (-24 - g))%Q -> M / 2^g < 2 ^ Z.of_nat n ->
  fraction_bits n (t * 2 ^ Z.of_nat n) frac = t * 2 ^ Z.of_nat n + M / 2^g.
Proof.
  induction n as [|m IH]; intros Hn t frac M g Hg HM E HB.
  - cbn [fraction_bits]. change (2 ^ Z.of_nat 0) with 1 in *. assert (0 <= M / 2^g) by (apply Z.div_pos; lia). lia.
  - cbn [fraction_bits]. rewrite bit_place by lia.
    assert (P2 : 0 < 2 ^ Z.of_nat m) by lia. assert (PG : 0 < 2^g) by lia.
    assert (FV : (fraction_value (24 - S m) == inject_Z (2 ^ Z.of_nat m * 2^g) * pow2 (-24 - g))%Q).
    { rewrite fraction_value_q24 by lia. unfold q24. rewrite inject_Z_mult. rewrite <- (pow2_Z g) by lia.
      replace (-24) with (g + (-24 - g)) at 1 by lia. rewrite pow2_add. ring. }
    assert (C : Qle_bool (fraction_value (24 - S m)) frac = (2 ^ Z.of_nat m <=? M / 2^g)).
    { apply eq_true_iff_eq. rewrite Qle_bool_iff, Z.leb_le, FV, E.
      rewrite Qmult_le_r by apply pow2_pos. rewrite inject_le. split; intro X.
      - apply Z.div_le_lower_bound; lia.
      - pose proof (Z.mul_div_le M (2^g) PG). nia. }
    rewrite C. rewrite Nat2Z.inj_succ, Z.pow_succ_r in HB by lia.
    replace (t * 2 ^ Z.of_nat (S m)) with ((2 * t) * 2 ^ Z.of_nat m)
      by (rewrite Nat2Z.inj_succ, Z.pow_succ_r by lia; ring).
    destruct (2 ^ Z.of_nat m <=? M / 2^g) eqn:L.
    + assert (LO : Z.lor (2 * t * 2 ^ Z.of_nat m) (2 ^ Z.of_nat m) = (2 * t + 1) * 2 ^ Z.of_nat m).
      { replace (2 * t * 2 ^ Z.of_nat m) with (t * 2 ^ (Z.of_nat m + 1)) by (rewrite Z.pow_add_r by lia; ring).
        rewrite lor_add; [rewrite Z.pow_add_r by lia; ring|lia|].
        rewrite Z.pow_add_r by lia. lia. }
      rewrite LO.
      assert (LE : 2 ^ Z.of_nat m * 2^g <= M).
      { pose proof (Z.mul_div_le M (2^g) PG). nia. }
      assert (DV : (M - 2 ^ Z.of_nat m * 2^g) / 2^g = M / 2^g - 2 ^ Z.of_nat m).
      { replace (M - 2 ^ Z.of_nat m * 2 ^ g) with (M + (- 2 ^ Z.of_nat m) * 2^g) by ring.
        rewrite Z.div_add by lia. lia. }
      assert (SUB : (frac - fraction_value (24 - S m) == inject_Z (M - 2 ^ Z.of_nat m * 2^g) * pow2 (-24 - g))%Q).
      { rewrite E, FV. rewrite inject_sub. ring. }
      rewrite (IH ltac:(lia) (2 * t + 1) _ (M - 2 ^ Z.of_nat m * 2^g) g); try lia.
      rewrite fsub_exact; [exact SUB|].
      eexists _, _; split; [|exact SUB]. nia.
    + assert (SUB : (frac - 0 == inject_Z M * pow2 (-24 - g))%Q) by (rewrite E; ring).
      rewrite (IH ltac:(lia) (2 * t) _ M g); try lia.
      rewrite fsub_exact; [exact SUB|].
      eexists _, _; split; [|exact SUB]. lia.
Qed.

Lemma floor_dyadic M g : 0 <= g -> Qfloor (inject_Z M * pow2 (- g)) = M / 2^g.
Proof.
  intro Hg. assert (P : 0 < 2^g) by lia.
  assert (E : (inject_Z M * pow2 (- g) == inject_Z M / inject_Z (2^g))%Q).
  { unfold Qdiv. unfold pow2. rewrite Qpower_opp. rewrite Zpower_Qpower by lia. reflexivity. }
  rewrite E. rewrite Zdiv_Qdiv. reflexivity.
Qed.

(** A non-negative long double below 2^39 is cut to whole units. *)
Lemma lor_whole K I : 0 <= K < 16777216 -> 0 <= I < 2^39 ->
  Z.lor K (u64 (Z.shiftl I 24)) = I * 16777216 + K.
Proof.
  intros HK HI. rewrite Z.shiftl_mul_pow2 by lia. change (2^24) with 16777216 in *.
  unfold u64. rewrite Z.mod_small by lia. rewrite Z.lor_comm.
  change 16777216 with (2^24). apply lor_add; change (2^24) with 16777216; lia.
Qed.
Lemma split_dyadic q : is_ldouble q -> (0 <= q)%Q -> (q < inject_Z (2^39))%Q ->
  exists I K : Z, Qfloor q = I /\ (0 <= I < 2^39) /\ (0 <= K < 16777216) /\ (is_ldouble (q - inject_Z I)%Q) /\
    (forall f, (f == q - inject_Z I)%Q -> fraction_bits 24 0 f = K) /\
    Qfloor (q * inject_Z 16777216) = I * 16777216 + K.
Proof.
  intros (m & e & Hm & E) H0 HL.
  assert (Hm0 : 0 <= m).
  { destruct (Z_le_gt_dec 0 m); [assumption|]. exfalso. rewrite E in H0.
    pose proof (pow2_pos e) as P. unfold pow2 in P.
    assert (inject_Z m < 0)%Q by (apply (inject_lt m 0); lia).
    assert (inject_Z m * (2#1)^e < 0 * (2#1)^e)%Q by (apply Qmult_lt_r; assumption).
    lra. }
  (* take an exponent of -24 - g *)
  assert (G : exists M g, 0 <= g /\ 0 <= M <= 2^64 /\ (q == inject_Z M * pow2 (-24 - g))%Q).
  { destruct (Z_le_gt_dec e (-24)) as [L|L].
    - exists m, (-24 - e). split; [lia|]. split; [lia|]. rewrite E. unfold pow2. replace (-24 - (-24 - e)) with e by lia. reflexivity.
    - exists (m * 2^(e + 24)), 0. split; [lia|].
      assert (Q1 : (q == inject_Z (m * 2^(e+24)) * pow2 (-24 - 0))%Q).
      { rewrite E, inject_Z_mult, <- pow2_Z by lia. fold (pow2 e).
        replace e with (e + 24 + -24) at 1 by lia. rewrite pow2_add. change (-24 - 0) with (-24). ring. }
      split; [|exact Q1]. split; [nia|].
      rewrite Q1 in HL. change (-24 - 0) with (-24) in HL. change (pow2 (-24)) with (1#16777216)%Q in HL.
      assert (X : (inject_Z (m * 2^(e+24)) < inject_Z (2^63))%Q).
      { change (inject_Z (2^63)) with (9223372036854775808#1)%Q. change (inject_Z (2^39)) with (549755813888#1)%Q in HL. lra. }
      apply (proj1 (inject_lt _ _)) in X. lia. }
  clear E. destruct G as (M & g & Hg & HM & E).
  assert (P : 0 < 2^g) by lia.
  exists (Qfloor q), ((M / 2^g) mod 16777216).
  assert (FQ : Qfloor q = M / (16777216 * 2^g)).
  { rewrite E. replace (-24 - g) with (- (24 + g)) by lia. rewrite floor_dyadic by lia.
    rewrite Z.pow_add_r by lia. reflexivity. }
  assert (FS : Qfloor (q * inject_Z 16777216) = M / 2^g).
  { rewrite <- floor_dyadic by lia. apply Qfloor_comp. rewrite E.
    replace (- g) with (24 + (-24 - g)) by lia. rewrite pow2_add. change (pow2 24) with (inject_Z 16777216). ring. }
  assert (IB : 0 <= Qfloor q < 2^39).
  { split; [rewrite <- (Qfloor_Z 0); apply Qfloor_resp_le; exact H0|].
    apply inject_lt. eapply Qle_lt_trans; [apply Qfloor_le|exact HL]. }
  assert (DV : M / (16777216 * 2^g) = M / 2^g / 16777216).
  { rewrite Z.mul_comm. rewrite Z.div_div by lia. reflexivity. }
  assert (FR : (q - inject_Z (Qfloor q) == inject_Z (M - Qfloor q * (16777216 * 2^g)) * pow2 (-24 - g))%Q).
  { rewrite E at 1. rewrite inject_sub, !inject_Z_mult, <- (pow2_Z g) by lia.
    assert (U : (inject_Z 16777216 * pow2 g * pow2 (-24 - g) == 1)%Q).
    { change (inject_Z 16777216) with (pow2 24). rewrite <- !pow2_add. replace (24 + g + (-24 - g)) with 0 by lia. reflexivity. }
    setoid_replace ((inject_Z M - inject_Z (Qfloor q) * (inject_Z 16777216 * pow2 g)) * pow2 (-24 - g))%Q
      with (inject_Z M * pow2 (-24 - g) - inject_Z (Qfloor q) * (inject_Z 16777216 * pow2 g * pow2 (-24 - g)))%Q by ring.
    rewrite U. ring. }
  set (M' := M - Qfloor q * (16777216 * 2^g)) in *.
  assert (HM' : M' = M mod (16777216 * 2^g)) by (unfold M'; rewrite FQ, Z.mod_eq by lia; lia).
  assert (MB : 0 <= M' <= M).
  { rewrite HM'. split; [apply Z.mod_pos_bound; lia|apply Z.mod_le; lia]. }
  assert (ML : M' < 16777216 * 2^g) by (rewrite HM'; apply Z.mod_pos_bound; lia).
  assert (DM : M' / 2^g = (M / 2^g) mod 16777216).
  { unfold M'. replace (M - Qfloor q * (16777216 * 2 ^ g)) with (M + (- (Qfloor q * 16777216)) * 2^g) by ring.
    rewrite Z.div_add by lia. rewrite FQ, DV. rewrite Z.mod_eq by lia. lia. }
  split; [reflexivity|]. split; [exact IB|]. split; [apply Z.mod_pos_bound; lia|].
  split; [exists M', (-24 - g); split; [lia|exact FR]|].
  split.
  - intros f Hf. 
    pose proof (fraction_bits_exact 24 ltac:(lia) 0 f M' g Hg ltac:(lia)) as X.
    rewrite Z.mul_0_l, Z.add_0_l in X. rewrite X; [exact DM| rewrite Hf; exact FR|].
    change (2 ^ Z.of_nat 24) with 16777216. apply Z.div_lt_upper_bound; lia.
  - rewrite FS, FQ, DV. pose proof (Z.div_mod (M / 2^g) 16777216 ltac:(lia)). lia.
Qed.

Lemma to_u64_Z x : 0 <= x < 2^64 -> to_u64 (inject_Z x) = Some x.
Proof. intro H. unfold to_u64. rewrite Qfloor_Z. replace ((0 <=? x) && (x <? 2^64)) with true by lia. reflexivity. Qed.
Lemma to_i64_pos x : 0 <= x < 2^63 -> to_i64 x = x.
Proof. intro H. unfold to_i64, u64. rewrite Z.mod_small by lia. replace (x <? 2^63) with true by lia. reflexivity. Qed.
Lemma to_i64_neg x : 0 <= x < 2^63 -> to_i64 (u64 (- x)) = - x.
Proof.
  intro H. unfold to_i64, u64. rewrite Z.mod_mod by lia. destruct (Z.eq_dec x 0) as [->|N].
  - reflexivity.
  - replace (- x) with (2^64 - x + (-1) * 2^64) by lia. rewrite Z_mod_plus_full.
    rewrite Z.mod_small by lia. replace (2^64 - x <? 2^63) with false by lia. lia.
Qed.
Lemma ld_opp q : is_ldouble q -> is_ldouble (- q)%Q.
Proof. intros (m & e & H & E). exists (- m), e. split; [lia|]. rewrite E, inject_Z_opp. ring. Qed.

Lemma ldouble_to_fixp_exact q : is_ldouble q -> (Qabs q < inject_Z (2^39))%Q ->
  ldouble_to_fixp (Fin q) = FOk (signed (negb (Qle_bool 0 q)) (Qfloor (Qabs q * inject_Z 16777216))).
Proof.
  intros L B. unfold ldouble_to_fixp, modfl.
  destruct (Qle_bool 0 q) eqn:S; cbn [negb].
  - apply Qle_bool_iff in S. rewrite (Qabs_pos q S) in *.
    destruct (split_dyadic q L S B) as (I & K & E1 & HI & HK & EL & FB & ES).
    rewrite E1. rewrite (FB _ (fsub_exact _ _ EL)). rewrite to_u64_Z by lia.
    rewrite lor_whole by assumption. rewrite to_i64_pos by lia. unfold signed. rewrite ES. reflexivity.
  - assert (N : (q < 0)%Q) by (apply Qnot_le_lt; intro X; apply Qle_bool_iff in X; congruence).
    rewrite (Qabs_neg q) in * by (apply Qlt_le_weak, N).
    destruct (split_dyadic (- q) (ld_opp _ L) ltac:(lra) B) as (I & K & E1 & HI & HK & EL & FB & ES).
    rewrite E1. rewrite Z.opp_involutive.
    assert (L2 : is_ldouble (q - inject_Z (- I))%Q).
    { eapply ld_compat; [|apply ld_opp, EL]. rewrite inject_Z_opp. ring. }
    rewrite (FB (- fsub q (inject_Z (- I)))%Q).
    2: { rewrite fsub_exact by exact L2. rewrite inject_Z_opp. ring. }
    rewrite to_u64_Z by lia. rewrite lor_whole by assumption. rewrite to_i64_neg by lia.
    unfold signed. rewrite ES. reflexivity.
Qed.

Lemma ldouble_roundtrip x : - 2^63 < x < 2^63 ->
  exists d, fixp_to_ldouble x = FOk d /\ (d == fixp_value x)%Q /\ ldouble_to_fixp (Fin d) = FOk x.
Proof.
  intro H. destruct (to_ldouble_exact x H) as (d & E & V). exists d. split; [exact E|].
  split; [rewrite V; apply q24_value|].
  assert (A : (Qabs d == q24 (Z.abs x))%Q).
  { rewrite V. unfold q24. rewrite Qabs_Qmult. reflexivity. }
  rewrite ldouble_to_fixp_exact.
  - f_equal.
    assert (F : Qfloor (Qabs d * inject_Z 16777216) = Z.abs x).
    { rewrite A. transitivity (Qfloor (inject_Z (Z.abs x))); [apply Qfloor_comp|apply Qfloor_Z]. unfold q24.
      change (pow2 (-24)) with (1#16777216)%Q. change (inject_Z 16777216) with (16777216#1)%Q. lra. }
    rewrite F. unfold signed.
    destruct (Qle_bool 0 d) eqn:S; cbn [negb].
    + apply Qle_bool_iff in S. rewrite V in S. apply (proj1 (q24_nonneg x)) in S. lia.
    + assert (~ (0 <= x)).
      { intro X. apply (proj2 (q24_nonneg x)) in X. rewrite <- V in X. apply Qle_bool_iff in X. congruence. }
      lia.
  - eapply ld_compat; [symmetry; exact V|]. apply q24_ld. lia.
  - rewrite A. unfold q24.
    assert (X : (inject_Z (Z.abs x) < inject_Z (2^63))%Q) by (apply inject_lt; lia).
    change (pow2 (-24)) with (1#16777216)%Q. change (inject_Z (2^39)) with (549755813888#1)%Q.
    change (inject_Z (2^63)) with (9223372036854775808#1)%Q in X. lra.
Qed.
