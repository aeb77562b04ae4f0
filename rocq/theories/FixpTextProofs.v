From Coq Require Import ZArith List Bool QArith Qround Qabs Qpower Lia Lqa.
From Verif Require Import Common FixpModel FixpSpec FixpProofs FixpParseProofs.
Import ListNotations.
Open Scope Z_scope.

(** ** Up to sixteen hexadecimal digits are summed up exactly *)
Lemma int_value_acc base ds a : fold_left (fun a d => a * base + d) ds a = a * base ^ Z.of_nat (length ds) + int_value base ds.
Proof.
  unfold int_value. revert a. induction ds as [|d r IH]; intro a.
  - cbn. lia.
  - cbn [fold_left length]. rewrite IH, (IH (0 * base + d)). rewrite Nat2Z.inj_succ, Z.pow_succ_r by lia. ring.
Qed.
Lemma int_value_cons base d r : int_value base (d :: r) = d * base ^ Z.of_nat (length r) + int_value base r.
Proof. unfold int_value at 1. cbn [fold_left]. rewrite int_value_acc. reflexivity. Qed.
Lemma int_value_snoc base r d : int_value base (r ++ [d]) = int_value base r * base + d.
Proof. unfold int_value. rewrite fold_left_app. reflexivity. Qed.
Lemma int_value_bound base ds text : base_ok base -> digits base ds text -> 0 <= int_value base ds < base ^ Z.of_nat (length ds).
Proof.
  intros B D. induction D as [|d c ds text [Hd Hl] D IH].
  - cbn. lia.
  - rewrite int_value_cons. cbn [length]. rewrite Nat2Z.inj_succ, Z.pow_succ_r by lia.
    apply digit_range in Hd. assert (0 < base ^ Z.of_nat (length ds)) by (apply Z.pow_pos_nonneg; destruct B; lia). nia.
Qed.
Lemma ld_int m e : Z.abs m <= 2^64 -> is_ldouble (inject_Z m * pow2 e)%Q.
Proof. intro H. exists m, e. split; [exact H|reflexivity]. Qed.

Lemma fraction_sum_hex ds text : digits 16 ds text -> forall f fac k n,
  (k + length ds <= 16)%nat -> 0 <= n < 2 ^ (4 * Z.of_nat k) ->
  (fac == pow2 (4 * Z.of_nat k))%Q -> (f == inject_Z n * pow2 (- (4 * Z.of_nat k)))%Q ->
  exists f', fraction_sum 16 text f fac = Some f' /\ (f' == f + frac_value 16 ds * pow2 (- (4 * Z.of_nat k)))%Q.
Proof.
  intro D. induction D as [|d c ds text [Hd Hl] D IH]; intros f fac k n HK HN HF Hf.
  - exists f. split; [reflexivity|]. cbn [frac_value]. ring.
  - cbn [fraction_sum]. rewrite (convert_digit d c Hd). cbn [length] in HK. apply digit_range in Hd as DR.
    set (P := pow2 (- (4 * Z.of_nat k))) in *.
    assert (P1 : (pow2 (4 * Z.of_nat k) * P == 1)%Q) by apply pow2_opp.
    assert (PP : (0 < pow2 (4 * Z.of_nat k))%Q) by apply pow2_pos.
    assert (K4 : (pow2 (- (4 * Z.of_nat (S k))) == P * (1#16))%Q).
    { unfold P. replace (- (4 * Z.of_nat (S k))) with (- (4 * Z.of_nat k) + -4) by lia. rewrite pow2_add. reflexivity. }
    assert (A : (fdiv (inject_Z d) (inject_Z 16) == inject_Z d * (1#16))%Q).
    { assert (X : (inject_Z d / inject_Z 16 == inject_Z d * pow2 (-4))%Q) by (change (pow2 (-4)) with (1#16)%Q; change (inject_Z 16) with (16#1)%Q; field).
      rewrite fdiv_exact; [exact X|]. eapply ld_compat; [symmetry; exact X|]. apply ld_int. lia. }
    assert (T : (fdiv (fdiv (inject_Z d) (inject_Z 16)) fac == inject_Z d * (P * (1#16)))%Q).
    { assert (X : (fdiv (inject_Z d) (inject_Z 16) / fac == inject_Z d * (P * (1#16)))%Q).
      { rewrite A, HF. apply (Qmult_inj_r _ _ (pow2 (4 * Z.of_nat k))); [lra|].
        setoid_replace (inject_Z d * (P * (1#16)) * pow2 (4 * Z.of_nat k))%Q with (inject_Z d * (1#16) * (pow2 (4 * Z.of_nat k) * P))%Q by ring.
        rewrite P1. field. lra. }
      rewrite fdiv_exact; [exact X|]. eapply ld_compat; [symmetry; exact X|].
      eapply ld_compat; [|apply (ld_int d (- (4 * Z.of_nat (S k)))); lia]. rewrite K4. reflexivity. }
    assert (BND : 0 <= n * 16 + d < 2 ^ (4 * Z.of_nat (S k))).
    { replace (4 * Z.of_nat (S k)) with (4 * Z.of_nat k + 4) by lia. rewrite Z.pow_add_r by lia. change (2^4) with 16. lia. }
    assert (B64 : 2 ^ (4 * Z.of_nat (S k)) <= 2^64) by (apply Z.pow_le_mono_r; lia).
    assert (FA : (fadd f (fdiv (fdiv (inject_Z d) (inject_Z 16)) fac) == inject_Z (n * 16 + d) * pow2 (- (4 * Z.of_nat (S k))))%Q).
    { assert (X : (f + fdiv (fdiv (inject_Z d) (inject_Z 16)) fac == inject_Z (n * 16 + d) * pow2 (- (4 * Z.of_nat (S k))))%Q).
      { rewrite T, Hf, K4, inject_Z_plus, inject_Z_mult. change (inject_Z 16) with (16#1)%Q. ring_simplify. field. }
      rewrite fadd_exact; [exact X|]. eapply ld_compat; [symmetry; exact X|]. apply ld_int. lia. }
    assert (FM : (fmul fac (inject_Z 16) == pow2 (4 * Z.of_nat (S k)))%Q).
    { assert (X : (fac * inject_Z 16 == pow2 (4 * Z.of_nat (S k)))%Q).
      { rewrite HF. replace (4 * Z.of_nat (S k)) with (4 * Z.of_nat k + 4) by lia. rewrite pow2_add. reflexivity. }
      rewrite fmul_exact; [exact X|]. eapply ld_compat; [symmetry; exact X|].
      exists 1, (4 * Z.of_nat (S k)). split; [lia|]. fold (pow2 (4 * Z.of_nat (S k))). change (inject_Z 1) with 1%Q. ring. }
    destruct (IH _ _ (S k) (n * 16 + d) ltac:(lia) BND FM FA) as (f' & E1 & E2).
    exists f'. split; [exact E1|]. rewrite E2, FA, K4, Hf. cbn [frac_value]. rewrite inject_Z_plus, inject_Z_mult.
    change (inject_Z 16) with (16#1)%Q. field.
Qed.
Lemma fraction_sum_hex0 fs ftext : digits 16 fs ftext -> (length fs <= 16)%nat ->
  exists f, fraction_sum 16 ftext 0 1 = Some f /\ (f == frac_value 16 fs)%Q.
Proof.
  intros D L. destruct (fraction_sum_hex fs ftext D 0 1 0%nat 0 ltac:(lia) ltac:(cbn; lia)) as (f & E & V).
  - reflexivity.
  - reflexivity.
  - exists f. split; [exact E|]. rewrite V. change (pow2 (- (4 * Z.of_nat 0))) with 1%Q. ring.
Qed.

(** ** A fraction of zeros is zero *)
Lemma fadd_zero a b : (a == 0)%Q -> (b == 0)%Q -> (fadd a b == 0)%Q.
Proof. intros A B. unfold fadd. rewrite Qred_correct. apply rd_zero. rewrite A, B. reflexivity. Qed.
Lemma fdiv_zero a b : (a == 0)%Q -> (fdiv a b == 0)%Q.
Proof. intros A. unfold fdiv. rewrite Qred_correct. apply rd_zero. rewrite A. unfold Qdiv. ring. Qed.
Lemma fmul_zero a b : (a == 0)%Q -> (fmul a b == 0)%Q.
Proof. intros A. unfold fmul. rewrite Qred_correct. apply rd_zero. rewrite A. ring. Qed.
Lemma fraction_sum_zero base ds text : digits base ds text -> Forall (fun d => d = 0) ds -> forall f fac, (f == 0)%Q ->
  exists f', fraction_sum base text f fac = Some f' /\ (f' == 0)%Q.
Proof.
  intros D. induction D as [|d c ds text [Hd Hl] D IH]; intros FZ f fac Hf.
  - exists f. split; [reflexivity|exact Hf].
  - cbn [fraction_sum]. rewrite (convert_digit d c Hd). inversion FZ; subst. apply IH; [assumption|].
    apply fadd_zero; [exact Hf|]. apply fdiv_zero, fdiv_zero. reflexivity.
Qed.

(** ** The integer part *)
Lemma to_u64_ok q x : (q == inject_Z x)%Q -> 0 <= x < 2^64 -> to_u64 q = Some x.
Proof.
  intros E H. unfold to_u64. assert (F : Qfloor q = x) by (rewrite E; apply Qfloor_Z). rewrite F.
  replace ((0 <=? x) && (x <? 2^64)) with true by lia. reflexivity.
Qed.
Lemma integer_sum_zeros base ds text : digits base ds text -> Forall (fun d => d = 0) ds -> forall acc fac,
  0 <= acc < 2^64 -> integer_sum base text acc fac = FOk acc.
Proof.
  intro D. induction D as [|d c ds text [Hd Hl] D IH]; intros FZ acc fac HA; cbn [integer_sum]; [reflexivity|].
  rewrite (convert_digit d c Hd). inversion FZ; subst.
  rewrite (to_u64_ok _ 0); [|rewrite fmul_zero; reflexivity|lia].
  rewrite Z.add_0_r. unfold u64. rewrite Z.mod_small by lia. apply IH; assumption.
Qed.

(** Least significant digit first. *)
Fixpoint le_value (base : Z) (ds : list Z) : Z := match ds with [] => 0 | d :: r => d + base * le_value base r end.
Lemma le_value_rev base ds : le_value base (rev ds) = int_value base ds.
Proof.
  enough (G : forall ds', le_value base ds' = int_value base (rev ds')) by (rewrite G, rev_involutive; reflexivity).
  induction ds' as [|d r IH]; [reflexivity|]. cbn [le_value rev]. rewrite int_value_snoc, IH. ring.
Qed.
Lemma le_value_nonneg base ds text : base_ok base -> digits base ds text -> 0 <= le_value base ds.
Proof.
  intros B D. induction D as [|d c ds text [Hd Hl] D IH]; cbn [le_value]; [lia|].
  apply digit_range in Hd. destruct B; subst; nia.
Qed.
Lemma le_value_zero base ds text : base_ok base -> digits base ds text -> le_value base ds = 0 -> Forall (fun d => d = 0) ds.
Proof.
  intros B D. induction D as [|d c ds text [Hd Hl] D IH]; intro Z; constructor; cbn [le_value] in Z;
    apply digit_range in Hd; pose proof (le_value_nonneg base ds text B D).
  - destruct B; subst; lia.
  - apply IH. destruct B; subst; lia.
Qed.
Lemma integer_sum_exact base ds text : base_ok base -> digits base ds text -> forall acc fac b,
  (fac == inject_Z b)%Q -> 0 < b <= 2^43 -> 0 <= acc -> acc + b * le_value base ds < 2^39 ->
  integer_sum base text acc fac = FOk (acc + b * le_value base ds).
Proof.
  intros B D. induction D as [|d c ds text [Hd Hl] D IH]; intros acc fac b HF Hb HA HS; cbn [integer_sum le_value] in *.
  - f_equal. lia.
  - rewrite (convert_digit d c Hd). apply digit_range in Hd as DR.
    pose proof (le_value_nonneg base ds text B D) as L0.
    assert (M0 : 0 <= b * (base * le_value base ds)) by (destruct B; subst; nia).
    assert (D0 : 0 <= b * d) by nia.
    assert (E : (fmul (inject_Z d) fac == inject_Z (d * b))%Q).
    { assert (X : (inject_Z d * fac == inject_Z (d * b))%Q) by (rewrite HF, inject_Z_mult; reflexivity).
      rewrite fmul_exact; [exact X|]. exists (d * b), 0. split; [lia|]. rewrite X. cbn. ring. }
    rewrite (to_u64_ok _ (d * b) E) by lia.
    unfold u64. rewrite Z.mod_small by lia.
    destruct (Z_le_gt_dec (b * base) (2^43)) as [G|G].
    + rewrite (IH (acc + d * b) (fmul fac (inject_Z base)) (b * base)).
      * f_equal. ring.
      * assert (X : (fac * inject_Z base == inject_Z (b * base))%Q) by (rewrite HF, inject_Z_mult; reflexivity).
        rewrite fmul_exact; [exact X|]. exists (b * base), 0. split; [destruct B; lia|]. rewrite X. cbn. ring.
      * destruct B; lia.
      * lia.
      * nia.
    + assert (LZ : le_value base ds = 0) by nia.
      rewrite (integer_sum_zeros base ds text D (le_value_zero _ _ _ B D LZ)) by lia.
      f_equal. rewrite LZ. lia.
Qed.
Lemma digits_rev base ds text : digits base ds text -> digits base (rev ds) (rev text).
Proof.
  induction 1 as [|d c ds text H D IH]; cbn [rev]; [constructor|].
  apply Forall2_app; [exact IH|]. constructor; [exact H|constructor].
Qed.

(** ** Whole texts *)
Lemma combine_parts I K neg : 0 <= I < 2^39 -> 0 <= K < 16777216 ->
  to_i64 (if neg : bool then u64 (0 - Z.land (Z.lor K (u64 (Z.shiftl I 24))) (2^63 - 1)) else Z.land (Z.lor K (u64 (Z.shiftl I 24))) (2^63 - 1))
  = signed neg (I * 16777216 + K).
Proof.
  intros HI HK. rewrite lor_whole by assumption. change (2^63 - 1) with (Z.ones 63). rewrite Z.land_ones by lia.
  rewrite Z.mod_small by lia. unfold signed. destruct neg.
  - rewrite Z.sub_0_l. apply to_i64_neg. lia.
  - apply to_i64_pos. lia.
Qed.

Definition frac_result (base : Z) (ftext : list Z) : option Z :=
  match frac_of ftext with
  | None => Some 0
  | Some fs => match fraction_sum base fs 0 1 with None => None | Some f => Some (fraction_search 24 f 0 0) end
  end.
Lemma str_to_fixp_literal base neg is fs p s itext ftext rest K :
  prefix_text base p -> sign_text neg s -> is <> [] -> digits base is itext ->
  fraction_text base fs ftext -> number_ends base rest ->
  int_value base is < 2^39 -> frac_result base ftext = Some K -> 0 <= K < 16777216 ->
  str_to_fixp (p ++ s ++ itext ++ ftext ++ rest) =
    FOk (signed neg (int_value base is * 16777216 + K), length (p ++ s ++ itext ++ ftext)).
Proof.
  intros P S NE DI DF E HI FR HK. assert (B := prefix_base _ _ P).
  unfold str_to_fixp. rewrite (preliminary_literal base neg is fs p s itext ftext rest) by assumption.
  unfold frac_result in FR. rewrite FR.
  pose proof (int_value_bound base is itext B DI) as [I0 _].
  rewrite (integer_sum_exact base (rev is) (rev itext) B (digits_rev _ _ _ DI) 0 1 1).
  - rewrite le_value_rev. replace (0 + 1 * int_value base is) with (int_value base is) by lia.
    rewrite combine_parts by lia. reflexivity.
  - reflexivity.
  - lia.
  - lia.
  - rewrite le_value_rev. lia.
Qed.

Lemma floor_scale q : (0 <= q < 1)%Q -> 0 <= Qfloor (q * inject_Z 16777216) < 16777216.
Proof.
  intros [H0 H1]. split.
  - apply (q24_floor q 0). setoid_replace (q24 0) with 0%Q by reflexivity. exact H0.
  - apply inject_lt. eapply Qle_lt_trans; [apply Qfloor_le|]. change (inject_Z 16777216) with (16777216#1)%Q. lra.
Qed.
Lemma floor_add i q : Qfloor ((inject_Z i + q) * inject_Z 16777216) = i * 16777216 + Qfloor (q * inject_Z 16777216).
Proof.
  rewrite Z.add_comm. rewrite <- Qfloor_plus_Z || idtac.
  set (w := (q * inject_Z 16777216)%Q).
  assert (E : ((inject_Z i + q) * inject_Z 16777216 == w + inject_Z (i * 16777216))%Q).
  { unfold w. rewrite inject_Z_mult. ring. }
  rewrite E. pose proof (Qfloor_le w) as L. pose proof (Qlt_floor w) as U.
  apply Z.le_antisymm.
  - assert (X : (inject_Z (Qfloor (w + inject_Z (i * 16777216))) < inject_Z (Qfloor w + i * 16777216 + 1))%Q).
    { eapply Qle_lt_trans; [apply Qfloor_le|]. rewrite inject_Z_plus in U. rewrite !inject_Z_plus. lra. }
    apply (proj1 (inject_lt _ _)) in X. lia.
  - rewrite <- (Qfloor_Z (Qfloor w + i * 16777216)). apply Qfloor_resp_le. rewrite inject_Z_plus. lra.
Qed.

Lemma parse_hex_exact neg is fs text rest : literal 16 neg is fs text -> number_ends 16 rest ->
  int_value 16 is < 2^39 -> (length fs <= 16)%nat ->
  str_to_fixp (text ++ rest) = FOk (signed neg (Qfloor (magnitude 16 is fs * inject_Z 16777216)), length text).
Proof.
  intros L E HI HF. inversion L as [base neg' is' fs' p s itext ftext P S NE DI DF]; subst. clear L.
  assert (B : base_ok 16) by (right; reflexivity).
  rewrite <- !app_assoc. unfold magnitude. rewrite floor_add.
  apply str_to_fixp_literal with (fs := fs); try assumption.
  - unfold frac_result. destruct DF as [|fs' ft D]; cbn [frac_of].
    + reflexivity.
    + destruct (fraction_sum_hex0 fs' ft D HF) as (f & Ef & V). rewrite Ef.
      pose proof (frac_value_range 16 fs' ft B D) as R.
      rewrite fraction_search_floor by (rewrite V; apply R).
      rewrite V. f_equal. pose proof (floor_scale _ R). lia.
  - destruct DF as [|fs' ft D].
    + cbn. lia.
    + apply floor_scale. eapply frac_value_range; eassumption.
Qed.

Lemma parse_zero_fraction base neg is fs text rest : literal base neg is fs text -> number_ends base rest ->
  int_value base is < 2^39 -> Forall (fun d => d = 0) fs ->
  str_to_fixp (text ++ rest) = FOk (signed neg (int_value base is * 16777216), length text).
Proof.
  intros L E HI HF. inversion L as [base' neg' is' fs' p s itext ftext P S NE DI DF]; subst. clear L.
  rewrite <- !app_assoc. replace (int_value base is * 16777216) with (int_value base is * 16777216 + 0) by lia.
  apply str_to_fixp_literal with (fs := fs); try assumption; [|lia].
  unfold frac_result. destruct DF as [|fs' ft D]; cbn [frac_of]; [reflexivity|].
  destruct (fraction_sum_zero base fs' ft D HF 0 1 ltac:(reflexivity)) as (f & Ef & V). rewrite Ef.
  rewrite fraction_search_floor by (rewrite V; apply Qle_refl). rewrite V. reflexivity.
Qed.

Lemma parse_close base neg is fs text rest : literal base neg is fs text -> number_ends base rest ->
  int_value base is < 2^39 -> (length fs <= 4096)%nat ->
  exists r, str_to_fixp (text ++ rest) = FOk (signed neg r, length text) /\ 0 <= r < 2^63 /\
    (magnitude base is fs - (16777217#281474976710656) < fixp_value r)%Q /\
    (fixp_value r <= magnitude base is fs + (1#281474976710656))%Q.
Proof.
  intros L E HI HF. inversion L as [base' neg' is' fs' p s itext ftext P S NE DI DF]; subst. clear L.
  assert (B := prefix_base _ _ P).
  assert (G : exists K, frac_result base ftext = Some K /\ 0 <= K < 16777216 /\
     (frac_value base fs - (16777217#281474976710656) < q24 K)%Q /\ (q24 K <= frac_value base fs + (1#281474976710656))%Q).
  { destruct DF as [|fs' ft D].
    - exists 0. split; [reflexivity|]. split; [lia|]. cbn [frac_value]. setoid_replace (q24 0) with 0%Q by reflexivity. split; lra.
    - unfold frac_result; cbn [frac_of].
      destruct (fraction_sum_bound base fs' ft B D HF) as (f & Ef & F0 & FE). rewrite Ef.
      rewrite fraction_search_floor by exact F0. eexists; split; [reflexivity|].
      pose proof (frac_value_range base fs' ft B D) as [R0 R1].
      set (fl := Qfloor (f * inject_Z 16777216)).
      assert (FL0 : 0 <= fl) by (apply (q24_floor f 0); setoid_replace (q24 0) with 0%Q by reflexivity; exact F0).
      split; [lia|].
      assert (U1 : (q24 fl <= f)%Q) by (apply q24_floor; unfold fl; lia).
      assert (U2 : (f < q24 (fl + 1))%Q).
      { apply Qnot_le_lt. intro X. apply (proj1 (q24_floor _ _)) in X. fold fl in X. lia. }
      rewrite q24_add in U2. change (q24 1) with (1 * (1#16777216))%Q in U2.
      apply Qabs_Qle_condition in FE. destruct FE as [FE1 FE2].
      destruct (Z_le_gt_dec fl (2^24 - 1)) as [C|C].
      + rewrite Z.min_l by exact C. split; lra.
      + rewrite Z.min_r by lia.
        assert (U3 : (q24 (2^24) <= q24 fl)%Q) by (apply q24_le; lia).
        change (q24 (2^24)) with ((16777216#1) * (1#16777216))%Q in U3.
        change (q24 (2^24 - 1)) with ((16777215#1) * (1#16777216))%Q. split; lra. }
  destruct G as (K & EK & HK & K1 & K2).
  pose proof (int_value_bound base is itext B DI) as [I0 _].
  exists (int_value base is * 16777216 + K).
  split; [rewrite <- !app_assoc; apply str_to_fixp_literal with (fs := fs); assumption|].
  split; [lia|].
  assert (Q : (fixp_value (int_value base is * 16777216 + K) == inject_Z (int_value base is) + q24 K)%Q).
  { rewrite <- q24_value, q24_add. unfold q24. rewrite inject_Z_mult. change (pow2 (-24)) with (1#16777216)%Q.
    change (inject_Z 16777216) with (16777216#1)%Q. field. }
  rewrite Q. unfold magnitude. split; lra.
Qed.

(** ** Accepted texts and absence of aborts *)
Lemma fraction_sum_some base ds text : digits base ds text -> forall f fac, exists f', fraction_sum base text f fac = Some f'.
Proof.
  intro D. induction D as [|d c ds text [Hd Hl] D IH]; intros f fac; cbn [fraction_sum]; [eauto|].
  rewrite (convert_digit d c Hd). apply IH.
Qed.
Lemma integer_sum_no_bug base ds text : digits base ds text -> forall acc fac, integer_sum base text acc fac <> FBug.
Proof.
  intro D. induction D as [|d c ds text [Hd Hl] D IH]; intros acc fac; cbn [integer_sum]; [discriminate|].
  rewrite (convert_digit d c Hd). destruct (to_u64 _); [apply IH|discriminate].
Qed.
Lemma preliminary_no_bug s : preliminary_parse s <> FBug.
Proof.
  unfold preliminary_parse. destruct s; [discriminate|].
  repeat match goal with |- context [match ?x with _ => _ end] => destruct x; try discriminate end.
Qed.
Lemma str_to_fixp_no_bug s : str_to_fixp s <> FBug.
Proof.
  unfold str_to_fixp. destruct (preliminary_parse s) as [[[[[b neg] ints] fracs] used]|e| |] eqn:P; try discriminate.
  - destruct (preliminary_sound _ _ _ _ _ _ P) as (p & sg & is & fs & ftext & rest & H1 & H2 & H3 & H4 & H5 & H6 & H7 & H8).
    subst fracs.
    assert (X : exists K, match frac_of ftext with None => Some 0 | Some fs => match fraction_sum b fs 0 1 with None => None | Some f => Some (fraction_search 24 f 0 0) end end = Some K).
    { destruct H5 as [|fs' ft D]; cbn [frac_of]; [eauto|].
      destruct (fraction_sum_some b fs' ft D 0 1) as (f & ->). eauto. }
    destruct X as (K & ->).
    pose proof (integer_sum_no_bug b (rev is) (rev ints) (digits_rev _ _ _ H4) 0 1) as N.
    destruct (integer_sum b (rev ints) 0 1); try discriminate. congruence.
  - exfalso. exact (preliminary_no_bug s P).
Qed.
Lemma parse_sound s r used : str_to_fixp s = FOk (r, used) ->
  exists base neg is fs, literal base neg is fs (firstn used s).
Proof.
  unfold str_to_fixp. destruct (preliminary_parse s) as [[[[[b neg] ints] fracs] u]|e| |] eqn:P; try discriminate.
  intro H.
  destruct (preliminary_sound _ _ _ _ _ _ P) as (p & sg & is & fs & ftext & rest & H1 & H2 & H3 & H4 & H5 & H6 & H7 & H8).
  assert (u = used).
  { destruct (match fracs with None => Some 0 | Some fs => _ end); [|discriminate].
    destruct (integer_sum b (rev ints) 0 1); try discriminate. congruence. }
  subst u used. exists b, neg, is, fs. subst s.
  replace (p ++ sg ++ ints ++ ftext ++ rest) with ((p ++ sg ++ ints ++ ftext) ++ rest) by (rewrite <- !app_assoc; reflexivity).
  rewrite firstn_app_exact. constructor; assumption.
Qed.

(** ** The hexadecimal form *)
Lemma nibbles_spec c : byte c ->
  exists h l, Z.shiftr (Z.land c 0xf0) 4 = h /\ Z.land c 0x0f = l /\ 0 <= h < 16 /\ 0 <= l < 16 /\ c = h * 16 + l.
Proof.
  intro H. exists (c / 16), (c mod 16).
  assert (Hc : 0 <= c < 256) by (unfold byte in H; lia).
  split; [|split; [|lia]].
  - assert (S : forallb (fun c => Z.shiftr (Z.land c 0xf0) 4 =? c / 16) all_bytes = true) by (vm_compute; reflexivity).
    apply (sweep_byte _ S c) in Hc as W. cbv beta in W. lia.
  - change 0x0f with (Z.ones 4). rewrite Z.land_ones by lia. reflexivity.
Qed.
Lemma hex_char_spec d : 0 <= d < 16 -> digit_char d (fixp_hex_char d).
Proof.
  intro H. unfold fixp_hex_char. destruct (9 <? d) eqn:E.
  - rewrite Z.add_comm. apply DC_low. lia.
  - rewrite Z.add_comm. apply DC_dec. lia.
Qed.

Definition high (b : Z) : Z := b / 16.
Definition low (b : Z) : Z := b mod 16.
Lemma loop_hex b r pos : byte b ->
  str_16_loop (b :: r) pos = fixp_hex_char (high b) :: fixp_hex_char (low b) :: (if Nat.eqb pos 4 then [46] else []) ++ str_16_loop r (S pos).
Proof.
  intro H. destruct (nibbles_spec b H) as (h & l & E1 & E2 & H1 & H2 & E). cbn [str_16_loop app]. rewrite E1, E2.
  unfold high, low. replace (b / 16) with h by lia. replace (b mod 16) with l by lia. reflexivity.
Qed.
Lemma hex_roundtrip x size t : 0 <= x < 2^63 -> fixp_to_str_16 size x = Some t -> str_to_fixp t = FOk (x, length t).
Proof.
  intros Hx. unfold fixp_to_str_16. unfold u64. rewrite Z.mod_small by lia.
  pose proof (be_enc_len 8 x) as L. pose proof (be_enc_bytes 8 x) as BB.
  pose proof (be_dec_enc 8 x ltac:(change (256 ^ Z.of_nat 8) with (2^64); lia)) as V.
  destruct (be_enc 8 x) as [|b0 [|b1 [|b2 [|b3 [|b4 [|b5 [|b6 [|b7 [|b8 r]]]]]]]]]; try (unfold zlen in L; cbn [length] in L; lia).
  clear L. unfold bytes in BB. rewrite !Forall_cons_iff in BB.
  destruct BB as (B0 & B1 & B2 & B3 & B4 & B5 & B6 & B7 & _).
  cbv [be_dec fold_left] in V.
  rewrite !loop_hex by assumption. cbn [Nat.eqb app str_16_loop].
  destruct (size <? _); [discriminate|]. intro E. injection E as <-.
  set (is := [high b0; low b0; high b1; low b1; high b2; low b2; high b3; low b3; high b4; low b4]).
  set (fs := [high b5; low b5; high b6; low b6; high b7; low b7]).
  unfold byte in *.
  assert (DI : digits 16 is (map fixp_hex_char is)).
  { unfold is, high, low. cbn [map]. repeat (constructor; [split; [apply hex_char_spec; lia|lia]|]). constructor. }
  assert (DF : digits 16 fs (map fixp_hex_char fs)).
  { unfold fs, high, low. cbn [map]. repeat (constructor; [split; [apply hex_char_spec; lia|lia]|]). constructor. }
  assert (LIT : literal 16 false is fs ([49; 54; 35] ++ [] ++ map fixp_hex_char is ++ 46 :: map fixp_hex_char fs)).
  { constructor; [constructor|constructor|discriminate|exact DI|constructor; exact DF]. }
  assert (IV : int_value 16 is = (((b0 * 256 + b1) * 256 + b2) * 256 + b3) * 256 + b4).
  { unfold int_value, is. cbn [fold_left]. unfold high, low.
    pose proof (Z.div_mod b0 16 ltac:(lia)). pose proof (Z.div_mod b1 16 ltac:(lia)). pose proof (Z.div_mod b2 16 ltac:(lia)).
    pose proof (Z.div_mod b3 16 ltac:(lia)). pose proof (Z.div_mod b4 16 ltac:(lia)). nia. }
  assert (FV : (frac_value 16 fs * inject_Z 16777216 == inject_Z ((b5 * 256 + b6) * 256 + b7))%Q).
  { unfold fs. cbn [frac_value]. unfold high, low.
    replace ((b5 * 256 + b6) * 256 + b7) with
      (((((b5 / 16 * 16 + b5 mod 16) * 16 + b6 / 16) * 16 + b6 mod 16) * 16 + b7 / 16) * 16 + b7 mod 16).
    2: { pose proof (Z.div_mod b5 16 ltac:(lia)). pose proof (Z.div_mod b6 16 ltac:(lia)). pose proof (Z.div_mod b7 16 ltac:(lia)). nia. }
    rewrite !inject_Z_plus, !inject_Z_mult, !inject_Z_plus, !inject_Z_mult, !inject_Z_plus, !inject_Z_mult.
    repeat rewrite ?inject_Z_plus, ?inject_Z_mult.
    change (inject_Z 16777216) with (16777216#1)%Q. change (inject_Z 16) with (16#1)%Q. field. }
  pose proof (parse_hex_exact false is fs _ [] LIT I ltac:(rewrite IV; lia) ltac:(cbn; lia)) as P.
  rewrite app_nil_r in P.
  assert (MG : Qfloor (magnitude 16 is fs * inject_Z 16777216) = x).
  { unfold magnitude. rewrite floor_add, FV, Qfloor_Z, IV. lia. }
  rewrite MG in P. exact P.
Qed.
