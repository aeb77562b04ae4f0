From Coq Require Import ZArith List Bool Lia.
From Verif Require Import Common Crc32Model Crc32Spec.
Import ListNotations.
Open Scope Z_scope.

(** Reflected polynomial. *)
Definition POLY : Z := 3988292384. (* 0xEDB88320 *)
Definition M32 : Z := 2^32.

(** One shift of the reflected register. *)
Definition sh (x : Z) : Z := Z.lxor (Z.shiftr x 1) (if Z.odd x then POLY else 0).
Fixpoint shn (n : nat) (x : Z) : Z := match n with O => x | S m => shn m (sh x) end.

Lemma lxor_bound : forall k x y, 0 <= k -> 0 <= x < 2^k -> 0 <= y < 2^k -> 0 <= Z.lxor x y < 2^k.
Proof.
  intros k x y Hk Hx Hy.
  assert (0 <= Z.lxor x y) by (apply Z.lxor_nonneg; lia).
  split; [ auto | ].
  destruct (Z.eq_dec (Z.lxor x y) 0) as [->|Hn]; [ lia | ].
  apply Z.log2_lt_pow2; [ lia | ].
  destruct (Z.ltb_spec (Z.log2 (Z.lxor x y)) k) as [|Hge]; [ auto | exfalso ].
  assert (Ht : Z.testbit (Z.lxor x y) (Z.log2 (Z.lxor x y)) = true) by (apply Z.bit_log2; lia).
  rewrite Z.lxor_spec, !(testbit_high k) in Ht by lia. discriminate.
Qed.

Lemma sh_bound : forall x, 0 <= x < M32 -> 0 <= sh x < M32.
Proof.
  intros x H. unfold sh. apply (lxor_bound 32); [ lia | | ].
  - rewrite Z.shiftr_div_pow2 by lia. unfold M32 in H. lia.
  - destruct (Z.odd x); unfold POLY; lia.
Qed.
Lemma shn_bound : forall n x, 0 <= x < M32 -> 0 <= shn n x < M32.
Proof. induction n; intros; cbn [shn]; auto using sh_bound. Qed.

Lemma odd_lxor : forall x y, Z.odd (Z.lxor x y) = xorb (Z.odd x) (Z.odd y).
Proof. intros. rewrite <- !Z.bit0_odd. apply Z.lxor_spec. Qed.

Lemma lxor_swap : forall a b c d, Z.lxor (Z.lxor a b) (Z.lxor c d) = Z.lxor (Z.lxor a c) (Z.lxor b d).
Proof.
  intros. apply Z.bits_inj'. intros n _. rewrite !Z.lxor_spec.
  destruct (Z.testbit a n), (Z.testbit b n), (Z.testbit c n), (Z.testbit d n); reflexivity.
Qed.

Lemma sh_lxor : forall x y, sh (Z.lxor x y) = Z.lxor (sh x) (sh y).
Proof.
  intros. unfold sh. rewrite odd_lxor, Z.shiftr_lxor, lxor_swap. f_equal.
  destruct (Z.odd x), (Z.odd y); cbn [xorb]; rewrite ?Z.lxor_nilpotent, ?Z.lxor_0_r, ?Z.lxor_0_l; reflexivity.
Qed.
Lemma shn_lxor : forall n x y, shn n (Z.lxor x y) = Z.lxor (shn n x) (shn n y).
Proof. induction n; intros; cbn [shn]; [ auto | ]. rewrite sh_lxor. auto. Qed.

Lemma sh_zero : forall x, 0 <= x < M32 -> sh x = 0 -> x = 0.
Proof.
  intros x H E. unfold sh in E. apply Z.lxor_eq in E.
  rewrite Z.shiftr_div_pow2 in E by lia. unfold M32, POLY in *.
  change (2^1) with 2 in E. pose proof (Zmod_odd x) as O.
  destruct (Z.odd x); lia.
Qed.
Lemma shn_zero : forall n x, 0 <= x < M32 -> shn n x = 0 -> x = 0.
Proof.
  induction n; intros x H E; cbn [shn] in E; [ auto | ].
  apply sh_zero; auto. apply IHn; auto using sh_bound.
Qed.

Lemma sh_double : forall x, sh (2 * x) = x.
Proof.
  intros. unfold sh. rewrite Z.odd_mul. cbn [Z.odd andb]. rewrite Z.lxor_0_r.
  rewrite Z.shiftr_div_pow2 by lia. change (2^1) with 2. lia.
Qed.

Lemma shn_shift : forall n x, shn n (x * 2 ^ Z.of_nat n) = x.
Proof.
  induction n; intros x; cbn [shn]; [ cbn; lia | ].
  replace (x * 2 ^ Z.of_nat (S n)) with (2 * (x * 2 ^ Z.of_nat n))
    by (rewrite Nat2Z.inj_succ, Z.pow_succ_r by lia; lia).
  rewrite sh_double. apply IHn.
Qed.

(** ** Table *)
Lemma tab_entry : forall b, byte b -> nth (Z.to_nat b) crc_32_tab 0 = shn 8 b.
Proof.
  intros b H. apply Z.eqb_eq.
  apply (sweep_byte (fun b => nth (Z.to_nat b) crc_32_tab 0 =? shn 8 b)); [ vm_compute; reflexivity | auto ].
Qed.

Lemma split_low : forall x, x = Z.lxor (Z.land x 255) (Z.shiftr x 8 * 2^8).
Proof.
  intros. rewrite <- Z.shiftl_mul_pow2 by lia.
  apply Z.bits_inj'. intros n Hn. rewrite Z.lxor_spec, Z.land_spec.
  change 255 with (Z.ones 8).
  destruct (Z.ltb_spec n 8).
  - rewrite Z.ones_spec_low, Z.shiftl_spec_low by lia. rewrite andb_true_r, xorb_false_r. reflexivity.
  - rewrite Z.ones_spec_high, Z.shiftl_spec, Z.shiftr_spec by lia.
    rewrite andb_false_r, xorb_false_l. f_equal. lia.
Qed.

Lemma land255_byte : forall x, byte (Z.land x 255).
Proof. intros. change 255 with (2^8 - 1). rewrite land_ones_mod by lia. unfold byte. lia. Qed.

Lemma shiftr8_byte : forall b, byte b -> Z.shiftr b 8 = 0.
Proof. intros b H. unfold byte in H. rewrite Z.shiftr_div_pow2 by lia. lia. Qed.

Lemma updc32_sh : forall b c, byte b -> updc32 b c = shn 8 (Z.lxor c b).
Proof.
  intros b c Hb. unfold updc32. rewrite tab_entry by apply land255_byte.
  rewrite (split_low (Z.lxor c b)) at 2. rewrite shn_lxor.
  rewrite (shn_shift 8). f_equal. rewrite Z.shiftr_lxor, (shiftr8_byte b Hb).
  now rewrite Z.lxor_0_r.
Qed.

(** ** Bit serial register *)
Definition bit_step (c : Z) (b : bool) : Z := sh (Z.lxor c (Z.b2z b)).
Definition bit_run (c : Z) (bits : list bool) : Z := fold_left bit_step bits c.
(** Low bits first. *)
Fixpoint le_bits (l : list bool) : Z := match l with [] => 0 | b :: r => Z.b2z b + 2 * le_bits r end.

Lemma lxor_b2z_double : forall b x, Z.lxor (Z.b2z b) (2 * x) = Z.b2z b + 2 * x.
Proof.
  intros. replace (2 * x) with (x * 2^1) by lia.
  rewrite Z.lxor_comm, <- Z.add_nocarry_lxor; [ lia | ].
  rewrite <- Z.shiftl_mul_pow2 by lia. apply Z.bits_inj'. intros n Hn. rewrite Z.land_spec, Z.bits_0.
  destruct (Z.ltb_spec n 1).
  - rewrite Z.shiftl_spec_low by lia. reflexivity.
  - rewrite (testbit_high 1 (Z.b2z b) n) by (destruct b; cbn; lia). apply andb_false_r.
Qed.

Lemma bit_run_shn : forall bits c, bit_run c bits = shn (length bits) (Z.lxor c (le_bits bits)).
Proof.
  induction bits as [|b r IH]; intros c; cbn [bit_run fold_left length shn le_bits].
  - now rewrite Z.lxor_0_r.
  - change (fold_left bit_step r (bit_step c b)) with (bit_run (bit_step c b) r).
    rewrite IH. f_equal. unfold bit_step.
    rewrite <- (lxor_b2z_double b (le_bits r)).
    rewrite <- Z.lxor_assoc. rewrite (sh_lxor (Z.lxor c (Z.b2z b)) (2 * le_bits r)).
    rewrite sh_double. reflexivity.
Qed.

Lemma le_bits_byte : forall b, byte b -> le_bits (byte_bits b) = b.
Proof.
  intros b H. apply Z.eqb_eq.
  apply (sweep_byte (fun b => le_bits (byte_bits b) =? b)); [ vm_compute; reflexivity | auto ].
Qed.

Lemma byte_run : forall b c, byte b -> bit_run c (byte_bits b) = updc32 b c.
Proof.
  intros. rewrite bit_run_shn, le_bits_byte by auto. rewrite updc32_sh by auto. reflexivity.
Qed.

Lemma bit_run_app : forall c a b, bit_run c (a ++ b) = bit_run (bit_run c a) b.
Proof. intros. unfold bit_run. apply fold_left_app. Qed.
Lemma loop_cons : forall c b m, crc32_loop c (b :: m) = crc32_loop (updc32 b c) m.
Proof. reflexivity. Qed.

Lemma loop_bits : forall m c, bytes m -> crc32_loop c m = bit_run c (bits_of m).
Proof.
  induction m as [|b m IH]; intros c H; [ reflexivity | ].
  apply bytes_cons in H as [Hb H].
  cbn [bits_of flat_map]. rewrite bit_run_app.
  rewrite byte_run by auto. rewrite loop_cons. apply IH. auto.
Qed.

(** ** Burst errors *)
Lemma le_bits_bound : forall l, 0 <= le_bits l < 2 ^ Z.of_nat (length l).
Proof.
  induction l as [|b l IH]; [ cbn; lia | ].
  cbn [le_bits length]. rewrite Nat2Z.inj_succ, Z.pow_succ_r by lia. destruct b; cbn [Z.b2z]; lia.
Qed.
Lemma le_bits_inj : forall l l', length l = length l' -> le_bits l = le_bits l' -> l = l'.
Proof.
  induction l as [|b l IH]; intros [|b' l'] HL H; cbn in HL; try lia; [ reflexivity | ].
  cbn [le_bits] in H. assert (b = b') by (destruct b, b'; cbn [Z.b2z] in H; auto; lia).
  subst. f_equal. apply IH; [ lia | ]. destruct b'; cbn [Z.b2z] in H; lia.
Qed.

Lemma bit_run_bound : forall l c, 0 <= c < M32 -> 0 <= bit_run c l < M32.
Proof.
  induction l as [|b l IH]; intros c H; [ auto | ]. cbn. apply IH. unfold bit_step.
  apply sh_bound. apply (lxor_bound 32); [ lia | auto | destruct b; cbn; lia ].
Qed.

(** Register difference after equal suffixes. *)
Lemma bit_run_diff : forall l c c', 0 <= c < M32 -> 0 <= c' < M32 -> c <> c' -> bit_run c l <> bit_run c' l.
Proof.
  induction l as [|b l IH]; intros c c' H H' Hne; [ auto | ]. cbn. unfold bit_step at 2 4.
  assert (Hb : forall c, 0 <= c < M32 -> 0 <= Z.lxor c (Z.b2z b) < M32).
  { intros. apply (lxor_bound 32); [ lia | auto | destruct b; cbn; lia ]. }
  apply IH; auto using sh_bound.
  intros E. apply Hne.
  assert (E2 : sh (Z.lxor (Z.lxor c (Z.b2z b)) (Z.lxor c' (Z.b2z b))) = 0).
  { rewrite sh_lxor, E, Z.lxor_nilpotent. reflexivity. }
  apply sh_zero in E2; [ | apply (lxor_bound 32); auto; lia ].
  rewrite lxor_swap, Z.lxor_nilpotent, Z.lxor_0_r in E2. apply Z.lxor_eq in E2. auto.
Qed.

Lemma burst_bits : forall w w' c, length w = length w' -> (length w <= 32)%nat -> w <> w' ->
  0 <= c < M32 -> bit_run c w <> bit_run c w'.
Proof.
  intros w w' c HL H32 Hne Hc E.
  rewrite !bit_run_shn, <- HL in E.
  assert (E2 : shn (length w) (Z.lxor (Z.lxor c (le_bits w)) (Z.lxor c (le_bits w'))) = 0).
  { rewrite shn_lxor, E, Z.lxor_nilpotent. reflexivity. }
  rewrite lxor_swap, Z.lxor_nilpotent, Z.lxor_0_l in E2.
  pose proof (le_bits_bound w) as B1. pose proof (le_bits_bound w') as B2. rewrite <- HL in B2.
  assert (2 ^ Z.of_nat (length w) <= M32) by (unfold M32; apply Z.pow_le_mono_r; lia).
  apply shn_zero in E2; [ | apply (lxor_bound 32); unfold M32 in *; lia ].
  apply Z.lxor_eq in E2. apply Hne. apply le_bits_inj; auto.
Qed.

Lemma crc_init_bound : 0 <= 4294967295 < M32. Proof. unfold M32; lia. Qed.

Lemma lxor_cancel : forall a b k, Z.lxor a k = Z.lxor b k -> a = b.
Proof.
  intros a b k H. rewrite <- (Z.lxor_0_r a), <- (Z.lxor_0_r b), <- (Z.lxor_nilpotent k).
  rewrite <- !Z.lxor_assoc. congruence.
Qed.

Lemma crc32_burst_lemma : forall m m' p w w' s, bytes m -> bytes m' ->
  bits_of m = p ++ w ++ s -> bits_of m' = p ++ w' ++ s ->
  length w = length w' -> (length w <= 32)%nat -> w <> w' ->
  crc32buf m <> crc32buf m'.
Proof.
  intros m m' p w w' s Hm Hm' E E' HL H32 Hne H.
  unfold crc32buf in H. apply lxor_cancel in H.
  rewrite !loop_bits, E, E' in H by auto. rewrite !bit_run_app in H.
  set (c := bit_run 4294967295 p) in *.
  assert (Hc : 0 <= c < M32) by (apply bit_run_bound, crc_init_bound).
  revert H. apply (bit_run_diff s); [ apply bit_run_bound; auto | apply bit_run_bound; auto | ].
  apply burst_bits; auto.
Qed.

(** ** Octet level corollary *)
Lemma bits_of_app : forall a b, bits_of (a ++ b) = bits_of a ++ bits_of b.
Proof. intros. unfold bits_of. apply flat_map_app. Qed.
Lemma bits_of_len : forall m, length (bits_of m) = (8 * length m)%nat.
Proof. induction m as [|b m IH]; [ reflexivity | ]. cbn [bits_of flat_map]. rewrite app_length. fold (bits_of m). rewrite IH. cbn. lia. Qed.
Lemma bits_of_inj : forall m m', bytes m -> bytes m' -> length m = length m' -> bits_of m = bits_of m' -> m = m'.
Proof.
  induction m as [|b m IH]; intros [|b' m'] H H' HL E; cbn in HL; try lia; [ reflexivity | ].
  apply bytes_cons in H as [Hb H]. apply bytes_cons in H' as [Hb' H'].
  cbn [bits_of flat_map] in E. fold (bits_of m) (bits_of m') in E.
  assert (E1 : byte_bits b = byte_bits b').
  { apply (f_equal (firstn 8)) in E. exact E. }
  assert (E2 : bits_of m = bits_of m').
  { apply (f_equal (skipn 8)) in E. exact E. }
  f_equal; [ | apply IH; auto; lia ].
  rewrite <- (le_bits_byte b), <- (le_bits_byte b'), E1 by auto. reflexivity.
Qed.

Lemma crc32_burst_octets : forall p w w' s, bytes (p ++ w ++ s) -> bytes w' ->
  length w = length w' -> (length w <= 4)%nat -> w <> w' ->
  crc32buf (p ++ w ++ s) <> crc32buf (p ++ w' ++ s).
Proof.
  intros p w w' s H Hw' HL H4 Hne.
  apply bytes_app in H as [Hp H]. apply bytes_app in H as [Hw Hs].
  apply (crc32_burst_lemma _ _ (bits_of p) (bits_of w) (bits_of w') (bits_of s)).
  - repeat (apply bytes_app; split); auto.
  - repeat (apply bytes_app; split); auto.
  - now rewrite !bits_of_app.
  - now rewrite !bits_of_app.
  - rewrite !bits_of_len. lia.
  - rewrite bits_of_len. lia.
  - intros E. apply Hne. apply bits_of_inj; auto.
Qed.

Lemma crc32buf_bound : forall m, bytes m -> 0 <= crc32buf m < 2^32.
Proof.
  intros m H. unfold crc32buf. rewrite loop_bits by auto.
  apply (lxor_bound 32); [ lia | apply bit_run_bound, crc_init_bound | lia ].
Qed.

Lemma crc32cmp_zero : forall m c, bytes m -> 0 <= c < 2^32 -> (crc32cmp m c = 0 <-> crc32buf m = c).
Proof.
  intros m c H Hc. pose proof (crc32buf_bound m H). unfold crc32cmp, u32. split; intros E; [ | subst; rewrite Z.sub_diag; reflexivity ].
  destruct (Z.eq_dec (crc32buf m) c); [ auto | exfalso ].
  assert (-2^32 < crc32buf m - c < 2^32) by lia. lia.
Qed.

(** ** Polynomial remainder *)
Lemma pc_lxor : forall a b, poly_cong a b -> forall c, poly_cong (Z.lxor a c) (Z.lxor b c).
Proof.
  induction 1; intros c; [ constructor | ].
  replace (Z.lxor (Z.lxor b (Z.shiftl crc_generator k)) c)
    with (Z.lxor (Z.lxor b c) (Z.shiftl crc_generator k)).
  - constructor; auto.
  - rewrite !Z.lxor_assoc. f_equal. apply Z.lxor_comm.
Qed.
Lemma pc_shift1 : forall a b, poly_cong a b -> poly_cong (Z.shiftl a 1) (Z.shiftl b 1).
Proof.
  induction 1; [ constructor | ].
  rewrite Z.shiftl_lxor, Z.shiftl_shiftl by lia. constructor; [ lia | auto ].
Qed.
Lemma pc_trans : forall a b, poly_cong a b -> forall c, poly_cong b c -> poly_cong a c.
Proof.
  intros a b H c H2. revert a H. induction H2; intros; [ auto | ]. constructor; auto.
Qed.

(** Value of bits, most significant first, as a fold; indices. *)
Lemma rev32_spec : forall c n, 0 <= n -> Z.testbit (rev32 c) n = (n <? 32) && Z.testbit c (31 - n).
Proof.
  intros c n Hn.
  assert (G : forall k (a : Z) (st : nat), forall n, 0 <= n ->
     Z.testbit (fold_left (fun a i => 2 * a + Z.b2z (Z.testbit c (Z.of_nat i))) (seq st k) a) n =
     if n <? Z.of_nat k then Z.testbit c (Z.of_nat st + Z.of_nat k - 1 - n) else Z.testbit a (n - Z.of_nat k)).
  { induction k as [|k IH]; intros a st m Hm; cbn [seq fold_left].
    - destruct (Z.ltb_spec m (Z.of_nat 0)); [ lia | ]. f_equal. lia.
    - rewrite IH by lia.
      destruct (Z.ltb_spec m (Z.of_nat k)); destruct (Z.ltb_spec m (Z.of_nat (S k))); try lia.
      + f_equal. lia.
      + replace (m - Z.of_nat k) with 0 by lia. rewrite Z.add_comm.
        replace (Z.b2z (Z.testbit c (Z.of_nat st)) + 2 * a) with (2 * a + Z.b2z (Z.testbit c (Z.of_nat st))) by lia.
        rewrite Z.testbit_0_r. f_equal. lia.
      + replace (m - Z.of_nat k) with (Z.succ (m - Z.of_nat (S k))) by lia.
        rewrite Z.testbit_succ_r by lia. reflexivity. }
  unfold rev32. rewrite G by lia. change (Z.of_nat 32) with 32. change (Z.of_nat 0 + 32 - 1 - n) with (31 - n).
  destruct (n <? 32); [ reflexivity | rewrite Z.bits_0; reflexivity ].
Qed.

Lemma rev32_lxor : forall a b, rev32 (Z.lxor a b) = Z.lxor (rev32 a) (rev32 b).
Proof.
  intros. apply Z.bits_inj'. intros n Hn. rewrite Z.lxor_spec, !rev32_spec by lia.
  destruct (n <? 32); cbn [andb]; [ apply Z.lxor_spec | reflexivity ].
Qed.

Lemma rev32_half : forall x, 0 <= x < M32 ->
  rev32 (Z.shiftr x 1) = Z.lxor (Z.shiftl (rev32 x) 1) (if Z.odd x then 2^32 else 0).
Proof.
  intros x Hx. apply Z.bits_inj'. intros n Hn. rewrite Z.lxor_spec, rev32_spec by lia.
  rewrite Z.shiftl_spec by lia.
  assert (Hodd : Z.testbit (if Z.odd x then 2^32 else 0) n = (n =? 32) && Z.testbit x 0).
  { rewrite Z.bit0_odd. destruct (Z.odd x).
    - rewrite Z.pow2_bits_eqb by lia. rewrite andb_true_r. apply Z.eqb_sym.
    - rewrite Z.bits_0, andb_false_r. reflexivity. }
  rewrite Hodd.
  destruct (Z.eq_dec n 0) as [->|].
  - cbn [Z.ltb Z.compare andb]. rewrite Z.shiftr_spec by lia. rewrite (Z.testbit_neg_r (rev32 x)) by lia.
    rewrite (testbit_high 32) by (unfold M32 in Hx; lia). reflexivity.
  - rewrite rev32_spec by lia.
    destruct (Z.ltb_spec n 32); destruct (Z.ltb_spec (n - 1) 32); destruct (Z.eqb_spec n 32); try lia; cbn [andb].
    + rewrite Z.shiftr_spec by lia. rewrite xorb_false_r. f_equal. lia.
    + subst n. change (31 - (32 - 1)) with 0. destruct (Z.testbit x 0); reflexivity.
Qed.

Lemma rev32_poly : Z.lxor (rev32 POLY) (2^32) = crc_generator.
Proof. reflexivity. Qed.

Lemma rev32_sh : forall x, 0 <= x < M32 -> poly_cong (Z.shiftl (rev32 x) 1) (rev32 (sh x)).
Proof.
  intros x H. unfold sh. rewrite rev32_lxor, rev32_half by auto.
  rewrite Z.lxor_assoc. destruct (Z.odd x).
  - rewrite (Z.lxor_comm (2^32)), rev32_poly. rewrite <- (Z.shiftl_0_r crc_generator).
    constructor; [ lia | constructor ].
  - change (rev32 0) with 0. rewrite !Z.lxor_0_r. constructor.
Qed.

Lemma rev32_b2z : forall b, rev32 (Z.b2z b) = Z.shiftl (Z.b2z b) 31.
Proof. intros []; reflexivity. Qed.

Lemma msg_poly_snoc : forall l b, msg_poly (l ++ [b]) = 2 * msg_poly l + Z.b2z b.
Proof. intros. unfold msg_poly. rewrite fold_left_app. reflexivity. Qed.

Lemma bit_run_poly : forall l,
  poly_cong (Z.lxor (Z.shiftl 4294967295 (Z.of_nat (length l))) (Z.shiftl (msg_poly l) 32))
            (rev32 (bit_run 4294967295 l)).
Proof.
  intros l. induction l as [|b l IH] using rev_ind; [ constructor | ].
  rewrite bit_run_app.
  change (bit_run (bit_run 4294967295 l) [b]) with (bit_step (bit_run 4294967295 l) b).
  set (c := bit_run 4294967295 l) in *.
  assert (Hc : 0 <= c < M32) by (apply bit_run_bound, crc_init_bound).
  unfold bit_step.
  assert (Hb : 0 <= Z.lxor c (Z.b2z b) < M32).
  { apply (lxor_bound 32); [ lia | auto | destruct b; cbn; lia ]. }
  eapply pc_trans; [ | apply rev32_sh; exact Hb ].
  rewrite rev32_lxor, rev32_b2z, Z.shiftl_lxor, Z.shiftl_shiftl by lia.
  apply pc_shift1 in IH. apply (pc_lxor _ _) with (c := Z.shiftl (Z.b2z b) (31 + 1)) in IH.
  match goal with |- poly_cong ?a _ => match type of IH with poly_cong ?a' _ => replace a with a'; [ exact IH | ] end end.
  rewrite Z.shiftl_lxor, !Z.shiftl_shiftl by lia.
  rewrite app_length. cbn [length]. rewrite Nat2Z.inj_add. rewrite Z.lxor_assoc. f_equal.
  rewrite msg_poly_snoc. rewrite (Z.add_comm (2 * _)), <- lxor_b2z_double, (Z.lxor_comm (Z.b2z b)).
  rewrite Z.shiftl_lxor. f_equal.
Qed.

Lemma crc32_poly_lemma : forall m, bytes m ->
  poly_cong
    (Z.lxor (Z.shiftl 4294967295 (8 * zlen m)) (Z.shiftl (msg_poly (bits_of m)) 32))
    (rev32 (Z.lxor (crc32buf m) 4294967295)).
Proof.
  intros m H. unfold crc32buf. rewrite Z.lxor_assoc, Z.lxor_nilpotent, Z.lxor_0_r.
  rewrite loop_bits by auto.
  replace (8 * zlen m) with (Z.of_nat (length (bits_of m))) by (rewrite bits_of_len; unfold zlen; lia).
  apply bit_run_poly.
Qed.
