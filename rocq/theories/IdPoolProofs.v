(** Proofs about packet identifiers. *)
From Coq Require Import ZArith List Bool Lia.
From Verif Require Import Common IdPoolModel IdPoolSpec.
Import ListNotations.
Open Scope Z_scope.

(** Whether the bit of identifier [id] (1..65536) is set. *)
Definition bit (w : list Z) (id : Z) : bool := Z.testbit (word w (id_maj id)) (id_min id).
Definition u32_word (x : Z) : Prop := 0 <= x < 2^32.
Definition pool_ok (w : list Z) : Prop := Forall u32_word w /\ zlen w <= 2048 /\ zlen w mod 512 = 0.

Lemma id_maj_eq : forall id, id_maj id = (id - 1) / 32.
Proof. intros. unfold id_maj, id_min. lia. Qed.
Lemma id_min_range : forall id, 0 <= id_min id < 32.
Proof. intros. unfold id_min. lia. Qed.
Lemma id_mask_eq : forall id, id_mask id = 2 ^ id_min id.
Proof.
  intros. pose proof (id_min_range id). unfold id_mask, u32. rewrite Z.shiftl_mul_pow2, Z.mul_1_l by lia.
  apply Z.mod_small. split; [ apply Z.pow_nonneg; lia | ]. apply Z.pow_lt_mono_r; lia.
Qed.
Lemma land_mask : forall x n, 0 <= n -> (Z.land x (2 ^ n) =? 0) = negb (Z.testbit x n).
Proof.
  intros x n Hn. destruct (Z.testbit x n) eqn:E; cbn [negb].
  - apply Z.eqb_neq. intros H. assert (Z.testbit (Z.land x (2^n)) n = false) by (rewrite H; apply Z.bits_0).
    rewrite Z.land_spec, E, Z.pow2_bits_true in H0 by lia. discriminate.
  - apply Z.eqb_eq. apply Z.bits_inj'. intros k Hk. rewrite Z.land_spec, Z.bits_0, Z.pow2_bits_eqb by lia.
    destruct (Z.eqb_spec n k); [ subst; rewrite E; reflexivity | apply andb_false_r ].
Qed.

Lemma u32_word_lor : forall x n, u32_word x -> 0 <= n < 32 -> u32_word (Z.lor x (2^n)).
Proof.
  intros x n [H1 H2] Hn. assert (0 < 2^n) by (apply Z.pow_pos_nonneg; lia).
  assert (HN : 0 <= Z.lor x (2^n)) by (apply Z.lor_nonneg; lia). split; [ auto | ].
  destruct (Z.eq_dec (Z.lor x (2^n)) 0) as [->|]; [ lia | ].
  apply Z.log2_lt_pow2; [ lia | ]. rewrite Z.log2_lor, Z.log2_pow2 by lia.
  destruct (Z.eq_dec x 0) as [->|]; [ cbn; lia | ].
  assert (Z.log2 x < 32) by (apply Z.log2_lt_pow2; lia). lia.
Qed.
Lemma u32_word_land : forall x y, u32_word x -> 0 <= y -> u32_word (Z.land x y).
Proof.
  intros x y [H1 H2] Hy. assert (0 <= Z.land x y) by (apply Z.land_nonneg; lia). split; [ auto | ].
  assert (E : x = Z.land x y + Z.ldiff x y).
  { rewrite Z.add_nocarry_lxor; [ rewrite Z.lxor_lor | ].
    - apply Z.bits_inj'. intros n _. rewrite Z.lor_spec, Z.land_spec, Z.ldiff_spec. destruct (Z.testbit x n), (Z.testbit y n); reflexivity.
    - apply Z.bits_inj'. intros n _. rewrite !Z.land_spec, Z.ldiff_spec, Z.bits_0. destruct (Z.testbit x n), (Z.testbit y n); reflexivity.
    - apply Z.bits_inj'. intros n _. rewrite !Z.land_spec, Z.ldiff_spec, Z.bits_0. destruct (Z.testbit x n), (Z.testbit y n); reflexivity. }
  assert (0 <= Z.ldiff x y) by (apply Z.ldiff_nonneg; lia). lia.
Qed.

(** ** Words *)
Lemma word_app_l : forall a b i, 0 <= i < zlen a -> word (a ++ b) i = word a i.
Proof. intros. unfold word, zlen in *. apply app_nth1. lia. Qed.
Lemma word_beyond : forall w i, zlen w <= i -> word w i = 0.
Proof. intros. unfold word, zlen in *. apply nth_overflow. lia. Qed.
Lemma word_range : forall w i, Forall u32_word w -> u32_word (word w i).
Proof.
  intros w i H. unfold word. destruct (Nat.lt_ge_cases (Z.to_nat i) (length w)).
  - rewrite Forall_forall in H. apply H. apply nth_In. auto.
  - rewrite nth_overflow by auto. split; [ lia | reflexivity ].
Qed.
Lemma split_word : forall w i, 0 <= i < zlen w -> exists a b, w = a ++ word w i :: b /\ zlen a = i.
Proof.
  intros w i H. unfold word, zlen in *. destruct (nth_split (n := Z.to_nat i) w 0) as (a & b & E & L); [ lia | ].
  exists a, b. split; [ exact E | lia ].
Qed.
Lemma set_word_split : forall a x b y, set_word (a ++ x :: b) (zlen a) y = a ++ y :: b.
Proof.
  intros. unfold set_word, zlen. rewrite Nat2Z.id. rewrite firstn_app, firstn_all, Nat.sub_diag. cbn [firstn]. rewrite app_nil_r.
  f_equal. cbn [app]. f_equal. rewrite skipn_app, skipn_all2 by lia. replace (length a + 1 - length a)%nat with 1%nat by lia. reflexivity.
Qed.
Lemma word_at : forall a x b, word (a ++ x :: b) (zlen a) = x.
Proof. intros. unfold word, zlen. rewrite Nat2Z.id. rewrite app_nth2, Nat.sub_diag by lia. reflexivity. Qed.
Lemma word_other : forall a x y b i, 0 <= i -> i <> zlen a -> word (a ++ x :: b) i = word (a ++ y :: b) i.
Proof.
  intros. unfold word, zlen in *. destruct (Nat.lt_ge_cases (Z.to_nat i) (length a)).
  - rewrite !app_nth1 by auto. reflexivity.
  - rewrite !app_nth2 by auto. destruct (Z.to_nat i - length a)%nat eqn:E; [ lia | reflexivity ].
Qed.

(** Changing one word changes only the bits of its identifiers. *)
Lemma bit_change : forall w i y id, 0 <= i < zlen w -> 1 <= id ->
  bit (set_word w i y) id = if id_maj id =? i then Z.testbit y (id_min id) else bit w id.
Proof.
  intros w i y id Hi Hid. destruct (split_word w i Hi) as (a & b & E & L). 
  assert (ES : set_word w i y = a ++ y :: b) by (rewrite E, <- L; apply set_word_split).
  rewrite ES. unfold bit. destruct (Z.eqb_spec (id_maj id) i) as [Ei|Ni].
  - rewrite Ei, <- L, word_at. reflexivity.
  - rewrite E. rewrite (word_other a y (word w i)); [ reflexivity | rewrite id_maj_eq; lia | lia ].
Qed.
Lemma set_word_len : forall w i y, 0 <= i < zlen w -> zlen (set_word w i y) = zlen w.
Proof.
  intros w i y Hi. destruct (split_word w i Hi) as (a & b & E & L).
  assert (ES : set_word w i y = a ++ y :: b) by (rewrite E, <- L; apply set_word_split).
  rewrite ES, E, !zlen_app, !zlen_cons. reflexivity.
Qed.
Lemma set_word_ok : forall w i y, 0 <= i < zlen w -> pool_ok w -> u32_word y -> pool_ok (set_word w i y).
Proof.
  intros w i y Hi (F & L & M) Hy. unfold pool_ok. rewrite set_word_len by auto. repeat split; auto.
  destruct (split_word w i Hi) as (a & b & E & La).
  assert (ES : set_word w i y = a ++ y :: b) by (rewrite E, <- La; apply set_word_split).
  rewrite ES. rewrite E in F.
  apply Forall_app in F as [F1 F2]. inversion F2; subst. apply Forall_app. split; auto.
Qed.

(** Two identifiers in the same word at the same bit are the same. *)
Lemma id_split : forall id id', id_maj id = id_maj id' -> id_min id = id_min id' -> id = id'.
Proof. intros id id'. rewrite !id_maj_eq. unfold id_min. lia. Qed.

Lemma bit_set : forall w id id', 1 <= id -> 1 <= id' -> id_maj id < zlen w ->
  bit (set_word w (id_maj id) (Z.lor (word w (id_maj id)) (id_mask id))) id' = bit w id' || (id =? id').
Proof.
  intros w id id' H1 H2 HL. pose proof (id_min_range id). pose proof (id_min_range id').
  assert (0 <= id_maj id) by (rewrite id_maj_eq; lia).
  rewrite bit_change by lia. destruct (Z.eqb_spec (id_maj id') (id_maj id)) as [E|N].
  - rewrite Z.lor_spec, id_mask_eq, Z.pow2_bits_eqb by lia. unfold bit. rewrite E. f_equal.
    destruct (Z.eqb_spec (id_min id) (id_min id')) as [Em|Nm], (Z.eqb_spec id id') as [->|Ni]; auto; try congruence.
    exfalso. apply Ni. apply id_split; auto.
  - destruct (Z.eqb_spec id id') as [->|]; [ congruence | ]. rewrite orb_false_r. reflexivity.
Qed.
Lemma bit_clear : forall w id id', 1 <= id -> 1 <= id' -> id_maj id < zlen w -> pool_ok w ->
  bit (set_word w (id_maj id) (Z.land (word w (id_maj id)) (Z.lxor (id_mask id) 0xffffffff))) id' = bit w id' && negb (id =? id').
Proof.
  intros w id id' H1 H2 HL HP. pose proof (id_min_range id). pose proof (id_min_range id').
  assert (0 <= id_maj id) by (rewrite id_maj_eq; lia).
  rewrite bit_change by lia. destruct (Z.eqb_spec (id_maj id') (id_maj id)) as [E|N].
  - change 0xffffffff with (Z.ones 32). rewrite Z.land_spec, Z.lxor_spec, id_mask_eq, Z.pow2_bits_eqb, Z.ones_spec_low by lia. unfold bit. rewrite E. f_equal.
    destruct (Z.eqb_spec (id_min id) (id_min id')) as [Em|Nm], (Z.eqb_spec id id') as [->|Ni]; auto; try congruence.
    exfalso. apply Ni. apply id_split; auto.
  - destruct (Z.eqb_spec id id') as [->|]; [ congruence | ]. rewrite andb_true_r. reflexivity.
Qed.

(** ** Scanning *)
Lemma free_bit_spec : forall fuel i x, 0 <= x -> 0 <= i -> i + Z.of_nat fuel <= 32 ->
  (free_bit fuel i x = 0 /\ forall k, 0 <= k < Z.of_nat fuel -> Z.testbit x k = true) \/
  (exists k, 0 <= k < Z.of_nat fuel /\ free_bit fuel i x = i + k + 1 /\ Z.testbit x k = false /\ forall j, 0 <= j < k -> Z.testbit x j = true).
Proof.
  induction fuel as [|f IH]; intros i x Hx Hi Hle; cbn [free_bit].
  - left. split; [ reflexivity | ]. intros k Hk. lia.
  - replace (Z.land x 1) with (x mod 2) by (symmetry; apply (land_ones_mod x 1); lia).
    destruct (Z.eqb_spec (x mod 2) 0) as [E|E].
    + right. exists 0. split; [ lia | ]. split.
      * unfold u16. rewrite Z.mod_small by lia. lia.
      * split; [ | lia ]. rewrite Z.bit0_odd. rewrite Zodd_mod. destruct (Zeq_is_eq_bool (x mod 2) 1). apply not_true_iff_false. intros HH. apply Zeq_bool_eq in HH. lia.
    + rewrite Z.shiftr_div_pow2 by lia. change (2^1) with 2.
      destruct (IH (i + 1) (x / 2)) as [[EZ HT]|(k & Hk & EZ & HT & HLow)]; try lia.
      * left. split; [ auto | ]. intros k Hk. destruct (Z.eq_dec k 0) as [->|].
        { rewrite Z.bit0_odd, Zodd_mod. apply Zeq_is_eq_bool. lia. }
        specialize (HT (k - 1) ltac:(lia)). change 2 with (2^1) in HT. rewrite Z.div_pow2_bits in HT by lia.
        replace (k - 1 + 1) with k in HT by lia. auto.
      * right. exists (k + 1). split; [ lia | ]. split; [ lia | ].
        change 2 with (2^1) in HT. rewrite Z.div_pow2_bits in HT by lia. split; [ auto | ].
        intros j Hj. destruct (Z.eq_dec j 0) as [->|].
        { rewrite Z.bit0_odd, Zodd_mod. apply Zeq_is_eq_bool. lia. }
        specialize (HLow (j - 1) ltac:(lia)). change 2 with (2^1) in HLow. rewrite Z.div_pow2_bits in HLow by lia.
        replace (j - 1 + 1) with j in HLow by lia. auto.
Qed.

Lemma all_ones : forall x, u32_word x -> (forall k, 0 <= k < 32 -> Z.testbit x k = true) -> x = 0xffffffff.
Proof.
  intros x [H1 H2] H. change 0xffffffff with (Z.ones 32). apply Z.bits_inj'. intros n Hn.
  destruct (Z.ltb_spec n 32); [ rewrite H, Z.ones_spec_low by lia; reflexivity | ].
  rewrite Z.ones_spec_high, (testbit_high 32 x n) by lia. reflexivity.
Qed.

Lemma get_id_32_spec : forall x, u32_word x ->
  (get_id_32 x = (0, x) /\ forall k, 0 <= k < 32 -> Z.testbit x k = true) \/
  (exists k, 0 <= k < 32 /\ get_id_32 x = (k + 1, Z.lor x (2^k)) /\ Z.testbit x k = false /\ forall j, 0 <= j < k -> Z.testbit x j = true).
Proof.
  intros x Hx. unfold get_id_32. destruct (Z.eqb_spec x 0xffffffff) as [->|N].
  - left. split; [ reflexivity | ]. intros k Hk. change 0xffffffff with (Z.ones 32). apply Z.ones_spec_low. lia.
  - destruct (free_bit_spec 32 0 x) as [[E H]|(k & Hk & E & H & HLow)]; try (destruct Hx; lia).
    + exfalso. apply N. apply all_ones; auto.
    + right. exists k. split; [ auto | ]. rewrite E. replace (0 + k + 1) with (k + 1) by lia. split; [ | split; auto ].
      replace (k + 1 =? 0) with false by lia. f_equal. f_equal. replace (k + 1 - 1) with k by lia.
      unfold u32. rewrite Z.shiftl_mul_pow2, Z.mul_1_l by lia. apply Z.mod_small.
      split; [ apply Z.pow_nonneg; lia | apply Z.pow_lt_mono_r; lia ].
Qed.

Lemma scan_spec : forall w i, Forall u32_word w -> 0 <= i ->
  (scan w i = None /\ forall x, In x w -> forall k, 0 <= k < 32 -> Z.testbit x k = true) \/
  (exists a x b k, w = a ++ x :: b /\ 0 <= k < 32 /\ Z.testbit x k = false /\
     (forall j, 0 <= j < k -> Z.testbit x j = true) /\ (forall y, In y a -> forall j, 0 <= j < 32 -> Z.testbit y j = true) /\
     scan w i = Some (a ++ Z.lor x (2^k) :: b, u16 (k + 1 + 32 * (i + zlen a)))).
Proof.
  induction w as [|x w IH]; intros i HF Hi; cbn [scan].
  - left. split; [ reflexivity | ]. intros x [].
  - inversion HF; subst. destruct (get_id_32_spec x) as [[E HT]|(k & Hk & E & HT & HLow)]; auto; rewrite E.
    + change (0 <? 0) with false. cbv iota. destruct (IH (i + 1)) as [[ES HA]|(a & y & b & k & -> & Hk & HT2 & HLow & HAll & ES)]; auto; try lia; rewrite ES.
      * left. split; [ reflexivity | ]. intros y [<-|Hy]; auto.
      * right. exists (x :: a), y, b, k. split; [ reflexivity | ]. split; [ auto | ]. split; [ auto | ]. split; [ auto | ].
        split; [ intros z [<-|Hz]; auto | ].
        cbn [app]. f_equal. f_equal. f_equal. rewrite zlen_cons. lia.
    + replace (0 <? k + 1) with true by lia. right. exists [], x, w, k. split; [ reflexivity | ]. split; [ auto | ].
      split; [ auto | ]. split; [ auto | ]. split; [ intros z [] | ]. cbn [app]. f_equal. f_equal. f_equal. rewrite zlen_nil. lia.
Qed.

(** Result of a successful scan in terms of bits. *)
Lemma scan_bits : forall w, pool_ok w ->
  (scan w 0 = None /\ forall id, 1 <= id <= 32 * zlen w -> bit w id = true) \/
  (exists w' id, scan w 0 = Some (w', u16 id) /\ 1 <= id <= 32 * zlen w /\ bit w id = false /\ pool_ok w' /\
     zlen w' = zlen w /\ (forall id', 1 <= id' < id -> bit w id' = true) /\ forall id', 1 <= id' -> bit w' id' = bit w id' || (id =? id')).
Proof.
  intros w HP. pose proof HP as (HF & HL & HM). destruct (scan_spec w 0 HF ltac:(lia)) as [[E HA]|(a & x & b & k & Ew & Hk & HT & HLow & HAll & E)].
  - left. split; [ auto | ]. intros id Hid. unfold bit. apply HA; [ | apply id_min_range ].
    unfold word. apply nth_In. unfold zlen in *. rewrite id_maj_eq. lia.
  - right. pose proof (zlen_nonneg _ a). pose proof (zlen_nonneg _ b).
    set (id := k + 1 + 32 * zlen a). exists (a ++ Z.lor x (2^k) :: b), id.
    assert (M1 : id_maj id = zlen a) by (rewrite id_maj_eq; unfold id; lia).
    assert (M2 : id_min id = k) by (unfold id_min, id; lia).
    assert (LW : zlen w = zlen a + 1 + zlen b) by (rewrite Ew, zlen_app, zlen_cons; lia).
    assert (EW : word w (zlen a) = x) by (rewrite Ew; apply word_at).
    assert (ES : a ++ Z.lor x (2^k) :: b = set_word w (id_maj id) (Z.lor (word w (id_maj id)) (id_mask id))).
    { rewrite id_mask_eq, M1, M2, EW, Ew, set_word_split. reflexivity. }
    split; [ rewrite E; f_equal; f_equal; f_equal; unfold id; lia | ].
    split; [ unfold id; lia | ].
    split; [ unfold bit; rewrite M1, M2, EW; auto | ].
    rewrite ES. split; [ apply set_word_ok; auto; [ lia | ] | ].
    { rewrite M1, EW, id_mask_eq, M2. apply u32_word_lor; [ | lia ].
      rewrite Forall_forall in HF. apply HF. rewrite Ew. apply in_or_app. right. left. auto. }
    split; [ apply set_word_len; lia | ].
    split.
    { intros id' Hid'. unfold bit. destruct (Z.eq_dec (id_maj id') (zlen a)) as [Em|Nm].
      - rewrite Em, EW. apply HLow. rewrite id_maj_eq in Em. unfold id, id_min in *. lia.
      - assert (0 <= id_maj id' < zlen a) by (rewrite id_maj_eq in *; unfold id in *; lia).
        rewrite Ew, word_app_l by lia. apply HAll; [ | apply id_min_range ].
        unfold word. apply nth_In. unfold zlen in *. lia. }
    intros id' Hid'. apply bit_set; auto; unfold id in *; lia.
Qed.

Lemma grow_ok : forall w w', pool_ok w -> pool_realloc w = Some w' -> pool_ok w' /\ zlen w' = zlen w + 512 /\
  (forall id, 1 <= id -> bit w' id = bit w id) /\ scan w' 0 <> None.
Proof.
  intros w w' (HF & HL & HM) H. unfold pool_realloc, POOL_SIZE_IN_32 in H. change (Z.of_nat STEP_SIZE_IN_32) with 512 in H.
  pose proof (zlen_nonneg _ w). unfold u32 in H. rewrite Z.mod_small in H by lia.
  destruct (Z.ltb_spec 2048 (zlen w + 512)); [ discriminate | ]. assert (E' : w' = w ++ repeat 0 STEP_SIZE_IN_32) by congruence. clear H. subst w'.
  assert (LR : zlen (repeat 0 STEP_SIZE_IN_32) = 512) by reflexivity.
  assert (FR : Forall u32_word (repeat 0 STEP_SIZE_IN_32)).
  { apply Forall_forall. intros x Hx. apply repeat_spec in Hx. subst. split; [ lia | reflexivity ]. }
  assert (PO : pool_ok (w ++ repeat 0 STEP_SIZE_IN_32)).
  { split; [ apply Forall_app; auto | ]. rewrite zlen_app, LR. lia. }
  assert (BE : forall id, 1 <= id -> bit (w ++ repeat 0 STEP_SIZE_IN_32) id = bit w id).
  { intros id Hid. unfold bit. f_equal. destruct (Z.ltb_spec (id_maj id) (zlen w)).
    - apply word_app_l. rewrite id_maj_eq in *. lia.
    - rewrite (word_beyond w) by auto. unfold word, zlen in *. rewrite app_nth2 by lia.
      destruct (nth_in_or_default (Z.to_nat (id_maj id) - length w) (repeat 0 STEP_SIZE_IN_32) 0) as [HI|E]; [ apply repeat_spec in HI; auto | auto ]. }
  split; [ auto | ]. split; [ rewrite zlen_app, LR; auto | ]. split; [ auto | ].
  intros E. destruct (scan_bits _ PO) as [[_ HA]|(w' & id & E2 & _)]; [ | congruence ].
  specialize (HA (32 * zlen w + 1)). rewrite zlen_app, LR in HA. rewrite BE in HA by lia.
  unfold bit in HA. rewrite word_beyond in HA by (rewrite id_maj_eq; lia). rewrite Z.bits_0 in HA. specialize (HA ltac:(lia)). discriminate.
Qed.

(** What the slow path does. *)
Lemma slow_path_spec : forall w, pool_ok w -> exists w' r, slow_path 6 w = Some (w', r) /\ pool_ok w' /\
  ((r = 0 /\ zlen w = 2048 /\ w' = w /\ forall id, 1 <= id <= 65536 -> bit w id = true) \/
   (exists id, r = u16 id /\ 1 <= id <= 65536 /\ bit w id = false /\ (forall id', 1 <= id' -> bit w' id' = bit w id' || (id =? id')) /\
    (forall id', 1 <= id' < id -> bit w id' = true))).
Proof.
  assert (ONE : forall f w, pool_ok w -> scan w 0 <> None -> exists w' id, slow_path (S f) w = Some (w', u16 id) /\ pool_ok w' /\
     1 <= id <= 32 * zlen w /\ bit w id = false /\ (forall id', 1 <= id' -> bit w' id' = bit w id' || (id =? id')) /\
     (forall id', 1 <= id' < id -> bit w id' = true)).
  { intros f w HP HS. destruct (scan_bits w HP) as [[E _]|(w' & id & E & H1 & H2 & H3 & H4 & H5 & H6)]; [ congruence | ].
    exists w', id. cbn [slow_path]. rewrite E. split; [ reflexivity | ]. auto. }
  intros w HP. pose proof HP as (HF & HL & HM).
  destruct (scan w 0) as [r0|] eqn:ES.
  - destruct (ONE 5%nat w HP) as (w' & id & E & H1 & H2 & H3 & H4 & H5); [ congruence | ].
    exists w', (u16 id). split; [ auto | ]. split; [ auto | ]. right. exists id.
    split; [ auto | ]. split; [ lia | ]. auto.
  - destruct (scan_bits w HP) as [[_ HA]|(? & ? & E & _)]; [ | congruence ].
    change (slow_path 6 w) with (match scan w 0 with Some r => Some r | None =>
      match pool_realloc w with None => Some (w, 0) | Some w' => slow_path 5 w' end end). rewrite ES.
    destruct (pool_realloc w) as [w1|] eqn:EG.
    + destruct (grow_ok w w1 HP EG) as (HP1 & HL1 & HB & HN).
      destruct (ONE 4%nat w1 HP1 HN) as (w' & id & E & H1 & H2 & H3 & H4 & H5).
      exists w', (u16 id). split; [ exact E | ]. split; [ auto | ]. right. exists id.
      split; [ auto | ]. split; [ destruct HP1 as (_ & ? & _); lia | ]. rewrite HB in H3 by lia. split; [ auto | ].
      split; [ intros id' Hid'; rewrite H4, HB by auto; reflexivity | ].
      intros id' Hid'. rewrite <- HB by lia. auto.
    + exists w, 0. split; [ reflexivity | ]. split; [ auto | ]. left.
      unfold pool_realloc, POOL_SIZE_IN_32 in EG. change (Z.of_nat STEP_SIZE_IN_32) with 512 in EG.
      pose proof (zlen_nonneg _ w). unfold u32 in EG. rewrite Z.mod_small in EG by lia.
      destruct (Z.ltb_spec 2048 (zlen w + 512)); [ | discriminate ].
      assert (L : zlen w = 2048) by lia. rewrite L in HA. auto.
Qed.

(** ** The abstract set *)
Definition abs (p : id_pool) (used : list Z) : Prop :=
  pool_ok (words p) /\ 0 <= last_id p < 2^16 /\ (forall id, In id used -> valid_id id) /\
  (forall id, valid_id id -> bit (words p) id = true <-> In id used).

Lemma bit_in_pool : forall w id, 1 <= id -> bit w id = true -> id_maj id < zlen w.
Proof.
  intros w id Hid H. destruct (Z.ltb_spec (id_maj id) (zlen w)); [ auto | ]. unfold bit in H.
  rewrite word_beyond, Z.bits_0 in H by auto. discriminate.
Qed.

Lemma abs_step : forall p used o, abs p used -> op_valid o ->
  let '(p', out) := id_step p o in exists used', id_correct used o out used' /\ abs p' used'.
Proof.
  intros p used o (HP & HL & HV & HU) HO. destruct o as [|id]; cbn [id_step].
  - unfold get_id.
    set (ret := u16 (last_id p + 1)). set (r := if ret =? 0 then 1 else ret).
    assert (Hr : valid_id r).
    { unfold r, ret, u16, valid_id. pose proof (Z.mod_pos_bound (last_id p + 1) (2^16) ltac:(lia)).
      destruct (Z.eqb_spec ((last_id p + 1) mod 2^16) 0); lia. }
    clearbody r. unfold valid_id in Hr.
    assert (EL : (Z.land (word (words p) (id_maj r)) (id_mask r) =? 0) = negb (bit (words p) r)).
    { rewrite id_mask_eq. apply land_mask. pose proof (id_min_range r). lia. }
    rewrite EL.
    destruct (Z.ltb_spec (id_maj r) (zlen (words p))) as [Hlt|Hge]; cbn [andb].
    1: destruct (bit (words p) r) eqn:EB; cbn [negb].
    2: { (* fast path *)
      assert (H0 : 0 <= id_maj r) by (rewrite id_maj_eq; lia).
      exists (r :: used). split.
      - apply ok_got; [ exact Hr | ]. rewrite <- HU by exact Hr. congruence.
      - split; [ | split; [ | split ] ]; cbn [words last_id].
        + apply set_word_ok; auto. rewrite id_mask_eq. apply u32_word_lor; [ apply word_range, HP | apply id_min_range ].
        + lia.
        + intros id [<-|HI]; auto.
        + intros id Hid. unfold valid_id in Hid. rewrite bit_set by lia. rewrite orb_true_iff, HU, Z.eqb_eq by exact Hid.
          cbn [In]. tauto. }
    all: destruct (slow_path_spec (words p) HP) as (w' & rr & E & HP' & [(-> & HL2 & -> & HA)|(id & -> & Hid & HB & HS & HLow)]); rewrite E.
    1,3: exists used; split; [ apply ok_none; intros i Hi; apply HU; auto; apply HA; unfold valid_id in Hi; lia
         | split; [ exact HP | split; [ cbn; lia | split; auto ] ] ].
    all: destruct (Z.eq_dec id 65536) as [->|Hne];
      [ exists used; split;
        [ change (u16 65536) with 0; apply ok_none; intros i Hi; apply HU; auto; apply HLow; unfold valid_id in Hi; lia
        | split; [ exact HP' | split; [ cbn; lia | split; [ auto | ] ] ]; cbn [words]; intros i Hi;
          unfold valid_id in Hi; rewrite HS by lia; rewrite orb_true_iff, HU by exact Hi;
          rewrite Z.eqb_eq; split; [ intros [?|?]; [ auto | lia ] | auto ] ]
      | assert (EU : u16 id = id) by (unfold u16; apply Z.mod_small; lia); rewrite EU;
        assert (Hv : valid_id id) by (unfold valid_id; lia);
        exists (id :: used); split;
        [ apply ok_got; [ exact Hv | ]; rewrite <- HU by exact Hv; congruence
        | split; [ exact HP' | split; [ cbn [last_id]; lia | split ] ];
          [ intros i [<-|HI]; auto
          | cbn [words]; intros i Hi; unfold valid_id in Hi; rewrite HS by lia; rewrite orb_true_iff, HU, Z.eqb_eq by exact Hi; cbn [In]; tauto ] ] ].
  - cbn [op_valid] in HO. pose proof HO as Hid. unfold valid_id in Hid. unfold release_id.
    assert (H0 : 0 <= id_maj id) by (rewrite id_maj_eq; lia).
    assert (EL : (Z.land (word (words p) (id_maj id)) (id_mask id) =? 0) = negb (bit (words p) id)).
    { rewrite id_mask_eq. apply land_mask. pose proof (id_min_range id). lia. }
    rewrite EL.
    destruct (Z.leb_spec (zlen (words p)) (id_maj id)).
    + exists used. split; [ apply ok_bug; auto; intros HI; apply HU in HI; auto; apply bit_in_pool in HI; lia | ].
      split; auto.
    + destruct (bit (words p) id) eqn:EB; cbn [negb].
      * exists (remove Z.eq_dec id used). split; [ apply ok_release; apply HU; auto | ].
        split; [ | split; [ auto | split ] ]; cbn [words last_id].
        -- apply set_word_ok; auto. rewrite id_mask_eq. apply u32_word_land; [ apply word_range, HP | ].
           apply Z.lxor_nonneg. split; intros; [ lia | apply Z.pow_nonneg; lia ].
        -- intros i HI. apply in_remove in HI as [HI _]. auto.
        -- intros i Hi. unfold valid_id in Hi. rewrite bit_clear by (auto; lia).
           rewrite andb_true_iff, HU by exact Hi. split.
           ++ intros [HI HN]. apply in_in_remove; auto. intros ->. rewrite Z.eqb_refl in HN. discriminate.
           ++ intros HI. apply in_remove in HI as [HI HN]. split; [ auto | ]. destruct (Z.eqb_spec id i); [ congruence | reflexivity ].
      * exists used. split; [ apply ok_bug; auto; intros HI; apply HU in HI; auto; congruence | ]. split; auto.
Qed.

Lemma abs_init : abs pool_init [].
Proof.
  split; [ | split; [ cbn; lia | split ] ]; cbn [words pool_init].
  - split; [ constructor | ]. split; [ rewrite zlen_nil; lia | reflexivity ].
  - intros id [].
  - intros id Hid. split; [ | intros [] ]. intros H. apply bit_in_pool in H; [ | destruct Hid; lia ].
    rewrite zlen_nil, id_maj_eq in H. destruct Hid. lia.
Qed.

Lemma history_ok : forall ops p used, abs p used -> Forall op_valid ops -> id_history p used ops.
Proof.
  induction ops as [|o ops IH]; intros p used HA HO; [ exact I | ]. inversion HO; subst. cbn [id_history].
  pose proof (abs_step p used o HA H1) as HS. destruct (id_step p o) as [p' out].
  destruct HS as (used' & HC & HA'). exists used'. auto.
Qed.
