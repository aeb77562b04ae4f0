(** Proofs about the models of SHA-256 and SHA-1. *)
From Coq Require Import ZArith List Bool Lia.
From Verif Require Import Common ShaSpec ShaModel.
Import ListNotations.
Open Scope Z_scope.

(** ** Words *)
Lemma right_rot_eq : forall x n, w32 x -> 0 < n < 32 -> right_rot x n = rotr n x.
Proof.
  intros x n H N. unfold right_rot, rotr, w32, u32 in *.
  rewrite Z.shiftr_div_pow2, Z.shiftl_mul_pow2 by lia.
  replace (2^32) with (2^(32 - n) * 2^n) by (rewrite <- Z.pow_add_r by lia; f_equal; lia).
  rewrite (Z.mul_comm x), Z.mul_mod_distr_l by (apply Z.pow_nonzero; lia).
  rewrite Z.lor_comm, (Z.mul_comm (2^(32-n))), lor_add; [ ring | lia | ].
  split; [ apply Z.div_pos; [ lia | apply Z.pow_pos_nonneg; lia ] | ].
  apply Z.div_lt_upper_bound; [ apply Z.pow_pos_nonneg; lia | ].
  rewrite <- Z.pow_add_r by lia. replace (n + (32 - n)) with 32 by lia. lia.
Qed.
Lemma rotr_w32 : forall x n, w32 x -> 0 <= n <= 32 -> w32 (rotr n x).
Proof.
  intros x n H N. unfold rotr, w32 in *.
  assert (A : 0 < 2^n) by (apply Z.pow_pos_nonneg; lia).
  assert (B : 0 < 2^(32-n)) by (apply Z.pow_pos_nonneg; lia).
  assert (C : 2^32 = 2^n * 2^(32-n)) by (rewrite <- Z.pow_add_r by lia; f_equal; lia).
  pose proof (Z.mod_pos_bound x (2^n) A).
  assert (0 <= x / 2^n < 2^(32-n)).
  { split; [ apply Z.div_pos; lia | apply Z.div_lt_upper_bound; lia ]. }
  rewrite C. nia.
Qed.
Lemma circular_shift_eq : forall n x, w32 x -> 0 < n < 32 -> circular_shift n x = rotl n x.
Proof.
  intros n x H N. unfold rotl. rewrite <- right_rot_eq by (auto; lia).
  unfold circular_shift, right_rot, u32. replace (32 - (32 - n)) with n by lia.
  rewrite land_ones_mod by lia. apply Z.lor_comm.
Qed.

Lemma w32_bits : forall x, w32 x <-> (0 <= x /\ forall n, 32 <= n -> Z.testbit x n = false).
Proof.
  intros x. unfold w32. split.
  - intros H. split; [ lia | ]. intros n N. apply (testbit_high 32); lia.
  - intros [H B]. split; auto. destruct (Z.ltb_spec x (2^32)) as [L|L]; auto. exfalso.
    assert (E : Z.testbit x (Z.log2 x) = true) by (apply Z.bit_log2; lia).
    rewrite B in E; [ discriminate | ]. apply Z.log2_le_pow2; lia.
Qed.
Lemma lxor_w32 : forall x y, w32 x -> w32 y -> w32 (Z.lxor x y).
Proof.
  intros x y X Y. apply w32_bits in X, Y. apply w32_bits. destruct X as [X1 X2], Y as [Y1 Y2]. split.
  - apply Z.lxor_nonneg. lia.
  - intros n N. rewrite Z.lxor_spec, X2, Y2; auto.
Qed.
Lemma land_w32 : forall x y, w32 x -> w32 y -> w32 (Z.land x y).
Proof.
  intros x y X Y. apply w32_bits in X, Y. apply w32_bits. destruct X as [X1 X2], Y as [Y1 Y2]. split.
  - apply Z.land_nonneg. lia.
  - intros n N. rewrite Z.land_spec, X2; auto.
Qed.
Lemma lor_w32 : forall x y, w32 x -> w32 y -> w32 (Z.lor x y).
Proof.
  intros x y X Y. apply w32_bits in X, Y. apply w32_bits. destruct X as [X1 X2], Y as [Y1 Y2]. split.
  - apply Z.lor_nonneg. lia.
  - intros n N. rewrite Z.lor_spec, X2, Y2; auto.
Qed.
Lemma mod_w32 : forall x, w32 (x mod 2^32).
Proof. intros. apply Z.mod_pos_bound. lia. Qed.
Lemma u32_w32 : forall x, w32 (u32 x).
Proof. intros. apply mod_w32. Qed.

Lemma not32_bit : forall x n, w32 x -> 0 <= n < 32 -> Z.testbit (not32 x) n = negb (Z.testbit x n).
Proof.
  intros x n X N. unfold not32. replace (2^32 - 1 - x) with (Z.lxor x (Z.ones 32)).
  - rewrite Z.lxor_spec, Z.ones_spec_low by lia. destruct (Z.testbit x n); reflexivity.
  - apply Z.add_cancel_r with (p := x). rewrite Z.sub_add.
    change (2^32 - 1) with (Z.ones 32).
    rewrite Z.add_nocarry_lxor.
    + rewrite (Z.lxor_comm x), Z.lxor_assoc, Z.lxor_nilpotent. apply Z.lxor_0_r.
    + apply Z.bits_inj'. intros m M. rewrite Z.land_spec, Z.lxor_spec, Z.bits_0.
      destruct (Z.ltb_spec m 32).
      * rewrite Z.ones_spec_low by lia. destruct (Z.testbit x m); reflexivity.
      * apply w32_bits in X. destruct X as [_ X]. rewrite (X m) by lia. apply andb_false_r.
Qed.
Lemma land_not32 : forall x z, w32 x -> w32 z -> Z.land (not32 x) z = Z.ldiff z x.
Proof.
  intros x z X Y. apply Z.bits_inj'. intros n N. rewrite Z.land_spec, Z.ldiff_spec.
  destruct (Z.ltb_spec n 32).
  - rewrite not32_bit by auto. apply andb_comm.
  - apply w32_bits in Y. destruct Y as [_ Y]. rewrite (Y n) by lia. apply andb_false_r.
Qed.
Lemma ch_eq : forall x y z, w32 x -> w32 z ->
  Z.lxor (Z.land x y) (Z.land (not32 x) z) = Ch x y z.
Proof. intros. unfold Ch. rewrite land_not32; auto. Qed.
Lemma ch_or_eq : forall x y z, w32 x -> w32 z -> f_ch x y z = Ch x y z.
Proof.
  intros. unfold f_ch, Ch. rewrite land_not32 by auto. apply Z.bits_inj'. intros n N.
  rewrite Z.lor_spec, Z.lxor_spec, Z.land_spec, Z.ldiff_spec.
  destruct (Z.testbit x n), (Z.testbit y n), (Z.testbit z n); reflexivity.
Qed.
Lemma maj_eq : forall x y z, Z.lxor (Z.lxor (Z.land x y) (Z.land x z)) (Z.land y z) = Maj x y z.
Proof. intros. unfold Maj, xor3. apply Z.lxor_assoc. Qed.
Lemma maj_or_eq : forall x y z, f_maj x y z = Maj x y z.
Proof.
  intros. unfold f_maj, Maj, xor3. apply Z.bits_inj'. intros n N.
  rewrite !Z.lor_spec, !Z.lxor_spec, !Z.land_spec.
  destruct (Z.testbit x n), (Z.testbit y n), (Z.testbit z n); reflexivity.
Qed.
Lemma Ch_w32 : forall x y z, w32 x -> w32 y -> w32 z -> w32 (Ch x y z).
Proof.
  intros. rewrite <- ch_or_eq by auto. unfold f_ch. apply lor_w32; apply land_w32; auto.
  unfold not32, w32 in *. lia.
Qed.

(** ** Loading a block *)
Lemma byte_bits : forall x, byte x -> 0 <= x < 2^8.
Proof. unfold byte. intros. lia. Qed.
Lemma four : forall a b c d, byte a -> byte b -> byte c -> byte d ->
  Z.lor (Z.lor (Z.lor (Z.shiftl a 24) (Z.shiftl b 16)) (Z.shiftl c 8)) d = be_dec [a; b; c; d].
Proof.
  intros a b c d A B C D. unfold byte in *. rewrite !Z.shiftl_mul_pow2 by lia.
  rewrite (lor_add 24 a (b * 2^16)) by lia.
  replace (a * 2^24 + b * 2^16) with ((a * 2^8 + b) * 2^16) by lia.
  rewrite (lor_add 16 (a * 2^8 + b) (c * 2^8)) by lia.
  replace ((a * 2^8 + b) * 2^16 + c * 2^8) with (((a * 2^8 + b) * 2^8 + c) * 2^8) by lia.
  rewrite lor_add by lia. unfold be_dec. cbn [fold_left]. lia.
Qed.
Lemma nth_skipn4 : forall (l : list Z) n, (n + 4 <= length l)%nat ->
  firstn 4 (skipn n l) = [nth n l 0; nth (n + 1) l 0; nth (n + 2) l 0; nth (n + 3) l 0].
Proof.
  induction l; intros n H; cbn [length] in H; [ lia | ].
  destruct n; [ | cbn [skipn]; rewrite IHl by lia; reflexivity ].
  destruct l as [|b [|c [|d l]]]; cbn [length] in H; try lia. reflexivity.
Qed.
Lemma bytes_nth : forall l n, bytes l -> byte (nth n l 0).
Proof.
  intros l n H. destruct (Nat.ltb_spec n (length l)).
  - unfold bytes in H. rewrite Forall_forall in H. apply H, nth_In. auto.
  - rewrite nth_overflow by auto. unfold byte. lia.
Qed.
Lemma load_eq : forall p j, bytes p -> length p = 64%nat -> (j < 16)%nat ->
  load p j = nth j (words p) 0.
Proof.
  intros p j B L J. unfold load, at_. rewrite four by (apply bytes_nth; auto).
  unfold words.
  rewrite (nth_indep (map (fun t => be_dec (firstn 4 (skipn (4 * t) p))) (seq 0 16)) 0 (be_dec (firstn 4 (skipn (4 * 0) p)))) by (rewrite map_length, seq_length; auto).
  rewrite (map_nth (fun t => be_dec (firstn 4 (skipn (4 * t) p))) (seq 0 16) 0%nat j).
  rewrite seq_nth by auto. rewrite nth_skipn4 by lia. reflexivity.
Qed.
Lemma words_len : forall p, length (words p) = 16%nat.
Proof. reflexivity. Qed.
Lemma words_w32 : forall p, bytes p -> Forall w32 (words p).
Proof.
  intros p B. unfold words. apply Forall_forall. intros x X. apply in_map_iff in X. destruct X as (t & <- & _).
  assert (H : bytes (firstn 4 (skipn (4 * t) p))).
  { rewrite <- (firstn_skipn (4 * t) p) in B. apply bytes_app in B. destruct B as [_ B].
    rewrite <- (firstn_skipn 4 (skipn (4 * t) p)) in B. apply bytes_app in B. tauto. }
  pose proof (be_dec_bound _ H). unfold w32.
  assert (L : zlen (firstn 4 (skipn (4 * t) p)) <= 4) by (unfold zlen; rewrite firstn_length; lia).
  assert (256 ^ zlen (firstn 4 (skipn (4 * t) p)) <= 256 ^ 4) by (apply Z.pow_le_mono_r; lia).
  lia.
Qed.

(** ** Arrays *)
Lemma upd_len : forall l i v, length (upd l i v) = length l.
Proof. induction l; intros [|i] v; cbn [upd length]; auto. Qed.
Lemma upd_same : forall l i v, (i < length l)%nat -> nth i (upd l i v) 0 = v.
Proof. induction l; intros [|i] v H; cbn [upd length nth] in *; try lia. apply IHl. lia. Qed.
Lemma upd_other : forall l i n v, i <> n -> nth n (upd l i v) 0 = nth n l 0.
Proof.
  induction l; intros [|i] [|n] v H; cbn [upd nth] in *; try reflexivity; try congruence. apply IHl. congruence.
Qed.
Lemma nth_w32 : forall l n, Forall w32 l -> w32 (nth n l 0).
Proof.
  intros l n H. destruct (Nat.ltb_spec n (length l)).
  - rewrite Forall_forall in H. apply H, nth_In. auto.
  - rewrite nth_overflow by auto. unfold w32. lia.
Qed.
Lemma nth_firstn_lt : forall (l : list Z) n t, (n < t)%nat -> nth n (firstn t l) 0 = nth n l 0.
Proof.
  induction l; intros n t H.
  - rewrite firstn_nil. reflexivity.
  - destruct t; [ lia | ]. destruct n; [ reflexivity | ]. cbn [firstn nth]. apply IHl. lia.
Qed.

(** ** Message schedules *)
Lemma schedule_len : forall next m w, length (schedule next m w) = (m + length w)%nat.
Proof.
  intros next. induction m; intros w; cbn [schedule]; [ reflexivity | ]. rewrite IHm, app_length. cbn [length]. lia.
Qed.
Lemma schedule_prefix : forall next m w, firstn (length w) (schedule next m w) = w.
Proof.
  intros next. induction m; intros w; cbn [schedule]; [ apply firstn_all | ].
  specialize (IHm (w ++ [next w])). apply (f_equal (firstn (length w))) in IHm.
  rewrite firstn_firstn, app_length in IHm. rewrite Nat.min_l in IHm by lia. rewrite IHm.
  rewrite firstn_app, firstn_all, Nat.sub_diag. cbn [firstn]. apply app_nil_r.
Qed.
Lemma schedule_low : forall next m w t, (t < length w)%nat -> nth t (schedule next m w) 0 = nth t w 0.
Proof.
  intros next m w t H. rewrite <- (schedule_prefix next m w) at 2. symmetry. apply nth_firstn_lt. auto.
Qed.
Lemma schedule_nth : forall next m w t, (length w <= t < length w + m)%nat ->
  nth t (schedule next m w) 0 = next (firstn t (schedule next m w)).
Proof.
  intros next. induction m; intros w t H; [ lia | ]. cbn [schedule].
  destruct (Nat.eq_dec t (length w)) as [->|N].
  - rewrite schedule_low by (rewrite app_length; cbn [length]; lia).
    rewrite app_nth2, Nat.sub_diag by lia. cbn [nth]. f_equal.
    change (schedule next m (w ++ [next w])) with (schedule next (S m) w). symmetry. apply schedule_prefix.
  - apply IHm. rewrite app_length. cbn [length]. lia.
Qed.
Lemma schedule_w32 : forall next, (forall l, Forall w32 l -> w32 (next l)) ->
  forall m w, Forall w32 w -> Forall w32 (schedule next m w).
Proof.
  intros next N. induction m; intros w H; cbn [schedule]; auto.
  apply IHm. apply Forall_app. split; auto.
Qed.
Lemma ago_firstn : forall k t L, (t <= length L)%nat -> (0 < k <= t)%nat -> ago k (firstn t L) = nth (t - k) L 0.
Proof.
  intros k t L H K. unfold ago. rewrite firstn_length, Nat.min_l by lia. apply nth_firstn_lt. lia.
Qed.

Lemma next256_w32 : forall l, Forall w32 l -> w32 (next256 l).
Proof. intros. apply mod_w32. Qed.
Lemma next1_w32 : forall l, Forall w32 l -> w32 (next1 l).
Proof.
  intros l H. unfold next1, rotl. apply rotr_w32; [ | lia ].
  repeat apply lxor_w32; unfold ago; apply nth_w32; auto.
Qed.
Lemma W256_len : forall b, length (W256 b) = 64%nat.
Proof. intros. unfold W256. rewrite schedule_len. reflexivity. Qed.
Lemma W1_len : forall b, length (W1 b) = 80%nat.
Proof. intros. unfold W1. rewrite schedule_len. reflexivity. Qed.
Lemma W256_w32 : forall b, bytes b -> Forall w32 (W256 b).
Proof. intros. unfold W256. apply schedule_w32; [ apply next256_w32 | apply words_w32; auto ]. Qed.
Lemma W1_w32 : forall b, bytes b -> Forall w32 (W1 b).
Proof. intros. unfold W1. apply schedule_w32; [ apply next1_w32 | apply words_w32; auto ]. Qed.
Lemma W256_low : forall b t, (t < 16)%nat -> nth t (W256 b) 0 = nth t (words b) 0.
Proof. intros. unfold W256. apply schedule_low. auto. Qed.
Lemma W1_low : forall b t, (t < 16)%nat -> nth t (W1 b) 0 = nth t (words b) 0.
Proof. intros. unfold W1. apply schedule_low. auto. Qed.
Lemma W256_rec : forall b t, (16 <= t < 64)%nat ->
  nth t (W256 b) 0 = plus [sigma1 (nth (t - 2) (W256 b) 0); nth (t - 7) (W256 b) 0;
                           sigma0 (nth (t - 15) (W256 b) 0); nth (t - 16) (W256 b) 0].
Proof.
  intros b t H. pose proof (W256_len b) as L. transitivity (next256 (firstn t (W256 b))).
  - unfold W256. apply schedule_nth. rewrite words_len. lia.
  - unfold next256. rewrite !ago_firstn by lia. reflexivity.
Qed.
Lemma W1_rec : forall b t, (16 <= t < 80)%nat ->
  nth t (W1 b) 0 = rotl 1 (Z.lxor (nth (t - 3) (W1 b) 0) (Z.lxor (nth (t - 8) (W1 b) 0)
                             (Z.lxor (nth (t - 14) (W1 b) 0) (nth (t - 16) (W1 b) 0)))).
Proof.
  intros b t H. pose proof (W1_len b) as L. transitivity (next1 (firstn t (W1 b))).
  - unfold W1. apply schedule_nth. rewrite words_len. lia.
  - unfold next1. rewrite !ago_firstn by lia. reflexivity.
Qed.

(** ** The compression function of SHA-256 *)
Lemma k_eq : K256 = k.
Proof. vm_compute. reflexivity. Qed.
Lemma H256_eq : H256 = s_h (sha_256_init []).
Proof. vm_compute. reflexivity. Qed.

Definition ok_words (n : nat) (v : list Z) : Prop := length v = n /\ Forall w32 v.
Ltac eight v H :=
  let L := fresh in let F := fresh in
  destruct H as [L F]; destruct v as [|? [|? [|? [|? [|? [|? [|? [|? [|? v]]]]]]]]]; try discriminate L;
  repeat match goal with X : Forall w32 (_ :: _) |- _ => inversion_clear X end.

Lemma round256_ok : forall w v t, ok_words 8 v -> ok_words 8 (round256 w v t).
Proof.
  intros w v t H. eight v H. unfold round256. split; [ reflexivity | ].
  repeat (apply Forall_cons; [ first [ assumption | apply mod_w32 ] | ]). apply Forall_nil.
Qed.
Lemma rounds256_ok : forall w n a v, ok_words 8 v -> ok_words 8 (fold_left (round256 w) (seq a n) v).
Proof.
  intros w. induction n; intros a v H; cbn [seq fold_left]; auto. apply IHn, round256_ok, H.
Qed.

Lemma plus2 : forall a b, plus [a; b] = u32 (a + b).
Proof. intros. unfold plus, u32. cbn [fold_right]. f_equal. ring. Qed.
Lemma plus5 : forall a b c d e, plus [a; b; c; d; e] = u32 (a + b + c + d + e).
Proof. intros. unfold plus, u32. cbn [fold_right]. f_equal. ring. Qed.
Lemma plus4 : forall a b c d, plus [a; b; c; d] = u32 (d + c + b + a).
Proof. intros. unfold plus, u32. cbn [fold_right]. f_equal. ring. Qed.
Lemma mix_eq : forall W v i j t, ok_words 8 v -> t = Nat.lor (Nat.shiftl i 4) j ->
  mix v (nth t W 0) i j = round256 W v t.
Proof.
  intros W v i j t H T. eight v H. unfold mix, at_. cbn [nth]. rewrite <- T.
  unfold round256. rewrite k_eq.
  repeat match goal with |- context [upd (?x :: ?l) ?n ?y] => progress cbn [upd nth] end.
  rewrite !right_rot_eq by (auto; lia). rewrite ch_eq, maj_eq by auto.
  cbv zeta. rewrite plus5, !plus2.
  unfold Sigma0, Sigma1, xor3. rewrite !Z.lxor_assoc. reflexivity.
Qed.

Lemma new_w_eq : forall p w i j t, bytes p -> length p = 64%nat -> (j < 16)%nat -> t = (16 * i + j)%nat -> (i < 4)%nat ->
  (forall m, (m < t)%nat -> (t <= m + 16)%nat -> nth (m mod 16) w 0 = nth m (W256 p) 0) ->
  new_w p w i j = nth t (W256 p) 0.
Proof.
  intros p w i j t B L J T I H. unfold new_w, at_. destruct i as [|i].
  - cbn [Nat.eqb]. subst t. rewrite W256_low by lia. apply load_eq; auto.
  - cbn [Nat.eqb]. rewrite W256_rec by lia.
    assert (E : forall x, Nat.land x 15 = (x mod 16)%nat).
    { intros x. change 15%nat with (Nat.ones 4). rewrite Nat.land_ones. reflexivity. }
    rewrite !E. cbv zeta.
    assert (P : forall q d, (0 < d <= 16)%nat -> (q mod 16 = (t - d) mod 16)%nat -> nth (q mod 16) w 0 = nth (t - d) (W256 p) 0).
    { intros q d D Q. rewrite Q. apply H; lia. }
    rewrite (P (j + 1)%nat 15%nat), (P (j + 14)%nat 2%nat), (P (j + 9)%nat 7%nat) by lia.
    replace (nth j w 0) with (nth (j mod 16) w 0) by (rewrite Nat.mod_small; auto).
    rewrite (P j 16%nat) by lia.
    pose proof (W256_w32 p B) as F.
    rewrite !right_rot_eq by (try apply nth_w32; auto; lia).
    rewrite !Z.shiftr_div_pow2 by lia. unfold sigma0, sigma1, xor3, shr. rewrite plus4, !Z.lxor_assoc.
    reflexivity.
Qed.

Definition inv256 (p h : list Z) (t : nat) (st : list Z * list Z) : Prop :=
  length (fst st) = 16%nat /\
  (forall m, (m < t)%nat -> (t <= m + 16)%nat -> nth (m mod 16) (fst st) 0 = nth m (W256 p) 0) /\
  snd st = fold_left (round256 (W256 p)) (seq 0 t) h.

Lemma inner_step : forall p h i j st, bytes p -> length p = 64%nat -> ok_words 8 h ->
  (i < 4)%nat -> (j < 16)%nat -> inv256 p h (16 * i + j) st -> inv256 p h (16 * i + j + 1) (inner p i st j).
Proof.
  intros p h i j [w ah] B L H I J (A1 & A2 & A3). cbn [fst snd] in *. unfold inner.
  set (t := (16 * i + j)%nat) in *.
  assert (N : new_w p w i j = nth t (W256 p) 0) by (apply new_w_eq; auto).
  assert (M : (t mod 16)%nat = j) by (unfold t; lia).
  rewrite N. split; [ | split ]; cbn [fst snd].
  - rewrite upd_len. auto.
  - intros m M1 M2. destruct (Nat.eq_dec m t) as [->|D].
    + rewrite M. apply upd_same. lia.
    + rewrite upd_other by lia. apply A2; lia.
  - unfold at_ at 1. rewrite upd_same by lia.
    rewrite Nat.add_1_r, seq_S, fold_left_app. cbn [fold_left plus]. rewrite <- A3.
    apply mix_eq.
    + rewrite A3. apply rounds256_ok. auto.
    + rewrite Nat.add_0_l. unfold t. clear - I J.
      assert (E : forallb (fun i => forallb (fun j => (Nat.lor (Nat.shiftl i 4) j =? 16 * i + j)%nat) (seq 0 16)) (seq 0 4) = true)
        by reflexivity.
      rewrite forallb_forall in E. specialize (E i). rewrite in_seq in E. specialize (E ltac:(lia)).
      rewrite forallb_forall in E. specialize (E j). rewrite in_seq in E. specialize (E ltac:(lia)).
      apply Nat.eqb_eq in E. auto.
Qed.
Lemma inner_loop : forall p h i st n, bytes p -> length p = 64%nat -> ok_words 8 h -> (i < 4)%nat ->
  (n <= 16)%nat -> inv256 p h (16 * i) st -> inv256 p h (16 * i + n) (fold_left (inner p i) (seq 0 n) st).
Proof.
  intros p h i st n B L H I. induction n; intros N V.
  - rewrite Nat.add_0_r. auto.
  - rewrite seq_S, fold_left_app. cbn [fold_left]. rewrite Nat.add_0_l.
    replace (16 * i + S n)%nat with (16 * i + n + 1)%nat by lia. apply inner_step; auto. apply IHn; auto. lia.
Qed.
Lemma outer_loop : forall p h st n, bytes p -> length p = 64%nat -> ok_words 8 h -> (n <= 4)%nat ->
  inv256 p h 0 st ->
  inv256 p h (16 * n) (fold_left (fun st i => fold_left (inner p i) (seq 0 16) st) (seq 0 n) st).
Proof.
  intros p h st n B L H. induction n; intros N V; auto.
  rewrite (seq_S n), fold_left_app. cbn [fold_left]. rewrite Nat.add_0_l.
  replace (16 * S n)%nat with (16 * n + 16)%nat by lia. apply inner_loop; auto. apply IHn; auto. lia.
Qed.

Lemma add_words_eq : forall x y, map (fun p => u32 (fst p + snd p)) (combine x y) = add_words x y.
Proof.
  intros. unfold add_words. apply map_ext. intros [a b]. unfold plus, u32. cbn [fst snd fold_right]. f_equal. lia.
Qed.
Lemma add_words_ok : forall n x y, length x = n -> length y = n -> ok_words n (add_words x y).
Proof.
  intros n x y X Y. unfold add_words. split.
  - rewrite map_length, combine_length. lia.
  - apply Forall_forall. intros z Z. apply in_map_iff in Z. destruct Z as (q & <- & _). apply mod_w32.
Qed.
Lemma consume_chunk_eq : forall junk h p, length junk = 16%nat -> ok_words 8 h -> bytes p -> length p = 64%nat ->
  consume_chunk junk h p = compress256 h p.
Proof.
  intros junk h p J H B L.
  pose proof (outer_loop p h (junk, h) 4 B L H ltac:(lia)) as V.
  assert (V0 : inv256 p h 0 (junk, h)).
  { split; [ auto | split; [ intros; lia | reflexivity ] ]. }
  specialize (V V0). unfold consume_chunk, compress256.
  destruct (fold_left _ (seq 0 4) (junk, h)) as [w ah]. destruct V as (_ & _ & V). cbn [snd] in V.
  change (16 * 4)%nat with 64%nat in V. rewrite V. apply add_words_eq.
Qed.
Lemma compress256_ok : forall h b, ok_words 8 h -> ok_words 8 (compress256 h b).
Proof.
  intros h b H. unfold compress256. apply add_words_ok; [ apply H | ]. apply rounds256_ok. auto.
Qed.

(** ** The compression function of SHA-1 *)
Lemma fill_low : forall b n W, bytes b -> length b = 64%nat -> length W = 80%nat -> (n <= 16)%nat ->
  let V := fold_left (fun W t => upd W t (load b t)) (seq 0 n) W in
  length V = 80%nat /\ forall m, (m < n)%nat -> nth m V 0 = nth m (W1 b) 0.
Proof.
  intros b n W B L LW. induction n; intros N; cbv zeta.
  - split; [ auto | intros; lia ].
  - specialize (IHn ltac:(lia)). cbv zeta in IHn. destruct IHn as [I1 I2].
    rewrite seq_S, fold_left_app. cbn [fold_left]. rewrite Nat.add_0_l.
    set (V := fold_left _ (seq 0 n) W) in *. split; [ rewrite upd_len; auto | ].
    intros m M. destruct (Nat.eq_dec m n) as [->|D].
    + rewrite upd_same by lia. rewrite W1_low by lia. apply load_eq; auto.
    + rewrite upd_other by lia. apply I2. lia.
Qed.
Lemma fill_high : forall b n V, bytes b -> length V = 80%nat -> (n <= 64)%nat ->
  (forall m, (m < 16)%nat -> nth m V 0 = nth m (W1 b) 0) ->
  let V' := fold_left (fun W t =>
    upd W t (circular_shift 1 (Z.lxor (Z.lxor (Z.lxor (at_ W (t - 3)) (at_ W (t - 8))) (at_ W (t - 14))) (at_ W (t - 16)))))
    (seq 16 n) V in
  length V' = 80%nat /\ forall m, (m < 16 + n)%nat -> nth m V' 0 = nth m (W1 b) 0.
Proof.
  intros b n V B LV N H. induction n; cbv zeta.
  - split; [ auto | intros; apply H; lia ].
  - specialize (IHn ltac:(lia)). cbv zeta in IHn. destruct IHn as [I1 I2].
    rewrite seq_S, fold_left_app. cbn [fold_left].
    set (V' := fold_left _ (seq 16 n) V) in *. split; [ rewrite upd_len; auto | ].
    intros m M. destruct (Nat.eq_dec m (16 + n)) as [->|D].
    + rewrite upd_same by lia. unfold at_. rewrite !I2 by lia. rewrite (W1_rec b (16 + n)) by lia.
      pose proof (W1_w32 b B) as F. rewrite !Z.lxor_assoc. apply circular_shift_eq; [ | lia ].
      apply lxor_w32; [ | apply lxor_w32; [ | apply lxor_w32 ] ]; apply nth_w32; auto.
    + rewrite upd_other by lia. apply I2. lia.
Qed.
Lemma fill_eq : forall b junk, bytes b -> length b = 64%nat -> length junk = 80%nat -> fill_W b junk = W1 b.
Proof.
  intros b junk B L J. unfold fill_W.
  pose proof (fill_low b 16 junk B L J ltac:(lia)) as [A1 A2]. cbv zeta in *.
  set (V := fold_left _ (seq 0 16) junk) in *.
  pose proof (fill_high b 64 V B A1 ltac:(lia) A2) as [C1 C2]. cbv zeta in *.
  apply (nth_ext _ _ 0 0).
  - rewrite C1, W1_len. reflexivity.
  - intros n N. apply C2. rewrite C1 in N. lia.
Qed.

Definition to5 (v : Z * Z * Z * Z * Z) : list Z := let '(A, B, C, D, E) := v in [A; B; C; D; E].
Definition ok5 (v : Z * Z * Z * Z * Z) : Prop := Forall w32 (to5 v).
Lemma rotl_w32 : forall n x, w32 x -> 0 <= n <= 32 -> w32 (rotl n x).
Proof. intros. unfold rotl. apply rotr_w32; auto. lia. Qed.
Lemma turn_eq : forall f i W v t, ok5 v ->
  (forall B C D, w32 B -> w32 C -> w32 D -> f B C D = f1 t B C D) -> at_ K i = K1 t ->
  to5 (turn f i W v t) = round1 W (to5 v) t /\ ok5 (turn f i W v t).
Proof.
  intros f i W [[[[A B] C] D] E] t O F KE. unfold ok5, to5 in O.
  repeat match goal with X : Forall w32 (_ :: _) |- _ => inversion_clear X end.
  unfold turn. rewrite !circular_shift_eq by (auto; lia). rewrite F by auto. rewrite KE. split.
  - unfold to5, round1. rewrite plus5. f_equal. f_equal. unfold at_. ring.
  - unfold ok5, to5. repeat (apply Forall_cons; [ first [ assumption | apply u32_w32 | apply rotl_w32; [ assumption | lia ] ] | ]).
    apply Forall_nil.
Qed.
Lemma turns_eq : forall f i W a n v, ok5 v ->
  (forall t B C D, (a <= t < a + n)%nat -> w32 B -> w32 C -> w32 D -> f B C D = f1 t B C D) ->
  (forall t, (a <= t < a + n)%nat -> at_ K i = K1 t) ->
  to5 (fold_left (turn f i W) (seq a n) v) = fold_left (round1 W) (seq a n) (to5 v) /\
  ok5 (fold_left (turn f i W) (seq a n) v).
Proof.
  intros f i W a n. revert a. induction n; intros a v O F KE; cbn [seq fold_left]; [ auto | ].
  destruct (turn_eq f i W v a O) as [E1 E2].
  - intros. apply F; auto. lia.
  - apply KE. lia.
  - rewrite <- E1. apply IHn; auto.
    + intros. apply F; auto. lia.
    + intros. apply KE. lia.
Qed.

Lemma f1_range : forall t x y z, f1 t x y z =
  if (t <? 20)%nat then Ch x y z else if (t <? 40)%nat then f_parity x y z
  else if (t <? 60)%nat then Maj x y z else f_parity x y z.
Proof.
  intros. unfold f1, f_parity, xor3. rewrite Z.lxor_assoc. reflexivity.
Qed.
Ltac ranges := repeat match goal with |- context [Nat.ltb ?a ?b] => destruct (Nat.ltb_spec a b); try lia end.
Lemma process_eq : forall junk h b, length junk = 80%nat -> ok_words 5 h -> bytes b -> length b = 64%nat ->
  process_digest junk h b = compress1 h b.
Proof.
  intros junk h b J H B L. unfold process_digest. rewrite fill_eq by auto.
  destruct H as [HL HF]. destruct h as [|h0 [|h1 [|h2 [|h3 [|h4 [|h5 h]]]]]]; try discriminate HL.
  unfold at_ at 1 2 3 4 5. cbn [nth].
  set (v0 := (h0, h1, h2, h3, h4)). assert (O0 : ok5 v0) by exact HF.
  destruct (turns_eq f_ch 0 (W1 b) 0 20 v0 O0) as [E1 O1].
  { intros. rewrite f1_range. ranges. apply ch_or_eq; auto. }
  { intros t T. unfold K1. ranges. reflexivity. }
  set (v1 := fold_left (turn f_ch 0 (W1 b)) (seq 0 20) v0) in *.
  destruct (turns_eq f_parity 1 (W1 b) 20 20 v1 O1) as [E2 O2].
  { intros. rewrite f1_range. ranges; reflexivity. }
  { intros t T. unfold K1. ranges. reflexivity. }
  set (v2 := fold_left (turn f_parity 1 (W1 b)) (seq 20 20) v1) in *.
  destruct (turns_eq f_maj 2 (W1 b) 40 20 v2 O2) as [E3 O3].
  { intros. rewrite f1_range. ranges. apply maj_or_eq. }
  { intros t T. unfold K1. ranges. reflexivity. }
  set (v3 := fold_left (turn f_maj 2 (W1 b)) (seq 40 20) v2) in *.
  destruct (turns_eq f_parity 3 (W1 b) 60 20 v3 O3) as [E4 O4].
  { intros. rewrite f1_range. ranges; reflexivity. }
  { intros t T. unfold K1. ranges. reflexivity. }
  set (v4 := fold_left (turn f_parity 3 (W1 b)) (seq 60 20) v3) in *.
  assert (E : to5 v4 = fold_left (round1 (W1 b)) (seq 0 80) (to5 v0)).
  { rewrite E4, E3, E2, E1. rewrite <- !fold_left_app. reflexivity. }
  unfold compress1. change (to5 v0) with [h0; h1; h2; h3; h4] in E. rewrite <- E.
  clearbody v4. destruct v4 as [[[[A B'] C] D] E']. unfold to5, v0, add_words, at_. cbn [nth combine map fst snd].
  rewrite !plus2. reflexivity.
Qed.
Lemma round1_len : forall w v t, length v = 5%nat -> length (round1 w v t) = 5%nat.
Proof.
  intros w v t H. destruct v as [|? [|? [|? [|? [|? [|? v]]]]]]; try discriminate H. reflexivity.
Qed.
Lemma rounds1_len : forall w n a v, length v = 5%nat -> length (fold_left (round1 w) (seq a n) v) = 5%nat.
Proof. intros w. induction n; intros a v H; cbn [seq fold_left]; auto. apply IHn, round1_len, H. Qed.
Lemma compress1_ok : forall h b, ok_words 5 h -> ok_words 5 (compress1 h b).
Proof.
  intros h b [H _]. unfold compress1. apply add_words_ok; auto. apply rounds1_len. auto.
Qed.
