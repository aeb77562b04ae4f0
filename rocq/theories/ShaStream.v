(** The streams of SHA-256 and SHA-1: writes, padding, and results. *)
From Coq Require Import ZArith List Bool Lia.
From Verif Require Import Common ShaSpec ShaModel ShaProofs.
Import ListNotations.
Open Scope Z_scope.

(** ** Blocks one after another *)
Lemma firstn_exact : forall (x y : list Z) n, length x = n -> firstn n (x ++ y) = x.
Proof. intros x y n <-. rewrite firstn_app, firstn_all, Nat.sub_diag. apply app_nil_r. Qed.
Lemma skipn_exact : forall (x y : list Z) n, length x = n -> skipn n (x ++ y) = y.
Proof. intros x y n <-. rewrite skipn_app, skipn_all, Nat.sub_diag. reflexivity. Qed.

Lemma absorb_app : forall f a b x y h, length x = (64 * a)%nat ->
  absorb f (a + b) h (x ++ y) = absorb f b (absorb f a h x) y.
Proof.
  intros f. induction a; intros b x y h L.
  - destruct x; [ reflexivity | discriminate L ].
  - cbn [Nat.add absorb].
    assert (E : x = firstn 64 x ++ skipn 64 x) by (symmetry; apply firstn_skipn).
    assert (L1 : length (firstn 64 x) = 64%nat) by (rewrite firstn_length; lia).
    rewrite E at 1 2. rewrite <- app_assoc, (firstn_exact (firstn 64 x)), (skipn_exact (firstn 64 x)) by auto.
    apply IHa. rewrite skipn_length. lia.
Qed.
Lemma absorb_one : forall f h b, length b = 64%nat -> absorb f 1 h b = f h b.
Proof. intros f h b L. cbn [absorb]. f_equal. apply firstn_all2. lia. Qed.
Lemma absorb_snoc : forall f a h x b, length x = (64 * a)%nat -> length b = 64%nat ->
  absorb f (a + 1) h (x ++ b) = f (absorb f a h x) b.
Proof. intros. rewrite absorb_app by auto. apply absorb_one. auto. Qed.
Lemma absorb_ok : forall f n, (forall h b, ok_words n h -> ok_words n (f h b)) ->
  forall a h x, ok_words n h -> ok_words n (absorb f a h x).
Proof. intros f n F. induction a; intros h x H; cbn [absorb]; auto. Qed.

(** Storing behind a prefix. *)
Lemma store_at : forall A B bs, (length bs <= length B)%nat ->
  mem_store (A ++ B) (zlen A) bs = Some (A ++ bs ++ skipn (length bs) B).
Proof.
  intros A B bs H. rewrite <- (firstn_skipn (length bs) B) at 1. apply mem_store_app.
  unfold zlen. rewrite firstn_length. lia.
Qed.

(** The padded message, from the point where the last whole block ends. *)
Lemma pad_short : forall P T a, length P = (64 * a)%nat -> (length T < 56)%nat ->
  pad (P ++ T) = P ++ (T ++ [128] ++ repeat 0 (55 - length T) ++ be_enc 8 (8 * zlen (P ++ T))).
Proof.
  intros P T a L H. unfold pad. rewrite <- app_assoc. do 4 f_equal. zl. unfold zlen. rewrite L. f_equal. f_equal. lia.
Qed.
Lemma pad_long : forall P T a, length P = (64 * a)%nat -> (56 <= length T < 64)%nat ->
  pad (P ++ T) = P ++ (T ++ [128] ++ repeat 0 (63 - length T)) ++ repeat 0 56 ++ be_enc 8 (8 * zlen (P ++ T)).
Proof.
  intros P T a L H. unfold pad. rewrite <- !app_assoc. do 3 f_equal.
  rewrite (app_assoc (repeat 0 (63 - length T))), <- repeat_app. do 2 f_equal.
  zl. unfold zlen. rewrite L. lia.
Qed.
Lemma be_enc_length : forall n x, length (be_enc n x) = n.
Proof. intros n x. pose proof (be_enc_len n x) as H. unfold zlen in H. lia. Qed.

Lemma digest_short : forall f h0 P T a, length P = (64 * a)%nat -> (length T < 56)%nat ->
  digest f h0 (P ++ T) =
  concat (map (be_enc 4) (f (absorb f a h0 P) (T ++ [128] ++ repeat 0 (55 - length T) ++ be_enc 8 (8 * zlen (P ++ T))))).
Proof.
  intros f h0 P T a L H. unfold digest. rewrite (pad_short P T a) by auto.
  set (b := T ++ [128] ++ repeat 0 (55 - length T) ++ be_enc 8 (8 * zlen (P ++ T))).
  assert (B : length b = 64%nat).
  { unfold b. rewrite !app_length, repeat_length, be_enc_length. cbn [length]. lia. }
  replace (length (P ++ b) / 64)%nat with (a + 1)%nat by (rewrite app_length, L, B; lia).
  rewrite absorb_snoc by auto. reflexivity.
Qed.
Lemma digest_long : forall f h0 P T a, length P = (64 * a)%nat -> (56 <= length T < 64)%nat ->
  digest f h0 (P ++ T) =
  concat (map (be_enc 4) (f (f (absorb f a h0 P) (T ++ [128] ++ repeat 0 (63 - length T)))
                            (repeat 0 56 ++ be_enc 8 (8 * zlen (P ++ T))))).
Proof.
  intros f h0 P T a L H. unfold digest. rewrite (pad_long P T a) by auto.
  set (b := T ++ [128] ++ repeat 0 (63 - length T)).
  set (c := repeat 0 56 ++ be_enc 8 (8 * zlen (P ++ T))).
  assert (B : length b = 64%nat).
  { unfold b. rewrite !app_length, repeat_length. cbn [length]. lia. }
  assert (C : length c = 64%nat).
  { unfold c. rewrite !app_length, repeat_length, be_enc_length. reflexivity. }
  replace (length (P ++ b ++ c) / 64)%nat with (a + 1 + 1)%nat by (rewrite !app_length, L, B, C; lia).
  rewrite app_assoc, absorb_snoc by (auto; rewrite app_length; lia).
  rewrite absorb_snoc by auto. reflexivity.
Qed.
Lemma bytes_repeat0 : forall n, bytes (repeat 0 n).
Proof. intros n. apply Forall_forall. intros x X. apply repeat_spec in X. subst x. unfold byte. lia. Qed.
Lemma bytes_128 : bytes [128].
Proof. constructor; [ unfold byte; lia | constructor ]. Qed.

(** Words as octets. *)
Lemma octets_eq : forall x, w32 x ->
  [u8 (Z.shiftr x 24); u8 (Z.shiftr x 16); u8 (Z.shiftr x 8); u8 x] = be_enc 4 x.
Proof.
  intros x H. rewrite !Z.shiftr_div_pow2 by lia. unfold u8. cbn [be_enc]. change (2^8) with 256.
  rewrite <- (Z.div_1_r x) at 4. reflexivity.
Qed.
Lemma digest_eq : forall v, Forall w32 v ->
  flat_map (fun x => [u8 (Z.shiftr x 24); u8 (Z.shiftr x 16); u8 (Z.shiftr x 8); u8 x]) v = concat (map (be_enc 4) v).
Proof.
  induction v; intros H; [ reflexivity | ]. inversion_clear H. cbn [flat_map map concat].
  rewrite octets_eq, IHv by auto. reflexivity.
Qed.

(** ** SHA-256 *)
Section S256.
Variable junk : list Z.
Hypothesis junk_len : length junk = 16%nat.

Definition rep (s : sha256) (m : list Z) : Prop :=
  exists P T R a, m = P ++ T /\ length P = (64 * a)%nat /\ s_chunk s = T ++ R /\ (length T < 64)%nat /\
    length (T ++ R) = 64%nat /\ s_h s = absorb compress256 a H256 P /\
    s_pos s = zlen T /\ s_left s = 64 - zlen T.

Lemma H256_ok : ok_words 8 H256.
Proof using.
  clear.
  rewrite H256_eq. split; [ reflexivity | ]. cbn [s_h sha_256_init].
  repeat (apply Forall_cons; [ unfold w32; lia | ]). apply Forall_nil.
Qed.
Lemma absorb256_ok : forall a P, ok_words 8 (absorb compress256 a H256 P).
Proof using. clear. intros. apply absorb_ok; [ intros; apply compress256_ok; auto | apply H256_ok ]. Qed.

Lemma write_loop_ok : forall fuel p s m, rep s m -> bytes m -> bytes p -> (length p <= fuel)%nat ->
  exists s', write_loop fuel junk s p = Some s' /\ rep s' (m ++ p) /\ s_total s' = s_total s.
Proof.
  induction fuel; intros p s m (P & T & R & a & E1 & E2 & E3 & E4 & E5 & E6 & E7 & E8) BM BP F.
  - destruct p; [ | cbn [length] in F; lia ]. exists s. split; [ reflexivity | ]. rewrite app_nil_r.
    split; [ | reflexivity ]. exists P, T, R, a. auto 10.
  - destruct p as [|x q].
    { exists s. split; [ reflexivity | ]. rewrite app_nil_r. split; [ | reflexivity ]. exists P, T, R, a. auto 10. }
    set (p := x :: q) in *. assert (NE : (0 < length p)%nat) by (unfold p; cbn [length]; lia).
    cbn [write_loop]. fold p. assert (PM : p = x :: q) by reflexivity.
    rewrite PM. rewrite <- PM. clearbody p. clear PM x q.
    rewrite E1 in BM. apply bytes_app in BM. destruct BM as [BP' BT].
    assert (SP : forall n, bytes (firstn n p) /\ bytes (skipn n p)).
    { intros n. rewrite <- (firstn_skipn n p) in BP. apply bytes_app in BP. auto. }
    destruct ((s_left s =? 64) && (64 <=? zlen p)) eqn:D.
    + assert (T = []) by (destruct T; auto; revert D; rewrite E8; zl; pose proof (zlen_nonneg _ T); lia).
      subst T. cbn [app] in *. rewrite app_nil_r in E1. subst m.
      assert (L64 : length (firstn 64 p) = 64%nat) by (rewrite firstn_length; unfold zlen in D; lia).
      match goal with |- context [write_loop fuel junk ?s1 _] =>
          destruct (IHfuel (skipn 64 p) s1 (P ++ firstn 64 p)) as (s' & W1' & W2' & W3'); [ | | apply SP | | ] end.
      * exists (P ++ firstn 64 p), [], R, (a + 1)%nat. cbn [s_h s_chunk s_pos s_left app].
        repeat split; auto.
        -- symmetry. apply app_nil_r.
        -- rewrite app_length, L64. lia.
        -- rewrite absorb_snoc by auto. rewrite E6. apply consume_chunk_eq; auto; [ apply absorb256_ok | apply SP ].
      * apply bytes_app. split; auto. apply SP.
      * rewrite skipn_length. lia.
      * exists s'. split; [ exact W1' | ]. split; [ | exact W3' ].
        rewrite <- app_assoc, firstn_skipn in W2'. exact W2'.
    + set (c := if zlen p <? s_left s then zlen p else s_left s).
      assert (C : 1 <= c <= zlen p /\ c <= 64 - zlen T /\ (c = zlen p \/ c = 64 - zlen T)).
      { unfold c. rewrite E8. unfold zlen in *. destruct (Z.ltb_spec (Z.of_nat (length p)) (64 - Z.of_nat (length T))); lia. }
      assert (LC : length (firstn (Z.to_nat c) p) = Z.to_nat c) by (rewrite firstn_length; unfold zlen in C; lia).
      rewrite E3, E7, store_at by (rewrite LC; rewrite app_length in E5; unfold zlen in *; lia).
      rewrite LC. rewrite app_length in E5.
      assert (Q : rep s m -> True) by auto. clear Q.
      destruct (Z.eqb_spec (s_left s - c) 0) as [Z0|Z0].
      * assert (R0 : skipn (Z.to_nat c) R = []) by (apply skipn_all2; unfold zlen in *; lia).
        rewrite R0, app_nil_r.
        match goal with |- context [write_loop fuel junk ?s1 _] =>
          destruct (IHfuel (skipn (Z.to_nat c) p) s1 (P ++ T ++ firstn (Z.to_nat c) p)) as (s' & W1' & W2' & W3'); [ | | apply SP | | ] end.
        -- exists (P ++ T ++ firstn (Z.to_nat c) p), [], (T ++ firstn (Z.to_nat c) p), (a + 1)%nat.
           assert (L64 : length (T ++ firstn (Z.to_nat c) p) = 64%nat) by (rewrite app_length, LC; unfold zlen in *; lia).
           cbn [s_h s_chunk s_pos s_left app length].
           repeat split; auto; try lia.
           ++ symmetry. apply app_nil_r.
           ++ rewrite app_length, L64. lia.
           ++ rewrite absorb_snoc by auto. rewrite E6. apply consume_chunk_eq; auto; [ apply absorb256_ok | ].
              apply bytes_app. split; auto. apply SP.
        -- rewrite app_assoc, <- E1. apply bytes_app. split; [ rewrite E1; apply bytes_app; auto | apply SP ].
        -- rewrite skipn_length. lia.
        -- exists s'. split; [ exact W1' | ]. split; [ | exact W3' ].
           rewrite <- !app_assoc, firstn_skipn in W2'. rewrite E1, <- app_assoc. exact W2'.
      * match goal with |- context [write_loop fuel junk ?s1 _] =>
          destruct (IHfuel (skipn (Z.to_nat c) p) s1 (P ++ T ++ firstn (Z.to_nat c) p)) as (s' & W1' & W2' & W3'); [ | | apply SP | | ] end.
        -- exists P, (T ++ firstn (Z.to_nat c) p), (skipn (Z.to_nat c) R), a.
           cbn [s_h s_chunk s_pos s_left].
           repeat split; auto.
           ++ rewrite app_assoc. reflexivity.
           ++ rewrite app_length, LC. unfold zlen in *. lia.
           ++ rewrite !app_length, LC, skipn_length. unfold zlen in *. lia.
           ++ zl. unfold zlen in *. lia.
           ++ zl. unfold zlen in *. lia.
        -- rewrite app_assoc, <- E1. apply bytes_app. split; [ rewrite E1; apply bytes_app; auto | apply SP ].
        -- rewrite skipn_length. lia.
        -- exists s'. split; [ exact W1' | ]. split; [ | exact W3' ].
           rewrite <- !app_assoc, firstn_skipn in W2'. rewrite E1, <- app_assoc. exact W2'.
Qed.

Lemma write_ok : forall s m d, rep s m -> s_total s = zlen m mod 2^64 -> bytes m -> bytes d ->
  exists s', sha_256_write junk s d = Some s' /\ rep s' (m ++ d) /\ s_total s' = zlen (m ++ d) mod 2^64.
Proof.
  intros s m d H T BM BD. unfold sha_256_write.
  match goal with |- context [write_loop _ junk ?s1 _] =>
    destruct (write_loop_ok (length d) d s1 m) as (s' & W1' & W2' & W3'); [ | exact BM | exact BD | reflexivity | ] end.
  - exact H.
  - exists s'. split; [ exact W1' | ]. split; [ exact W2' | ]. rewrite W3'. cbn [s_total]. rewrite T, zlen_app.
    unfold u64. rewrite Zplus_mod_idemp_l. reflexivity.
Qed.
Lemma writes_ok : forall l s m, rep s m -> s_total s = zlen m mod 2^64 -> bytes m -> Forall bytes l ->
  exists s', sha_256_writes junk s l = Some s' /\ rep s' (m ++ concat l) /\ s_total s' = zlen (m ++ concat l) mod 2^64.
Proof.
  induction l as [|d l IH]; intros s m H T BM BL.
  - exists s. cbn [concat]. rewrite app_nil_r. auto.
  - inversion_clear BL as [|? ? BD BL']. destruct (write_ok s m d H T BM BD) as (s1 & A & B & C).
    cbn [sha_256_writes concat]. rewrite A, app_assoc. apply IH; auto. apply bytes_app. auto.
Qed.

Lemma sha_256_len_eq : forall n, 0 <= n < 2^61 -> sha_256_len n = be_enc 8 (8 * n).
Proof.
  intros n H. unfold sha_256_len. cbn [len_octets]. rewrite !Z.shiftr_div_pow2, Z.shiftl_mul_pow2 by lia.
  unfold u8, u64. cbn [be_enc].
  repeat match goal with |- _ :: _ = _ :: _ => f_equal; [ lia | ] end.
  f_equal. change (2 ^ (8 * Z.of_nat 0)) with 1. rewrite Z.div_1_r, (Z.mod_small (n * 2^3)) by lia. lia.
Qed.

Lemma close_ok : forall s m, rep s m -> s_total s = zlen m -> bytes m -> zlen m < 2^61 ->
  sha_256_close junk s = Some (SHA256 m).
Proof.
  intros s m (P & T & R & a & E1 & E2 & E3 & E4 & E5 & E6 & E7 & E8) TL BM ML.
  unfold sha_256_close. rewrite E3, E7. rewrite app_length in E5.
  rewrite store_at by (cbn [length]; lia). cbn [length].
  assert (BT : bytes T) by (rewrite E1 in BM; apply bytes_app in BM; tauto).
  pose proof (zlen_nonneg _ m).
  rewrite E8, TL, sha_256_len_eq by lia.
  set (len := be_enc 8 (8 * zlen m)). assert (LL : length len = 8%nat) by apply be_enc_length.
  assert (BL : bytes len) by apply be_enc_bytes.
  assert (RL : length (skipn 1 R) = (63 - length T)%nat) by (rewrite skipn_length; lia).
  set (R1 := skipn 1 R) in *. clearbody R1.
  replace (zlen T + 1) with (zlen (T ++ [128])) by (zl; lia).
  replace (T ++ [128] ++ R1) with ((T ++ [128]) ++ R1) by (rewrite <- app_assoc; reflexivity).
  replace (64 - zlen T - 1) with (63 - zlen T) by lia.
  destruct (Z.ltb_spec (63 - zlen T) 8) as [S8|S8].
  - replace (Z.to_nat (63 - zlen T)) with (63 - length T)%nat by (unfold zlen; lia).
    rewrite store_at by (rewrite repeat_length; lia). rewrite repeat_length.
    replace (skipn (63 - length T) R1) with (@nil Z) by (symmetry; apply skipn_all2; lia).
    rewrite app_nil_r.
    set (b := (T ++ [128]) ++ repeat 0 (63 - length T)).
    assert (B : length b = 64%nat).
    { unfold b. rewrite !app_length, repeat_length. cbn [length]. unfold zlen in S8. lia. }
    assert (BB : bytes b).
    { unfold b. rewrite !bytes_app. auto using bytes_repeat0, bytes_128. }
    change (Z.to_nat (64 - 8)) with 56%nat. change (0 + (64 - 8)) with 56.
    change 0 with (zlen (@nil Z)) at 1. change b with ([] ++ b) at 1.
    rewrite store_at by (rewrite repeat_length; lia). rewrite repeat_length. cbn [app].
    change 56 with (zlen (repeat 0 56)) at 1.
    assert (SB : length (skipn 56 b) = 8%nat) by (rewrite skipn_length; lia).
    rewrite store_at by lia. rewrite skipn_all2 by lia. rewrite app_nil_r.
    rewrite consume_chunk_eq; auto.
    + rewrite consume_chunk_eq by (auto; rewrite E6; apply absorb256_ok).
      rewrite digest_eq by (apply compress256_ok, compress256_ok; rewrite E6; apply absorb256_ok).
      f_equal. unfold SHA256. rewrite E1, (digest_long _ _ P T a) by (auto; unfold zlen in S8; lia).
      rewrite <- E1, E6. unfold b. rewrite <- app_assoc. reflexivity.
    + rewrite consume_chunk_eq by (auto; rewrite E6; apply absorb256_ok). apply compress256_ok. rewrite E6. apply absorb256_ok.
    + apply bytes_app. auto using bytes_repeat0.
  - replace (Z.to_nat (63 - zlen T - 8)) with (55 - length T)%nat by (unfold zlen; lia).
    rewrite store_at by (rewrite repeat_length; lia). rewrite repeat_length.
    rewrite app_assoc.
    replace (zlen (T ++ [128]) + (63 - zlen T - 8)) with (zlen ((T ++ [128]) ++ repeat 0 (55 - length T)))
      by (zl; unfold zlen in *; rewrite repeat_length; lia).
    assert (SB : length (skipn (55 - length T) R1) = 8%nat) by (rewrite skipn_length; unfold zlen in S8; lia).
    rewrite store_at by lia. rewrite skipn_all2 by lia. rewrite app_nil_r.
    set (b := ((T ++ [128]) ++ repeat 0 (55 - length T)) ++ len).
    assert (B : length b = 64%nat).
    { unfold b. rewrite !app_length, repeat_length, LL. cbn [length]. unfold zlen in S8. lia. }
    assert (BB : bytes b).
    { unfold b. rewrite !bytes_app. auto using bytes_repeat0, bytes_128. }
    rewrite consume_chunk_eq by (auto; rewrite E6; apply absorb256_ok).
    rewrite digest_eq by (apply compress256_ok; rewrite E6; apply absorb256_ok).
    f_equal. unfold SHA256. rewrite E1, (digest_short _ _ P T a) by (auto; unfold zlen in S8; lia).
    rewrite <- E1, E6. unfold b. rewrite <- !app_assoc. reflexivity.
Qed.
End S256.

Lemma sha256_stream_proof : forall junk chunk parts,
  length junk = 16%nat -> length chunk = 64%nat -> Forall bytes parts -> zlen (concat parts) < 2^61 ->
  sha_256_stream junk chunk parts = Some (SHA256 (concat parts)).
Proof.
  intros junk chunk parts J C B L. unfold sha_256_stream.
  destruct (writes_ok junk J parts (sha_256_init chunk) []) as (s & W & R & T); auto.
  - exists [], [], chunk, 0%nat. cbn [app length absorb]. repeat split; auto; try lia.
  - constructor.
  - rewrite W. cbn [app] in *. apply close_ok; auto.
    + rewrite T. apply Z.mod_small. pose proof (zlen_nonneg _ (concat parts)). lia.
    + clear - B. induction B; cbn [concat]; [ constructor | ]. apply bytes_app. auto.
Qed.

(** ** SHA-1 *)
Lemma H1_ok : ok_words 5 H1.
Proof.
  split; [ reflexivity | ]. unfold H1. repeat (apply Forall_cons; [ unfold w32; lia | ]). apply Forall_nil.
Qed.
Lemma absorb1_ok : forall a P, ok_words 5 (absorb compress1 a H1 P).
Proof. intros. apply absorb_ok; [ intros; apply compress1_ok; auto | apply H1_ok ]. Qed.

Section S1.
Variable junk : list Z.
Hypothesis junk_len : length junk = 80%nat.

(** A context that has taken [m] and given no result yet. *)
Definition rep1 (c : sha1) (m : list Z) : Prop :=
  exists P T R a, m = P ++ T /\ length P = (64 * a)%nat /\ c_block c = T ++ R /\ (length T < 64)%nat /\
    length (T ++ R) = 64%nat /\ c_digest c = absorb compress1 a H1 P /\ c_index c = zlen T /\
    w32 (c_low c) /\ w32 (c_high c) /\ c_high c * 2^32 + c_low c = 8 * zlen m /\
    c_computed c = false /\ c_corrupted c = false.

Lemma rep1_corrupted : forall c m, rep1 c m -> c_corrupted c = false.
Proof. intros c m (P & T & R & a & H). tauto. Qed.
Lemma rep1_computed : forall c m, rep1 c m -> c_computed c = false.
Proof. intros c m (P & T & R & a & H). tauto. Qed.

(** One octet. *)
Lemma input_one : forall c m x r, rep1 c m -> bytes m -> byte x ->
  exists c', input_loop junk c (x :: r) = input_loop junk c' r /\
    ((zlen m + 1 < 2^61 /\ rep1 c' (m ++ [x])) \/
     (zlen m + 1 = 2^61 /\ c_corrupted c' = true /\ c_computed c' = false)).
Proof.
  intros c m x r (P & T & R & a & E1 & E2 & E3 & E4 & E5 & E6 & E7 & E8 & E9 & E10 & E11 & E12) BM BX.
  cbn [input_loop]. rewrite E12.
  assert (LX : Z.land x 255 = x).
  { change 255 with (2^8 - 1). rewrite land_ones_mod by lia. unfold byte in BX. apply Z.mod_small. lia. }
  rewrite LX. unfold put. rewrite E3, E7. rewrite app_length in E5.
  rewrite store_at by (cbn [length]; lia). cbn [length].
  unfold count. cbn [c_digest c_low c_high c_block c_index c_computed c_corrupted].
  set (low := u32 (c_low c + 8)). set (high := if low =? 0 then u32 (c_high c + 1) else c_high c).
  rewrite E12. cbn [orb].
  pose proof (zlen_nonneg _ m) as MN.
  assert (A : (zlen m + 1 < 2^61 /\ w32 low /\ w32 high /\ high * 2^32 + low = 8 * (zlen m + 1) /\
               (low =? 0) && (high =? 0) = false) \/
              (zlen m + 1 = 2^61 /\ (low =? 0) && (high =? 0) = true)).
  { unfold high, low, u32, w32 in *. destruct (Z.eqb_spec ((c_low c + 8) mod 2^32) 0) as [Z0|Z0].
    - assert (c_low c = 2^32 - 8) by lia. destruct (Z.eqb_spec ((c_high c + 1) mod 2^32) 0) as [Z1|Z1].
      + right. cbn [andb]. lia.
      + left. cbn [andb]. lia.
    - left. cbn [andb]. assert (c_low c + 8 < 2^32) by lia. rewrite Z.mod_small in Z0 by lia. rewrite Z.mod_small by lia.
      repeat split; lia. }
  clearbody low high.
  assert (BT : bytes (T ++ [x])).
  { apply bytes_app. split; [ rewrite E1 in BM; apply bytes_app in BM; tauto | ]. constructor; [ auto | constructor ]. }
  replace (zlen T + 1) with (zlen (T ++ [x])) by (zl; lia).
  replace (T ++ [x] ++ skipn 1 R) with ((T ++ [x]) ++ skipn 1 R) by (rewrite <- app_assoc; reflexivity).
  destruct (Z.eqb_spec (zlen (T ++ [x])) 64) as [D|D].
  - eexists. split; [ reflexivity | ]. destruct A as [(A1 & A2 & A3 & A4 & A5)|(A1 & A5)]; [ left | right ].
    + split; auto. exists (P ++ T ++ [x]), [], (T ++ [x]), (a + 1)%nat.
      assert (R0 : skipn 1 R = []).
      { apply skipn_all2. zl. unfold zlen in D. lia. }
      assert (L64 : length (T ++ [x]) = 64%nat) by (unfold zlen in D; lia).
      unfold rrr_SHA1ProcessMessageBlock. cbn [c_digest c_low c_high c_block c_index c_computed c_corrupted app].
      rewrite R0, !app_nil_r.
      repeat (split; [ try assumption | ]); try assumption; auto.
      * rewrite E1, <- app_assoc. reflexivity.
      * rewrite app_length, L64. lia.
      * cbn [length]. lia.
      * rewrite absorb_snoc by auto. rewrite E6. apply process_eq; auto. apply absorb1_ok.
      * rewrite zlen_app. zl. lia.
    + unfold rrr_SHA1ProcessMessageBlock. cbn [c_corrupted c_computed]. auto.
  - eexists. split; [ reflexivity | ]. destruct A as [(A1 & A2 & A3 & A4 & A5)|(A1 & A5)]; [ left | right ].
    + split; auto. exists P, (T ++ [x]), (skipn 1 R), a.
      cbn [c_digest c_low c_high c_block c_index c_computed c_corrupted].
      repeat (split; [ try assumption | ]); try assumption; auto.
      * rewrite E1, <- app_assoc. reflexivity.
      * rewrite app_length in *. cbn [length]. zl. unfold zlen in D. lia.
      * rewrite !app_length, skipn_length. cbn [length]. lia.
      * rewrite zlen_app. zl. lia.
    + cbn [c_corrupted c_computed]. auto.
Qed.
Lemma input_corrupted : forall c d, c_corrupted c = true -> input_loop junk c d = Some c.
Proof. intros c [|x d] H; cbn [input_loop]; [ reflexivity | ]. rewrite H. reflexivity. Qed.
Lemma input_loop_ok : forall d c m, rep1 c m -> bytes m -> bytes d -> zlen m < 2^61 ->
  exists c', input_loop junk c d = Some c' /\
    ((zlen (m ++ d) < 2^61 /\ rep1 c' (m ++ d)) \/
     (2^61 <= zlen (m ++ d) /\ c_corrupted c' = true)).
Proof.
  induction d as [|x d IH]; intros c m H BM BD ML.
  - exists c. split; [ reflexivity | ]. rewrite app_nil_r. auto.
  - apply bytes_cons in BD. destruct BD as [BX BD].
    destruct (input_one c m x d H BM BX) as (c1 & E & [(L & H1')|(L & C & _)]); rewrite E.
    + destruct (IH c1 (m ++ [x]) H1') as (c2 & F & Q); auto.
      * apply bytes_app. split; auto. constructor; [ auto | constructor ].
      * zl. lia.
      * exists c2. split; auto. rewrite <- app_assoc in Q. exact Q.
    + exists c1. rewrite input_corrupted by auto. split; [ reflexivity | ]. right.
      split; auto. zl. pose proof (zlen_nonneg _ d). lia.
Qed.

(** Zero octets. *)
Lemma zeros_ok : forall n c A B stop, c_block c = A ++ B -> c_index c = zlen A -> zlen A <= stop ->
  stop - zlen A <= Z.of_nat n -> stop - zlen A <= zlen B ->
  let q := Z.to_nat (stop - zlen A) in
  zeros n c stop = Some (mk_sha1 (c_digest c) (c_low c) (c_high c) (A ++ repeat 0 q ++ skipn q B) stop
                           (c_computed c) (c_corrupted c)).
Proof.
  induction n; intros c A B stop E1 E2 L1 L2 L3; cbv zeta.
  - replace (Z.to_nat (stop - zlen A)) with 0%nat by lia. cbn [zeros repeat skipn app].
    replace stop with (zlen A) by lia. rewrite <- E1, <- E2. destruct c. reflexivity.
  - cbn [zeros]. rewrite E2. destruct (Z.ltb_spec (zlen A) stop) as [L|L].
    + unfold put. rewrite E1, E2, store_at by (cbn [length]; unfold zlen in *; lia). cbn [length].
      rewrite (IHn _ (A ++ [0]) (skipn 1 B)); cbn [c_block c_index c_digest c_low c_high c_computed c_corrupted].
      * f_equal. f_equal. rewrite <- app_assoc. f_equal.
        replace (Z.to_nat (stop - zlen A)) with (S (Z.to_nat (stop - zlen (A ++ [0])))) by (zl; lia).
        cbn [repeat app]. f_equal. f_equal. destruct B; [ rewrite !skipn_nil; reflexivity | reflexivity ].
      * rewrite <- app_assoc. reflexivity.
      * zl. lia.
      * zl. lia.
      * zl. lia.
      * zl. unfold zlen in *. rewrite skipn_length. lia.
    + replace (Z.to_nat (stop - zlen A)) with 0%nat by lia. cbn [repeat skipn app].
      replace stop with (zlen A) by lia. rewrite <- E1, <- E2. destruct c. reflexivity.
Qed.

Lemma length_octets_eq : forall c n, w32 (c_low c) -> w32 (c_high c) -> c_high c * 2^32 + c_low c = 8 * n ->
  length_octets c = be_enc 8 (8 * n).
Proof.
  intros c n L H E. unfold length_octets. cbn [map fst snd]. rewrite <- E.
  change 255 with (2^8 - 1). rewrite !land_ones_mod, !Z.shiftr_div_pow2 by lia. unfold u8, w32 in *.
  rewrite !Z.mod_mod by lia. cbn [be_enc].
  generalize dependent (c_high c). generalize dependent (c_low c). clear. intros l L h H E.
  change (2 ^ (8 * Z.of_nat 7)) with (2^24 * 2^32). change (2 ^ (8 * Z.of_nat 6)) with (2^16 * 2^32).
  change (2 ^ (8 * Z.of_nat 5)) with (2^8 * 2^32). change (2 ^ (8 * Z.of_nat 4)) with (2^32).
  change (2 ^ (8 * Z.of_nat 3)) with (2^24). change (2 ^ (8 * Z.of_nat 2)) with (2^16).
  change (2 ^ (8 * Z.of_nat 1)) with (2^8). change (2 ^ (8 * Z.of_nat 0)) with 1. change (2^0) with 1.
  change 256 with (2^8).
  repeat match goal with |- _ :: _ = _ :: _ => f_equal; [ lia | ] end. f_equal. lia.
Qed.

Lemma pad_ok : forall c m, rep1 c m -> bytes m ->
  exists c', rrr_SHA1PadMessage junk c = Some c' /\ concat (map (be_enc 4) (c_digest c')) = SHA1 m /\
    Forall w32 (c_digest c') /\ c_corrupted c' = false.
Proof.
  intros c m (P & T & R & a & E1 & E2 & E3 & E4 & E5 & E6 & E7 & E8 & E9 & E10 & E11 & E12) BM.
  assert (BT : bytes T) by (rewrite E1 in BM; apply bytes_app in BM; tauto).
  unfold rrr_SHA1PadMessage, put. rewrite E3, E7. rewrite app_length in E5.
  rewrite store_at by (cbn [length]; lia). cbn [length].
  assert (RL : length (skipn 1 R) = (63 - length T)%nat) by (rewrite skipn_length; lia).
  set (R1 := skipn 1 R) in *. clearbody R1.
  set (len := be_enc 8 (8 * zlen m)). assert (LL : length len = 8%nat) by apply be_enc_length.
  assert (BL : bytes len) by apply be_enc_bytes.
  replace (zlen T + 1) with (zlen (T ++ [128])) by (zl; lia).
  replace (T ++ [128] ++ R1) with ((T ++ [128]) ++ R1) by (rewrite <- app_assoc; reflexivity).
  destruct (Z.ltb_spec 55 (zlen T)) as [S|S].
  - rewrite (zeros_ok 64 _ (T ++ [128]) R1); cbn [c_block c_index c_digest c_low c_high c_computed c_corrupted];
      [ | reflexivity | reflexivity | zl; unfold zlen; lia | zl; unfold zlen in *; lia | zl; unfold zlen in *; lia ].
    replace (Z.to_nat (64 - zlen (T ++ [128]))) with (63 - length T)%nat by (zl; unfold zlen; lia).
    replace (skipn (63 - length T) R1) with (@nil Z) by (symmetry; apply skipn_all2; lia).
    rewrite app_nil_r.
    set (b := (T ++ [128]) ++ repeat 0 (63 - length T)).
    assert (B : length b = 64%nat).
    { unfold b. rewrite !app_length, repeat_length. cbn [length]. unfold zlen in S. lia. }
    assert (BB : bytes b).
    { unfold b. rewrite !bytes_app. auto using bytes_repeat0, bytes_128. }
    unfold rrr_SHA1ProcessMessageBlock at 1. cbn [c_block c_index c_digest c_low c_high c_computed c_corrupted].
    rewrite process_eq by (auto; rewrite E6; apply absorb1_ok).
    rewrite (zeros_ok 64 _ [] b); cbn [c_block c_index c_digest c_low c_high c_computed c_corrupted];
      [ | reflexivity | reflexivity | zl; lia | zl; lia | zl; unfold zlen; lia ].
    change (Z.to_nat (56 - zlen [])) with 56%nat. cbn [app].
    unfold store_length. cbn [c_block c_index c_digest c_low c_high c_computed c_corrupted].
    rewrite (length_octets_eq _ (zlen m)) by auto. fold len.
    change 56 with (zlen (repeat 0 56)) at 1.
    assert (SB : length (skipn 56 b) = 8%nat) by (rewrite skipn_length; lia).
    rewrite store_at by lia. rewrite (skipn_all2 (skipn 56 b)) by lia. rewrite app_nil_r.
    eexists. split; [ reflexivity | ].
    unfold rrr_SHA1ProcessMessageBlock. cbn [c_block c_index c_digest c_low c_high c_computed c_corrupted].
    rewrite process_eq.
    + split; [ | split; [ apply compress1_ok, compress1_ok; rewrite E6; apply absorb1_ok | exact E12 ] ].
      unfold SHA1. rewrite E1, (digest_long _ _ P T a) by (auto; unfold zlen in S; lia).
      rewrite <- E1, E6. unfold b. rewrite <- app_assoc. reflexivity.
    + auto.
    + apply compress1_ok. rewrite E6. apply absorb1_ok.
    + apply bytes_app. auto using bytes_repeat0.
    + rewrite app_length, repeat_length, LL. reflexivity.
  - rewrite (zeros_ok 64 _ (T ++ [128]) R1); cbn [c_block c_index c_digest c_low c_high c_computed c_corrupted];
      [ | reflexivity | reflexivity | zl; unfold zlen in *; lia | zl; unfold zlen in *; lia | zl; unfold zlen in *; lia ].
    replace (Z.to_nat (56 - zlen (T ++ [128]))) with (55 - length T)%nat by (zl; unfold zlen; lia).
    unfold store_length. cbn [c_block c_index c_digest c_low c_high c_computed c_corrupted].
    rewrite (length_octets_eq _ (zlen m)) by auto. fold len.
    rewrite app_assoc.
    replace 56 with (zlen ((T ++ [128]) ++ repeat 0 (55 - length T)))
      by (zl; unfold zlen in *; rewrite repeat_length; lia).
    assert (SB : length (skipn (55 - length T) R1) = 8%nat) by (rewrite skipn_length; unfold zlen in S; lia).
    rewrite store_at by lia. rewrite skipn_all2 by lia. rewrite app_nil_r.
    set (b := ((T ++ [128]) ++ repeat 0 (55 - length T)) ++ len).
    assert (B : length b = 64%nat).
    { unfold b. rewrite !app_length, repeat_length, LL. cbn [length]. unfold zlen in S. lia. }
    assert (BB : bytes b).
    { unfold b. rewrite !bytes_app. auto using bytes_repeat0, bytes_128. }
    eexists. split; [ reflexivity | ].
    unfold rrr_SHA1ProcessMessageBlock. cbn [c_block c_index c_digest c_low c_high c_computed c_corrupted].
    rewrite process_eq by (auto; rewrite E6; apply absorb1_ok).
    split; [ | split; [ apply compress1_ok; rewrite E6; apply absorb1_ok | exact E12 ] ].
    unfold SHA1. rewrite E1, (digest_short _ _ P T a) by (auto; unfold zlen in S; lia).
    rewrite <- E1, E6. unfold b. rewrite <- !app_assoc. reflexivity.
Qed.

Lemma result_ok : forall c m, rep1 c m -> bytes m ->
  exists c', rrr_SHA1Result junk c = Some (c', true) /\ digest_octets c' = SHA1 m /\
    c_corrupted c' = false /\ c_computed c' = true.
Proof.
  intros c m H BM. unfold rrr_SHA1Result. rewrite (rep1_corrupted c m H), (rep1_computed c m H).
  destruct (pad_ok c m H BM) as (c1 & -> & E & W & C). eexists. split; [ reflexivity | ].
  split; [ | cbn [c_corrupted c_computed]; auto ].
  unfold digest_octets. cbn [c_digest]. rewrite digest_eq by auto. exact E.
Qed.

Lemma reset_rep1 : forall c, length (c_block c) = 64%nat -> rep1 (rrr_SHA1Reset c) [].
Proof using.
  clear. intros c L. exists [], [], (c_block c), 0%nat. unfold rrr_SHA1Reset.
  cbn [c_digest c_low c_high c_block c_index c_computed c_corrupted app length absorb].
  repeat (split; [ first [ reflexivity | assumption | unfold w32; lia | lia ] | ]). reflexivity.
Qed.
End S1.
