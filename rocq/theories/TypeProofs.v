From Coq Require Import ZArith List Lia Bool.
From Verif Require Import Common Crc32Model MsgModel MsgProofs HdlcModel HdlcProofs FixpModel TypeModel TypeSpec.
From Verif Require FixpTextProofs.
Import ListNotations.
Open Scope Z_scope.

(** * Integers *)

Lemma be_dec_repeat0 k l : be_dec (repeat 0 k ++ l) = be_dec l.
Proof. induction k as [|k IH]; cbn [repeat app]; [reflexivity|]. rewrite be_dec_cons, IH. lia. Qed.
Lemma be_dec_repeat255 k : be_dec (repeat 255 k) = 256 ^ Z.of_nat k - 1.
Proof.
  induction k as [|k IH]; [reflexivity|]. cbn [repeat]. rewrite be_dec_cons, IH.
  unfold zlen. rewrite repeat_length, Nat2Z.inj_succ, Z.pow_succ_r by lia. lia.
Qed.
Lemma land128 c : byte c -> negb (Z.land c 128 =? 0) = (128 <=? c).
Proof.
  intros H. apply eqb_prop. revert c H.
  apply (sweep_byte (fun c => Bool.eqb (negb (Z.land c 128 =? 0)) (128 <=? c))). vm_compute. reflexivity.
Qed.

Lemma expand_be_value g flags : bytes g -> 1 <= zlen g <= 8 ->
  expand_be g flags = ROk (group_value true (is_signed flags) g mod 2^64).
Proof.
  intros Hb Hl. destruct g as [|c r]; [change (zlen (@nil Z)) with 0 in Hl; lia|].
  unfold expand_be, group_value. f_equal.
  pose proof (be_dec_bound (c :: r) Hb) as HB.
  apply bytes_cons in Hb. destruct Hb as [Hc Hr].
  pose proof (be_dec_bound r Hr) as HR.
  rewrite land128 by exact Hc.
  assert (EX : be_dec (c :: r) = c * 256 ^ zlen r + be_dec r) by apply be_dec_cons.
  rewrite zlen_cons in *. set (n := zlen r) in *.
  assert (Hn : 0 <= n <= 7) by (unfold n, zlen in *; lia).
  assert (E1 : 2 ^ (8 * (1 + n) - 1) = 128 * 256 ^ n).
  { replace (8 * (1 + n) - 1) with (7 + 8 * n) by lia. rewrite Z.pow_add_r by lia. rewrite (Z.pow_mul_r 2 8 n) by lia. reflexivity. }
  assert (E2 : 2 ^ (8 * (1 + n)) = 256 * 256 ^ n).
  { replace (8 * (1 + n)) with (8 + 8 * n) by lia. rewrite Z.pow_add_r by lia. rewrite (Z.pow_mul_r 2 8 n) by lia. reflexivity. }
  rewrite E1, E2. rewrite Z.pow_add_r in HB by lia. change (256 ^ 1) with 256 in HB.
  assert (Hp : 0 < 256 ^ n) by (apply Z.pow_pos_nonneg; lia).
  assert (Hsign : (128 * 256 ^ n <=? be_dec (c :: r)) = (128 <=? c)) by (unfold byte in Hc; nia).
  assert (H64 : 256 * 256 ^ n <= 2^64).
  { change (2^64) with (256^8). change 256 with (256^1) at 1. rewrite <- Z.pow_add_r by lia. apply Z.pow_le_mono_r; lia. }
  rewrite Hsign. destruct (is_signed flags && (128 <=? c)).
  - rewrite be_dec_app, be_dec_repeat255.
    replace (Z.of_nat (8 - length (c :: r))) with (8 - (1 + n)) by (clear - Hn; unfold n, zlen in *; cbn [length]; lia).
    rewrite zlen_cons. fold n.
    assert (E3 : 256 ^ (8 - (1 + n)) * 256 ^ (1 + n) = 2^64).
    { rewrite <- Z.pow_add_r by lia. replace (8 - (1 + n) + (1 + n)) with 8 by lia. reflexivity. }
    rewrite (Z.mul_sub_distr_r _ _ (256 ^ (1 + n))). rewrite E3.
    assert (E4 : 256 ^ (1 + n) = 256 * 256 ^ n) by (rewrite Z.pow_add_r by lia; reflexivity). rewrite E4.
    symmetry. rewrite <- (Z.mod_unique (be_dec (c :: r) - 256 * 256 ^ n) (2^64) (-1) (2^64 - 1 * (256 * 256^n) + be_dec (c :: r))); lia.
  - rewrite be_dec_repeat0. symmetry. apply Z.mod_small. lia.
Qed.
Lemma expand_le_value g flags : bytes g -> 1 <= zlen g <= 8 ->
  expand_le g flags = ROk (group_value false (is_signed flags) g mod 2^64).
Proof.
  intros Hb Hl. assert (Hb' : bytes (rev g)) by (unfold bytes; apply Forall_rev; exact Hb).
  pose proof (expand_be_value (rev g) flags Hb') as H. rewrite zlen_rev in H. specialize (H Hl).
  unfold expand_be in H. unfold expand_le. destruct (rev g) as [|c r] eqn:E; [discriminate|].
  assert (ER : forall (x : Z) k, rev (repeat x k) = repeat x k).
  { intros x k. induction k as [|k IH]; [reflexivity|]. cbn [repeat rev]. rewrite IH.
    change [x] with (repeat x 1). rewrite <- repeat_app. rewrite Nat.add_comm. reflexivity. }
  cbv zeta in *. unfold le_dec. rewrite rev_app_distr, E, ER. rewrite <- (rev_length g), E. rewrite H. f_equal. f_equal.
  unfold group_value. rewrite E. rewrite <- (zlen_rev _ g), E. reflexivity.
Qed.

Lemma int_loop_groups expand big flags il groups rest :
  (forall g, bytes g -> 1 <= zlen g <= 8 -> expand g flags = ROk (group_value big (is_signed flags) g mod 2^64)) ->
  1 <= il <= 8 -> Forall (fun g => bytes g /\ zlen g = il) groups ->
  import_int_loop expand (length groups) il flags (concat groups ++ rest) =
  ROk (int64_memory (map (group_value big (is_signed flags)) groups)).
Proof.
  intros He Hil. induction groups as [|g gs IH]; intros HF; [reflexivity|].
  apply Forall_cons_iff in HF. destruct HF as [[Hb Hg] HF].
  cbn [length import_int_loop concat map int64_memory flat_map].
  assert (EL : Z.to_nat il = length g) by (unfold zlen in Hg; lia).
  rewrite <- app_assoc, EL. rewrite firstn_app, firstn_all, Nat.sub_diag, firstn_O, app_nil_r.
  rewrite skipn_app, skipn_all, Nat.sub_diag, skipn_O. cbn [app].
  rewrite He by (try exact Hb; lia). cbn [rbind]. rewrite IH by exact HF. reflexivity.
Qed.
Lemma import_int_groups expand big v groups rest :
  (forall g, bytes g -> 1 <= zlen g <= 8 -> expand g (v_flags v) = ROk (group_value big (is_signed (v_flags v)) g mod 2^64)) ->
  1 <= v_import_length v <= 8 -> Forall (fun g => bytes g /\ zlen g = v_import_length v) groups ->
  v_elements v = zlen groups -> zlen groups * 8 < 2^32 ->
  import_int expand v (concat groups ++ rest) =
  ROk (set_type_data v TYPE_H (int64_memory (map (group_value big (is_signed (v_flags v))) groups)), zlen (concat groups)).
Proof.
  intros He Hil HF Hn H32. unfold import_int.
  replace (8 <? v_import_length v) with false by lia.
  assert (EC : zlen (concat groups) = zlen groups * v_import_length v).
  { clear - HF. induction groups as [|g gs IH]; [reflexivity|]. apply Forall_cons_iff in HF. destruct HF as [[_ Hg] HF].
    cbn [concat]. rewrite zlen_app, zlen_cons, IH by exact HF. lia. }
  pose proof (zlen_nonneg _ groups) as H0.
  rewrite Hn. unfold u32. rewrite (Z.mod_small (zlen groups * v_import_length v)) by nia.
  rewrite Z.mod_small by lia. rewrite zlen_app, EC. pose proof (zlen_nonneg _ rest).
  replace (zlen groups * v_import_length v + zlen rest <? zlen groups * v_import_length v) with false by lia.
  replace (zlen groups * 8 <? zlen groups * 8) with false by lia. cbn [orb].
  replace (Z.to_nat (zlen groups)) with (length groups) by (unfold zlen; lia).
  rewrite (int_loop_groups expand big) by assumption. reflexivity.
Qed.

(** An accepted integer field consists of such groups. *)
Lemma split_groups n il buf : 0 <= il -> Z.of_nat n * il <= zlen buf -> bytes buf ->
  exists groups rest, buf = concat groups ++ rest /\ length groups = n /\ Forall (fun g => bytes g /\ zlen g = il) groups.
Proof.
  intros Hil. revert buf. induction n as [|n IH]; intros buf Hl Hb.
  - exists [], buf. split; [reflexivity|]. split; [reflexivity|constructor].
  - destruct (IH (skipn (Z.to_nat il) buf)) as (gs & rest & E & Hn & HF).
    + unfold zlen in *. rewrite skipn_length. lia.
    + unfold bytes in *. rewrite <- (firstn_skipn (Z.to_nat il) buf) in Hb. apply Forall_app in Hb. tauto.
    + exists (firstn (Z.to_nat il) buf :: gs), rest. cbn [concat length]. split; [|split].
      * rewrite <- app_assoc, <- E. symmetry. apply firstn_skipn.
      * lia.
      * constructor; [|exact HF]. split.
        { unfold bytes in *. rewrite <- (firstn_skipn (Z.to_nat il) buf) in Hb. apply Forall_app in Hb. tauto. }
        { unfold zlen in *. rewrite firstn_length. nia. }
Qed.

(** ** Decimal text *)
Lemma is_digit_iff c : is_digit c = true <-> digit c.
Proof. unfold is_digit, digit. lia. Qed.
Lemma number_char_iff sgn c : number_char sgn c = true <-> in_number sgn c.
Proof. unfold number_char, in_number. rewrite !orb_true_iff, andb_true_iff, is_digit_iff. unfold digit. destruct sgn; lia. Qed.
Lemma take_while_all f l : Forall (fun c => f c = true) l -> take_while f l = l.
Proof. induction l as [|c l IH]; intros H; [reflexivity|]. apply Forall_cons_iff in H. destruct H as [Hc H]. cbn [take_while]. rewrite Hc, IH; auto. Qed.
Lemma take_while_forall f l : Forall (fun c => f c = true) (take_while f l).
Proof. induction l as [|c l IH]; cbn [take_while]; [constructor|]. destruct (f c) eqn:E; constructor; auto. Qed.
Lemma take_while_stop f a c r : Forall (fun c => f c = true) a -> f c = false -> take_while f (a ++ c :: r) = a.
Proof.
  induction a as [|x a IH]; intros H Hc; cbn [take_while app]; [rewrite Hc; reflexivity|].
  apply Forall_cons_iff in H. destruct H as [Hx H]. rewrite Hx, IH; auto.
Qed.
Lemma take_while_split f l : exists r, l = take_while f l ++ r /\ (r = [] \/ exists c r', r = c :: r' /\ f c = false).
Proof.
  induction l as [|c l (r & E & H)]; cbn [take_while]; [exists []; auto|].
  destruct (f c) eqn:Ec.
  - exists r. split; [cbn; f_equal; exact E|exact H].
  - exists (c :: l). split; [reflexivity|right; eauto].
Qed.

Lemma strto_decimal sgn text x : decimal sgn text x ->
  exists neg a, strto_scan text = Some (neg, a, length text) /\ x = (if neg then - a else a) /\ 0 <= a /\ (sgn = false -> neg = false).
Proof.
  intros (neg & s & ds & Hs & Hne & Hd & -> & ->).
  assert (HV : 0 <= decimal_value ds).
  { unfold decimal_value. clear - Hd. assert (G : forall a, 0 <= a -> 0 <= fold_left (fun a c => a * 10 + (c - 48)) ds a).
    { induction ds as [|d ds IH]; intros a Ha; cbn [fold_left]; [exact Ha|]. apply Forall_cons_iff in Hd. destruct Hd as [Hd H].
      apply IH; [exact H|]. unfold digit in Hd. lia. }
    apply G. lia. }
  assert (HT : take_while is_digit ds = ds) by (apply take_while_all; eapply Forall_impl; [|exact Hd]; intros c; apply is_digit_iff).
  exists neg, (decimal_value ds). split; [|split; [destruct neg; reflexivity|split; [exact HV|]]].
  - unfold strto_scan. destruct Hs as [| |Hsg]; cbn [app].
    + destruct ds as [|d ds]; [congruence|]. apply Forall_cons_iff in Hd. destruct Hd as [Hd _]. unfold digit in Hd.
      replace (d =? 45) with false by lia. replace (d =? 43) with false by lia. rewrite HT. reflexivity.
    + change (43 =? 45) with false. change (43 =? 43) with true. cbn iota. rewrite HT. destruct ds; [congruence|reflexivity].
    + change (45 =? 45) with true. cbn iota. rewrite HT. destruct ds; [congruence|reflexivity].
  - intros ->. destruct Hs; try reflexivity. discriminate.
Qed.
Lemma strto_decimal_inv sgn text neg a n : Forall (in_number sgn) text ->
  strto_scan text = Some (neg, a, n) -> n = length text ->
  decimal sgn text (if neg then - a else a) /\ (sgn = false -> neg = false).
Proof.
  intros HF H Hn. unfold strto_scan in H.
  assert (G : forall s neg' slen r, text = s ++ r -> sign_of sgn neg' s -> length s = slen ->
     match take_while is_digit r with [] => None | _ => Some (neg', digits_value (take_while is_digit r), (slen + length (take_while is_digit r))%nat) end = Some (neg, a, n) ->
     decimal sgn text (if neg then - a else a) /\ (sgn = false -> neg = false)).
  { intros s neg' slen r Et Hs Hl HH. destruct (take_while_split is_digit r) as (q & Eq & _).
    pose proof (take_while_forall is_digit r) as HD.
    destruct (take_while is_digit r) as [|d ds] eqn:ET; [discriminate|]. injection HH as <- <- <-.
    assert (q = []).
    { rewrite Et, Eq, !app_length in Hn. destruct q; [reflexivity|cbn [length] in Hn; lia]. }
    subst q. rewrite app_nil_r in Eq. subst r. split.
    - exists neg', s, (d :: ds). repeat apply conj; try assumption; try congruence; try reflexivity.
      eapply Forall_impl; [|exact HD]. intros c. apply is_digit_iff.
    - intros ->. destruct Hs; try reflexivity. discriminate. }
  destruct text as [|c r].
  - apply (G [] false 0%nat []); [reflexivity|constructor|reflexivity|exact H].
  - apply Forall_cons_iff in HF. destruct HF as [Hc HF].
    destruct (Z.eqb_spec c 45) as [->|].
    + apply (G [45] true 1%nat r); [reflexivity| |reflexivity|exact H]. constructor.
      destruct Hc as [Hc|[Hc|[Hc _]]]; [unfold digit in Hc; lia|lia|exact Hc].
    + destruct (Z.eqb_spec c 43) as [->|].
      * apply (G [43] false 1%nat r); [reflexivity|constructor|reflexivity|exact H].
      * apply (G [] false 0%nat (c :: r)); [reflexivity|constructor|reflexivity|exact H].
Qed.

Lemma decimal_in_number sgn text x : decimal sgn text x -> Forall (in_number sgn) text /\ text <> [].
Proof.
  intros (neg & s & ds & Hs & Hne & Hd & -> & _). split.
  - apply Forall_app. split.
    + destruct Hs; [constructor| |]; (apply Forall_cons; [unfold in_number; auto|apply Forall_nil]).
    + eapply Forall_impl; [|exact Hd]. intros c Hc. left. exact Hc.
  - intros E. apply app_eq_nil in E. tauto.
Qed.

Lemma strto_clamp (sgn neg : bool) a : 0 <= a -> (sgn = false -> neg = false) ->
  (if sgn then (if neg then Z.max (- a) (- 2^63) else Z.min a (2^63 - 1))
   else let x := Z.min a (2^64 - 1) in if neg then u64 (- x) else x) = clamp64 sgn (if neg then - a else a).
Proof.
  intros Ha Hn. unfold clamp64. destruct sgn.
  - destruct neg; lia.
  - rewrite Hn by reflexivity. reflexivity.
Qed.

Lemma numeric_accepts sgn blanks text x c rest :
  Forall (fun b => b = 32 \/ b = 9) blanks -> decimal sgn text x -> zlen text <= 63 -> ~ in_number sgn c ->
  import_numeric_str_raw sgn (blanks ++ text ++ c :: rest) = ROk (u64 (clamp64 sgn x), zlen blanks + zlen text).
Proof.
  intros HB HD HL HC. destruct (decimal_in_number _ _ _ HD) as [HN Hne].
  destruct (strto_decimal _ _ _ HD) as (neg & a & Hs & -> & Ha & Hneg).
  unfold import_numeric_str_raw.
  pose proof (zlen_nonneg _ blanks) as L1. pose proof (zlen_nonneg _ rest) as L2.
  assert (0 < zlen text) by (destruct text; [congruence|rewrite zlen_cons; pose proof (zlen_nonneg _ text); lia]).
  replace (zlen (blanks ++ text ++ c :: rest) <? 1) with false by (rewrite !zlen_app, zlen_cons; lia).
  assert (EB : take_while is_blank (blanks ++ text ++ c :: rest) = blanks).
  { destruct text as [|t text]; [congruence|]. cbn [app]. apply take_while_stop.
    - eapply Forall_impl; [|exact HB]. intros b. unfold is_blank. lia.
    - apply Forall_cons_iff in HN. destruct HN as [[Ht|[Ht|[_ Ht]]] _]; unfold digit in *; unfold is_blank; lia. }
  rewrite EB. rewrite skipn_app, skipn_all, Nat.sub_diag, skipn_O. cbn [app].
  assert (EN : take_while (number_char sgn) (text ++ c :: rest) = text).
  { apply take_while_stop.
    - eapply Forall_impl; [|exact HN]. intros b. apply number_char_iff.
    - destruct (number_char sgn c) eqn:E; [|reflexivity]. apply number_char_iff in E. contradiction. }
  rewrite EN. replace (63 <? zlen text) with false by lia.
  replace (zlen (text ++ c :: rest) <=? zlen text) with false by (rewrite zlen_app, zlen_cons; lia).
  replace (zlen text =? 0) with false by lia.
  assert (EX : (if sgn then strtoll text else strtoull text) = Some (clamp64 sgn (if neg then - a else a), length text)).
  { rewrite <- (strto_clamp sgn neg a Ha Hneg). unfold strtoll, strtoull. rewrite Hs. destruct sgn; reflexivity. }
  rewrite EX, Nat.eqb_refl. f_equal. f_equal. lia.
Qed.
Lemma numeric_sound sgn buf y n : import_numeric_str_raw sgn buf = ROk (y, n) ->
  exists blanks text c rest x, buf = blanks ++ text ++ c :: rest /\
    Forall (fun b => b = 32 \/ b = 9) blanks /\ decimal sgn text x /\ zlen text <= 63 /\ ~ in_number sgn c /\
    y = u64 (clamp64 sgn x) /\ n = zlen blanks + zlen text.
Proof.
  unfold import_numeric_str_raw. intros H. destruct (zlen buf <? 1); [discriminate|].
  destruct (take_while_split is_blank buf) as (r & Eb & _).
  pose proof (take_while_forall is_blank buf) as HB.
  set (blanks := take_while is_blank buf) in *. rewrite Eb in H.
  rewrite skipn_app, skipn_all, Nat.sub_diag, skipn_O in H. cbn [app] in H.
  destruct (take_while_split (number_char sgn) r) as (q & Er & Hq).
  pose proof (take_while_forall (number_char sgn) r) as HN.
  set (text := take_while (number_char sgn) r) in *.
  destruct (Z.ltb_spec 63 (zlen text)) as [|HL]; [discriminate|].
  destruct (Z.leb_spec (zlen r) (zlen text)) as [|HR]; [discriminate|].
  destruct (zlen text =? 0); [discriminate|].
  destruct Hq as [->|(c & rest & -> & Hc)]; [rewrite app_nil_r in Er; rewrite Er in HR; lia|].
  assert (HN' : Forall (in_number sgn) text) by (eapply Forall_impl; [|exact HN]; intros b; apply number_char_iff).
  destruct (strto_scan text) as [[[neg a] k]|] eqn:ES.
  2: { unfold strtoll, strtoull in H. rewrite ES in H. destruct sgn; discriminate. }
  assert (EX : exists z, (if sgn then strtoll text else strtoull text) = Some (z, k) /\
     z = (if sgn then (if neg then Z.max (- a) (- 2^63) else Z.min a (2^63 - 1))
          else let x := Z.min a (2^64 - 1) in if neg then u64 (- x) else x)).
  { unfold strtoll, strtoull. rewrite ES. destruct sgn; eauto. }
  destruct EX as (z & EZ & Hz). rewrite EZ in H. destruct (Nat.eqb_spec k (length text)) as [->|]; [|discriminate].
  injection H as <- <-. destruct (strto_decimal_inv sgn text neg a _ HN' ES eq_refl) as [HD Hneg].
  assert (Ha : 0 <= a).
  { destruct HD as (ng & s & ds & Hs & Hne & Hd & Et & Ea). destruct (strto_decimal sgn text (if neg then - a else a)) as (ng' & a' & Hs' & _ & Ha' & _).
    - exists ng, s, ds. auto.
    - rewrite ES in Hs'. injection Hs' as _ <-. exact Ha'. }
  rewrite strto_clamp in Hz by assumption. subst z.
  exists blanks, text, c, rest, (if neg then - a else a). repeat apply conj; auto.
  - rewrite Eb, Er. reflexivity.
  - eapply Forall_impl; [|exact HB]. intros b. unfold is_blank. lia.
  - intros HX. apply number_char_iff in HX. congruence.
  - lia.
Qed.

(** ** Quoted strings *)
Lemma quoted_scan text data : quoted text data -> forall n rest,
  str_scan false (text ++ 34 :: rest) n = Some (n + zlen text).
Proof.
  induction 1 as [|c text data H1 H2 H IH|c text data H IH]; intros n rest; cbn [app str_scan].
  - change (34 =? 34) with true. cbn [negb andb]. f_equal. rewrite zlen_nil. lia.
  - replace (c =? 34) with false by lia. replace (c =? 92) with false by lia. cbn [negb andb].
    rewrite IH. f_equal. rewrite zlen_cons. lia.
  - change (92 =? 34) with false. change (92 =? 92) with true. cbn [negb andb]. rewrite IH. f_equal. rewrite !zlen_cons. lia.
Qed.
Lemma quoted_unescape text data : quoted text data -> unescape false text = data.
Proof.
  induction 1 as [|c text data H1 H2 H IH|c text data H IH]; cbn [unescape negb andb]; [reflexivity| |].
  - replace (c =? 92) with false by lia. rewrite IH. reflexivity.
  - change (92 =? 92) with true. cbn [unescape negb andb]. rewrite IH. reflexivity.
Qed.
Lemma scan_quoted buf : forall n m, str_scan false buf n = Some m ->
  exists text rest, buf = text ++ 34 :: rest /\ quoted text (unescape false text) /\ m = n + zlen text.
Proof.
  assert (G : forall k buf, (length buf <= k)%nat -> forall n m, str_scan false buf n = Some m ->
    exists text rest, buf = text ++ 34 :: rest /\ quoted text (unescape false text) /\ m = n + zlen text).
  { clear buf. induction k as [|k IH]; intros buf Hk n m H.
    - destruct buf; [discriminate|cbn in Hk; lia].
    - destruct buf as [|c r]; [discriminate|]. cbn [str_scan negb andb] in H. cbn [length] in Hk.
      destruct (Z.eqb_spec c 34) as [->|H34].
      + injection H as <-. exists [], r. repeat apply conj; [reflexivity|constructor|rewrite zlen_nil; lia].
      + destruct (Z.eqb_spec c 92) as [->|H92].
        * destruct r as [|c' r]; [discriminate|]. cbn [str_scan negb andb length] in *.
          destruct (IH r ltac:(lia) _ _ H) as (text & rest & -> & HQ & ->).
          exists (92 :: c' :: text), rest. repeat apply conj; [reflexivity| |rewrite !zlen_cons; lia].
          cbn [unescape negb andb]. change (92 =? 92) with true. cbn [unescape negb andb]. constructor. exact HQ.
        * destruct (IH r ltac:(lia) _ _ H) as (text & rest & -> & HQ & ->).
          exists (c :: text), rest. repeat apply conj; [reflexivity| |rewrite zlen_cons; lia].
          cbn [unescape negb andb]. replace (c =? 92) with false by lia. constructor; auto. }
  intros n m. apply (G (length buf)). lia.
Qed.
Lemma escape_quoted d : quoted (str_escape d) d.
Proof.
  induction d as [|c d IH]; [constructor|]. unfold str_escape. cbn [flat_map]. fold (str_escape d).
  destruct (needs_escape c) eqn:E; cbn [app].
  - constructor. exact IH.
  - unfold needs_escape in E. constructor; [lia|lia|exact IH].
Qed.
Lemma escape_len d : zlen (str_escape d) = zlen d + zlen (filter needs_escape d).
Proof.
  induction d as [|c d IH]; [reflexivity|]. unfold str_escape. cbn [flat_map filter]. fold (str_escape d).
  rewrite zlen_app, IH, zlen_cons. destruct (needs_escape c); rewrite ?zlen_cons, ?zlen_nil; lia.
Qed.
Lemma import_str_accepts v text data rest : v_elements v = 1 -> v_import_length v = 0 ->
  quoted text data -> zlen text < 2^32 ->
  import_str v (34 :: text ++ 34 :: rest) =
  ROk (set_data (set_import_length v (zlen text + 2)) data, zlen text + 2).
Proof.
  intros H1 H0 HQ HL. unfold import_str. rewrite H1, H0. cbn [negb]. change (1 =? 1) with true. change (0 =? 0) with true. cbn [negb].
  unfold get_import_length_str. change (34 =? 34) with true. cbn [negb]. rewrite (quoted_scan text data) by exact HQ.
  cbn [rbind]. unfold import_blob, set_import_length. cbn [v_import_length v_elements skipn].
  pose proof (zlen_nonneg _ text). pose proof (zlen_nonneg _ rest).
  replace ((1 + zlen text + 1 - 2) * v_elements v) with (zlen text) by lia.
  unfold u32. rewrite Z.mod_small by lia.
  replace (zlen (text ++ 34 :: rest) <? zlen text) with false by (rewrite zlen_app, zlen_cons; lia).
  rewrite sub_here by lia. cbn [rbind].
  replace (zlen text + 2 =? 1 + zlen text + 1) with true by lia. cbn [negb].
  cbn [set_data v_data]. rewrite (quoted_unescape text data HQ). replace (1 + zlen text + 1) with (zlen text + 2) by lia. reflexivity.
Qed.
Lemma import_str_sound v buf w n : v_elements v = 1 -> v_import_length v = 0 -> zlen buf < 2^32 ->
  import_str v buf = ROk (w, n) ->
  exists text data rest, buf = 34 :: text ++ 34 :: rest /\ quoted text data /\
    w = set_data (set_import_length v (zlen text + 2)) data /\ n = zlen text + 2.
Proof.
  intros H1 H0 HL H.
  assert (HH := H). unfold import_str in HH. rewrite H1, H0 in HH. cbn [negb] in HH. change (1 =? 1) with true in HH. change (0 =? 0) with true in HH. cbn [negb] in HH.
  unfold get_import_length_str in HH. destruct buf as [|c r]; [discriminate|].
  destruct (Z.eqb_spec c 34) as [->|]; cbn [negb] in HH; [|discriminate].
  destruct (str_scan false r 1) as [m|] eqn:ES; [|discriminate]. clear HH.
  destruct (scan_quoted r 1 m ES) as (text & rest & -> & HQ & ->).
  rewrite zlen_cons, zlen_app, zlen_cons in HL. pose proof (zlen_nonneg _ rest). pose proof (zlen_nonneg _ text).
  rewrite (import_str_accepts v text (unescape false text) rest H1 H0 HQ) in H by lia.
  injection H as <- <-. exists text, (unescape false text), rest. auto.
Qed.

(** ** Separators and unseparated text *)
Lemma is_sep_iff c : byte c -> (is_sep c = true <-> separator c).
Proof.
  intros Hc. unfold is_sep, separator, is_sep_a, is_sep_f, digit, In. unfold byte in Hc.
  rewrite !orb_true_iff, !andb_true_iff, ?Z.eqb_eq, ?Z.leb_le. lia.
Qed.
Lemma field_end_iff c : (is_sep_a c || is_sep_f c = true) <-> field_end c.
Proof. unfold is_sep_a, is_sep_f, field_end, In. rewrite !orb_true_iff, !andb_true_iff, ?Z.eqb_eq, ?Z.leb_le. lia. Qed.

Lemma nsep_scan_ok text c rest : Forall (fun c => ~ field_end c) text -> field_end c -> forall n, 0 <= n -> 0 < n + zlen text ->
  nsep_scan (text ++ c :: rest) n = ROk (n + zlen text).
Proof.
  intros HF Hc. induction text as [|x text IH]; intros n Hn Hp; cbn [app nsep_scan].
  - apply field_end_iff in Hc. rewrite Hc. rewrite zlen_nil in *. replace (n =? 0) with false by lia. f_equal. lia.
  - apply Forall_cons_iff in HF. destruct HF as [Hx HF].
    destruct (is_sep_a x || is_sep_f x) eqn:E; [apply field_end_iff in E; contradiction|].
    rewrite zlen_cons in *. pose proof (zlen_nonneg _ text). rewrite IH by (try exact HF; lia). f_equal. lia.
Qed.
Lemma nsep_scan_sound buf : forall n m, 0 <= n -> nsep_scan buf n = ROk m ->
  exists text c rest, buf = text ++ c :: rest /\ Forall (fun c => ~ field_end c) text /\ field_end c /\ m = n + zlen text /\ 0 < m.
Proof.
  induction buf as [|x buf IH]; intros n m Hn H; cbn [nsep_scan] in H; [discriminate|].
  destruct (is_sep_a x || is_sep_f x) eqn:E.
  - destruct (Z.eqb_spec n 0); [discriminate|]. injection H as <-. exists [], x, buf. rewrite zlen_nil.
    repeat apply conj; [reflexivity|constructor|apply field_end_iff; exact E|lia|lia].
  - destruct (IH (n + 1) m ltac:(lia) H) as (text & c & rest & -> & HF & Hc & -> & Hm).
    exists (x :: text), c, rest. rewrite zlen_cons. repeat apply conj; [reflexivity| |exact Hc|lia|lia].
    constructor; [|exact HF]. intros HX. apply field_end_iff in HX. congruence.
Qed.
Lemma import_nsep_iff v buf w n : v_elements v = 1 -> v_import_length v = 0 -> zlen buf < 2^32 ->
  import_nsep v buf = ROk (w, n) <->
  exists text c rest, buf = text ++ c :: rest /\ text <> [] /\ Forall (fun c => ~ field_end c) text /\ field_end c /\
    w = set_data (set_import_length v (zlen text)) text /\ n = zlen text.
Proof.
  intros H1 H0 HL. unfold import_nsep. rewrite H1, H0. change (1 =? 1) with true. change (0 =? 0) with true. cbn [negb].
  assert (G : forall text c rest, zlen (text ++ c :: rest) < 2^32 ->
    import_blob (set_import_length v (zlen text)) (text ++ c :: rest) = ROk (set_data (set_import_length v (zlen text)) text, zlen text)).
  { intros text c rest Hl. rewrite zlen_app, zlen_cons in Hl. pose proof (zlen_nonneg _ text). pose proof (zlen_nonneg _ rest).
    unfold import_blob. cbn [set_import_length v_import_length v_elements]. rewrite H1, Z.mul_1_r. unfold u32. rewrite Z.mod_small by lia.
    replace (zlen (text ++ c :: rest) <? zlen text) with false by (rewrite zlen_app, zlen_cons; lia).
    rewrite sub_here by lia. reflexivity. }
  split.
  - destruct (nsep_scan buf 0) as [m| | |] eqn:E; try discriminate. cbn [rbind].
    destruct (nsep_scan_sound buf 0 m ltac:(lia) E) as (text & c & rest & -> & HF & Hc & -> & Hm).
    rewrite Z.add_0_l in *. rewrite G by exact HL. cbn [rbind]. rewrite Z.eqb_refl. cbn [negb]. intros HH.
    exists text, c, rest. injection HH as <- <-. repeat apply conj; auto. intros ->. rewrite zlen_nil in Hm. lia.
  - intros (text & c & rest & -> & Hne & HF & Hc & -> & ->).
    assert (0 < zlen text) by (destruct text; [congruence|rewrite zlen_cons; pose proof (zlen_nonneg _ text); lia]).
    rewrite (nsep_scan_ok text c rest HF Hc 0) by lia. cbn [rbind]. rewrite Z.add_0_l. rewrite G by exact HL.
    cbn [rbind]. rewrite Z.eqb_refl. reflexivity.
Qed.

(** ** Import is decided by the octets read *)
Lemma take_while_app_stop f l c r more : take_while f l ++ c :: r = l -> f c = false -> take_while f (l ++ more) = take_while f l.
Proof.
  intros E Hc. rewrite <- E at 1. rewrite <- app_assoc. cbn [app]. apply take_while_stop; [apply take_while_forall|exact Hc].
Qed.
Lemma int_loop_app expand n il flags : forall src more, 0 <= il -> Z.of_nat n * il <= zlen src ->
  import_int_loop expand n il flags (src ++ more) = import_int_loop expand n il flags src.
Proof.
  induction n as [|n IH]; intros src more Hil Hl; [reflexivity|]. cbn [import_int_loop] in *.
  assert (EF : firstn (Z.to_nat il) (src ++ more) = firstn (Z.to_nat il) src).
  { rewrite firstn_app. replace (Z.to_nat il - length src)%nat with 0%nat by (unfold zlen in Hl; nia). cbn. apply app_nil_r. }
  assert (ES : skipn (Z.to_nat il) (src ++ more) = skipn (Z.to_nat il) src ++ more).
  { rewrite skipn_app. replace (Z.to_nat il - length src)%nat with 0%nat by (unfold zlen in Hl; nia). reflexivity. }
  rewrite EF, ES. rewrite (IH (skipn (Z.to_nat il) src) more Hil); [reflexivity|].
  unfold zlen in *. rewrite skipn_length. nia.
Qed.
Lemma numeric_app sgn buf more r : import_numeric_str_raw sgn buf = r -> r <> RErr PARSE_INCOMPLETE ->
  import_numeric_str_raw sgn (buf ++ more) = r.
Proof.
  intros H Hr. unfold import_numeric_str_raw in *.
  destruct (Z.ltb_spec (zlen buf) 1) as [|HL]; [congruence|]. pose proof (zlen_nonneg _ more).
  replace (zlen (buf ++ more) <? 1) with false by (rewrite zlen_app; lia).
  destruct (take_while_split is_blank buf) as (q & Eb & Hq).
  set (blanks := take_while is_blank buf) in *.
  assert (ESK : skipn (length blanks) buf = q).
  { rewrite Eb. rewrite skipn_app, skipn_all, Nat.sub_diag, skipn_O. reflexivity. }
  rewrite ESK in H. destruct Hq as [->|(c & q' & -> & Hc)].
  { cbn [take_while] in H. change (zlen (@nil Z)) with 0 in H. cbn in H. congruence. }
  assert (EB2 : take_while is_blank (buf ++ more) = blanks) by (apply (take_while_app_stop is_blank buf c q'); [symmetry; exact Eb|exact Hc]).
  rewrite EB2. assert (ESK2 : skipn (length blanks) (buf ++ more) = (c :: q') ++ more).
  { rewrite Eb, <- app_assoc. rewrite skipn_app, skipn_all, Nat.sub_diag, skipn_O. reflexivity. }
  rewrite ESK2. set (q := c :: q') in *.
  destruct (take_while_split (number_char sgn) q) as (p & Ep & Hp).
  set (num := take_while (number_char sgn) q) in *.
  destruct Hp as [->|(c2 & p' & -> & Hc2)].
  - rewrite app_nil_r in Ep. rewrite <- Ep in H.
    destruct (Z.ltb_spec 63 (zlen q)) as [H63|].
    + assert (HP : exists z, take_while (number_char sgn) (q ++ more) = q ++ z).
      { pose proof (take_while_forall (number_char sgn) q) as HF. fold num in HF. rewrite <- Ep in HF. clear - HF.
        induction q as [|x q IH]; cbn [app take_while]; [eauto|]. apply Forall_cons_iff in HF. destruct HF as [Hx HF].
        rewrite Hx. destruct (IH HF) as (z & ->). exists z. reflexivity. }
      destruct HP as (z & ->). pose proof (zlen_nonneg _ z).
      replace (63 <? zlen (q ++ z)) with true by (rewrite zlen_app; lia). exact H.
    + rewrite Z.leb_refl in H. congruence.
  - rewrite (take_while_app_stop (number_char sgn) q c2 p' more (eq_sym Ep) Hc2). fold num.
    destruct (63 <? zlen num); [exact H|].
    assert (HQ : zlen q = zlen num + 1 + zlen p') by (rewrite Ep, zlen_app, zlen_cons; lia).
    pose proof (zlen_nonneg _ p').
    replace (zlen q <=? zlen num) with false in H by lia.
    replace (zlen (q ++ more) <=? zlen num) with false by (rewrite zlen_app; lia). exact H.
Qed.
Lemma str_scan_app buf more : forall pb n m, str_scan pb buf n = Some m -> str_scan pb (buf ++ more) n = Some m.
Proof.
  induction buf as [|c buf IH]; intros pb n m H; [discriminate|]. cbn [app str_scan] in *.
  destruct (negb pb && (c =? 34)); [exact H|]. apply IH. exact H.
Qed.
Lemma nsep_scan_app buf more : forall n r, nsep_scan buf n = r -> r <> RErr PARSE_INCOMPLETE -> nsep_scan (buf ++ more) n = r.
Proof.
  induction buf as [|c buf IH]; intros n r H Hr; cbn [app nsep_scan] in *; [congruence|].
  destruct (is_sep_a c || is_sep_f c); [exact H|]. apply IH; assumption.
Qed.
Lemma blob_app v buf more r : import_blob v buf = r -> r <> RErr PARSE_INCOMPLETE -> import_blob v (buf ++ more) = r.
Proof.
  unfold import_blob. intros H Hr. destruct (Z.ltb_spec (zlen buf) (u32 (v_import_length v * v_elements v))) as [|HL]; [congruence|].
  pose proof (zlen_nonneg _ more). cbv zeta.
  replace (zlen (buf ++ more) <? u32 (v_import_length v * v_elements v)) with false by (rewrite zlen_app; lia).
  rewrite <- H. unfold sub_mem. cbn [Z.to_nat skipn]. rewrite firstn_app.
  replace (Z.to_nat (u32 (v_import_length v * v_elements v)) - length buf)%nat with 0%nat by (unfold zlen in HL; lia).
  cbn. rewrite app_nil_r. reflexivity.
Qed.
Lemma sep_app f v buf more r : import_sep_stx f v buf = r -> r <> RErr PARSE_INCOMPLETE -> import_sep_stx f v (buf ++ more) = r.
Proof.
  unfold import_sep_stx. intros H Hr. destruct (Z.ltb_spec (zlen buf) (u32 (v_import_length v * v_elements v))) as [|HL]; [congruence|].
  pose proof (zlen_nonneg _ more). cbv zeta in *.
  replace (zlen (buf ++ more) <? u32 (v_import_length v * v_elements v)) with false by (rewrite zlen_app; lia).
  assert (E : sub_mem (buf ++ more) 0 (u32 (v_import_length v * v_elements v)) = sub_mem buf 0 (u32 (v_import_length v * v_elements v))).
  { unfold sub_mem. cbn [Z.to_nat skipn]. rewrite firstn_app.
    replace (Z.to_nat (u32 (v_import_length v * v_elements v)) - length buf)%nat with 0%nat by (unfold zlen in HL; lia).
    cbn. rewrite app_nil_r. reflexivity. }
  rewrite E. exact H.
Qed.
Lemma int_app expand v buf more r : 0 <= v_import_length v -> 0 <= v_elements v ->
  import_int expand v buf = r -> r <> RErr PARSE_INCOMPLETE -> r <> RUb ->
  import_int expand v (buf ++ more) = r.
Proof.
  unfold import_int. intros Hil He H Hr Hu. cbv zeta in *. destruct (8 <? v_import_length v); [exact H|].
  pose proof (zlen_nonneg _ more).
  destruct (Z.ltb_spec (zlen buf) (u32 (v_elements v * v_import_length v))) as [|HL]; [congruence|].
  replace (zlen (buf ++ more) <? u32 (v_elements v * v_import_length v)) with false by (rewrite zlen_app; lia).
  destruct (Z.ltb_spec (zlen buf) (v_elements v * v_import_length v)) as [|HL2]; [cbn [orb] in H; congruence|].
  replace (zlen (buf ++ more) <? v_elements v * v_import_length v) with false by (rewrite zlen_app; lia).
  cbn [orb] in *. destruct (u32 (v_elements v * 8) <? v_elements v * 8); [congruence|].
  rewrite int_loop_app by lia. exact H.
Qed.
Lemma str_app v buf more r : import_str v buf = r -> r <> RErr PARSE_INCOMPLETE -> import_str v (buf ++ more) = r.
Proof.
  unfold import_str. intros H Hr. destruct (negb (v_elements v =? 1)); [exact H|]. destruct (negb (v_import_length v =? 0)); [exact H|].
  unfold get_import_length_str in *. destruct buf as [|c buf]; [cbn in H; congruence|]. cbn [app].
  destruct (negb (c =? 34)); [exact H|]. destruct (str_scan false buf 1) as [m|] eqn:E; [|cbn in H; congruence].
  rewrite (str_scan_app buf more _ _ _ E). cbn [rbind skipn] in *.
  destruct (import_blob (set_import_length v (m + 1 - 2)) buf) as [[w n]|c'| |] eqn:EB; cbn [rbind] in H.
  - rewrite (blob_app _ buf more _ EB) by discriminate. exact H.
  - rewrite (blob_app _ buf more _ EB) by congruence. exact H.
  - rewrite (blob_app _ buf more _ EB) by congruence. exact H.
  - rewrite (blob_app _ buf more _ EB) by congruence. exact H.
Qed.
Lemma nsep_app v buf more r : import_nsep v buf = r -> r <> RErr PARSE_INCOMPLETE -> import_nsep v (buf ++ more) = r.
Proof.
  unfold import_nsep. intros H Hr. destruct (negb (v_elements v =? 1)); [exact H|]. destruct (negb (v_import_length v =? 0)); [exact H|].
  assert (E : nsep_scan (buf ++ more) 0 = nsep_scan buf 0).
  { apply nsep_scan_app; [reflexivity|]. intros E. rewrite E in H. cbn in H. congruence. }
  rewrite E. destruct (nsep_scan buf 0) as [il| | |]; cbn [rbind] in *; try exact H.
  destruct (import_blob (set_import_length v il) buf) as [[w n]|c'| |] eqn:EB; cbn [rbind] in H.
  - rewrite (blob_app _ buf more _ EB) by discriminate. exact H.
  - rewrite (blob_app _ buf more _ EB) by congruence. exact H.
  - rewrite (blob_app _ buf more _ EB) by congruence. exact H.
  - rewrite (blob_app _ buf more _ EB) by congruence. exact H.
Qed.
Lemma num_str_app sgn v buf more r : import_num_str sgn v buf = r -> r <> RErr PARSE_INCOMPLETE -> import_num_str sgn v (buf ++ more) = r.
Proof.
  unfold import_num_str. intros H Hr. destruct (negb (v_elements v =? 1)); [exact H|]. destruct (negb (v_import_length v =? 0)); [exact H|].
  assert (E : import_numeric_str_raw sgn (buf ++ more) = import_numeric_str_raw sgn buf).
  { apply numeric_app; [reflexivity|]. intros E. rewrite E in H. cbn in H. congruence. }
  rewrite E. exact H.
Qed.
Lemma hdlc_app v buf more r : import_hdlc v buf = r -> r <> RErr PARSE_INCOMPLETE -> import_hdlc v (buf ++ more) = r.
Proof.
  unfold import_hdlc. rewrite parse_app. destruct (hdlc_parse hdlc_init buf) as [[h s] rest].
  destruct h; intros H Hr; try exact H; [|congruence].
  destruct (zlen (h_result s) =? 0); [exact H|]. rewrite <- H. f_equal. f_equal. rewrite !zlen_app. lia.
Qed.

(** ** No abort *)
Lemma scan_number_len base s : forall dot len n d, scan_number base s dot len = Some (n, d) -> (len <= n <= len + length s)%nat.
Proof.
  induction s as [|c s IH]; intros dot len n d H; cbn [scan_number length] in *; [injection H as <- <-; lia|].
  destruct (digit_ok base c); [apply IH in H; lia|]. destruct (c =? 46).
  - destruct (Nat.eqb len 0); [discriminate|]. destruct dot; [discriminate|]. apply IH in H. lia.
  - injection H as <- <-. lia.
Qed.
Lemma fixp_used s x used : str_to_fixp s = FOk (x, used) -> (1 <= used <= length s)%nat.
Proof.
  unfold str_to_fixp. intros H. destruct (preliminary_parse s) as [[[[[base neg] ints] fracs] u]| | |] eqn:E; try discriminate.
  assert (u = used).
  { destruct (match fracs with Some _ => _ | None => _ end); [|discriminate]. destruct (integer_sum _ _ _ _); try discriminate. congruence. }
  subst u. clear H. unfold preliminary_parse in E. destruct s as [|c0 s0]; [discriminate|]. set (s := c0 :: s0) in *.
  destruct (if 3 <? zlen s then _ else _) as [b plen] eqn:EP.
  assert (HP : (plen <= length s)%nat).
  { destruct (Z.ltb_spec 3 (zlen s)) as [H3|H3]; [|injection EP as <- <-; lia]. unfold zlen in H3.
    destruct (starts_with [49; 54; 35] s); [injection EP as <- <-; lia|].
    destruct (starts_with [49; 48; 35] s); injection EP as <- <-; lia. }
  destruct (skipn plen s) as [|c r] eqn:ES; [discriminate|].
  assert (HL : (length s = plen + S (length r))%nat).
  { apply (f_equal (@length Z)) in ES. rewrite skipn_length in ES. cbn [length] in ES. lia. }
  destruct (if c =? 45 then _ else _) as [[ng slen] start] eqn:ED.
  assert (HD : (slen + length start = S (length r))%nat).
  { destruct (c =? 45); [injection ED as <- <- <-; reflexivity|]. destruct (c =? 43); injection ED as <- <- <-; reflexivity. }
  destruct start as [|c1 st]; [discriminate|]. set (start := c1 :: st) in *.
  destruct (scan_number b start None 0) as [[n d]|] eqn:EN; [|discriminate].
  apply scan_number_len in EN. destruct (Nat.eqb_spec n 0) as [|Hn]; [discriminate|].
  destruct d; injection E as <- <- <- <- <-; lia.
Qed.

Lemma int_loop_safe expand flags il :
  (forall g, g <> [] -> exists x, expand g flags = ROk x) -> 1 <= il ->
  forall n src, Z.of_nat n * il <= zlen src -> exists d, import_int_loop expand n il flags src = ROk d.
Proof.
  intros He Hil. induction n as [|n IH]; intros src Hl; [eexists; reflexivity|]. cbn [import_int_loop].
  destruct (He (firstn (Z.to_nat il) src)) as (x & ->).
  - intros E. apply (f_equal (@length Z)) in E. rewrite firstn_length in E. cbn [length] in E. unfold zlen in Hl. nia.
  - cbn [rbind]. destruct (IH (skipn (Z.to_nat il) src)) as (d & ->); [unfold zlen in *; rewrite skipn_length; nia|]. eexists. reflexivity.
Qed.
Lemma import_int_safe expand v buf :
  (forall g, g <> [] -> exists x, expand g (v_flags v) = ROk x) ->
  1 <= v_import_length v <= 8 -> 1 <= v_elements v -> v_elements v * 8 < 2^32 ->
  import_int expand v buf = RErr PARSE_INCOMPLETE \/
  exists w, import_int expand v buf = ROk (w, v_elements v * v_import_length v) /\ v_elements v * v_import_length v <= zlen buf.
Proof.
  intros He Hil H1 H8. unfold import_int. replace (8 <? v_import_length v) with false by lia. cbv zeta.
  unfold u32. rewrite (Z.mod_small (v_elements v * v_import_length v)) by nia. rewrite Z.mod_small by lia.
  destruct (Z.ltb_spec (zlen buf) (v_elements v * v_import_length v)) as [|HL]; [left; reflexivity|right].
  replace (v_elements v * 8 <? v_elements v * 8) with false by lia. cbn [orb].
  destruct (int_loop_safe expand (v_flags v) (v_import_length v) He ltac:(lia) (Z.to_nat (v_elements v)) buf) as (d & ->); [lia|].
  cbn [rbind]. eexists. split; [reflexivity|exact HL].
Qed.
Lemma expand_be_safe flags g : g <> [] -> exists x, expand_be g flags = ROk x.
Proof. destruct g; [congruence|]. intros _. eexists. reflexivity. Qed.
Lemma expand_le_safe flags g : g <> [] -> exists x, expand_le g flags = ROk x.
Proof.
  intros H. unfold expand_le. destruct (rev g) as [|c r] eqn:E; [|eexists; reflexivity].
  apply (f_equal (@rev Z)) in E. rewrite rev_involutive in E. contradiction.
Qed.
Lemma blob_consumes v buf w n : 1 <= v_import_length v * v_elements v < 2^32 -> import_blob v buf = ROk (w, n) ->
  n = v_import_length v * v_elements v /\ n <= zlen buf.
Proof.
  intros H. unfold import_blob, u32. rewrite Z.mod_small by lia. cbv zeta. destruct (Z.ltb_spec (zlen buf) (v_import_length v * v_elements v)); [discriminate|].
  intros E. injection E as _ <-. auto.
Qed.

Lemma import_safe after v buf : sane v -> zlen buf < 2^32 ->
  match do_import after v buf with
  | ROk (w, n) => n <= zlen buf /\ (v_type v <> TYPE_VAIN -> 0 < n)
  | RErr _ => True
  | RBug => False
  | RUb => v_type v = TYPE_FIXP
  end.
Proof.
  intros (HI & HB & HT & HIN) HL. destruct v as [t fl tag il el d]. cbn [v_type v_import_length v_elements] in *.
  assert (INT : forall expand, (forall fl' g, g <> [] -> exists x, expand g fl' = ROk x) -> In t [TYPE_BE; TYPE_H; TYPE_LE] ->
    match import_int expand (mk_value t fl tag il el d) buf with
    | ROk (w, n) => n <= zlen buf /\ (t <> TYPE_VAIN -> 0 < n) | RErr _ => True | RBug => False | RUb => t = TYPE_FIXP end).
  { intros expand He Hin. destruct (HI Hin) as (H1 & H2 & H3).
    destruct (import_int_safe expand (mk_value t fl tag il el d) buf (He fl) H1 H2 H3) as [->|(w & -> & Hw)]; cbn in *; [exact I|]. nia. }
  assert (SEP : forall f, In t [TYPE_BLOB; TYPE_SEP; TYPE_STX] ->
    match import_sep_stx f (mk_value t fl tag il el d) buf with
    | ROk (w, n) => n <= zlen buf /\ (t <> TYPE_VAIN -> 0 < n) | RErr _ => True | RBug => False | RUb => t = TYPE_FIXP end).
  { intros f Hin. specialize (HB Hin). unfold import_sep_stx, u32. cbn [v_import_length v_elements]. rewrite Z.mod_small by lia. cbv zeta.
    destruct (Z.ltb_spec (zlen buf) (il * el)); [exact I|]. destruct (forallb _ _); [lia|exact I]. }
  assert (NUM : forall sgn, In t [TYPE_USTR; TYPE_ISTR; TYPE_FIXP; TYPE_STR; TYPE_NSEP] ->
    match import_num_str sgn (mk_value t fl tag il el d) buf with
    | ROk (w, n) => n <= zlen buf /\ (t <> TYPE_VAIN -> 0 < n) | RErr _ => True | RBug => False | RUb => t = TYPE_FIXP end).
  { intros sgn Hin. destruct (HT Hin) as [-> ->]. unfold import_num_str. cbn [v_import_length v_elements v_flags]. change (1 =? 1) with true. change (0 =? 0) with true. cbn [negb].
    destruct (import_numeric_str_raw sgn buf) as [[y n]|e| |] eqn:E; cbn [rbind]; try exact I.
    - destruct (numeric_sound sgn buf y n E) as (bl & text & c & rest & x & -> & _ & HD & _ & _ & _ & ->).
      destruct (decimal_in_number _ _ _ HD) as [_ Hne]. rewrite !zlen_app, zlen_cons. pose proof (zlen_nonneg _ rest). pose proof (zlen_nonneg _ bl).
      destruct text; [congruence|]. rewrite zlen_cons. pose proof (zlen_nonneg _ text). lia.
    - exfalso. unfold import_numeric_str_raw in E. repeat match type of E with (if ?b then _ else _) = _ => destruct b; [discriminate|] end.
      destruct (if sgn then _ else _) as [[? ?]|]; [|discriminate]. destruct (Nat.eqb _ _); discriminate.
    - exfalso. unfold import_numeric_str_raw in E. repeat match type of E with (if ?b then _ else _) = _ => destruct b; [discriminate|] end.
      destruct (if sgn then _ else _) as [[? ?]|]; [|discriminate]. destruct (Nat.eqb _ _); discriminate. }
  unfold do_import. cbn [v_type].
  destruct (Z.eqb_spec t TYPE_BE) as [->|N_BE]. { apply INT; [intros; apply expand_be_safe; assumption|cbn; auto]. }
  destruct (Z.eqb_spec t TYPE_H) as [->|N_H]. { apply INT; [intros; apply expand_le_safe; assumption|cbn; auto]. }
  destruct (Z.eqb_spec t TYPE_LE) as [->|N_LE]. { apply INT; [intros; apply expand_le_safe; assumption|cbn; auto]. }
  destruct (Z.eqb_spec t TYPE_BLOB) as [->|N_BLOB].
  { specialize (HB ltac:(cbn; tauto)). unfold import_blob, u32. cbn [v_import_length v_elements]. rewrite Z.mod_small by lia. cbv zeta.
    destruct (Z.ltb_spec (zlen buf) (il * el)); [exact I|lia]. }
  destruct (Z.eqb_spec t TYPE_USTR) as [->|N_USTR]. { apply NUM. cbn; tauto. }
  destruct (Z.eqb_spec t TYPE_ISTR) as [->|N_ISTR]. { apply NUM. cbn; tauto. }
  destruct (Z.eqb_spec t TYPE_SEP) as [->|N_SEP]. { apply SEP. cbn; tauto. }
  destruct (Z.eqb_spec t TYPE_MSG) as [->|N_MSG]. { exfalso. revert HIN. clear. cbn. unfold TYPE_MSG. intros H. repeat (destruct H as [H|H]; [discriminate|]). exact H. }
  destruct (Z.eqb_spec t TYPE_FIXP) as [->|N_FIXP].
  { destruct (HT ltac:(cbn; tauto)) as [-> ->]. unfold import_fixp. cbn [v_import_length v_elements]. change (1 =? 1) with true. change (0 =? 0) with true. cbn [negb].
    destruct (str_to_fixp buf) as [[x used]| | |] eqn:E; try exact I; [|destruct (FixpTextProofs.str_to_fixp_no_bug buf E)|reflexivity].
    apply fixp_used in E. destruct (_ =? _); [exact I|]. unfold zlen. lia. }
  destruct (Z.eqb_spec t TYPE_STR) as [->|N_STR].
  { destruct (HT ltac:(cbn; tauto)) as [-> ->].
    destruct (import_str _ buf) as [[w n]|e| |] eqn:E; try exact I.
    - apply import_str_sound in E; [|reflexivity|reflexivity|exact HL]. destruct E as (text & data & rest & -> & _ & _ & ->).
      rewrite zlen_cons, zlen_app, zlen_cons. pose proof (zlen_nonneg _ text). pose proof (zlen_nonneg _ rest). lia.
    - unfold import_str in E. cbn [v_import_length v_elements] in E. change (1 =? 1) with true in E. change (0 =? 0) with true in E. cbn [negb] in E.
      unfold get_import_length_str in E. destruct buf as [|c r]; [discriminate|]. destruct (Z.eqb_spec c 34) as [->|]; cbn [negb] in E; [|discriminate].
      destruct (str_scan false r 1) as [m|] eqn:ES; [|discriminate]. destruct (scan_quoted r 1 m ES) as (text & rest & -> & HQ & ->).
      rewrite zlen_cons, zlen_app, zlen_cons in HL. pose proof (zlen_nonneg _ text). pose proof (zlen_nonneg _ rest).
      cbn [rbind skipn] in E. unfold import_blob, u32 in E. cbn [set_import_length v_import_length v_elements] in E. rewrite Z.mod_small in E by lia. cbv zeta in E.
      destruct (_ <? _); [discriminate|]. cbn [rbind] in E. destruct (Z.eqb_spec ((1 + zlen text + 1 - 2) * 1 + 2) (1 + zlen text + 1)); [discriminate|lia].
    - unfold import_str in E. cbn [v_import_length v_elements] in E. change (1 =? 1) with true in E. change (0 =? 0) with true in E. cbn [negb] in E.
      unfold get_import_length_str in E. destruct buf as [|c r]; [discriminate|]. destruct (c =? 34); cbn [negb] in E; [|discriminate].
      destruct (str_scan false r 1) as [m|] eqn:ES; [|discriminate]. cbn [rbind] in E. unfold import_blob in E. cbv zeta in E.
      destruct (_ <? _); [discriminate|]. cbn [rbind] in E. destruct (negb _); discriminate. }
  destruct (Z.eqb_spec t TYPE_NSEP) as [->|N_NSEP].
  { destruct (HT ltac:(cbn; tauto)) as [-> ->].
    destruct (import_nsep _ buf) as [[w n]|e| |] eqn:E; try exact I.
    - apply import_nsep_iff in E; [|reflexivity|reflexivity|exact HL]. destruct E as (text & c & rest & -> & Hne & _ & _ & _ & ->).
      rewrite zlen_app, zlen_cons. pose proof (zlen_nonneg _ rest). destruct text; [congruence|]. rewrite zlen_cons. pose proof (zlen_nonneg _ text). lia.
    - unfold import_nsep in E. cbn [v_import_length v_elements] in E. change (1 =? 1) with true in E. change (0 =? 0) with true in E. cbn [negb] in E.
      destruct (nsep_scan buf 0) as [m| | |] eqn:ES; try discriminate.
      + destruct (nsep_scan_sound buf 0 m ltac:(lia) ES) as (text & c & rest & -> & _ & _ & -> & Hm).
        rewrite zlen_app, zlen_cons in HL. pose proof (zlen_nonneg _ text). pose proof (zlen_nonneg _ rest).
        cbn [rbind] in E. unfold import_blob, u32 in E. cbn [set_import_length v_import_length v_elements] in E. rewrite Z.mod_small in E by lia. cbv zeta in E.
        destruct (_ <? _); [discriminate|]. cbn [rbind] in E. destruct (Z.eqb_spec ((0 + zlen text) * 1) (0 + zlen text)); [discriminate|lia].
      + clear - ES. revert ES. generalize 0. induction buf as [|c buf IH]; intros n H; cbn [nsep_scan] in H; [discriminate|].
        destruct (is_sep_a c || is_sep_f c); [destruct (n =? 0); discriminate|]. eapply IH; exact H.
    - unfold import_nsep in E. cbn [v_import_length v_elements] in E. change (1 =? 1) with true in E. change (0 =? 0) with true in E. cbn [negb] in E.
      destruct (nsep_scan buf 0) as [m| | |] eqn:ES; try discriminate.
      + cbn [rbind] in E. unfold import_blob in E. cbv zeta in E. destruct (_ <? _); [discriminate|]. cbn [rbind] in E. destruct (negb _); discriminate.
      + exfalso. clear - ES. revert ES. generalize 0. induction buf as [|c buf IH]; intros n H; cbn [nsep_scan] in H; [discriminate|].
        destruct (is_sep_a c || is_sep_f c); [destruct (n =? 0); discriminate|]. eapply IH; exact H. }
  destruct (Z.eqb_spec t TYPE_STX) as [->|N_STX]. { apply SEP. cbn; tauto. }
  destruct (Z.eqb_spec t TYPE_ERR) as [->|N_ERR]. { exact I. }
  destruct (Z.eqb_spec t TYPE_VAIN) as [->|N_VAIN]. { unfold import_vain. pose proof (zlen_nonneg _ buf). split; [lia|congruence]. }
  destruct (Z.eqb_spec t TYPE_HDLC) as [->|HX].
  { unfold import_hdlc. pose proof (parse_inv buf hdlc_init) as HP. destruct (hdlc_parse hdlc_init buf) as [[h s] rest] eqn:E.
    destruct h; try exact I.
    - destruct (parse_sound buf s rest E) as ((noise & k & body & _ & _ & Eb) & Hne & _).
      destruct (Z.eqb_spec (zlen (h_result s)) 0) as [E0|_]; [apply zlen_0 in E0; contradiction|].
      rewrite Eb, !zlen_app, !zlen_cons. pose proof (zlen_nonneg _ rest). 
      pose proof (zlen_nonneg _ noise). pose proof (zlen_nonneg _ body). pose proof (zlen_nonneg _ (repeat 126 (S k))). change (HdlcModel.BYTE_FRAME) with 126 in *.
      rewrite ?zlen_app, ?zlen_cons, ?zlen_nil. lia.
    - destruct HP as [HP _]; [|cbn in HP; congruence]. unfold hdlc_inv, hdlc_init, HDLC_MAX. cbn. lia. }
  revert HIN. clear HI HB HT INT SEP NUM. cbn. intuition congruence.
Qed.

(** ** Packing and unpacking *)
Lemma swap64_len n : forall l, length l = (8 * n)%nat -> length (swap64 n l) = (8 * n)%nat.
Proof.
  induction n as [|n IH]; intros l H; [reflexivity|]. cbn [swap64]. rewrite app_length, rev_length, firstn_length, IH.
  - lia.
  - rewrite skipn_length. lia.
Qed.
Lemma swap64_twice n : forall l, length l = (8 * n)%nat -> swap64 n (swap64 n l) = l.
Proof.
  induction n as [|n IH]; intros l H; [destruct l; [reflexivity|discriminate]|]. cbn [swap64].
  assert (L8 : length (rev (firstn 8 l)) = 8%nat) by (rewrite rev_length, firstn_length; lia).
  rewrite firstn_app, L8, Nat.sub_diag, firstn_O, app_nil_r, (firstn_all2 (rev (firstn 8 l))) by lia.
  rewrite skipn_app, L8, Nat.sub_diag, skipn_O, (skipn_all2 (rev (firstn 8 l))) by lia. cbn [app].
  rewrite IH by (rewrite skipn_length; lia). rewrite rev_involutive. apply firstn_skipn.
Qed.
Lemma swap64_forall P n : forall l, Forall P l -> Forall P (swap64 n l).
Proof.
  induction n as [|n IH]; intros l H; [constructor|]. cbn [swap64].
  rewrite <- (firstn_skipn 8 l) in H. apply Forall_app in H. destruct H as [H1 H2].
  apply Forall_app. split; [apply Forall_rev; exact H1|apply IH; exact H2].
Qed.
Lemma conv64_ok d : zlen d mod 8 = 0 -> exists e, conv64 d = ROk e /\ conv64 e = ROk d /\ zlen e = zlen d /\ (bytes d -> bytes e).
Proof.
  intros H. unfold conv64. rewrite H. change (0 =? 0) with true. cbn iota.
  assert (HL : length d = (8 * Z.to_nat (zlen d / 8))%nat) by (unfold zlen in *; lia).
  assert (HL2 : zlen (swap64 (Z.to_nat (zlen d / 8)) d) = zlen d).
  { unfold zlen at 1. rewrite swap64_len by exact HL. rewrite <- HL. reflexivity. }
  eexists. split; [reflexivity|]. rewrite HL2. rewrite H. change (0 =? 0) with true. cbn iota.
  rewrite swap64_twice by exact HL. split; [reflexivity|]. split; [reflexivity|]. apply swap64_forall.
Qed.

Lemma le_dec_enc n x : 0 <= x < 256 ^ Z.of_nat n -> le_dec (le_enc n x) = x.
Proof. intros H. unfold le_dec, le_enc. rewrite rev_involutive. apply be_dec_enc. exact H. Qed.
Lemma le_enc_len n x : zlen (le_enc n x) = Z.of_nat n.
Proof. unfold le_enc. rewrite zlen_rev, be_enc_len. reflexivity. Qed.
Lemma host_msg_len m : zlen (host_msg m) = 30 + zlen (mm_data m).
Proof. unfold host_msg. rewrite !zlen_app, !le_enc_len, !zlen_cons, zlen_nil. lia. Qed.
Ltac lskip := erewrite sub_skip; [ | rewrite ?le_enc_len, ?zlen_cons, ?zlen_nil; reflexivity | lia ].
Ltac lfld := unfold le_field; repeat lskip; rewrite sub_here; [ | lia | rewrite ?le_enc_len, ?zlen_cons, ?zlen_nil; reflexivity ].
Lemma host_size m rest : mm_ok m -> le_field (host_msg m ++ rest) 4 4 = msg_size (mm_head m).
Proof.
  intros (_ & Hs & Hmax & _). unfold host_msg. rewrite <- !app_assoc. lfld. apply le_dec_enc.
  pose proof (zlen_nonneg _ (mm_data m)). cbn. lia.
Qed.
Lemma read_host m : mm_ok m -> 0 <= header_crc32 (mm_head m) < 2^32 -> 0 <= data_crc32 (mm_head m) < 2^32 ->
  read_host_msg (host_msg m) = m.
Proof.
  intros (Ht & Hs & Hmax & Hv & Hts & Htc & Hver & Htl & Htl2 & HB & _) Hc1 Hc2.
  unfold read_host_msg. rewrite host_msg_len. unfold host_msg. cbv zeta.
  destruct m as [[hc sz ty va dc] ts tc ver tl data]. cbn [mm_head header_crc32 msg_size msg_type msg_value data_crc32 mm_timestamp mm_type_and_class mm_version mm_topic_length mm_data] in *.
  pose proof (zlen_nonneg _ data). unfold byte in *. unfold T_MESSAGE in Ht.
  f_equal; [f_equal|..].
  all: try (lfld; first [apply le_dec_enc; cbn; lia | reflexivity]).
  all: repeat lskip; apply sub_all; lia.
Qed.
Lemma net_len m : zlen (msg_msg_to_network m) = 30 + zlen (mm_data m).
Proof. unfold msg_msg_to_network. rewrite cn_len, mm_tail_len. lia. Qed.

Lemma get_target_app buf more : 18 <= zlen buf -> get_target_size (buf ++ more) = get_target_size buf.
Proof.
  intros H. unfold get_target_size, MSG_HEAD_SIZE. rewrite zlen_app. pose proof (zlen_nonneg _ more).
  replace (zlen buf + zlen more <? 18) with false by lia. replace (zlen buf <? 18) with false by lia.
  assert (G : forall off n, 0 <= off -> 0 <= n -> off + n <= 18 -> sub_mem (buf ++ more) off n = sub_mem buf off n).
  { intros off n Ho Hn Hl. unfold sub_mem. unfold zlen in H. rewrite skipn_app, firstn_app, skipn_length.
    replace (Z.to_nat n - (length buf - Z.to_nat off))%nat with 0%nat by lia. cbn. apply app_nil_r. }
  unfold be_field. rewrite !G by lia. reflexivity.
Qed.
Lemma single_net m rest after : mm_ok m ->
  msg_to_host_single (msg_msg_to_network m ++ rest) after = ROk (mm_clear_crc m).
Proof.
  intros HM. pose proof (mm_receive m (rest ++ after) HM) as HR.
  assert (HM2 := HM). destruct HM2 as (Ht & Hs & Hmax & Hv & Hts & Htc & Hver & Htl & Htl2 & HB & HC & HT & HU).
  pose proof (zlen_nonneg _ (mm_data m)) as Hd. pose proof (zlen_nonneg _ rest) as Hr.
  set (net := msg_msg_to_network m) in *. pose proof (net_len m) as HL. fold net in HL.
  unfold receive in HR. destruct (get_target_size net) as [size| |] eqn:EG; try discriminate.
  assert (ES : size = zlen net).
  { assert (HBt : bytes (msg_msg_tail_bytes m)).
    { unfold msg_msg_tail_bytes. repeat (apply bytes_app; split); auto using be_enc_bytes.
      - apply bytes_cons; split; [ auto | constructor ].
      - apply bytes_cons; split; [ auto | constructor ]. }
    destruct (cn_fields (mm_head m) (msg_msg_tail_bytes m) HBt) as (E1 & _).
    { unfold head_ok. rewrite mm_tail_len, Ht, Hs. unfold T_MESSAGE. lia. }
    unfold net, msg_msg_to_network in EG. rewrite E1 in EG.
    assert (EZ : size = 18 + zlen (msg_msg_tail_bytes m)) by congruence. rewrite mm_tail_len in EZ. lia. }
  unfold msg_to_host_single. rewrite get_target_app by lia. rewrite EG, ES.
  replace (zlen (net ++ rest) <? zlen net) with false by (rewrite zlen_app; lia).
  rewrite ES in HR. rewrite (sub_all net 0 (zlen net)) in HR by lia.
  unfold to_host_and_verify_with_callback in HR.
  assert (G : forall off n, 0 <= off -> 0 <= n -> off + n <= zlen net -> sub_mem (net ++ rest) off n = sub_mem net off n).
  { intros off n Ho Hn Hl. unfold sub_mem. unfold zlen in Hl. rewrite skipn_app, firstn_app, skipn_length.
    replace (Z.to_nat n - (length net - Z.to_nat off))%nat with 0%nat by lia. cbn. apply app_nil_r. }
  unfold head_to_host_and_verify, be_field in *. rewrite !G by lia.
  destruct (head_validate _ _) eqn:EV; [|discriminate].
  unfold check_data_checksum_and_length in *. rewrite G by lia.
  destruct (zlen net <? MSG_HEAD_SIZE); [discriminate|]. destruct (negb (_ =? zlen net)); [discriminate|].
  destruct (negb (crc32cmp _ _ =? 0)); [discriminate|].
  rewrite (sub_all net 0 (zlen net)) by lia.
  replace (skipn (Z.to_nat (zlen net)) (net ++ rest)) with rest.
  2: { replace (Z.to_nat (zlen net)) with (length net) by (unfold zlen; lia). rewrite skipn_app, skipn_all, Nat.sub_diag, skipn_O. reflexivity. }
  destruct (_ =? T_MESSAGE) in HR.
  - destruct (msg_msg_to_host_and_verify _ _ _ _); try discriminate. injection HR as ->. reflexivity.
  - destruct (is_ctrl _); [ discriminate | ].
    destruct (_ =? T_ADDR); [ destruct (_ <=? _); discriminate | ].
    destruct (_ =? T_LOG); [ destruct (log_to_host _ _); try discriminate; destruct (log_to_str _ _); discriminate | ].
    destruct (_ =? T_STATS); [ destruct (stats_unpack _ _); discriminate | discriminate ].
Qed.
Lemma mm_clear_ok m : mm_ok m -> mm_ok (mm_clear_crc m).
Proof. intros H. exact H. Qed.

Lemma unpack_loop_net after ms : Forall mm_ok ms -> forall fuel, (length ms <= fuel)%nat ->
  msg_unpack_loop fuel (concat (map msg_msg_to_network ms)) after =
  ROk (concat (map (fun m => host_msg (mm_clear_crc m)) ms), zlen ms).
Proof.
  induction 1 as [|m ms HM HF IH]; intros fuel Hf.
  - destruct fuel; reflexivity.
  - cbn [map concat]. destruct fuel as [|f]; [cbn in Hf; lia|].
    pose proof (net_len m) as HL. pose proof (zlen_nonneg _ (mm_data m)).
    destruct (msg_msg_to_network m) as [|b bs] eqn:EN; [rewrite zlen_nil in HL; lia|]. cbn [app msg_unpack_loop].
    change (b :: bs ++ concat (map msg_msg_to_network ms)) with ((b :: bs) ++ concat (map msg_msg_to_network ms)).
    rewrite <- EN. rewrite single_net by exact HM. cbn [rbind].
    replace (Z.to_nat (msg_size (mm_head (mm_clear_crc m)))) with (length (msg_msg_to_network m)).
    2: { destruct HM as (_ & Hs & _). cbn [mm_clear_crc mm_head clear_crc msg_size]. rewrite Hs. rewrite <- EN in HL. unfold zlen in *. lia. }
    rewrite skipn_app, skipn_all, Nat.sub_diag, skipn_O. cbn [app].
    rewrite IH by (cbn in Hf; lia). cbn [rbind]. rewrite zlen_cons. f_equal. f_equal. lia.
Qed.
Lemma pack_loop_host ms : Forall (fun m => mm_ok m /\ header_crc32 (mm_head m) = 0 /\ data_crc32 (mm_head m) = 0) ms ->
  forall fuel pos total, (length ms <= fuel)%nat -> 0 <= pos -> pos + zlen (concat (map host_msg ms)) = total -> total < 2^32 ->
  msg_pack_loop fuel pos total (concat (map host_msg ms)) = ROk (concat (map msg_msg_to_network ms)).
Proof.
  induction 1 as [|m ms (HM & Hc1 & Hc2) HF IH]; intros fuel pos total Hf Hp Ht Hmax.
  - destruct fuel; reflexivity.
  - cbn [map concat] in *. destruct fuel as [|f]; [cbn in Hf; lia|].
    pose proof (host_msg_len m) as HL. pose proof (zlen_nonneg _ (mm_data m)).
    pose proof (zlen_nonneg _ (concat (map host_msg ms))) as HR.
    assert (Hs : msg_size (mm_head m) = zlen (host_msg m)) by (destruct HM as (_ & Hs & _); lia).
    rewrite zlen_app in Ht.
    destruct (host_msg m) as [|b bs] eqn:EN; [rewrite zlen_nil in HL; lia|]. cbn [app msg_pack_loop].
    change (b :: bs ++ concat (map host_msg ms)) with ((b :: bs) ++ concat (map host_msg ms)).
    rewrite <- EN in *. rewrite (host_size m _ HM), Hs.
    replace (zlen (host_msg m ++ concat (map host_msg ms)) <? 8) with false by (rewrite zlen_app; lia).
    replace (zlen (host_msg m) <? MSG_MSG_MIN) with false by (unfold MSG_MSG_MIN; lia).
    unfold u32. rewrite Z.mod_small by lia.
    replace (total <? pos + zlen (host_msg m)) with false by lia.
    replace (zlen (host_msg m ++ concat (map host_msg ms)) <? zlen (host_msg m)) with false by (rewrite zlen_app; lia).
    rewrite sub_here by lia. rewrite read_host by (try exact HM; lia).
    replace (Z.to_nat (zlen (host_msg m))) with (length (host_msg m)) by (unfold zlen; lia).
    rewrite skipn_app, skipn_all, Nat.sub_diag, skipn_O. cbn [app].
    rewrite IH by (try (cbn in Hf; lia); lia). reflexivity.
Qed.
Lemma concat_len_ge {A} (f : A -> list Z) ms : (forall m, In m ms -> 1 <= zlen (f m)) -> zlen ms <= zlen (concat (map f ms)).
Proof.
  induction ms as [|m ms IH]; intros H; [reflexivity|]. cbn [map concat]. rewrite zlen_cons, zlen_app.
  pose proof (H m (or_introl eq_refl)). assert (zlen ms <= zlen (concat (map f ms))) by (apply IH; intros; apply H; right; assumption). lia.
Qed.
Lemma msg_pack_ok ms after : Forall (fun m => mm_ok m /\ header_crc32 (mm_head m) = 0 /\ data_crc32 (mm_head m) = 0) ms ->
  zlen (concat (map host_msg ms)) < 2^32 ->
  let e := concat (map msg_msg_to_network ms) in
  msg_pack (concat (map host_msg ms)) = ROk e /\ zlen e = zlen (concat (map host_msg ms)) /\
  msg_unpack_loop (length e) e after = ROk (concat (map host_msg ms), zlen ms).
Proof.
  intros HF HL e.
  assert (HE : zlen e = zlen (concat (map host_msg ms))).
  { unfold e. clear. induction ms as [|m ms IH]; [reflexivity|]. cbn [map concat]. rewrite !zlen_app, IH, net_len, host_msg_len. reflexivity. }
  assert (H1 : zlen ms <= zlen (concat (map host_msg ms))).
  { apply concat_len_ge. intros m _. rewrite host_msg_len. pose proof (zlen_nonneg _ (mm_data m)). lia. }
  split; [|split; [exact HE|]].
  - unfold msg_pack. apply pack_loop_host; try exact HF; try lia. unfold zlen in H1. lia.
  - unfold e. rewrite unpack_loop_net.
    + f_equal. f_equal. f_equal. apply map_ext_in. intros m Hm. rewrite Forall_forall in HF. destruct (HF m Hm) as (_ & E1 & E2).
      f_equal. destruct m as [[hc sz ty va dc] ts tc ver tl data]. cbn in E1, E2. subst. reflexivity.
    + eapply Forall_impl; [|exact HF]. cbn. tauto.
    + fold e. unfold zlen in *. lia.
Qed.
Lemma net_bytes m : mm_ok m -> bytes (msg_msg_to_network m).
Proof.
  intros (Ht & Hs & Hmax & Hv & Hts & Htc & Hver & Htl & Htl2 & HB & _). unfold msg_msg_to_network. apply cn_bytes.
  unfold msg_msg_tail_bytes. repeat (apply bytes_app; split); auto using be_enc_bytes.
  - apply bytes_cons; split; [ auto | constructor ].
  - apply bytes_cons; split; [ auto | constructor ].
Qed.

Lemma pack_unpack v after : packable v ->
  exists t d, pack v = ROk (t, d) /\ zlen d = zlen (v_data v) /\ bytes d /\ has_unpack t = true /\ byte t /\
    value_new_and_unpack after t (v_flags v) (v_tag v) d (v_elements v) = ROk v.
Proof.
  destruct v as [t fl tag il el d]. intros (HB & HL & Hil & HC). cbn [v_type v_flags v_tag v_import_length v_elements v_data] in *.
  destruct HC as [[Hin H8]|[[Hin Hne]|[->|[[-> ->]|[-> (ms & HF & -> & ->)]]]]].
  - destruct (conv64_ok d H8) as (e & E1 & E2 & E3 & E4).
    cbn [In] in Hin. destruct Hin as [<-|[<-|[]]]; unfold pack; cbn [v_type v_data].
    + change (TYPE_H =? TYPE_H) with true. cbn iota. rewrite E1. cbn [rbind]. exists TYPE_BE, e.
      split; [reflexivity|]. split; [exact E3|]. split; [auto|]. split; [reflexivity|]. split; [unfold byte, TYPE_BE; lia|].
      unfold value_new_and_unpack, unpack. cbn [v_type v_data]. change (TYPE_BE =? TYPE_BE) with true. cbn iota. rewrite E2. cbn [rbind].
      unfold set_type_data. cbn. rewrite E3, <- Hil. reflexivity.
    + change (TYPE_FIXP =? TYPE_H) with false. change (TYPE_FIXP =? TYPE_FIXP) with true. cbn iota. rewrite E1. cbn [rbind]. exists TYPE_FIXP, e.
      split; [reflexivity|]. split; [exact E3|]. split; [auto|]. split; [reflexivity|]. split; [unfold byte, TYPE_FIXP; lia|].
      unfold value_new_and_unpack, unpack. cbn [v_type v_data]. change (TYPE_FIXP =? TYPE_BE) with false. change (TYPE_FIXP =? TYPE_FIXP) with true. cbn iota.
      rewrite E2. cbn [rbind]. unfold set_type_data. cbn. rewrite E3, <- Hil. reflexivity.
  - assert (Hz : zlen d =? 0 = false). { destruct (Z.eqb_spec (zlen d) 0) as [E|]; [apply zlen_0 in E; contradiction|reflexivity]. }
    assert (HP : pack (mk_value t fl tag il el d) = ROk (t, d)).
    { unfold pack. cbn [v_type v_data]. rewrite Hz. cbn [In] in Hin. destruct Hin as [<-|[<-|[<-|[<-|[<-|[]]]]]]; reflexivity. }
    exists t, d. split; [exact HP|]. split; [reflexivity|]. split; [exact HB|].
    assert (HU : value_new_and_unpack after t fl tag d el = ROk (mk_value t fl tag il el d)).
    { unfold value_new_and_unpack, unpack. cbn [v_type v_data]. rewrite Hz, <- Hil. cbn [In] in Hin. destruct Hin as [<-|[<-|[<-|[<-|[<-|[]]]]]]; reflexivity. }
    split; [cbn [In] in Hin; destruct Hin as [<-|[<-|[<-|[<-|[<-|[]]]]]]; reflexivity|].
    split; [cbn [In] in Hin; destruct Hin as [<-|[<-|[<-|[<-|[<-|[]]]]]]; unfold byte, TYPE_BLOB, TYPE_SEP, TYPE_NSEP, TYPE_STX, TYPE_HDLC; lia|exact HU].
  - exists TYPE_STR, d. split; [reflexivity|]. split; [reflexivity|]. split; [exact HB|]. split; [reflexivity|].
    split; [unfold byte, TYPE_STR; lia|]. unfold value_new_and_unpack, unpack. cbn [v_type]. rewrite <- Hil. reflexivity.
  - exists TYPE_VAIN, []. split; [reflexivity|]. split; [reflexivity|]. split; [exact HB|]. split; [reflexivity|].
    split; [unfold byte, TYPE_VAIN; lia|]. unfold value_new_and_unpack, unpack. cbn [v_type]. rewrite <- Hil. reflexivity.
  - destruct (msg_pack_ok ms after HF HL) as (E1 & E2 & E3). set (e := concat (map msg_msg_to_network ms)) in *.
    exists TYPE_MSG, e. unfold pack. cbn [v_type v_data]. change (TYPE_MSG =? TYPE_H) with false. change (TYPE_MSG =? TYPE_FIXP) with false.
    change (TYPE_MSG =? TYPE_BLOB) with false. change (TYPE_MSG =? TYPE_SEP) with false. change (TYPE_MSG =? TYPE_NSEP) with false.
    change (TYPE_MSG =? TYPE_STX) with false. change (TYPE_MSG =? TYPE_HDLC) with false. change (TYPE_MSG =? TYPE_STR) with false.
    change (TYPE_MSG =? TYPE_MSG) with true. cbn [orb]. rewrite E1. cbn [rbind].
    split; [reflexivity|]. split; [exact E2|]. split.
    { unfold e. clear - HF. induction HF as [|m ms (HM & _) HF IH]; [constructor|]. cbn [map concat]. apply bytes_app. split; [apply net_bytes; exact HM|exact IH]. }
    split; [reflexivity|]. split; [unfold byte, TYPE_MSG; lia|].
    unfold value_new_and_unpack, unpack. cbn [v_type v_data]. change (TYPE_MSG =? TYPE_BE) with false. change (TYPE_MSG =? TYPE_FIXP) with false.
    change (TYPE_MSG =? TYPE_BLOB) with false. change (TYPE_MSG =? TYPE_SEP) with false. change (TYPE_MSG =? TYPE_NSEP) with false.
    change (TYPE_MSG =? TYPE_STX) with false. change (TYPE_MSG =? TYPE_HDLC) with false. change (TYPE_MSG =? TYPE_STR) with false.
    change (TYPE_MSG =? TYPE_VAIN) with false. change (TYPE_MSG =? TYPE_MSG) with true. cbn [orb].
    unfold msg_unpack. cbn [v_data]. rewrite E3. cbn [rbind]. unfold set_elements, set_data. cbn [v_type v_flags v_tag v_import_length v_elements v_data].
    rewrite E2, <- Hil. f_equal. f_equal. unfold u32. apply Z.mod_small.
    pose proof (zlen_nonneg _ ms). assert (zlen ms <= zlen (concat (map host_msg ms))); [|lia].
    apply concat_len_ge. intros m _. rewrite host_msg_len. pose proof (zlen_nonneg _ (mm_data m)). lia.
Qed.

(** ** Conversion to text *)
Lemma dec_digits_len f : forall n acc, zlen (Dec.dec_digits f n acc) <= Z.of_nat f + zlen acc.
Proof.
  induction f as [|f IH]; intros n acc; cbn [Dec.dec_digits]; [lia|]. cbv zeta. destruct (_ =? 0).
  - rewrite zlen_cons. lia.
  - specialize (IH (n / 10) (48 + n mod 10 :: acc)). rewrite zlen_cons in IH. lia.
Qed.
Lemma dec_text_len n : zlen (dec_text n) <= 20.
Proof. unfold dec_text, Dec.dec_str. pose proof (dec_digits_len 20 n []) as H. rewrite zlen_nil in H. lia. Qed.
Lemma dec_text_decimal sgn n : 0 <= n < 2^64 -> decimal sgn (dec_text n) n.
Proof.
  intros H. destruct (Dec.dec_str_spec n H) as (H1 & H2 & H3). exists false, [], (dec_text n).
  repeat apply conj; [constructor|exact H1| |reflexivity|symmetry; exact H3].
  rewrite forallb_forall in H2. apply Forall_forall. intros c Hc. specialize (H2 c Hc). unfold Dec.is_dec_digit in H2. unfold digit. lia.
Qed.
Lemma dec_signed_decimal x : - 2^63 <= x < 2^63 -> decimal true (dec_text_signed x) x.
Proof.
  intros H. unfold dec_text_signed. destruct (Z.ltb_spec x 0).
  - destruct (Dec.dec_str_spec (- x) ltac:(lia)) as (H1 & H2 & H3). rewrite forallb_forall in H2.
    assert (HF : Forall digit (dec_text (- x))).
    { apply Forall_forall. intros c Hc. specialize (H2 c Hc). unfold Dec.is_dec_digit in H2. unfold digit. lia. }
    exists true, [45], (dec_text (- x)).
    split; [constructor; reflexivity|]. split; [exact H1|]. split; [exact HF|]. split; [reflexivity|].
    change (decimal_value (dec_text (- x))) with (Dec.dec_val (Dec.dec_str (- x))). lia.
  - apply dec_text_decimal. lia.
Qed.
Lemma as_signed_mod x : - 2^63 <= x < 2^63 -> as_signed (x mod 2^64) = x.
Proof.
  intros H. unfold as_signed. destruct (Z.ltb_spec x 0).
  - rewrite <- (Z.mod_unique x (2^64) (-1) (x + 2^64)) by lia. destruct (Z.ltb_spec (x + 2^64) (2^63)); lia.
  - rewrite Z.mod_small by lia. replace (x <? 2^63) with true by lia. reflexivity.
Qed.
Lemma numbers_memory xs : numbers (length xs) (int64_memory xs) = map (fun x => x mod 2^64) xs.
Proof.
  induction xs as [|x xs IH]; [reflexivity|]. cbn [length numbers int64_memory flat_map map].
  assert (L : length (rev (be_enc 8 (x mod 2^64))) = 8%nat).
  { rewrite rev_length. pose proof (be_enc_len 8 (x mod 2^64)) as H. unfold zlen in H. lia. }
  change (flat_map (fun x => rev (be_enc 8 (x mod 2^64))) xs) with (int64_memory xs).
  set (e := rev (be_enc 8 (x mod 2^64))) in *.
  rewrite firstn_app, L, Nat.sub_diag, firstn_O, app_nil_r, (firstn_all2 e) by lia.
  rewrite skipn_app, L, Nat.sub_diag, skipn_O, (skipn_all2 e) by lia. cbn [app]. rewrite IH. f_equal.
  unfold e, le_dec. rewrite rev_involutive. apply be_dec_enc. change (256 ^ Z.of_nat 8) with (2^64). apply Z.mod_pos_bound. lia.
Qed.
Lemma memory_len xs : zlen (int64_memory xs) = 8 * zlen xs.
Proof.
  induction xs as [|x xs IH]; [reflexivity|]. unfold int64_memory in *. cbn [flat_map]. rewrite zlen_app, IH, zlen_rev, be_enc_len, zlen_cons. lia.
Qed.
Definition item_text (sgn : bool) (x : Z) : list Z := if sgn then dec_text_signed x else dec_text x.
Lemma item_decimal sgn x : int64_range sgn x -> decimal sgn (item_text sgn x) x /\ zlen (item_text sgn x) <= 21.
Proof.
  unfold int64_range, item_text. destruct sgn; intros H; split.
  - apply dec_signed_decimal. exact H.
  - unfold dec_text_signed. destruct (x <? 0); rewrite ?zlen_cons; [pose proof (dec_text_len (- x))|pose proof (dec_text_len x)]; lia.
  - apply dec_text_decimal. exact H.
  - pose proof (dec_text_len x). lia.
Qed.
Lemma h_loop_ok flags xs : Forall (int64_range (is_signed flags)) xs -> forall first room, 32 * zlen xs <= room ->
  h_to_str_loop flags first (map (fun x => x mod 2^64) xs) room =
  ROk (if first then comma_list (map (item_text (is_signed flags)) xs) else flat_map (fun t => 44 :: t) (map (item_text (is_signed flags)) xs)).
Proof.
  induction 1 as [|x xs Hx HF IH]; intros first room Hr; cbn [map h_to_str_loop]; [destruct first; reflexivity|].
  rewrite zlen_cons in Hr. pose proof (zlen_nonneg _ xs).
  assert (ET : (if is_signed flags then dec_text_signed (as_signed (x mod 2^64)) else dec_text (x mod 2^64)) = item_text (is_signed flags) x).
  { unfold item_text, int64_range in *. destruct (is_signed flags); [rewrite as_signed_mod by exact Hx; reflexivity|rewrite Z.mod_small by exact Hx; reflexivity]. }
  rewrite ET. destruct (item_decimal _ _ Hx) as [_ HL].
  set (t := (if first then [] else [44]) ++ item_text (is_signed flags) x).
  assert (HT : zlen t <= 22) by (unfold t; rewrite zlen_app; destruct first; rewrite ?zlen_cons, zlen_nil; lia).
  replace (room <? zlen t + 1) with false by lia. rewrite IH by lia. cbn [rbind]. f_equal. unfold t.
  destruct first; cbn [app].
  - cbn [comma_list]. destruct xs as [|y ys]; [cbn; rewrite app_nil_r; reflexivity|]. cbn [map]. f_equal.
    clear. generalize (item_text (is_signed flags)). intros f. cbn [flat_map app]. f_equal.
    revert y. induction ys as [|z ys IH]; intros y; cbn [map flat_map comma_list]; [apply app_nil_r|]. f_equal. cbn [app]. f_equal. apply IH.
  - cbn [flat_map]. reflexivity.
Qed.
Lemma h_to_str_ok v xs : Forall (int64_range (is_signed (v_flags v))) xs -> v_data v = int64_memory xs -> xs <> [] ->
  zlen (v_data v) < 2^30 ->
  h_to_str v = ROk (comma_list (map (item_text (is_signed (v_flags v))) xs)).
Proof.
  intros HF HD Hne HL. unfold h_to_str. rewrite HD in *. rewrite memory_len in *.
  assert (0 < zlen xs) by (destruct xs; [congruence|rewrite zlen_cons; pose proof (zlen_nonneg _ xs); lia]).
  cbv zeta. unfold u32. rewrite (Z.mod_small (8 * zlen xs * 4)) by lia.
  replace (8 * zlen xs mod 8 =? 0) with true by lia. cbn [negb].
  replace (Z.to_nat (8 * zlen xs / 8)) with (length xs) by (unfold zlen; lia).
  rewrite numbers_memory, h_loop_ok by (try exact HF; lia). cbn [rbind].
  rewrite Z.mod_small by lia. replace (8 * zlen xs * 4 <=? 8 * zlen xs * 4 - 1) with false by lia. reflexivity.
Qed.

(** ** Import of messages *)
Lemma import_msg_one v m rest after : v_elements v = 1 -> mm_ok m ->
  import_msg after v (msg_msg_to_network m ++ rest) =
  ROk (set_elements (set_data v (host_msg (mm_clear_crc m))) 1, zlen (msg_msg_to_network m)).
Proof.
  intros H1 HM. unfold import_msg. rewrite H1. change (Z.to_nat 1) with 1%nat. cbn [import_msg_loop].
  pose proof (net_len m) as HL. pose proof (zlen_nonneg _ (mm_data m)). pose proof (zlen_nonneg _ rest).
  set (net := msg_msg_to_network m) in *. rewrite zlen_app.
  replace (zlen net + zlen rest <=? 0) with false by lia.
  replace (zlen net + zlen rest <? MSG_MSG_MIN) with false by (unfold MSG_MSG_MIN; lia).
  assert (EG : get_target_size net = Ok (zlen net)).
  { destruct HM as (Ht & Hs & Hmax & Hv & Hts & Htc & Hver & Htl & Htl2 & HB & _).
    assert (HBt : bytes (msg_msg_tail_bytes m)).
    { unfold msg_msg_tail_bytes. repeat (apply bytes_app; split); auto using be_enc_bytes.
      - apply bytes_cons; split; [ auto | constructor ].
      - apply bytes_cons; split; [ auto | constructor ]. }
    destruct (cn_fields (mm_head m) (msg_msg_tail_bytes m) HBt) as (E1 & _).
    { unfold head_ok. rewrite mm_tail_len, Ht, Hs. unfold T_MESSAGE. lia. }
    unfold net, msg_msg_to_network. rewrite E1. f_equal. rewrite cn_len. reflexivity. }
  rewrite get_target_app by lia. rewrite EG. rewrite Z.add_0_l.
  replace (zlen net + zlen rest <? zlen net) with false by lia.
  replace (if zlen net + zlen rest - zlen net <=? 0 then ROk (zlen net, 0 + 1) else ROk (zlen net, 0 + 1)) with (@ROk (Z * Z) (zlen net, 1))
    by (destruct (_ <=? 0); reflexivity).
  cbn [rbind]. change (1 =? 1) with true. cbn [negb andb].
  rewrite sub_here by lia. unfold msg_unpack. cbn [set_data v_data].
  pose proof (unpack_loop_net after [m] (Forall_cons _ HM (Forall_nil _)) (length net)) as HU.
  cbn [map concat] in HU. rewrite !app_nil_r in HU. fold net in HU. rewrite HU.
  - cbn [rbind]. reflexivity.
  - unfold zlen in HL. cbn [length]. lia.
Qed.

(** Export and import of strings. *)
Lemma str_export_ok v : v_type v = TYPE_STR -> 2 + 2 * zlen (v_data v) < 2^32 ->
  allocate_and_export v = ROk (34 :: str_escape (v_data v) ++ [34]).
Proof.
  intros Ht HL. unfold allocate_and_export, get_export_length, do_export. rewrite Ht.
  change (TYPE_STR =? TYPE_STR) with true. cbn iota.
  change (TYPE_STR =? TYPE_H) with false. change (TYPE_STR =? TYPE_BLOB) with false. change (TYPE_STR =? TYPE_SEP) with false.
  change (TYPE_STR =? TYPE_NSEP) with false. change (TYPE_STR =? TYPE_STX) with false. change (TYPE_STR =? TYPE_MSG) with false. cbn [orb].
  unfold str_export_length. pose proof (escape_len (v_data v)) as HE.
  assert (HF : zlen (filter needs_escape (v_data v)) <= zlen (v_data v)).
  { clear. induction (v_data v) as [|c d IH]; [reflexivity|]. cbn [filter]. destruct (needs_escape c); rewrite ?zlen_cons; lia. }
  replace (2^32 - 1 <? zlen (v_data v) + 2 + zlen (filter needs_escape (v_data v))) with false by lia. cbn [rbind].
  unfold str_export. cbn [app]. rewrite zlen_cons, zlen_app, HE, zlen_cons, zlen_nil.
  replace (_ <? _) with false by lia. reflexivity.
Qed.
