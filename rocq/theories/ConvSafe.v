(** Proofs that conversions are safe, and about recipes. *)
From Coq Require Import ZArith List Bool Lia.
From Verif Require Import Common TypeModel TypeSpec TypeProofs ArrayModel ArrayProofs ConvTypes ConvModel ConvSpec ConvProofs.
Import ListNotations.
Open Scope Z_scope.

(** ** Any memory of integers is that of some integers *)
Lemma be_dec_eq a : forall b, bytes a -> bytes b -> zlen a = zlen b -> be_dec a = be_dec b -> a = b.
Proof.
  induction a as [ | x a IH ]; intros [ | y b ] A B L E; rewrite ?zlen_cons, ?zlen_nil in L; try (pose proof (zlen_nonneg _ a)); try (pose proof (zlen_nonneg _ b)); [ reflexivity | lia | lia | ].
  apply bytes_cons in A. destruct A as (X & A). apply bytes_cons in B. destruct B as (Y & B). rewrite !be_dec_cons in E. assert (L' : zlen a = zlen b) by lia. pose proof (be_dec_bound a A) as BA. pose proof (be_dec_bound b B) as BB. rewrite L' in *. set (p := 256 ^ zlen b) in *. clearbody p.
  assert (x = y) by nia. subst y. f_equal. apply IH; auto. lia.
Qed.
Lemma le_enc_dec d : bytes d -> zlen d = 8 -> le_enc 8 (le_dec d) = d.
Proof.
  intros B L. unfold le_enc, le_dec. assert (BR : bytes (rev d)) by (apply Forall_rev, B). assert (LR : zlen (rev d) = 8) by (rewrite zlen_rev; exact L).
  rewrite <- (rev_involutive d) at 2. f_equal. apply be_dec_eq; [ apply be_enc_bytes | exact BR | rewrite be_enc_len; lia | ]. apply be_dec_enc. pose proof (be_dec_bound _ BR) as H. rewrite LR in H. exact H.
Qed.
Lemma le_dec_bound d : bytes d -> zlen d = 8 -> 0 <= le_dec d < 2^64.
Proof. intros B L. unfold le_dec. assert (BR : bytes (rev d)) by (apply Forall_rev, B). pose proof (be_dec_bound _ BR) as H. rewrite zlen_rev, L in H. exact H. Qed.
Lemma memory_of sgn n : forall d, bytes d -> zlen d = 8 * Z.of_nat n -> exists xs, length xs = n /\ d = int64_memory xs /\ Forall (int64_range sgn) xs.
Proof.
  induction n as [ | n IH ]; intros d B L.
  - exists []. destruct d; [ auto | rewrite zlen_cons in L; pose proof (zlen_nonneg _ d); lia ].
  - rewrite <- (firstn_skipn 8 d) in B |- *. apply bytes_app in B. destruct B as (B1 & B2).
    assert (L1 : zlen (firstn 8 d) = 8) by (unfold zlen in *; rewrite firstn_length; lia). assert (L2 : zlen (skipn 8 d) = 8 * Z.of_nat n) by (unfold zlen in *; rewrite skipn_length; lia).
    destruct (IH _ B2 L2) as (xs & LX & -> & R). pose proof (le_dec_bound _ B1 L1) as BD. set (y := le_dec (firstn 8 d)) in *.
    assert (exists x, int64_range sgn x /\ x mod 2^64 = y) as (x & RX & MX).
    { destruct sgn; [ | exists y; split; [ exact BD | apply Z.mod_small, BD ] ]. destruct (Z.ltb_spec y (2^63)); [ exists y; split; [ unfold int64_range; lia | apply Z.mod_small; lia ] | ].
      exists (y - 2^64). split; [ unfold int64_range; lia | ]. symmetry. apply (Z.mod_unique (y - 2^64) (2^64) (-1) y); lia. }
    exists (x :: xs). split; [ cbn [length]; lia | ]. split; [ | constructor; assumption ]. rewrite memory_cons, MX. unfold y. rewrite le_enc_dec by assumption. reflexivity.
Qed.
Lemma memory_bytes xs : bytes (int64_memory xs).
Proof. induction xs as [ | x xs IH ]; [ constructor | ]. rewrite memory_cons. apply bytes_app. split; [ apply Forall_rev, be_enc_bytes | exact IH ]. Qed.

(** ** One conversion *)
Definition good (n : Z) (r : res value) : Prop := (exists w, r = ROk w /\ well_formed w /\ zlen (v_data w) + 1 <= n) \/ (exists e, r = RErr e /\ In e [1; 2; 4]).
Lemma good_not n : good n (RErr NOT_POSSIBLE).
Proof. right. exists NOT_POSSIBLE. split; [ reflexivity | cbn; auto ]. Qed.
Lemma cells_bytes m sgn xs : Forall (int64_range sgn) xs -> bytes (concat (map (cell m sgn) xs)).
Proof.
  intros R. apply Forall_concat. apply Forall_forall. intros t I. apply in_map_iff in I. destruct I as (x & <- & I). rewrite Forall_forall in R. specialize (R x I). destruct (cell_blanked m sgn x R) as (b & -> & B). apply bytes_app. split.
  - eapply Forall_impl; [ | exact B ]. intros c ->. unfold byte. lia.
  - destruct (item_decimal _ _ R) as (D & _). destruct (decimal_in_number _ _ _ D) as (IN & _). eapply Forall_impl; [ | exact IN ]. intros c C. unfold in_number, digit in C. unfold byte. lia.
Qed.
Lemma str_not_integer : ~ In TYPE_STR integer_types /\ ~ In TYPE_BLOB integer_types /\ ~ In TYPE_VAIN integer_types.
Proof. repeat apply conj; intros H; cbn in H; repeat (destruct H as [ H | H ]; [ discriminate | ]); exact H. Qed.
Lemma wf_set_type v t : well_formed v -> ~ In t integer_types -> well_formed (set_type v t).
Proof. intros (B & E & M & _) N. split; [ exact B | ]. split; [ exact E | ]. split; [ exact M | ]. intros H. now apply N in H. Qed.
Lemma good_set_type v t n : well_formed v -> ~ In t integer_types -> zlen (v_data v) + 1 <= n -> good n (ROk (set_type v t)).
Proof. intros W N L. left. exists (set_type v t). split; [ reflexivity | ]. split; [ apply wf_set_type; assumption | exact L ]. Qed.
Lemma integers v : well_formed v -> In (v_type v) integer_types -> exists xs, xs <> [] /\ v_elements v = zlen xs /\ v_data v = int64_memory xs /\ Forall (int64_range (is_signed (v_flags v))) xs.
Proof.
  intros (B & E & M & I) T. specialize (I T). destruct (memory_of (is_signed (v_flags v)) (Z.to_nat (v_elements v)) (v_data v) B) as (xs & L & D & R); [ lia | ]. exists xs. split; [ destruct xs; [ cbn [length] in L; lia | discriminate ] | ]. split; [ unfold zlen; lia | auto ].
Qed.
Lemma mod_one z : z mod 1 = 0. Proof. apply Z.mod_1_r. Qed.
Lemma cells_len m sgn xs : Forall (int64_range sgn) xs -> zlen (concat (map (cell m sgn) xs)) <= 20 * zlen xs /\ (m = true -> zlen (concat (map (cell m sgn) xs)) = 20 * zlen xs).
Proof.
  induction 1 as [ | x xs R F (IH1 & IH2) ]; [ cbn; split; [ lia | reflexivity ] | ]. cbn [map concat]. rewrite zlen_app, zlen_cons. pose proof (item_short _ _ R) as S. destruct m; cbn [cell] in *.
  - rewrite slot_len by exact S. specialize (IH2 eq_refl). split; [ lia | intros _; lia ].
  - split; [ lia | discriminate ].
Qed.
Lemma Forall2_len {A B} (R : A -> B -> Prop) l l' : Forall2 R l l' -> length l = length l'.
Proof. induction 1; cbn [length]; auto. Qed.
Lemma convert_good f m v : well_formed v -> 3 * zlen (v_data v) < 2^32 - 1 -> good (16 * (zlen (v_data v) + 1)) (convert f m v).
Proof.
  intros W B. pose proof W as (WB & WE & WM & WI). destruct str_not_integer as (NS & NB & NV). pose proof (zlen_nonneg _ (v_data v)) as N. unfold convert. destruct (v_type v =? to_type m); [ left; exists v; split; [ reflexivity | split; [ exact W | lia ] ] | ].
  assert (V : good (16 * (zlen (v_data v) + 1)) (ROk (new_vain (v_tag v)))).
  { left. exists (new_vain (v_tag v)). split; [ reflexivity | ]. split; [ | cbn [new_vain v_data]; rewrite zlen_nil; lia ]. split; [ constructor | ]. split; [ cbn; lia | ]. split; [ reflexivity | ]. intros H. now apply NV in H. }
  destruct m; cbn [convert_function].
  - destruct (is_64 (v_type v)) eqn:T; [ | unfold h2str; rewrite T; apply good_not ]. apply is_64_iff in T. destruct (integers v W T) as (xs & NE & E & D & R). pose proof (WI T) as L8. rewrite (h2str_ok v xs T NE E D R) by lia.
    left. eexists. split; [ reflexivity | ]. destruct (cells_len (many (zlen xs)) _ _ R) as (C1 & C2). split; [ | cbn [v_data]; lia ]. split; [ apply cells_bytes, R | ]. cbn [v_elements v_data v_type]. split; [ lia | ]. split; [ | intros H; now apply NS in H ].
    unfold many in *. destruct (Z.eqb_spec (zlen xs) 1) as [ -> | ]; [ apply mod_one | ]. rewrite C2 by reflexivity. apply Z.mod_mul. lia.
  - unfold h2vain. destruct (is_64 (v_type v)) eqn:T; [ | apply good_not ]. cbn [negb]. apply is_64_iff in T. pose proof (WI T). destruct (1 <? v_elements v); [ apply good_not | ]. replace (zlen (v_data v) <? 8) with false by lia. destruct (negb _); [ apply good_not | exact V ].
  - unfold blob2. destruct (blob_ensure f (v_type v)); [ apply good_set_type; auto; lia | apply good_not ].
  - unfold blob2. destruct (blob_ensure f (v_type v)); [ apply good_set_type; auto; lia | apply good_not ].
  - destruct (blob_ensure f (v_type v)) eqn:T; [ | unfold blob2hex; rewrite T; apply good_not ]. apply blob_ensure_iff in T. rewrite (blob2hex_ok f v T) by (assumption || lia). left. eexists. split; [ reflexivity | ]. cbn [set_type_data v_data]. rewrite hex_len. split; [ | lia ].
    split; [ apply hex_bytes, WB | ]. cbn [set_type_data v_elements v_data v_type]. split; [ exact WE | ]. split; [ | intros H; now apply NS in H ]. rewrite hex_len. apply Z.mod_divide in WM; [ | lia ]. apply Z.mod_divide; [ lia | ]. now apply Z.divide_mul_r.
  - unfold str2str. destruct (str_ensure f (v_type v)); [ apply good_set_type; auto; lia | apply good_not ].
  - unfold str2blob. destruct (str_ensure f (v_type v)); [ | apply good_not ]. cbn [negb]. destruct (zlen (v_data v) =? 0); [ apply good_not | apply good_set_type; auto; lia ].
  - destruct (str_ensure f (v_type v)) eqn:T; [ | unfold str2h; rewrite T; apply good_not ]. destruct (Z.eqb_spec (zlen (v_data v)) 0) as [ Z0 | NZ ].
    { unfold str2h. rewrite T. cbn [negb]. replace (v_elements v =? 0) with false by lia. rewrite WM. change (0 =? 0) with true. cbn [negb]. rewrite Z0. apply good_not. }
    pose proof T as T'. apply str_ensure_iff in T. set (size := zlen (v_data v) / v_elements v). assert (SZ : zlen (v_data v) = size * v_elements v). { unfold size. rewrite (Z.div_mod (zlen (v_data v)) (v_elements v)) at 1 by lia. rewrite WM. lia. }
    assert (S1 : 1 <= size) by nia. assert (LN : length (v_data v) = (Z.to_nat (v_elements v) * Z.to_nat size)%nat) by (apply Nat2Z.inj; rewrite Nat2Z.inj_mul, !Z2Nat.id by lia; unfold zlen in SZ; lia).
    destruct (chunks_ok (Z.to_nat size) (Z.to_nat (v_elements v)) (v_data v) LN) as (C1 & C2 & C3). set (ts := chunks _ _ _) in *. assert (LZ : v_elements v = zlen ts) by (unfold zlen; lia).
    assert (LS : Forall (fun t => zlen t = size) ts) by (eapply Forall_impl; [ | exact C3 ]; intros t H; cbv beta in H; unfold zlen; lia).
    destruct (Z.ltb_spec LENGTH_MAX (v_elements v * 8)) as [ BIG | SMALL ].
    { unfold str2h. rewrite T'. cbn [negb]. replace (v_elements v =? 0) with false by lia. rewrite WM. change (0 =? 0) with true. cbn [negb]. replace (zlen (v_data v) =? 0) with false by lia. destruct (negb _); [ apply good_not | ]. cbv zeta.
      replace (LENGTH_MAX <? v_elements v * 8) with true by lia. right. exists 1. split; [ reflexivity | cbn; auto ]. }
    assert (NE : ts <> []) by (intros E0; rewrite E0, zlen_nil in LZ; lia). unfold LENGTH_MAX in SMALL. destruct (str2h_else f v ts size T (eq_sym C1) LZ NE LS S1 ltac:(lia)) as [ (w & E) | E ]; [ | rewrite E; apply good_not ].
    rewrite E. apply (str2h_iff f v ts size T (eq_sym C1) LZ NE LS S1 ltac:(lia)) in E. destruct E as (_ & xs & F2 & ->). left. eexists. split; [ reflexivity | ]. assert (LX : zlen (map (clamp64 (minus v)) xs) = zlen ts) by (unfold zlen; rewrite map_length; apply f_equal; symmetry; eapply Forall2_len; exact F2).
    cbn [v_data]. rewrite memory_len, LX. split; [ | nia ]. split; [ apply memory_bytes | ]. cbn [v_elements v_data v_type]. rewrite memory_len, LX. split; [ lia | ]. split; [ apply Z.mod_mul; lia | reflexivity ].
  - unfold str2vain. destruct (str_ensure f (v_type v)); [ | apply good_not ]. cbn [negb]. destruct (1 <? v_elements v); [ apply good_not | ]. destruct (negb _); [ apply good_not | exact V ].
  - unfold msg2blob. destruct (v_type v =? TYPE_MSG); [ apply good_set_type; auto; lia | apply good_not ].
  - unfold vain2h. destruct (v_type v =? TYPE_VAIN); [ | apply good_not ]. left. eexists. split; [ reflexivity | ]. split; [ | cbn [v_data]; change (zlen (repeat 0 8)) with 8; lia ]. split; [ repeat constructor; unfold byte; lia | ]. split; [ cbn; lia | ]. split; reflexivity.
  - unfold vain2str. destruct (v_type v =? TYPE_VAIN); [ | apply good_not ]. left. eexists. split; [ reflexivity | ]. split; [ | cbn [v_data]; rewrite zlen_nil; lia ]. split; [ constructor | ]. split; [ cbn; lia | ]. split; [ reflexivity | ]. intros H. now apply NS in H.
  - destruct (is_64 (v_type v)) eqn:T; [ | unfold hchar2str; rewrite T; apply good_not ]. apply is_64_iff in T. destruct (integers v W T) as (xs & NE & E & D & R). pose proof (WI T) as L8. rewrite (hchar2str_eq v xs T NE E D). destruct (forallb _ xs) eqn:FB; [ | apply good_not ].
    apply (chars_iff _ _ R) in FB. rewrite (chars_data _ FB). left. eexists. split; [ reflexivity | ]. cbn [v_data]. split; [ | lia ]. split; [ exact FB | ]. cbn [v_elements v_data v_type]. split; [ lia | ]. split; [ apply mod_one | ]. intros H. now apply NS in H.
Qed.

(** ** Lists *)
Lemma list_good f ms : forall v, well_formed v -> (zlen (v_data v) + 1) * 16 ^ zlen ms < 2^30 -> (exists w, convert_list f ms v = ROk w /\ well_formed w) \/ exists e, convert_list f ms v = RErr e.
Proof.
  induction ms as [ | m ms IH ]; intros v W B; cbn [convert_list]; [ right; eauto | ]. rewrite zlen_cons in B. pose proof (zlen_nonneg _ ms) as N. pose proof (zlen_nonneg _ (v_data v)) as N'. rewrite Z.pow_add_r in B by lia. change (16 ^ 1) with 16 in B.
  assert (P : 1 <= 16 ^ zlen ms) by (apply (Z.pow_le_mono_r 16 0); lia). destruct (convert_good f m v W ltac:(nia)) as [ (w & E & WW & L) | (e & E & I) ]; rewrite E.
  - assert (B' : (zlen (v_data w) + 1) * 16 ^ zlen ms < 2^30). { eapply Z.le_lt_trans; [ | exact B ]. rewrite Z.mul_assoc, (Z.mul_comm _ 16), <- Z.mul_assoc. rewrite Z.mul_assoc. apply Z.mul_le_mono_nonneg_r; lia. }
    destruct (IH w WW B') as [ (x & -> & WX) | (e & ->) ]; [ left; eauto | ]. destruct (e =? DONE); [ left; eauto | right; eauto ].
  - destruct (_ && _); [ | right; eauto ]. assert (B' : (zlen (v_data v) + 1) * 16 ^ zlen ms < 2^30) by nia. destruct (IH v W B') as [ (x & -> & WX) | (e' & ->) ]; [ left; eauto | ]. destruct (e' =? DONE); right; eauto.
Qed.
Lemma h_to_str_err v e : h_to_str v <> RErr e.
Proof.
  assert (G : forall xs first room e, h_to_str_loop (v_flags v) first xs room <> RErr e).
  { induction xs as [ | x xs IH ]; intros first room e'; cbn [h_to_str_loop]; [ discriminate | ]. cbv zeta. destruct (_ <? _); [ discriminate | ]. specialize (IH false). destruct (h_to_str_loop _ _ _ _) eqn:E; cbn [rbind]; try discriminate. intros [= ->]. now apply IH in E. }
  unfold h_to_str. cbv zeta. destruct (negb _); [ discriminate | ]. destruct (h_to_str_loop _ _ _ _) eqn:E; cbn [rbind]; try discriminate; [ destruct (_ <=? _); discriminate | now apply G in E ].
Qed.
Lemma h2str_loop_err sgn n : forall d e, h2str_loop sgn n d <> RErr e.
Proof. induction n as [ | n IH ]; intros d e; cbn [h2str_loop]; [ discriminate | ]. destruct (_ <? _); [ discriminate | ]. cbv zeta. specialize (IH (skipn 8 d)). destruct (h2str_loop _ _ _); cbn [rbind]; try discriminate. intros [= ->]. now apply (IH e). Qed.
Lemma str2h_loop_err sgn n size : forall d e, str2h_loop sgn n size d = RErr e -> e = 4.
Proof.
  induction n as [ | n IH ]; intros d e; cbn [str2h_loop]; [ discriminate | ]. cbv zeta. destruct (if sgn then _ else _) as [ (x, k) | ]; [ | intros [= <-]; reflexivity ]. destruct (Nat.eqb _ _); [ | intros [= <-]; reflexivity ].
  specialize (IH (skipn size d)). destruct (str2h_loop _ _ _ _); cbn [rbind]; try discriminate. intros [= <-]. now apply IH.
Qed.
Lemma hchar_loop_err n : forall d e, hchar_loop n d = RErr e -> e = 4.
Proof.
  induction n as [ | n IH ]; intros d e; cbn [hchar_loop]; [ discriminate | ]. destruct (_ <? 8); [ discriminate | ]. cbv zeta. destruct (255 <? _); [ intros [= <-]; reflexivity | ]. specialize (IH (skipn 8 d)). destruct (hchar_loop _ _); cbn [rbind]; try discriminate. intros [= <-]. now apply IH.
Qed.
Lemma convert_err f m v e : convert f m v = RErr e -> e <> DONE.
Proof.
  unfold convert. destruct (_ =? to_type m); [ discriminate | ]. intros H ->. destruct m; cbn [convert_function] in H.
  - unfold h2str in H. destruct (negb _); [ discriminate | ]. destruct (_ =? 0); [ discriminate | ]. destruct (negb _); [ discriminate | ].
    destruct (v_elements v =? 1).
    + destruct (h_to_str v) eqn:E; cbn [rbind] in H; try discriminate. now apply h_to_str_err in E.
    + destruct (LENGTH_MAX <? _); [ discriminate | ]. destruct (h2str_loop _ _ _) eqn:E; cbn [rbind] in H; try discriminate. now apply h2str_loop_err in E.
  - unfold h2vain in H. repeat match type of H with (if ?b then _ else _) = _ => destruct b; try discriminate end.
  - unfold blob2 in H. destruct (negb _); discriminate.
  - unfold blob2 in H. destruct (negb _); discriminate.
  - unfold blob2hex, bin_to_hex, value_set_data in H. destruct (negb _); [ discriminate | ]. destruct (_ <? _); cbn [rbind] in H; [ discriminate | ]. repeat match type of H with (if ?b then _ else _) = _ => destruct b; try discriminate end.
  - unfold str2str in H. destruct (negb _); discriminate.
  - unfold str2blob in H. repeat match type of H with (if ?b then _ else _) = _ => destruct b; try discriminate end.
  - unfold str2h in H. cbv zeta in H. repeat match type of H with (if ?b then _ else _) = _ => destruct b; try discriminate end.
    destruct (str2h_loop _ _ _ _) eqn:E; cbn [rbind] in H; try discriminate. apply str2h_loop_err in E. subst. discriminate.
  - unfold str2vain in H. repeat match type of H with (if ?b then _ else _) = _ => destruct b; try discriminate end.
  - unfold msg2blob in H. destruct (negb _); discriminate.
  - unfold vain2h in H. destruct (negb _); discriminate.
  - unfold vain2str in H. destruct (negb _); discriminate.
  - unfold hchar2str in H. repeat match type of H with (if ?b then _ else _) = _ => destruct b; try discriminate end.
    destruct (hchar_loop _ _) eqn:E; cbn [rbind] in H; try discriminate. apply hchar_loop_err in E. subst. discriminate.
Qed.
Lemma list_last f m : try_next f = true -> forall ms v, convert_list f (ms ++ [m]) v = match recipe (convert f) ms v with ROk v' => convert f m v' | x => x end.
Proof.
  intros TN. induction ms as [ | a ms IH ]; intros v; cbn [app convert_list recipe].
  - destruct (convert f m v) as [ w | e | | ] eqn:E; try reflexivity. rewrite TN, andb_true_r. destruct (Z.eqb_spec e NOT_POSSIBLE) as [ -> | ]; reflexivity.
  - assert (ND : forall w e, match recipe (convert f) ms w with ROk v' => convert f m v' | x => x end = RErr e -> e <> DONE).
    { clear. induction ms as [ | a ms IH ]; intros w e; cbn [recipe]; [ apply convert_err | ]. destruct (convert f a w) as [ x | e' | | ] eqn:E; try discriminate; [ apply IH | ]. destruct (e' =? 4); [ apply IH | ]. intros [= <-]. now apply convert_err in E. }
    destruct (convert f a v) as [ w | e | | ] eqn:E; try reflexivity.
    + rewrite IH. specialize (ND w). destruct (match recipe (convert f) ms w with ROk v' => convert f m v' | x => x end) as [ x | e | | ]; try reflexivity. specialize (ND e eq_refl). now replace (e =? DONE) with false by lia.
    + rewrite TN, andb_true_r. unfold NOT_POSSIBLE. destruct (e =? 4); [ | reflexivity ]. rewrite IH. specialize (ND v). destruct (match recipe (convert f) ms v with ROk v' => convert f m v' | x => x end) as [ x | e' | | ]; try reflexivity. specialize (ND e' eq_refl). now replace (e' =? DONE) with false by lia.
Qed.
