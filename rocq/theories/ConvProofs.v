(** Proofs about conversions. *)
From Coq Require Import ZArith List Bool Lia.
From Verif Require Import Common TypeModel TypeSpec TypeProofs ConvTypes ConvModel ConvSpec.
Import ListNotations.
Open Scope Z_scope.

(** ** Kinds of types *)
Lemma existsb_In t l : existsb (Z.eqb t) l = true <-> In t l.
Proof. rewrite existsb_exists. split; [ intros (x & H & E); apply Z.eqb_eq in E; congruence | intros H; exists t; split; [ exact H | apply Z.eqb_refl ] ]. Qed.
Lemma is_64_iff t : is_64 t = true <-> In t integer_types.
Proof. apply existsb_In. Qed.
Lemma blob_ensure_iff f t : blob_ensure f t = true <-> In t (blob_types f).
Proof.
  unfold blob_ensure, blob_types. pose proof (existsb_In t [TYPE_BLOB; TYPE_SEP; TYPE_MSG; TYPE_STR; TYPE_NSEP; TYPE_STX; TYPE_HDLC]) as E. fold (is_blob t) in E.
  destruct (strict_blobs f); cbn [andb orb].
  - destruct (Z.eqb_spec t TYPE_BLOB) as [ -> | N ]; cbn [negb orb].
    + split; [ left; reflexivity | reflexivity ].
    + split; [ discriminate | intros [ <- | [] ]; congruence ].
  - rewrite <- E. rewrite negb_involutive. reflexivity.
Qed.
Lemma str_ensure_iff f t : str_ensure f t = true <-> In t (string_types f).
Proof.
  unfold str_ensure, string_types. pose proof (existsb_In t [TYPE_STR; TYPE_SEP; TYPE_NSEP; TYPE_STX]) as E. fold (is_str t) in E.
  destruct (strict_strings f); cbn [andb orb].
  - destruct (Z.eqb_spec t TYPE_STR) as [ -> | N ]; cbn [negb orb].
    + split; [ left; reflexivity | reflexivity ].
    + split; [ discriminate | intros [ <- | [] ]; congruence ].
  - rewrite <- E. rewrite negb_involutive. reflexivity.
Qed.

(** ** Numbers to text *)
Lemma dec_digits_short f : forall g n acc, 0 <= n < 10 ^ Z.of_nat g -> (0 < g)%nat -> zlen (Dec.dec_digits f n acc) <= Z.of_nat g + zlen acc.
Proof.
  induction f as [ | f IH ]; intros g n acc Hn Hg; cbn [Dec.dec_digits]; [ lia | ]. cbv zeta. destruct (Z.eqb_spec (n / 10) 0) as [ E | E ].
  - rewrite zlen_cons. lia.
  - destruct g as [ | g ]; [ lia | ]. rewrite Nat2Z.inj_succ, Z.pow_succ_r in Hn by lia. destruct g as [ | g ]; [ exfalso; cbn in Hn; lia | ].
    specialize (IH (S g) (n / 10) (48 + n mod 10 :: acc)). rewrite zlen_cons in IH. set (p := 10 ^ Z.of_nat (S g)) in *. clearbody p. lia.
Qed.
Lemma item_short sgn x : int64_range sgn x -> zlen (item_text sgn x) <= 20.
Proof.
  unfold int64_range, item_text. destruct sgn; intros H.
  - unfold dec_text_signed. destruct (x <? 0) eqn:E; [ | apply dec_text_len ]. rewrite zlen_cons. unfold dec_text, Dec.dec_str.
    pose proof (dec_digits_short 20 19 (- x) []) as D. change (10 ^ Z.of_nat 19) with 10000000000000000000 in D. rewrite zlen_nil in D. specialize (D ltac:(lia) ltac:(lia)). lia.
  - apply dec_text_len.
Qed.
Definition slot (t : list Z) : list Z := repeat 32 (20 - length t) ++ t.
Lemma memory_cons x xs : int64_memory (x :: xs) = le_enc 8 (x mod 2^64) ++ int64_memory xs.
Proof. reflexivity. Qed.
Lemma take8 (e r : list Z) : zlen e = 8 -> firstn 8 (e ++ r) = e /\ skipn 8 (e ++ r) = r.
Proof.
  intros L. unfold zlen in L. assert (length e = 8%nat) by lia. split.
  - rewrite firstn_app, H, Nat.sub_diag, firstn_O, app_nil_r. apply firstn_all2. lia.
  - rewrite skipn_app, H, Nat.sub_diag, skipn_O, skipn_all2 by lia. reflexivity.
Qed.
Lemma le_enc8_len x : zlen (le_enc 8 x) = 8.
Proof. now rewrite le_enc_len. Qed.
Lemma le_dec_mod x : le_dec (le_enc 8 (x mod 2^64)) = x mod 2^64.
Proof. apply le_dec_enc. change (256 ^ Z.of_nat 8) with (2^64). apply Z.mod_pos_bound. lia. Qed.
Lemma item_of_memory sgn x : int64_range sgn x ->
  (if sgn then dec_text_signed (as_signed (x mod 2^64)) else dec_text (x mod 2^64)) = item_text sgn x.
Proof. unfold item_text, int64_range. destruct sgn; intros H; [ now rewrite as_signed_mod | now rewrite Z.mod_small ]. Qed.
Lemma h2str_loop_ok sgn xs : Forall (int64_range sgn) xs -> h2str_loop sgn (length xs) (int64_memory xs) = ROk (concat (map (fun x => slot (item_text sgn x)) xs)).
Proof.
  induction 1 as [ | x xs R F IH ]; [ reflexivity | ]. cbn [length map concat]. rewrite memory_cons. cbn [h2str_loop].
  pose proof (le_enc8_len (x mod 2^64)) as L. destruct (take8 _ (int64_memory xs) L) as (T1 & T2).
  replace (zlen _ <? 8) with false by (rewrite zlen_app, L; pose proof (zlen_nonneg _ (int64_memory xs)); lia). rewrite T1, T2, le_dec_mod, IH. cbn [rbind]. rewrite item_of_memory by exact R. unfold slot. now rewrite <- app_assoc.
Qed.
Lemma slot_len t : zlen t <= 20 -> zlen (slot t) = 20.
Proof. intros L. unfold slot. rewrite zlen_app. unfold zlen in *. rewrite repeat_length. lia. Qed.
Definition cell (many sgn : bool) (x : Z) : list Z := if many then slot (item_text sgn x) else item_text sgn x.
Definition many (n : Z) : bool := negb (n =? 1).
Lemma cell_written m sgn x : int64_range sgn x -> written m sgn (cell m sgn x) x.
Proof.
  intros R. destruct (item_decimal _ _ R) as (D & _). unfold written, cell. destruct m; [ | exact D ]. split; [ | apply slot_len, item_short, R ].
  exists (repeat 32 (20 - length (item_text sgn x))), (item_text sgn x). split; [ reflexivity | ]. split; [ | exact D ]. apply Forall_forall. intros c H. now apply repeat_spec in H.
Qed.
Lemma h2str_ok v xs : In (v_type v) integer_types -> xs <> [] -> v_elements v = zlen xs -> v_data v = int64_memory xs -> Forall (int64_range (is_signed (v_flags v))) xs -> 20 * zlen xs < 2^32 ->
  h2str v = ROk (mk_value TYPE_STR 0 (v_tag v) 0 (zlen xs) (concat (map (cell (many (zlen xs)) (is_signed (v_flags v))) xs))).
Proof.
  intros T NE E D R B. unfold h2str. apply is_64_iff in T. rewrite T. cbn [negb]. rewrite E, D, memory_len. pose proof (zlen_nonneg _ xs) as N.
  assert (zlen xs <> 0) by (destruct xs; [ congruence | rewrite zlen_cons; pose proof (zlen_nonneg _ xs); lia ]).
  replace (zlen xs =? 0) with false by lia. replace (8 * zlen xs mod 8 =? 0) with true by lia. cbn [negb]. unfold many. destruct (Z.eqb_spec (zlen xs) 1) as [ E1 | N1 ].
  - rewrite (h_to_str_ok v xs R D NE) by (rewrite D, memory_len; lia). cbn [rbind negb]. do 2 f_equal. destruct xs as [ | x [ | ] ]; cbn [map comma_list concat cell]; [ congruence | now rewrite app_nil_r | unfold zlen in E1; cbn [length] in E1; lia ].
  - unfold LENGTH_MAX. replace (2^32 - 1 <? 20 * zlen xs) with false by lia. replace (Z.to_nat (zlen xs)) with (length xs) by (unfold zlen; lia). rewrite h2str_loop_ok by exact R. reflexivity.
Qed.

(** ** Text to numbers *)
Definition one (sgn : bool) (t : list Z) : option Z :=
  let text := skipn (length (take_while is_c_space t)) t in
  match (if sgn then strtoll text else strtoull text) with Some (x, k) => if Nat.eqb k (length text) then Some (u64 x) else None | None => None end.
Fixpoint ones (sgn : bool) (ts : list (list Z)) : option (list Z) :=
  match ts with [] => Some [] | t :: r => match one sgn t, ones sgn r with Some x, Some l => Some (x :: l) | _, _ => None end end.
Lemma str2h_loop_ones sgn size ts : Forall (fun t => length t = size) ts ->
  str2h_loop sgn (length ts) size (concat ts) = match ones sgn ts with Some l => ROk (flat_map (le_enc 8) l) | None => RErr NOT_POSSIBLE end.
Proof.
  induction 1 as [ | t r L F IH ]; [ reflexivity | ]. cbn [length concat str2h_loop ones]. 
  assert (E1 : firstn size (t ++ concat r) = t) by (rewrite firstn_app, L, Nat.sub_diag, firstn_O, app_nil_r; apply firstn_all2; lia).
  assert (E2 : skipn size (t ++ concat r) = concat r) by (rewrite skipn_app, L, Nat.sub_diag, skipn_O, skipn_all2 by lia; reflexivity).
  rewrite E1, E2, IH. unfold one. cbv zeta. destruct (if sgn then _ else _) as [ (x, k) | ]; [ | reflexivity ]. destruct (Nat.eqb k _); [ | reflexivity ]. destruct (ones sgn r); reflexivity.
Qed.
Definition char_ok (sgn : bool) (c : Z) : Prop := c = 32 \/ in_number sgn c.
Lemma char_ok_iff sgn d : (sgn = true -> In 45 d) -> (In 45 d -> sgn = true) -> forallb str2h_char d = true <-> Forall (char_ok sgn) d.
Proof.
  intros _ S. rewrite forallb_forall, Forall_forall. split; intros H c I; specialize (H c I).
  - unfold str2h_char in H. unfold char_ok, in_number. destruct (Z.eqb_spec c 45) as [ EC | NC ]; [ right; right; right; split; [ apply S; congruence | exact EC ] | ]. rewrite orb_false_r in H. unfold is_digit in H. unfold digit. lia.
  - unfold char_ok, in_number, digit in H. unfold str2h_char, is_digit. lia.
Qed.
Lemma space_blank sgn t : Forall (char_ok sgn) t -> exists blanks text, t = blanks ++ text /\ Forall (fun c => c = 32) blanks /\ take_while is_c_space t = blanks /\ Forall (char_ok sgn) text /\ (forall c r, text = c :: r -> c <> 32).
Proof.
  induction 1 as [ | c t H F (b & x & -> & B & W & X & NX) ]; [ exists [], []; repeat split; auto; discriminate | ]. cbn [take_while]. destruct (is_c_space c) eqn:E.
  - assert (c = 32) by (unfold is_c_space in E; unfold char_ok, in_number, digit in H; lia). subst c. exists (32 :: b), x. rewrite W. repeat split; auto.
  - exists [], (c :: b ++ x). repeat split; auto. intros c' r [= <- _]. intros ->. discriminate E.
Qed.
Lemma scan_number sgn text y : strto_scan text = Some y -> snd y = length text -> Forall (char_ok sgn) text -> Forall (in_number sgn) text.
Proof.
  intros E K F. assert (T : forall r q, take_while is_digit r = q -> length q = length r -> Forall digit r).
  { clear. induction r as [ | c r IH ]; intros q E L; [ constructor | ]. cbn [take_while] in E. destruct (is_digit c) eqn:D; [ | subst q; discriminate L ]. subst q. cbn [length] in L. constructor; [ unfold digit; unfold is_digit in D; lia | eapply IH; [ reflexivity | lia ] ]. }
  unfold strto_scan in E. destruct text as [ | c r ]; [ constructor | ]. apply Forall_cons_iff in F. destruct F as (C & F).
  destruct (Z.eqb_spec c 45) as [ -> | N1 ]; [ | destruct (Z.eqb_spec c 43) as [ -> | N2 ] ].
  - destruct (take_while is_digit r) as [ | d ds ] eqn:ET; [ discriminate | ]. injection E as <-. cbn [snd] in K. constructor.
    + destruct C as [ C | C ]; [ discriminate | exact C ].
    + eapply Forall_impl; [ | apply (T r _ ET) ]; [ intros a A; left; exact A | cbn [length] in *; lia ].
  - destruct (take_while is_digit r) as [ | d ds ] eqn:ET; [ discriminate | ]. injection E as <-. cbn [snd] in K. constructor.
    + right. left. reflexivity.
    + eapply Forall_impl; [ | apply (T r _ ET) ]; [ intros a A; left; exact A | cbn [length] in *; lia ].
  - destruct (take_while is_digit (c :: r)) as [ | d ds ] eqn:ET; [ discriminate | ]. injection E as <-. cbn [snd] in K.
    eapply Forall_impl; [ | apply (T (c :: r) _ ET) ]; [ intros a A; left; exact A | cbn [length] in *; lia ].
Qed.
Lemma blanks_split (b b' x x' : list Z) : b ++ x = b' ++ x' -> Forall (fun c => c = 32) b -> Forall (fun c => c = 32) b' ->
  (forall c r, x = c :: r -> c <> 32) -> (forall c r, x' = c :: r -> c <> 32) -> b = b' /\ x = x'.
Proof.
  intros E B B' N N'. revert b' E B'. induction B as [ | c b -> B IH ]; intros [ | c' b' ] E B'; cbn [app] in E.
  - auto.
  - apply Forall_cons_iff in B'. destruct B' as (-> & _). exfalso. now apply (N _ _ E).
  - exfalso. now apply (N' _ _ (eq_sym E)).
  - apply Forall_cons_iff in B'. destruct B' as (-> & B'). injection E as E. destruct (IH b' E B') as (-> & ->). auto.
Qed.
Lemma number_not_blank sgn text : Forall (in_number sgn) text -> forall c r, text = c :: r -> c <> 32.
Proof. intros F c r ->. apply Forall_cons_iff in F. destruct F as (C & _). unfold in_number, digit in C. lia. Qed.
Lemma one_iff sgn t y : Forall (char_ok sgn) t -> one sgn t = Some y <-> exists x, blanked sgn t x /\ y = u64 (clamp64 sgn x).
Proof.
  intros F. destruct (space_blank sgn t F) as (b & text & -> & B & W & X & NX). unfold one. rewrite W. cbv zeta. rewrite skipn_app, Nat.sub_diag, skipn_O, skipn_all2 by lia. cbn [app].
  assert (ST : (if sgn then strtoll text else strtoull text) = match strto_scan text with None => None | Some (neg, a, n) =>
     Some (if sgn then (if neg then Z.max (- a) (- 2^63) else Z.min a (2^63 - 1)) else let x := Z.min a (2^64 - 1) in if neg then u64 (- x) else x, n) end).
  { unfold strtoll, strtoull. destruct sgn; destruct (strto_scan text) as [ ((neg, a), n) | ]; reflexivity. }
  rewrite ST. split.
  - destruct (strto_scan text) as [ ((neg, a), n) | ] eqn:E; [ | discriminate ]. destruct (Nat.eqb_spec n (length text)) as [ -> | ]; [ | discriminate ]. intros [= <-].
    pose proof (scan_number sgn text _ E eq_refl X) as IN. destruct (strto_decimal_inv sgn text neg a _ IN E eq_refl) as (D & NG). destruct (strto_decimal _ _ _ D) as (neg' & a' & E' & _ & A & _). rewrite E in E'. injection E' as <- <-.
    exists (if neg then - a else a). split; [ exists b, text; auto | ]. f_equal. apply strto_clamp; assumption.
  - intros (x & (b' & text' & E & B' & D) & ->). destruct (decimal_in_number _ _ _ D) as (IN & NE). destruct (blanks_split _ _ _ _ E B B' NX (number_not_blank _ _ IN)) as (-> & ->).
    destruct (strto_decimal _ _ _ D) as (neg & a & E' & -> & A & NG). rewrite E', Nat.eqb_refl. do 2 f_equal. apply strto_clamp; assumption.
Qed.
Lemma ones_iff sgn ts ys : Forall (Forall (char_ok sgn)) ts -> ones sgn ts = Some ys <-> exists xs, Forall2 (blanked sgn) ts xs /\ ys = map (fun x => u64 (clamp64 sgn x)) xs.
Proof.
  intros F. revert ys. induction F as [ | t ts H F IH ]; intros ys; cbn [ones].
  - split; [ intros [= <-]; exists []; split; [ constructor | reflexivity ] | intros (xs & F2 & ->); inversion F2; reflexivity ].
  - split.
    + destruct (one sgn t) as [ y | ] eqn:E1; [ | discriminate ]. destruct (ones sgn ts) as [ l | ] eqn:E2; [ | discriminate ]. intros [= <-]. apply one_iff in E1; [ | exact H ]. destruct E1 as (x & B & ->).
      destruct (proj1 (IH l) eq_refl) as (xs & F2 & ->). exists (x :: xs). split; [ constructor; assumption | reflexivity ].
    + intros (xs & F2 & ->). inversion F2 as [ | t' x ts' xs' B F2' ]; subst. cbn [map].
      assert (E1 : one sgn t = Some (u64 (clamp64 sgn x))) by (apply one_iff; [ exact H | eauto ]).
      assert (E2 : ones sgn ts = Some (map (fun x => u64 (clamp64 sgn x)) xs')) by (apply IH; eauto). now rewrite E1, E2.
Qed.
Lemma memory_map sgn xs : flat_map (le_enc 8) (map (fun x => u64 (clamp64 sgn x)) xs) = int64_memory (map (clamp64 sgn) xs).
Proof. induction xs as [ | x xs IH ]; [ reflexivity | ]. cbn [map flat_map]. rewrite memory_cons, IH. reflexivity. Qed.
Lemma Forall_concat (P : Z -> Prop) ts : Forall P (concat ts) <-> Forall (Forall P) ts.
Proof. induction ts as [ | t ts IH ]; cbn [concat]; [ split; constructor | ]. rewrite Forall_app, Forall_cons_iff, IH. reflexivity. Qed.
Lemma blanked_chars sgn t x : blanked sgn t x -> Forall (char_ok sgn) t.
Proof.
  intros (b & text & -> & B & D). apply Forall_app. split; [ eapply Forall_impl; [ | exact B ]; intros c ->; left; reflexivity | ]. destruct (decimal_in_number _ _ _ D) as (IN & _). eapply Forall_impl; [ | exact IN ]. intros c C. right. exact C.
Qed.
Lemma concat_len size (ts : list (list Z)) : Forall (fun t => zlen t = size) ts -> zlen (concat ts) = size * zlen ts.
Proof. induction 1 as [ | t ts L F IH ]; [ rewrite zlen_nil; cbn [concat]; rewrite zlen_nil; lia | ]. cbn [concat]. rewrite zlen_app, zlen_cons, IH, L. lia. Qed.

Section Str2h.
Variables (f : flags) (v : value) (ts : list (list Z)) (size : Z).
Hypotheses (T : In (v_type v) (string_types f)) (D : v_data v = concat ts) (E : v_elements v = zlen ts) (NE : ts <> [])
  (L : Forall (fun t => zlen t = size) ts) (S1 : 1 <= size) (B : 8 * zlen ts < 2^32).
Definition minus : bool := existsb (Z.eqb 45) (v_data v).
Lemma minus_iff : minus = true <-> In 45 (v_data v).
Proof. apply existsb_In. Qed.
Lemma str2h_eq : str2h f v =
  if negb (forallb str2h_char (v_data v)) then RErr NOT_POSSIBLE
  else if 64 <? size then RErr NOT_POSSIBLE
  else match ones minus ts with
       | Some l => ROk (mk_value TYPE_H (if minus then 1 else 0) (v_tag v) 0 (zlen ts) (flat_map (le_enc 8) l))
       | None => RErr NOT_POSSIBLE
       end.
Proof.
  unfold str2h. rewrite (proj2 (str_ensure_iff f (v_type v)) T). cbn [negb]. fold minus. cbv zeta. pose proof (concat_len size ts L) as CL. rewrite <- D in CL.
  assert (N : 1 <= zlen ts) by (destruct ts; [ congruence | rewrite zlen_cons; pose proof (zlen_nonneg _ l0); lia ]).
  rewrite E, CL. replace (zlen ts =? 0) with false by lia. rewrite Z.mod_mul by lia. change (0 =? 0) with true. cbn [negb]. replace (size * zlen ts =? 0) with false by nia.
  destruct (forallb str2h_char (v_data v)); [ cbn [negb] | reflexivity ]. unfold LENGTH_MAX. replace (2^32 - 1 <? zlen ts * 8) with false by lia. rewrite Z.div_mul by lia. destruct (64 <? size); [ reflexivity | ].
  replace (Z.to_nat (zlen ts)) with (length ts) by (unfold zlen; lia). rewrite D at 1. rewrite str2h_loop_ones.
  - destruct (ones minus ts); reflexivity.
  - eapply Forall_impl; [ | exact L ]. intros t H. cbv beta in H. unfold zlen in H. lia.
Qed.
Lemma str2h_iff w : str2h f v = ROk w <-> size <= 64 /\ exists xs, Forall2 (blanked minus) ts xs /\
  w = mk_value TYPE_H (if minus then 1 else 0) (v_tag v) 0 (zlen ts) (int64_memory (map (clamp64 minus) xs)).
Proof.
  rewrite str2h_eq. assert (CI : forallb str2h_char (v_data v) = true <-> Forall (char_ok minus) (v_data v)) by (apply char_ok_iff; apply minus_iff). split.
  - destruct (forallb str2h_char (v_data v)); [ cbn [negb] | discriminate ]. pose proof (proj1 CI eq_refl) as F. rewrite D in F. apply Forall_concat in F. destruct (Z.ltb_spec 64 size) as [ | S2 ]; [ discriminate | ].
    destruct (ones minus ts) as [ l | ] eqn:O; [ | discriminate ]. intros [= <-]. apply ones_iff in O; [ | exact F ]. destruct O as (xs & F2 & ->). split; [ exact S2 | ]. exists xs. split; [ exact F2 | ]. now rewrite memory_map.
  - intros (S2 & xs & F2 & ->). assert (F : Forall (Forall (char_ok minus)) ts). { clear - F2. induction F2; constructor; [ eapply blanked_chars; eassumption | assumption ]. }
    rewrite (proj2 CI) by (rewrite D; apply Forall_concat; exact F). cbn [negb]. replace (64 <? size) with false by lia. rewrite (proj2 (ones_iff minus ts _ F)) by eauto. now rewrite memory_map.
Qed.
Lemma str2h_else : (exists w, str2h f v = ROk w) \/ str2h f v = RErr NOT_POSSIBLE.
Proof. rewrite str2h_eq. destruct (negb _); [ auto | ]. destruct (64 <? size); [ auto | ]. destruct (ones minus ts); eauto. Qed.
End Str2h.

(** ** There and back *)
Lemma decimal_no_minus sgn text x : decimal sgn text x -> ~ In 45 text -> decimal false text x.
Proof.
  intros (neg & s & ds & S & NE & DD & -> & ->) N. exists neg, s, ds. repeat apply conj; auto. destruct S as [ | | S ]; [ constructor | constructor | ]. exfalso. apply N. left. reflexivity.
Qed.
Lemma decimal_false_chars text x : decimal false text x -> ~ In 45 text /\ 0 <= x.
Proof.
  intros D. pose proof (decimal_in_number _ _ _ D) as (IN & _). split.
  - intros I. rewrite Forall_forall in IN. specialize (IN 45 I). unfold in_number, digit in IN. destruct IN as [ H | [ H | (H & _) ] ]; [ lia | lia | discriminate ].
  - destruct (strto_decimal _ _ _ D) as (neg & a & _ & -> & A & NG). rewrite NG by reflexivity. exact A.
Qed.
Lemma cell_blanked m sgn x : int64_range sgn x -> exists b, cell m sgn x = b ++ item_text sgn x /\ Forall (fun c => c = 32) b.
Proof.
  intros R. unfold cell. destruct m; [ | exists []; split; [ reflexivity | constructor ] ]. exists (repeat 32 (20 - length (item_text sgn x))). split; [ reflexivity | ]. apply Forall_forall. intros c H. now apply repeat_spec in H.
Qed.
Lemma clamp_range sgn x : int64_range sgn x -> clamp64 sgn x = x.
Proof. unfold clamp64, int64_range. destruct sgn; lia. Qed.
Lemma round_trip f v xs : In (v_type v) integer_types -> xs <> [] -> v_elements v = zlen xs -> v_data v = int64_memory xs -> Forall (int64_range (is_signed (v_flags v))) xs -> 20 * zlen xs < 2^32 ->
  exists s w, h2str v = ROk s /\ str2h f s = ROk w /\ v_data w = v_data v /\ v_elements w = v_elements v /\ v_tag w = v_tag v /\ v_type w = TYPE_H /\ (is_signed (v_flags w) = true -> is_signed (v_flags v) = true).
Proof.
  intros T NE E D R B. rewrite (h2str_ok v xs T NE E D R B). set (sgn := is_signed (v_flags v)) in *. set (m := many (zlen xs)). eexists. set (s := mk_value _ _ _ _ _ _). set (ts := map (cell m sgn) xs).
  assert (exists size, Forall (fun t => zlen t = size) ts /\ 1 <= size <= 64) as (size & L & S1 & S2).
  { unfold ts, m, many. destruct (Z.eqb_spec (zlen xs) 1) as [ E1 | ]; cbn [negb cell].
    - destruct xs as [ | x [ | ] ]; [ congruence | | unfold zlen in E1; cbn [length] in E1; lia ]. apply Forall_inv in R. destruct (item_decimal _ _ R) as (DX & _). pose proof (item_short _ _ R). destruct (decimal_in_number _ _ _ DX) as (_ & N0).
      exists (zlen (item_text sgn x)). split; [ constructor; [ reflexivity | constructor ] | ]. destruct (item_text sgn x) as [ | c l ]; [ congruence | rewrite zlen_cons in *; pose proof (zlen_nonneg _ l); lia ].
    - exists 20. split; [ | lia ]. apply Forall_forall. intros t I. apply in_map_iff in I. destruct I as (x & <- & I). rewrite Forall_forall in R. apply slot_len, item_short, R, I. }
  assert (TS : In (v_type s) (string_types f)) by (unfold string_types; cbn; destruct (strict_strings f); left; reflexivity).
  assert (DS : v_data s = concat ts) by reflexivity. assert (ES : v_elements s = zlen ts) by (unfold ts, zlen; rewrite map_length; reflexivity).
  assert (NS : ts <> []) by (unfold ts; destruct xs; [ congruence | discriminate ]). assert (ZS : zlen ts = zlen xs) by (unfold ts, zlen; rewrite map_length; reflexivity).
  set (sg := minus s). pose proof (minus_iff s) as MI. fold sg in MI.
  assert (SG : sg = true -> sgn = true).
  { intros H. apply MI in H. rewrite DS in H. apply in_concat in H. destruct H as (t & I & J). apply in_map_iff in I. destruct I as (x & <- & I). rewrite Forall_forall in R. specialize (R x I). destruct (cell_blanked m sgn x R) as (b & EC & BB). rewrite EC in J. apply in_app_or in J.
    destruct J as [ J | J ]; [ rewrite Forall_forall in BB; specialize (BB 45 J); discriminate | ]. destruct sgn; [ reflexivity | ]. exfalso. destruct (item_decimal _ _ R) as (DX & _). now apply (proj1 (decimal_false_chars _ _ DX)). }
  assert (BL : forall x, In x xs -> blanked sg (cell m sgn x) x /\ clamp64 sg x = x).
  { intros x I. pose proof R as R'. rewrite Forall_forall in R'. specialize (R' x I). destruct (item_decimal _ _ R') as (DX & _). destruct (cell_blanked m sgn x R') as (b & EC & BB). destruct sg eqn:SE.
    - rewrite (SG eq_refl) in *. split; [ exists b, (item_text true x); auto | apply clamp_range, R' ].
    - assert (NM : ~ In 45 (item_text sgn x)). { intros J. assert (H : false = true) by (apply MI; rewrite DS; apply in_concat; exists (cell m sgn x); split; [ apply in_map, I | rewrite EC; apply in_or_app; auto ]). discriminate H. }
      pose proof (decimal_no_minus _ _ _ DX NM) as D0. split; [ exists b, (item_text sgn x); auto | ]. apply clamp_range. destruct (decimal_false_chars _ _ D0) as (_ & P). unfold int64_range in *. destruct sgn; lia. }
  exists (mk_value TYPE_H (if sg then 1 else 0) (v_tag v) 0 (zlen xs) (int64_memory xs)). split; [ reflexivity | ]. split.
  - apply (str2h_iff f s ts size TS DS ES NS L S1 ltac:(lia)). split; [ exact S2 | ]. exists xs. fold sg. split.
    + unfold ts. revert BL. generalize (cell m sgn) sg. clear. intros g b BL. induction xs as [ | x xs IH ]; cbn [map]; [ constructor | ]. constructor; [ apply BL; now left | apply IH; intros y I; apply BL; now right ].
    + rewrite ZS. f_equal. f_equal. revert BL. generalize (cell m sgn) sg. clear. intros g b BL. induction xs as [ | x xs IH ]; cbn [map]; [ reflexivity | ]. f_equal; [ symmetry; apply BL; now left | apply IH; intros y I; apply BL; now right ].
  - cbn [v_data v_elements v_tag v_type v_flags]. rewrite D, E. repeat apply conj; auto. intros H. apply SG. destruct sg; [ reflexivity | discriminate ].
Qed.

(** ** Hexadecimal and characters *)
Lemma hex_digit_value n : 0 <= n < 16 -> hex_value (hex_digit n) = Some n.
Proof.
  intros H. unfold hex_digit, hex_value. destruct (Z.ltb_spec n 10).
  - replace ((48 <=? 48 + n) && (48 + n <=? 57)) with true by lia. f_equal. lia.
  - replace ((48 <=? 87 + n) && (87 + n <=? 57)) with false by lia. replace ((97 <=? 87 + n) && (87 + n <=? 102)) with true by lia. f_equal. lia.
Qed.
Definition hex (d : list Z) : list Z := flat_map (fun c => [hex_digit (c / 16); hex_digit (c mod 16)]) d.
Lemma unhex_hex d : bytes d -> unhex (hex d) = Some d.
Proof.
  induction 1 as [ | c d H F IH ]; [ reflexivity | ]. unfold byte in H. unfold hex in *. cbn [flat_map app unhex]. rewrite IH, !hex_digit_value by lia. do 2 f_equal. lia.
Qed.
Lemma hex_len d : zlen (hex d) = 2 * zlen d.
Proof. induction d as [ | c d IH ]; [ reflexivity | ]. unfold hex in *. cbn [flat_map app]. rewrite !zlen_cons, IH. lia. Qed.
Lemma hex_bytes d : bytes d -> bytes (hex d).
Proof.
  assert (G : forall n, 0 <= n < 16 -> byte (hex_digit n)) by (intros n H; unfold hex_digit, byte; destruct (n <? 10) eqn:E; lia).
  induction 1 as [ | c d H F IH ]; [ constructor | ]. unfold byte in H. unfold hex in *. cbn [flat_map app]. constructor; [ apply G; lia | constructor; [ apply G; lia | exact IH ] ].
Qed.
Lemma blob2hex_ok f v : In (v_type v) (blob_types f) -> 2 * zlen (v_data v) + 1 < 2^32 -> 1 <= v_elements v -> zlen (v_data v) mod v_elements v = 0 ->
  blob2hex f v = ROk (set_type_data v TYPE_STR (hex (v_data v))).
Proof.
  intros T B E M. unfold blob2hex. rewrite (proj2 (blob_ensure_iff f _) T). cbn [negb]. unfold bin_to_hex. pose proof (zlen_nonneg _ (v_data v)). unfold u32. rewrite Z.mod_small by lia.
  replace (_ <? _) with false by lia. cbn [rbind]. fold (hex (v_data v)). unfold LENGTH_MAX. rewrite hex_len. replace (2^32 - 1 <? _) with false by lia. unfold value_set_data. cbn [set_type set_type_data v_elements]. replace (v_elements v =? 0) with false by lia.
  rewrite hex_len. replace (2 * zlen (v_data v) mod v_elements v) with 0. { reflexivity. }
  symmetry. apply Z.mod_divide in M; [ | lia ]. apply Z.mod_divide; [ lia | ]. now apply Z.divide_mul_r.
Qed.
Lemma hchar_loop_ok xs : hchar_loop (length xs) (int64_memory xs) = if forallb (fun x => x mod 2^64 <=? 255) xs then ROk (map (fun x => x mod 2^64) xs) else RErr NOT_POSSIBLE.
Proof.
  induction xs as [ | x xs IH ]; [ reflexivity | ]. cbn [length forallb map]. rewrite memory_cons. cbn [hchar_loop]. pose proof (le_enc8_len (x mod 2^64)) as L. destruct (take8 _ (int64_memory xs) L) as (T1 & T2).
  replace (zlen _ <? 8) with false by (rewrite zlen_app, L; pose proof (zlen_nonneg _ (int64_memory xs)); lia). rewrite T1, T2, le_dec_mod, IH. destruct (Z.ltb_spec 255 (x mod 2^64)).
  - replace (x mod 2^64 <=? 255) with false by lia. reflexivity.
  - replace (x mod 2^64 <=? 255) with true by lia. cbn [andb]. destruct (forallb _ xs); reflexivity.
Qed.
Lemma hchar2str_eq v xs : In (v_type v) integer_types -> xs <> [] -> v_elements v = zlen xs -> v_data v = int64_memory xs ->
  hchar2str v = if forallb (fun x => x mod 2^64 <=? 255) xs then ROk (mk_value TYPE_STR 0 (v_tag v) 0 1 (map (fun x => x mod 2^64) xs)) else RErr NOT_POSSIBLE.
Proof.
  intros T NE E D. unfold hchar2str. apply is_64_iff in T. rewrite T. cbn [negb]. rewrite E, D, memory_len. assert (zlen xs <> 0) by (destruct xs; [ congruence | rewrite zlen_cons; pose proof (zlen_nonneg _ xs); lia ]).
  replace (zlen xs =? 0) with false by lia. replace (8 * zlen xs mod 8 =? 0) with true by lia. cbn [negb]. replace (Z.to_nat (zlen xs)) with (length xs) by (unfold zlen; lia). rewrite hchar_loop_ok. destruct (forallb _ xs); reflexivity.
Qed.
Lemma chars_iff sgn xs : Forall (int64_range sgn) xs -> forallb (fun x => x mod 2^64 <=? 255) xs = true <-> Forall byte xs.
Proof.
  intros R. rewrite forallb_forall. rewrite !Forall_forall in *. split; intros H x I; specialize (H x I); specialize (R x I); unfold int64_range in R; unfold byte in *.
  - destruct sgn; [ | rewrite Z.mod_small in H by lia; lia ]. destruct (Z.ltb_spec x 0); [ rewrite <- (Z.mod_unique x (2^64) (-1) (x + 2^64)) in H by lia; lia | rewrite Z.mod_small in H by lia; lia ].
  - rewrite Z.mod_small by lia. lia.
Qed.
Lemma chars_data xs : Forall byte xs -> map (fun x => x mod 2^64) xs = xs.
Proof. induction 1 as [ | x xs H F IH ]; [ reflexivity | ]. cbn [map]. rewrite IH, Z.mod_small by (unfold byte in H; lia). reflexivity. Qed.
