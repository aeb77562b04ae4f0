From Coq Require Import ZArith List Bool Lia.
From Verif Require Import Common Utf8Model Utf8Spec.
Import ListNotations.
Open Scope Z_scope.

Lemma land63 : forall x, Z.land x 63 = x mod 64.
Proof. intros. apply (land_ones_mod x 6); lia. Qed.
Lemma land31 : forall x, Z.land x 31 = x mod 32.
Proof. intros. apply (land_ones_mod x 5); lia. Qed.
Lemma land15 : forall x, Z.land x 15 = x mod 16.
Proof. intros. apply (land_ones_mod x 4); lia. Qed.
Lemma land7 : forall x, Z.land x 7 = x mod 8.
Proof. intros. apply (land_ones_mod x 3); lia. Qed.

Lemma pack2 : forall c d, Z.lor (Z.shiftl (Z.land c 31) 6) (Z.land d 63) = (c mod 32) * 64 + d mod 64.
Proof. intros. rewrite Z.shiftl_mul_pow2, land31, land63 by lia. apply (lor_add 6); lia. Qed.
Lemma pack3 : forall c d e,
  Z.lor (Z.lor (Z.shiftl (Z.land c 15) 12) (Z.shiftl (Z.land d 63) 6)) (Z.land e 63)
  = (c mod 16) * 4096 + (d mod 64) * 64 + e mod 64.
Proof.
  intros. rewrite !Z.shiftl_mul_pow2, land15, !land63 by lia.
  rewrite (lor_add 12) by lia.
  replace (c mod 16 * 2^12 + d mod 64 * 2^6) with ((c mod 16 * 64 + d mod 64) * 2^6) by lia.
  rewrite (lor_add 6) by lia. lia.
Qed.
Lemma pack4 : forall c d e f,
  Z.lor (Z.lor (Z.lor (Z.shiftl (Z.land c 7) 18) (Z.shiftl (Z.land d 63) 12)) (Z.shiftl (Z.land e 63) 6)) (Z.land f 63)
  = (c mod 8) * 262144 + (d mod 64) * 4096 + (e mod 64) * 64 + f mod 64.
Proof.
  intros. rewrite !Z.shiftl_mul_pow2, land7, !land63 by lia.
  rewrite (lor_add 18) by lia.
  replace (c mod 8 * 2^18 + d mod 64 * 2^12) with ((c mod 8 * 64 + d mod 64) * 2^12) by lia.
  rewrite (lor_add 12) by lia.
  replace ((c mod 8 * 64 + d mod 64) * 2 ^ 12 + e mod 64 * 2^6)
    with (((c mod 8 * 64 + d mod 64) * 64 + e mod 64) * 2^6) by lia.
  rewrite (lor_add 6) by lia. lia.
Qed.

(** A division by a power of 64 of a bounded number, kept abstract for lia. *)
Lemma get_encode : forall c rest, scalar c -> utf8_get_character (utf8_encode c ++ rest) = U8Ok c rest.
Proof.
  intros c rest H. unfold scalar in H. unfold utf8_encode, utf8_get_character.
  destruct (Z.ltb_spec c 128).
  { cbn [app]. destruct (Z.leb_spec c 127); [ reflexivity | lia ]. }
  destruct (Z.ltb_spec c 2048).
  { cbn [app]. destruct (Z.leb_spec (192 + c / 64) 127); [ lia | ]. unfold utf8_continue.
    replace (in_range 194 223 (192 + c / 64) && in_range 128 191 (128 + c mod 64)) with true
      by (unfold in_range; lia).
    rewrite pack2. f_equal. lia. }
  destruct (Z.ltb_spec c 65536).
  { cbn [app]. destruct (Z.leb_spec (224 + c / 4096) 127); [ lia | ]. unfold utf8_continue.
    assert (E1 : c / 4096 = (c / 64) / 64) by (rewrite Z.div_div by lia; reflexivity).
    rewrite E1.
    set (q := c / 64) in *. assert (c = 64 * q + c mod 64) by (subst q; lia).
    assert (0 <= c mod 64 < 64) by lia. set (r := c mod 64) in *. clearbody q r.
    replace (in_range 194 223 (224 + q / 64) && in_range 128 191 (128 + q mod 64)) with false
      by (unfold in_range; lia).
    match goal with |- context [if ?b then _ else _] => replace b with true end.
    - rewrite pack3. f_equal. lia.
    - unfold in_range. lia. }
  cbn [app]. destruct (Z.leb_spec (240 + c / 262144) 127); [ lia | ]. unfold utf8_continue.
  assert (E1 : c / 4096 = (c / 64) / 64) by (rewrite Z.div_div by lia; reflexivity).
  assert (E2 : c / 262144 = (c / 64) / 64 / 64) by (rewrite !Z.div_div by lia; reflexivity).
  rewrite E1, E2.
  assert (c = 64 * (c / 64) + c mod 64) by lia. assert (0 <= c mod 64 < 64) by lia.
  set (q := c / 64) in *. set (r := c mod 64) in *.
  assert (q = 64 * (q / 64) + q mod 64) by lia. assert (0 <= q mod 64 < 64) by lia.
  set (q2 := q / 64) in *. set (r2 := q mod 64) in *. clear E1 E2. clearbody q r q2 r2.
  replace (in_range 194 223 (240 + q2 / 64) && in_range 128 191 (128 + q2 mod 64)) with false
    by (unfold in_range; lia).
  match goal with |- context [if ?b then _ else _] => replace b with false end.
  2: { unfold in_range. lia. }
  match goal with |- context [if ?b then _ else _] => replace b with true end.
  - rewrite pack4. f_equal. lia.
  - unfold in_range. lia.
Qed.

(** Conversely, a successful read of a non-empty buffer reads an encoding. *)
Lemma get_decode : forall b buf c rest, bytes (b :: buf) ->
  utf8_get_character (b :: buf) = U8Ok c rest ->
  scalar c /\ b :: buf = utf8_encode c ++ rest.
Proof.
  intros c buf v rest HB H. apply bytes_cons in HB as [Hc HB]. unfold byte in Hc.
  cbn [utf8_get_character] in H. destruct (Z.leb_spec c 127).
  { injection H as <- <-. split; [ unfold scalar; lia | ]. unfold utf8_encode.
    destruct (Z.ltb_spec c 128); [ reflexivity | lia ]. }
  destruct buf as [|d buf]; [ discriminate H | ]. cbn [utf8_continue] in H.
  apply bytes_cons in HB as [Hd HB]. unfold byte in Hd.
  destruct (in_range 194 223 c && in_range 128 191 d) eqn:E2.
  { rewrite pack2 in H. injection H as <- <-. unfold in_range in E2. unfold scalar, utf8_encode.
    destruct (Z.ltb_spec (c mod 32 * 64 + d mod 64) 128); [ lia | ].
    destruct (Z.ltb_spec (c mod 32 * 64 + d mod 64) 2048); [ | lia ].
    split; [ lia | ]. cbn [app]. repeat f_equal; lia. }
  destruct buf as [|e buf]; [ discriminate H | ].
  apply bytes_cons in HB as [He HB]. unfold byte in He.
  match type of H with context [if ?b then _ else _] => destruct b eqn:E3 end.
  { rewrite pack3 in H. injection H as <- <-. unfold in_range in E3. unfold scalar, utf8_encode.
    set (v := c mod 16 * 4096 + d mod 64 * 64 + e mod 64).
    assert (V : v = (c mod 16 * 64 + d mod 64) * 64 + e mod 64) by (subst v; lia).
    assert (Vq : v / 64 = c mod 16 * 64 + d mod 64) by lia.
    assert (Vr : v mod 64 = e mod 64) by lia.
    assert (Vqq : v / 4096 = c mod 16).
    { change 4096 with (64 * 64). rewrite <- Z.div_div, Vq by lia. lia. }
    assert (Vqr : (v / 64) mod 64 = d mod 64) by (rewrite Vq; lia).
    assert (c = 224 + c mod 16) by lia. assert (d = 128 + d mod 64) by lia. assert (e = 128 + e mod 64) by lia.
    destruct (Z.ltb_spec v 128); [ subst v; lia | ].
    destruct (Z.ltb_spec v 2048); [ subst v; lia | ].
    destruct (Z.ltb_spec v 65536); [ | subst v; lia ].
    split; [ | cbn [app]; rewrite Vqq, Vqr, Vr; repeat f_equal; auto ].
    clear Vq Vr Vqq Vqr. subst v. lia. }
  destruct buf as [|f buf]; [ discriminate H | ].
  apply bytes_cons in HB as [Hf HB]. unfold byte in Hf.
  match type of H with context [if ?b then _ else _] => destruct b eqn:E4 end; [ | discriminate H ].
  rewrite pack4 in H. injection H as <- <-. unfold in_range in E4. unfold scalar, utf8_encode.
  set (v := c mod 8 * 262144 + d mod 64 * 4096 + e mod 64 * 64 + f mod 64).
  assert (V : v = (c mod 8 * 4096 + d mod 64 * 64 + e mod 64) * 64 + f mod 64) by (subst v; lia).
  assert (Vq : v / 64 = (c mod 8 * 64 + d mod 64) * 64 + e mod 64) by lia.
  assert (Vr : v mod 64 = f mod 64) by lia.
  assert (Vqq : v / 4096 = c mod 8 * 64 + d mod 64).
  { change 4096 with (64 * 64). rewrite <- Z.div_div, Vq by lia. lia. }
  assert (Vqqq : v / 262144 = c mod 8).
  { change 262144 with (4096 * 64). rewrite <- Z.div_div, Vqq by lia. lia. }
  assert (Vqr : (v / 64) mod 64 = e mod 64) by (rewrite Vq; lia).
  assert (Vqqr : (v / 4096) mod 64 = d mod 64) by (rewrite Vqq; lia).
  assert (c = 240 + c mod 8) by lia. assert (d = 128 + d mod 64) by lia.
  assert (e = 128 + e mod 64) by lia. assert (f = 128 + f mod 64) by lia.
  clear E2 E3.
  assert (B : 65536 <= v <= 1114111) by (clear Vq Vr Vqq Vqqq Vqr Vqqr V; subst v; lia).
  destruct (Z.ltb_spec v 128); [ lia | ].
  destruct (Z.ltb_spec v 2048); [ lia | ].
  destruct (Z.ltb_spec v 65536); [ lia | ].
  split; [ lia | ].
  cbn [app]. rewrite Vqqq, Vqr, Vqqr, Vr. repeat f_equal; auto.
Qed.

Lemma encode_nonempty : forall c, utf8_encode c <> [].
Proof. intros. unfold utf8_encode. repeat match goal with |- context [if ?b then _ else _] => destruct b end; discriminate. Qed.

Lemma get_rest_shorter : forall buf c rest, bytes buf -> buf <> [] ->
  utf8_get_character buf = U8Ok c rest -> (length rest < length buf)%nat.
Proof.
  intros [|b buf] c rest HB Hne H; [ congruence | ].
  apply get_decode in H as [_ E]; auto. rewrite E, app_length.
  pose proof (encode_nonempty c). destruct (utf8_encode c); [ congruence | cbn; lia ].
Qed.

Lemma encode_all_nonul : forall cs, ~ In 0 (utf8_encode_all cs) -> ~ In 0 cs.
Proof.
  intros cs H HI. apply H. unfold utf8_encode_all. apply in_flat_map. exists 0. split; [ auto | left; reflexivity ].
Qed.

Lemma iterate_wf : forall A (cb : A -> Z -> Z * A) cs st fuel,
  Forall scalar cs -> ~ In 0 cs -> (length cs < fuel)%nat ->
  utf8_iterate_loop fuel cb st (utf8_encode_all cs) = Some (cb_run cb st cs).
Proof.
  induction cs as [|c cs IH]; intros st [|fuel] HS HN HF; cbn [length] in HF; try lia; cbn [utf8_iterate_loop].
  - reflexivity.
  - inversion HS as [|? ? Hc HS']; subst.
    cbn [utf8_encode_all flat_map]. rewrite get_encode by auto.
    destruct (Z.eqb_spec c 0); [ exfalso; apply HN; left; auto | ].
    cbn [cb_run]. destruct (cb st c) as [ret st'].
    destruct (Z.eqb_spec ret 0); [ | reflexivity ].
    apply IH; auto; [ | lia ]. intros HI. apply HN. right. auto.
Qed.

Lemma encode_all_len : forall cs, (length cs <= length (utf8_encode_all cs))%nat.
Proof.
  induction cs as [|c cs IH]; [ auto | ]. cbn [utf8_encode_all flat_map]. rewrite app_length.
  fold (utf8_encode_all cs). pose proof (encode_nonempty c). destruct (utf8_encode c); [ congruence | cbn; lia ].
Qed.

(** Every buffer is some well formed text followed by nothing, by a NUL, or by
    something that does not start with an encoded character. *)
Lemma utf8_prefix : forall n buf, (length buf <= n)%nat -> bytes buf ->
  exists cs tail, Forall scalar cs /\ ~ In 0 cs /\ buf = utf8_encode_all cs ++ tail /\
    (tail = [] \/ (exists t, tail = 0 :: t) \/
     (tail <> [] /\ utf8_get_character tail = U8Fail)).
Proof.
  induction n as [|n IH]; intros buf HL HB.
  - destruct buf; [ | cbn in HL; lia ]. exists [], []. cbn. auto 6.
  - destruct buf as [|b r]; [ exists [], []; cbn; auto 6 | ].
    destruct (utf8_get_character (b :: r)) as [|c rest] eqn:E.
    + exists [], (b :: r). cbn. split; [ auto | ]. split; [ auto | ]. split; [ auto | ]. right. right. split; [ discriminate | auto ].
    + destruct (get_decode _ _ _ _ HB E) as [Hs Hd].
      destruct (Z.eq_dec c 0) as [->|Hc].
      * exists [], (b :: r). cbn [utf8_encode_all flat_map app]. split; [ auto | ]. split; [ auto | ]. split; [ auto | ]. right. left.
        exists rest. exact Hd.
      * pose proof (get_rest_shorter _ _ _ HB ltac:(discriminate) E) as HS.
        rewrite Hd in HB. apply bytes_app in HB as [_ HB].
        destruct (IH rest) as (cs & tail & H1 & H2 & H3 & H4); [ cbn in HL, HS; lia | auto | ].
        exists (c :: cs), tail. split; [ constructor; auto | ]. split.
        { intros [E0|HI]; [ congruence | auto ]. }
        split; [ | auto ]. cbn [utf8_encode_all flat_map]. fold (utf8_encode_all cs). rewrite <- app_assoc, <- H3. exact Hd.
Qed.

(** Outcome of the iterator on such a buffer. *)
Lemma iterate_prefix : forall A (cb : A -> Z -> Z * A) cs tail st fuel,
  Forall scalar cs -> ~ In 0 cs -> (length cs < fuel)%nat ->
  (tail = [] \/ (exists t, tail = 0 :: t) \/ (tail <> [] /\ utf8_get_character tail = U8Fail)) ->
  utf8_iterate_loop fuel cb st (utf8_encode_all cs ++ tail) =
  Some (let '(ret, st') := cb_run cb st cs in
        if ret =? 0 then ((match utf8_get_character tail with U8Fail => 1 | _ => 0 end), st') else (ret, st')).
Proof.
  induction cs as [|c cs IH]; intros tail st [|fuel] HS HN HF HT; cbn [length] in HF; try lia; cbn [utf8_iterate_loop].
  - cbn [utf8_encode_all flat_map app cb_run].
    destruct HT as [-> | [[t ->] | [_ ->]]]; reflexivity.
  - inversion HS as [|? ? Hc HS']; subst.
    cbn [utf8_encode_all flat_map]. rewrite <- app_assoc, get_encode by auto.
    destruct (Z.eqb_spec c 0); [ exfalso; apply HN; left; auto | ].
    cbn [cb_run]. destruct (cb st c) as [ret st'].
    destruct (Z.eqb_spec ret 0) as [|Hr]; [ | apply Z.eqb_neq in Hr; rewrite Hr; reflexivity ].
    apply IH; auto; [ | lia ]. intros HI. apply HN. right. auto.
Qed.

Lemma validate_is_iterate : forall fuel buf,
  utf8_validate_loop fuel buf = option_map fst (utf8_iterate_loop fuel (fun (st : unit) _ => (0, st)) tt buf).
Proof.
  induction fuel as [|fuel IH]; intros buf; [ reflexivity | ]. cbn [utf8_validate_loop utf8_iterate_loop].
  destruct (utf8_get_character buf); [ reflexivity | ]. destruct (result =? 0); [ reflexivity | ]. apply IH.
Qed.

Lemma cb_run_const : forall cs, cb_run (fun (st : unit) _ => (0, st)) tt cs = (0, tt).
Proof. induction cs; auto. Qed.

Lemma validate_prefix : forall cs tail,
  Forall scalar cs -> ~ In 0 cs ->
  (tail = [] \/ (exists t, tail = 0 :: t) \/ (tail <> [] /\ utf8_get_character tail = U8Fail)) ->
  utf8_validate (utf8_encode_all cs ++ tail) = Some (match utf8_get_character tail with U8Fail => 1 | _ => 0 end).
Proof.
  intros cs tail H1 H2 H3. unfold utf8_validate. rewrite validate_is_iterate, iterate_prefix; auto.
  - rewrite cb_run_const. reflexivity.
  - rewrite app_length. pose proof (encode_all_len cs). lia.
Qed.

(** No well formed text starts with something unreadable. *)
Lemma fail_not_wf : forall tail cs, tail <> [] -> utf8_get_character tail = U8Fail -> Forall scalar cs ->
  tail <> utf8_encode_all cs.
Proof.
  intros tail [|c cs] Hne HF HS E; subst.
  - apply Hne. reflexivity.
  - inversion HS; subst. cbn [utf8_encode_all flat_map] in HF. rewrite get_encode in HF by auto. discriminate.
Qed.

Lemma encode_all_app : forall a b, utf8_encode_all (a ++ b) = utf8_encode_all a ++ utf8_encode_all b.
Proof. intros. apply flat_map_app. Qed.

Lemma wf_strip : forall cs cs' tail, Forall scalar cs -> Forall scalar cs' ->
  utf8_encode_all cs' = utf8_encode_all cs ++ tail -> exists cs2, Forall scalar cs2 /\ tail = utf8_encode_all cs2.
Proof.
  induction cs as [|c cs IH]; intros cs' tail HS HS' E.
  - exists cs'. auto.
  - inversion HS; subst. destruct cs' as [|c' cs'].
    { cbn [utf8_encode_all flat_map] in E. pose proof (encode_nonempty c). destruct (utf8_encode c); [ congruence | discriminate E ]. }
    inversion HS'; subst. cbn [utf8_encode_all flat_map] in E. rewrite <- app_assoc in E.
    apply (f_equal utf8_get_character) in E. rewrite !get_encode in E by auto. injection E as E1 E2.
    apply (IH cs'); auto.
Qed.
