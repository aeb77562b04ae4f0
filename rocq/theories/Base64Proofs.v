From Coq Require Import ZArith List Bool Lia.
From Verif Require Import Common Base64Model Base64Spec.
Import ListNotations.
Open Scope Z_scope.

(** ** Sextets *)
Definition all_sextets : list Z := map Z.of_nat (seq 0 64).
Lemma sweep_sextet : forall f, forallb f all_sextets = true -> forall v, 0 <= v < 64 -> f v = true.
Proof.
  intros f H v Hv. rewrite forallb_forall in H. apply H. unfold all_sextets.
  apply in_map_iff. exists (Z.to_nat v). split; [lia|]. apply in_seq. lia.
Qed.

Lemma tbl_std_rfc : forall v, 0 <= v < 64 -> tbl_at base64_table v = rfc_char 43 47 v.
Proof.
  intros v Hv. apply Z.eqb_eq.
  apply (sweep_sextet (fun v => tbl_at base64_table v =? rfc_char 43 47 v)); [ vm_compute; reflexivity | auto ].
Qed.
Lemma tbl_url_rfc : forall v, 0 <= v < 64 -> tbl_at base64url_table v = rfc_char 45 95 v.
Proof.
  intros v Hv. apply Z.eqb_eq.
  apply (sweep_sextet (fun v => tbl_at base64url_table v =? rfc_char 45 95 v)); [ vm_compute; reflexivity | auto ].
Qed.

Lemma land3 : forall x, Z.land x 3 = x mod 4.
Proof. intros. exact (land_ones_mod x 2 ltac:(lia)). Qed.
Lemma land15 : forall x, Z.land x 15 = x mod 16.
Proof. intros. exact (land_ones_mod x 4 ltac:(lia)). Qed.
Lemma land63 : forall x, Z.land x 63 = x mod 64.
Proof. intros. exact (land_ones_mod x 6 ltac:(lia)). Qed.

Lemma lor_add16 : forall x y, 0 <= y < 16 -> Z.lor (x * 16) y = x * 16 + y.
Proof. intros. exact (lor_add 4 x y ltac:(lia) ltac:(lia)). Qed.
Lemma lor_add4 : forall x y, 0 <= y < 4 -> Z.lor (x * 4) y = x * 4 + y.
Proof. intros. exact (lor_add 2 x y ltac:(lia) ltac:(lia)). Qed.
Lemma lor_add64 : forall x y, 0 <= y < 64 -> Z.lor (x * 64) y = x * 64 + y.
Proof. intros. exact (lor_add 6 x y ltac:(lia) ltac:(lia)). Qed.

Ltac bits :=
  rewrite ?land3, ?land15, ?land63;
  rewrite ?Z.shiftr_div_pow2, ?Z.shiftl_mul_pow2 by lia;
  change (2^2) with 4; change (2^4) with 16; change (2^6) with 64; change (2^8) with 256;
  change (2^12) with 4096; change (2^16) with 65536; change (2^18) with 262144.

(** The sextets of a group as arithmetic on the 24 bit number. *)
Lemma sx0 : forall a b c, byte a -> byte b -> byte c ->
  Z.shiftr a 2 = (a * 2^16 + b * 2^8 + c) / 2^18.
Proof. unfold byte; intros. bits. lia. Qed.
Lemma sx1 : forall a b c, byte a -> byte b -> byte c ->
  Z.lor (Z.shiftl (Z.land a 3) 4) (Z.shiftr b 4) = ((a * 2^16 + b * 2^8 + c) / 2^12) mod 64.
Proof. unfold byte; intros. bits. rewrite lor_add16 by lia. lia. Qed.
Lemma sx2 : forall a b c, byte a -> byte b -> byte c ->
  Z.lor (Z.shiftl (Z.land b 15) 2) (Z.shiftr c 6) = ((a * 2^16 + b * 2^8 + c) / 2^6) mod 64.
Proof. unfold byte; intros. bits. rewrite lor_add4 by lia. lia. Qed.
Lemma sx3 : forall a b c, byte a -> byte b -> byte c ->
  Z.land c 63 = (a * 2^16 + b * 2^8 + c) mod 64.
Proof. unfold byte; intros. bits. lia. Qed.

Lemma quad_bound : forall a b c, byte a -> byte b -> byte c ->
  0 <= (a * 2^16 + b * 2^8 + c) / 2^18 < 64.
Proof. unfold byte; intros. bits. lia. Qed.

Lemma group_std_rfc : forall a b c, byte a -> byte b -> byte c ->
  b64_group base64_table a b c = rfc_quad 43 47 (a * 2^16 + b * 2^8 + c).
Proof.
  intros. unfold b64_group, rfc_quad. cbn [map].
  rewrite (sx0 a b c), (sx1 a b c), (sx2 a b c), (sx3 a b c) by auto.
  rewrite !tbl_std_rfc; auto using quad_bound; apply Z.mod_pos_bound; lia.
Qed.
Lemma group_url_rfc : forall a b c, byte a -> byte b -> byte c ->
  b64_group base64url_table a b c = rfc_quad 45 95 (a * 2^16 + b * 2^8 + c).
Proof.
  intros. unfold b64_group, rfc_quad. cbn [map].
  rewrite (sx0 a b c), (sx1 a b c), (sx2 a b c), (sx3 a b c) by auto.
  rewrite !tbl_url_rfc; auto using quad_bound; apply Z.mod_pos_bound; lia.
Qed.

Lemma byte0 : byte 0. Proof. unfold byte; lia. Qed.

(** The tails are the group with zero octets, cut. *)
Lemma tail2 : forall tbl a b,
  [tbl_at tbl (Z.shiftr a 2);
   tbl_at tbl (Z.lor (Z.shiftl (Z.land a 3) 4) (Z.shiftr b 4));
   tbl_at tbl (Z.shiftl (Z.land b 15) 2)] = firstn 3 (b64_group tbl a b 0).
Proof.
  intros. unfold b64_group. cbn [firstn].
  rewrite Z.shiftr_0_l. rewrite Z.lor_0_r. reflexivity.
Qed.
Lemma tail1 : forall tbl a,
  [tbl_at tbl (Z.shiftr a 2); tbl_at tbl (Z.shiftl (Z.land a 3) 4)] = firstn 2 (b64_group tbl a 0 0).
Proof.
  intros. unfold b64_group. cbn [firstn].
  rewrite Z.shiftr_0_l. rewrite Z.lor_0_r. reflexivity.
Qed.

Lemma url_loop_rfc : forall src, bytes src -> b64url_enc_loop src = rfc_encode 45 95 [] src.
Proof.
  induction src as [|a|a b|a b c l IH] using list_ind3; intros H.
  - reflexivity.
  - cbn [b64url_enc_loop rfc_encode]. apply bytes_cons in H as [Ha _].
    rewrite tail1, group_url_rfc by auto using byte0. rewrite app_nil_r. f_equal. f_equal. lia.
  - cbn [b64url_enc_loop rfc_encode]. apply bytes_cons in H as [Ha H]. apply bytes_cons in H as [Hb _].
    rewrite tail2, group_url_rfc by auto using byte0. rewrite app_nil_r. f_equal. f_equal. lia.
  - cbn [b64url_enc_loop rfc_encode]. apply bytes_cons in H as [Ha H]. apply bytes_cons in H as [Hb H].
    apply bytes_cons in H as [Hc H].
    rewrite group_url_rfc by auto. f_equal. auto.
Qed.

Lemma full_lines_cons72 : forall l r, zlen l = 72 -> full_lines r -> full_lines (l :: r).
Proof. intros l [|x r] H H'; cbn; [ lia | auto ]. Qed.

Lemma zlen_quad : forall x y n, zlen (rfc_quad x y n) = 4.
Proof. reflexivity. Qed.

(** Loop invariant: [p] is what the current line already holds. *)
Lemma enc_loop_folded : forall src, bytes src -> forall p,
  zlen p < 72 -> zlen p mod 4 = 0 ->
  folded (p ++ rfc_encode 43 47 [61] src) (p ++ b64_enc_loop (zlen p) src).
Proof.
  induction src as [|a|a b|a b c l IH] using list_ind3; intros H p Hp H4;
  cbn [b64_enc_loop rfc_encode].
  - destruct (Z.eqb_spec (zlen p) 0) as [E|E].
    + apply zlen_0 in E. subst. exists []. repeat split.
    + exists [p]. pose proof (zlen_nonneg _ p). split; [|split].
      * cbn. lia.
      * reflexivity.
      * cbn. now rewrite app_nil_r.
  - apply bytes_cons in H as [Ha _].
    exists [p ++ firstn 2 (rfc_quad 43 47 (a * 2^16)) ++ [61] ++ [61]].
    split; [|split].
    + cbn [full_lines]. rewrite !zlen_app. pose proof (zlen_nonneg _ p).
      change (zlen (firstn 2 _)) with 2. change (zlen [61]) with 1. lia.
    + cbn [concat]. now rewrite app_nil_r.
    + cbn [concat map]. rewrite app_nil_r.
      replace (a * 2^16) with (a * 2^16 + 0 * 2^8 + 0) by lia.
      rewrite <- group_std_rfc by auto using byte0. rewrite <- tail1.
      rewrite <- !app_assoc. reflexivity.
  - apply bytes_cons in H as [Ha H]. apply bytes_cons in H as [Hb _].
    exists [p ++ firstn 3 (rfc_quad 43 47 (a * 2^16 + b * 2^8)) ++ [61]].
    split; [|split].
    + cbn [full_lines]. rewrite !zlen_app. pose proof (zlen_nonneg _ p).
      change (zlen (firstn 3 _)) with 3. change (zlen [61]) with 1. lia.
    + cbn [concat]. now rewrite app_nil_r.
    + cbn [concat map]. rewrite app_nil_r.
      replace (a * 2^16 + b * 2^8) with (a * 2^16 + b * 2^8 + 0) by lia.
      rewrite <- group_std_rfc by auto using byte0. rewrite <- tail2.
      rewrite <- !app_assoc. reflexivity.
  - apply bytes_cons in H as [Ha H]. apply bytes_cons in H as [Hb H].
    apply bytes_cons in H as [Hc H].
    rewrite group_std_rfc by auto.
    assert (Hq : zlen (rfc_quad 43 47 (a * 2^16 + b * 2^8 + c)) = 4) by apply zlen_quad.
    set (q := rfc_quad 43 47 (a * 2^16 + b * 2^8 + c)) in *. clearbody q.
    assert (Hpq : zlen (p ++ q) = zlen p + 4) by (rewrite zlen_app; lia).
    destruct (Z.leb_spec 72 (zlen p + 4)).
    + destruct (IH H [] ltac:(cbn; lia) ltac:(reflexivity)) as (lines & Hl & Ht & Ho).
      exists ((p ++ q) :: lines). split; [|split].
      * apply full_lines_cons72; [ lia | auto ].
      * cbn [concat]. rewrite <- Ht. rewrite app_nil_l. now rewrite app_assoc.
      * cbn [concat map]. rewrite <- Ho. cbn [app]. rewrite <- !app_assoc. reflexivity.
    + rewrite <- Hpq. rewrite !app_assoc. apply IH; auto; lia.
Qed.

(** ** Sizes *)
Lemma folded_len : forall t o, folded t o -> zlen o = zlen t + (zlen t + 71) / 72.
Proof.
  intros t o (lines & Hf & -> & ->).
  induction lines as [|l r IH]. { reflexivity. }
  destruct r as [|l' r].
  - cbn [concat map] in *. rewrite !app_nil_r. rewrite zlen_app. cbn in Hf.
    change (zlen [10]) with 1. lia.
  - destruct Hf as [Hl Hf]. specialize (IH Hf).
    change (concat (l :: l' :: r)) with (l ++ concat (l' :: r)).
    change (concat (map (fun l => l ++ [10]) (l :: l' :: r)))
      with ((l ++ [10]) ++ concat (map (fun l => l ++ [10]) (l' :: r))).
    rewrite !zlen_app, IH. change (zlen [10]) with 1. rewrite Hl. lia.
Qed.

Lemma rfc_encode_len_pad : forall x y src, zlen (rfc_encode x y [61] src) = (zlen src + 2) / 3 * 4.
Proof.
  induction src as [|a|a b|a b c l IH] using list_ind3.
  - reflexivity.
  - reflexivity.
  - reflexivity.
  - cbn [rfc_encode]. rewrite zlen_app, zlen_quad, IH, !zlen_cons. lia.
Qed.
Lemma rfc_encode_len_nopad : forall x y src, zlen (rfc_encode x y [] src) = (zlen src * 4 + 2) / 3.
Proof.
  induction src as [|a|a b|a b c l IH] using list_ind3.
  - reflexivity.
  - reflexivity.
  - reflexivity.
  - cbn [rfc_encode]. rewrite zlen_app, zlen_quad, IH, !zlen_cons. lia.
Qed.

Lemma alloc_small : forall len, 0 <= len < 2^62 ->
  b64_alloc_size len = Some (len * 4 / 3 + 4 + (len * 4 / 3 + 4) / 72 + 1).
Proof.
  intros len H. unfold b64_alloc_size, u64.
  rewrite (Z.mod_small (len * 4)) by lia.
  rewrite (Z.mod_small (len * 4 / 3 + 4)) by lia.
  rewrite (Z.mod_small (len * 4 / 3 + 4 + _)) by lia.
  rewrite (Z.mod_small (len * 4 / 3 + 4 + _ + 1)) by lia.
  destruct (Z.ltb_spec (len * 4 / 3 + 4 + (len * 4 / 3 + 4) / 72 + 1) len); [ lia | reflexivity ].
Qed.

Lemma alloc_big : forall len, 2^62 <= len < 2^64 -> b64_alloc_size len = None.
Proof.
  intros len H. unfold b64_alloc_size, u64.
  assert (Hm : (len * 4) mod 2^64 = len * 4 - 2^64 \/ (len * 4) mod 2^64 = len * 4 - 2 * 2^64 \/ (len * 4) mod 2^64 = len * 4 - 3 * 2^64) by lia.
  set (m := (len * 4) mod 2^64) in *.
  assert (0 <= m < 2^64) by (apply Z.mod_pos_bound; lia).
  rewrite (Z.mod_small (m / 3 + 4)) by lia.
  rewrite (Z.mod_small (m / 3 + 4 + _)) by lia.
  rewrite (Z.mod_small (m / 3 + 4 + _ + 1)) by lia.
  destruct (Z.ltb_spec (m / 3 + 4 + (m / 3 + 4) / 72 + 1) len); [ reflexivity | lia ].
Qed.

(** ** Decoder *)
Definition alpha_of (dt : list Z) (c : Z) : bool := negb (dt_at dt c =? 128).

Lemma dec_loop_filter : forall dt hp cap src block pad out,
  b64_dec_loop dt hp cap src block pad out =
  b64_dec_loop dt hp cap (filter (alpha_of dt) src) block pad out.
Proof.
  intros dt hp cap. induction src as [|c r IH]; intros; [ reflexivity | ].
  cbn [b64_dec_loop filter]. unfold alpha_of at 1.
  destruct (Z.eqb_spec (dt_at dt c) 128) as [E|E].
  - cbn [negb]. apply IH.
  - cbn [negb b64_dec_loop]. destruct (Z.eqb_spec (dt_at dt c) 128) as [E'|E']; [ congruence | ].
    destruct block as [|b0 [|b1 [|b2 [|b3 bl]]]]; rewrite ?IH; reflexivity.
Qed.

Lemma dt_count_filter : forall dt src, dt_count dt src = zlen (filter (alpha_of dt) src).
Proof.
  induction src as [|c r IH]; [ reflexivity | ].
  cbn [dt_count filter]. unfold alpha_of at 1.
  destruct (dt_at dt c =? 128); cbn [negb]; rewrite ?zlen_cons; lia.
Qed.

Lemma unblock_rfc : forall a b c d, 0 <= a < 64 -> 0 <= b < 64 -> 0 <= c < 64 -> 0 <= d < 64 ->
  b64_unblock a b c d =
  (let n := a * 2^18 + b * 2^12 + c * 2^6 + d in [n / 2^16; (n / 2^8) mod 256; n mod 256]).
Proof.
  intros. cbv zeta. unfold b64_unblock, u8. bits.
  rewrite lor_add4, lor_add16, lor_add64 by lia.
  f_equal; [ lia | f_equal; [ lia | f_equal; lia ] ].
Qed.

Lemma firstn_app_exact : forall (A : Type) (k : nat) (l o : list A), (k <= length o)%nat ->
  firstn (length (l ++ o) - (length o - k)) (l ++ o) = l ++ firstn k o.
Proof.
  intros. rewrite firstn_app. rewrite firstn_all2 by (rewrite app_length; lia).
  f_equal. f_equal. rewrite app_length. lia.
Qed.

(** Conditions under which decoding table [dt] is the alphabet ([x],[y]). *)
Definition dt_good (dt : list Z) (hp : bool) (x y : Z) (c : Z) : Prop :=
  dt_at dt c <> 128 /\ dt_at dt c = val_or_pad x y c /\ 0 <= dt_at dt c < 64 /\
  (hp = true \/ c <> 61).

Definition dec_res (out : list Z) (o : option (list Z)) : b64_result :=
  match o with Some o => B64Ok (out ++ o) | None => B64Null end.

Lemma dec_loop_rfc : forall dt hp x y cap cs, Forall (dt_good dt hp x y) cs -> zlen cs mod 4 = 0 ->
  forall out, zlen out + zlen cs / 4 * 3 <= cap ->
  b64_dec_loop dt hp cap cs [] 0 out = dec_res out (rfc_decode x y cs).
Proof.
  intros dt hp x y cap. induction cs as [|a|a b|a b c|a b c d l IH] using list_ind4; intros HF H4 out Hc;
    try (exfalso; vm_compute in H4; discriminate).
  - cbn. now rewrite app_nil_r.
  - assert (Hl : zlen (a :: b :: c :: d :: l) = 4 + zlen l) by (rewrite !zlen_cons; lia).
    rewrite Hl in *. pose proof (zlen_nonneg _ l) as Hnn.
    inversion HF as [|? ? Ha HF1]; subst. inversion HF1 as [|? ? Hb HF2]; subst.
    inversion HF2 as [|? ? Hcc HF3]; subst. inversion HF3 as [|? ? Hd HF4]; subst.
    destruct Ha as (Ha & Va & Ba & Pa). destruct Hb as (Hb & Vb & Bb & Pb).
    destruct Hcc as (Hc' & Vc & Bc & Pc). destruct Hd as (Hd & Vd & Bd & Pd).
    cbn [b64_dec_loop app].
    apply Z.eqb_neq in Ha, Hb, Hc', Hd. rewrite Ha, Hb, Hc', Hd.
    cbn [rfc_decode]. rewrite <- Va, <- Vb, <- Vc, <- Vd.
    rewrite unblock_rfc by auto. cbv zeta.
    set (o := [_ / _; _; _]).
    assert (Hlen : zlen (out ++ o) = zlen out + 3) by (rewrite zlen_app; reflexivity).
    destruct (Z.ltb_spec cap (zlen (out ++ o))); [ lia | ].
    match goal with |- (if ?p =? 0 then _ else _) = _ =>
      assert (E : p = is_pad a + is_pad b + is_pad c + is_pad d) end.
    { unfold is_pad, chr_eq.
      destruct hp; cbn [andb].
      - destruct (a =? 61), (b =? 61), (c =? 61), (d =? 61); reflexivity.
      - destruct Pa as [Pa|Pa], Pb as [Pb|Pb], Pc as [Pc|Pc], Pd as [Pd|Pd]; try discriminate.
        apply Z.eqb_neq in Pa, Pb, Pc, Pd. rewrite Pa, Pb, Pc, Pd. reflexivity. }
    rewrite E. destruct (Z.eqb_spec (is_pad a + is_pad b + is_pad c + is_pad d) 0) as [E0|E0].
    + rewrite E0. rewrite IH; auto; [ | lia | lia ].
      unfold dec_res. destruct (rfc_decode x y l); [ | reflexivity ].
      now rewrite app_assoc.
    + destruct (_ =? 1) eqn:E1; [ | destruct (_ =? 2) eqn:E2 ]; unfold dec_res.
      * f_equal. unfold drop_last. apply (firstn_app_exact _ 2 out o). cbn. lia.
      * f_equal. unfold drop_last. apply (firstn_app_exact _ 1 out o). cbn. lia.
      * reflexivity.
Qed.

Lemma dt_std_val : forall c, byte c ->
  dt_at dtable_std c = if std_alpha c then val_or_pad 43 47 c else 128.
Proof.
  intros c H. apply Z.eqb_eq.
  apply (sweep_byte (fun c => dt_at dtable_std c =? if std_alpha c then val_or_pad 43 47 c else 128));
    [ vm_compute; reflexivity | auto ].
Qed.
Lemma dt_url_val : forall c, byte c ->
  dt_at dtable_url c = if url_alpha c then val_or_pad 45 95 c else 128.
Proof.
  intros c H. apply Z.eqb_eq.
  apply (sweep_byte (fun c => dt_at dtable_url c =? if url_alpha c then val_or_pad 45 95 c else 128));
    [ vm_compute; reflexivity | auto ].
Qed.
Lemma val_bound : forall x y c, 0 <= val_or_pad x y c < 64.
Proof.
  intros. unfold val_or_pad, rfc_value.
  repeat match goal with |- context [if ?b then _ else _] => destruct b eqn:? end; lia.
Qed.

Lemma alpha_std : forall c, byte c -> alpha_of dtable_std c = std_alpha c.
Proof.
  intros c H. unfold alpha_of. rewrite dt_std_val by auto.
  pose proof (val_bound 43 47 c). destruct (std_alpha c); [ | reflexivity ].
  destruct (Z.eqb_spec (val_or_pad 43 47 c) 128); [ lia | reflexivity ].
Qed.
Lemma alpha_url : forall c, byte c -> alpha_of dtable_url c = url_alpha c.
Proof.
  intros c H. unfold alpha_of. rewrite dt_url_val by auto.
  pose proof (val_bound 45 95 c). destruct (url_alpha c); [ | reflexivity ].
  destruct (Z.eqb_spec (val_or_pad 45 95 c) 128); [ lia | reflexivity ].
Qed.

Lemma filter_ext_bytes : forall (f g : Z -> bool) l, (forall c, byte c -> f c = g c) -> bytes l -> filter f l = filter g l.
Proof.
  induction l as [|c l IH]; intros H HB; [ reflexivity | ].
  apply bytes_cons in HB as [Hc HB]. cbn. rewrite H, IH by auto. reflexivity.
Qed.

Lemma std_good : forall src, bytes src -> Forall (dt_good dtable_std true 43 47) (filter std_alpha src).
Proof.
  intros src H. apply Forall_forall. intros c Hc. apply filter_In in Hc as [Hin Ha].
  unfold bytes in H. rewrite Forall_forall in H. specialize (H c Hin).
  pose proof (val_bound 43 47 c). unfold dt_good. rewrite dt_std_val, Ha by auto. repeat split; try lia; auto.
Qed.
Lemma url_good : forall src, bytes src -> Forall (dt_good dtable_url false 45 95) (filter url_alpha src).
Proof.
  intros src H. apply Forall_forall. intros c Hc. apply filter_In in Hc as [Hin Ha].
  unfold bytes in H. rewrite Forall_forall in H. specialize (H c Hin).
  pose proof (val_bound 45 95 c). unfold dt_good. rewrite dt_url_val, Ha by auto. repeat split; try lia.
  right. intros ->. discriminate.
Qed.

Definition decode_spec (x y : Z) (cs : list Z) : b64_result :=
  if (zlen cs =? 0) || negb (zlen cs mod 4 =? 0) then B64Null
  else match rfc_decode x y cs with Some o => B64Ok o | None => B64Null end.

Lemma base64_decode_correct : forall src, bytes src ->
  base64_decode src = decode_spec 43 47 (filter std_alpha src).
Proof.
  intros src H. unfold base64_decode, decode_spec.
  rewrite dt_count_filter, dec_loop_filter.
  rewrite (filter_ext_bytes _ _ src alpha_std H).
  set (cs := filter std_alpha src).
  destruct ((zlen cs =? 0) || negb (zlen cs mod 4 =? 0)) eqn:E; [ reflexivity | ].
  rewrite (dec_loop_rfc _ _ 43 47); [ reflexivity | apply std_good; auto | lia | cbn; lia ].
Qed.
Lemma base64url_decode_correct : forall src, bytes src ->
  base64url_decode src = decode_spec 45 95 (filter url_alpha src).
Proof.
  intros src H. unfold base64url_decode, decode_spec.
  rewrite dt_count_filter, dec_loop_filter.
  rewrite (filter_ext_bytes _ _ src alpha_url H).
  set (cs := filter url_alpha src).
  destruct ((zlen cs =? 0) || negb (zlen cs mod 4 =? 0)) eqn:E; [ reflexivity | ].
  rewrite (dec_loop_rfc _ _ 45 95); [ reflexivity | apply url_good; auto | lia | cbn; lia ].
Qed.

(** ** Round trip at the level of the specification *)
Lemma rfc_value_char : forall v, 0 <= v < 64 -> val_or_pad 43 47 (rfc_char 43 47 v) = v /\ is_pad (rfc_char 43 47 v) = 0
  /\ std_alpha (rfc_char 43 47 v) = true /\ byte (rfc_char 43 47 v).
Proof.
  intros v Hv.
  pose proof (sweep_sextet (fun v => (val_or_pad 43 47 (rfc_char 43 47 v) =? v) && (is_pad (rfc_char 43 47 v) =? 0) &&
     std_alpha (rfc_char 43 47 v) && byteb (rfc_char 43 47 v)) ltac:(vm_compute; reflexivity) v Hv) as H.
  cbv beta in H. rewrite !andb_true_iff, byteb_iff in H.
  destruct H as [[[H1 H2] H3] H4]. apply Z.eqb_eq in H1, H2. auto.
Qed.
Lemma rfc_value_char_url : forall v, 0 <= v < 64 -> val_or_pad 45 95 (rfc_char 45 95 v) = v /\ is_pad (rfc_char 45 95 v) = 0
  /\ url_alpha (rfc_char 45 95 v) = true /\ byte (rfc_char 45 95 v).
Proof.
  intros v Hv.
  pose proof (sweep_sextet (fun v => (val_or_pad 45 95 (rfc_char 45 95 v) =? v) && (is_pad (rfc_char 45 95 v) =? 0) &&
     url_alpha (rfc_char 45 95 v) && byteb (rfc_char 45 95 v)) ltac:(vm_compute; reflexivity) v Hv) as H.
  cbv beta in H. rewrite !andb_true_iff, byteb_iff in H.
  destruct H as [[[H1 H2] H3] H4]. apply Z.eqb_eq in H1, H2. auto.
Qed.

Lemma rfc_roundtrip : forall x y,
  (forall v, 0 <= v < 64 -> val_or_pad x y (rfc_char x y v) = v /\ is_pad (rfc_char x y v) = 0) ->
  val_or_pad x y 61 = 0 ->
  forall src, bytes src -> rfc_decode x y (rfc_encode x y [61] src) = Some src.
Proof.
  intros x y HV H61. induction src as [|a|a b|a b c l IH] using list_ind3; intros H.
  - reflexivity.
  - apply bytes_cons in H as [Ha _]. unfold byte in Ha.
    cbn [rfc_encode]. unfold rfc_quad. cbn [map firstn app rfc_decode].
    destruct (HV (a * 2^16 / 2^18) ltac:(lia)) as [-> ->].
    destruct (HV ((a * 2^16 / 2^12) mod 64) ltac:(lia)) as [-> ->].
    rewrite H61. change (0 + 0 + is_pad 61 + is_pad 61) with 2. cbn [Z.eqb Pos.eqb firstn]. do 2 f_equal. lia.
  - apply bytes_cons in H as [Ha H]. apply bytes_cons in H as [Hb _]. unfold byte in *.
    cbn [rfc_encode]. unfold rfc_quad. cbn [map firstn app rfc_decode].
    destruct (HV ((a * 2^16 + b * 2^8) / 2^18) ltac:(lia)) as [-> ->].
    destruct (HV (((a * 2^16 + b * 2^8) / 2^12) mod 64) ltac:(lia)) as [-> ->].
    destruct (HV (((a * 2^16 + b * 2^8) / 2^6) mod 64) ltac:(lia)) as [-> ->].
    rewrite H61. change (0 + 0 + 0 + is_pad 61) with 1. cbn [Z.eqb Pos.eqb firstn].
    set (n := a * 2^16 + b * 2^8) in *.
    replace (n / 2 ^ 18 * 2 ^ 18 + n / 2 ^ 12 mod 64 * 2 ^ 12 + n / 2 ^ 6 mod 64 * 2 ^ 6 + 0) with n by lia.
    f_equal. subst n. f_equal; [ lia | f_equal; lia ].
  - apply bytes_cons in H as [Ha H]. apply bytes_cons in H as [Hb H]. apply bytes_cons in H as [Hc H].
    unfold byte in *.
    cbn [rfc_encode]. unfold rfc_quad. cbn [map firstn app rfc_decode].
    set (n := a * 2^16 + b * 2^8 + c).
    assert (Hn : 0 <= n < 2^24) by (subst n; lia).
    destruct (HV (n / 2^18) ltac:(lia)) as [-> ->].
    destruct (HV ((n / 2^12) mod 64) ltac:(lia)) as [-> ->].
    destruct (HV ((n / 2^6) mod 64) ltac:(lia)) as [-> ->].
    destruct (HV (n mod 64) ltac:(lia)) as [-> ->].
    change (0 + 0 + 0 + 0 =? 0) with true. cbv iota. rewrite IH by auto. cbn [app].
    replace (n / 2 ^ 18 * 2 ^ 18 + n / 2 ^ 12 mod 64 * 2 ^ 12 + n / 2 ^ 6 mod 64 * 2 ^ 6 + n mod 64) with n by lia.
    f_equal. subst n. f_equal; [ lia | f_equal; [ lia | f_equal; lia ] ].
Qed.

Lemma filter_all : forall (f : Z -> bool) l, Forall (fun c => f c = true) l -> filter f l = l.
Proof. induction 1; cbn; [ reflexivity | rewrite H; congruence ]. Qed.

Lemma Forall_firstn : forall A (P : A -> Prop) n l, Forall P l -> Forall P (firstn n l).
Proof.
  intros A P n l H. rewrite <- (firstn_skipn n l) in H. apply Forall_app in H. tauto.
Qed.

Lemma rfc_encode_forall : forall x y pad (P : Z -> Prop), (forall v, 0 <= v < 64 -> P (rfc_char x y v)) -> Forall P pad ->
  forall src, bytes src -> Forall P (rfc_encode x y pad src).
Proof.
  intros x y pad P HV H61.
  assert (Q : forall n, 0 <= n < 2^24 -> Forall P (rfc_quad x y n)).
  { intros n Hn. unfold rfc_quad. cbn [map]. repeat constructor; apply HV; lia. }
  induction src as [|a|a b|a b c l IH] using list_ind3; intros H; cbn [rfc_encode].
  - constructor.
  - apply bytes_cons in H as [Ha _]. unfold byte in *.
    apply Forall_app; split; [ apply Forall_firstn, Q; lia | ]. apply Forall_app; auto.
  - apply bytes_cons in H as [Ha H]. apply bytes_cons in H as [Hb _]. unfold byte in *.
    apply Forall_app; split; [ apply Forall_firstn, Q; lia | auto ].
  - apply bytes_cons in H as [Ha H]. apply bytes_cons in H as [Hb H]. apply bytes_cons in H as [Hc H].
    unfold byte in *. apply Forall_app; split; [ apply Q; lia | auto ].
Qed.

Lemma filter_folded : forall (f : Z -> bool) t o, f 10 = false -> folded t o -> filter f o = filter f t.
Proof.
  intros f t o H (lines & _ & -> & ->).
  induction lines as [|l r IH]; [ reflexivity | ].
  cbn [map concat]. rewrite !filter_app. cbn [filter]. rewrite H, app_nil_r. congruence.
Qed.
Lemma folded_forall : forall (P : Z -> Prop) t o, P 10 -> folded t o -> Forall P t -> Forall P o.
Proof.
  intros P t o H (lines & _ & -> & ->).
  induction lines as [|l r IH]; cbn [map concat]; [ auto | ].
  intros HF. apply Forall_app in HF as [H1 H2]. repeat (apply Forall_app; split); auto.
Qed.

(** ** The encoders in full *)
Lemma base64_encode_ok : forall src, bytes src -> zlen src < 2^62 ->
  exists out, base64_encode src = B64Ok out /\ folded (rfc_encode 43 47 [61] src) out.
Proof.
  intros src HB HL. unfold base64_encode. pose proof (zlen_nonneg _ src).
  rewrite alloc_small by lia.
  pose proof (enc_loop_folded src HB [] ltac:(cbn; lia) ltac:(reflexivity)) as HF. cbn [app zlen length Z.of_nat] in HF.
  pose proof (folded_len _ _ HF) as Hlen. rewrite rfc_encode_len_pad in Hlen.
  exists (b64_enc_loop 0 src). split; [ | exact HF ].
  change (b64_enc_loop (zlen (@nil Z)) src) with (b64_enc_loop 0 src) in *.
  destruct (Z.leb_spec (zlen (b64_enc_loop 0 src) + 1) (zlen src * 4 / 3 + 4 + (zlen src * 4 / 3 + 4) / 72 + 1)); [ reflexivity | lia ].
Qed.

Lemma base64url_encode_ok : forall src, bytes src -> zlen src < 2^62 ->
  base64url_encode src = B64Ok (rfc_encode 45 95 [] src).
Proof.
  intros src HB HL. unfold base64url_encode. pose proof (zlen_nonneg _ src).
  rewrite alloc_small by lia.
  rewrite url_loop_rfc by auto. rewrite rfc_encode_len_nopad.
  match goal with |- (if ?b then _ else _) = _ => destruct b eqn:E; [ reflexivity | lia ] end.
Qed.

Lemma base64_encode_null : forall src, 2^62 <= zlen src < 2^64 -> base64_encode src = B64Null /\ base64url_encode src = B64Null.
Proof. intros. unfold base64_encode, base64url_encode. rewrite alloc_big by lia. auto. Qed.

Lemma base64_roundtrip_lemma : forall src, bytes src -> src <> [] -> zlen src < 2^62 ->
  exists text, base64_encode src = B64Ok text /\ base64_decode text = B64Ok src.
Proof.
  intros src HB HN HL. destruct (base64_encode_ok src HB HL) as (out & E & HF).
  exists out. split; [ exact E | ].
  assert (HP : bytes (rfc_encode 43 47 [61] src)).
  { apply rfc_encode_forall; [ intros; apply rfc_value_char; auto | repeat constructor; unfold byte; lia | auto ]. }
  assert (HO : bytes out) by (apply (folded_forall byte _ _ ltac:(unfold byte; lia) HF HP)).
  rewrite base64_decode_correct by auto.
  rewrite (filter_folded std_alpha _ _ eq_refl HF).
  rewrite filter_all by (apply rfc_encode_forall; [ intros; apply rfc_value_char; auto | repeat constructor | auto ]).
  unfold decode_spec. rewrite rfc_encode_len_pad.
  destruct src as [|b src]; [ congruence | ]. rewrite zlen_cons. pose proof (zlen_nonneg _ src).
  destruct (((1 + zlen src + 2) / 3 * 4 =? 0) || negb ((1 + zlen src + 2) / 3 * 4 mod 4 =? 0)) eqn:E0; [ lia | ].
  rewrite rfc_roundtrip; auto. intros; split; apply rfc_value_char; auto.
Qed.

Lemma rfc_encode_pad_irrelevant : forall x y src, zlen src mod 3 = 0 -> rfc_encode x y [] src = rfc_encode x y [61] src.
Proof.
  induction src as [|a|a b|a b c l IH] using list_ind3; intros H; try (vm_compute in H; discriminate); [ reflexivity | ].
  cbn [rfc_encode]. f_equal. apply IH. rewrite !zlen_cons in H. lia.
Qed.

Lemma base64url_roundtrip_lemma : forall src, bytes src -> src <> [] -> zlen src < 2^62 -> zlen src mod 3 = 0 ->
  exists text, base64url_encode src = B64Ok text /\ base64url_decode text = B64Ok src.
Proof.
  intros src HB HN HL H3. exists (rfc_encode 45 95 [] src).
  split; [ apply base64url_encode_ok; auto | ].
  assert (HP : bytes (rfc_encode 45 95 [] src)).
  { apply rfc_encode_forall; [ intros; apply rfc_value_char_url; auto | constructor | auto ]. }
  rewrite base64url_decode_correct by auto.
  rewrite filter_all by (apply rfc_encode_forall; [ intros; apply rfc_value_char_url; auto | constructor | auto ]).
  unfold decode_spec. rewrite rfc_encode_len_nopad.
  destruct src as [|b src]; [ congruence | ]. rewrite zlen_cons in *. pose proof (zlen_nonneg _ src).
  match goal with |- (if ?b then _ else _) = _ => destruct b eqn:E0; [ lia | ] end.
  rewrite rfc_encode_pad_irrelevant by (rewrite zlen_cons; lia).
  rewrite rfc_roundtrip; auto. intros; split; apply rfc_value_char_url; auto.
Qed.

Lemma base64url_null : forall src, bytes src -> zlen src < 2^62 -> zlen src mod 3 <> 0 ->
  exists text, base64url_encode src = B64Ok text /\ base64url_decode text = B64Null.
Proof.
  intros src HB HL H3. exists (rfc_encode 45 95 [] src).
  split; [ apply base64url_encode_ok; auto | ].
  assert (HP : bytes (rfc_encode 45 95 [] src)).
  { apply rfc_encode_forall; [ intros; apply rfc_value_char_url; auto | constructor | auto ]. }
  rewrite base64url_decode_correct by auto.
  rewrite filter_all by (apply rfc_encode_forall; [ intros; apply rfc_value_char_url; auto | constructor | auto ]).
  unfold decode_spec. rewrite rfc_encode_len_nopad.
  match goal with |- (if ?b then _ else _) = _ => destruct b eqn:E0; [ reflexivity | ] end. exfalso.
  pose proof (zlen_nonneg _ src). apply orb_false_iff in E0 as [_ E0].
  assert (H0 : ((zlen src * 4 + 2) / 3) mod 4 = 0) by lia. clear E0. lia.
Qed.
