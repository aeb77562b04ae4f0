From Coq Require Import ZArith List Bool Lia.
From Verif Require Import Common HexModel HexSpec.
Import ListNotations.
Open Scope Z_scope.

Lemma hex_char_digit : forall d, 0 <= d < 16 -> hex_char d = hex_digit d.
Proof.
  intros d H. apply Z.eqb_eq.
  assert (S : forallb (fun d => hex_char d =? hex_digit d) (map Z.of_nat (seq 0 16)) = true) by (vm_compute; reflexivity).
  rewrite forallb_forall in S. apply S. apply in_map_iff. exists (Z.to_nat d). split; [ lia | apply in_seq; lia ].
Qed.

Lemma hex_string_len : forall s, zlen (hex_string s) = 2 * zlen s.
Proof.
  induction s as [|b s IH]; [ reflexivity | ]. unfold hex_string in *. cbn [flat_map].
  zl. lia.
Qed.

Lemma hex_loop_ok : forall source pre x, bytes source -> 2 * zlen source + 1 <= zlen x ->
  exists y, hex_loop (pre ++ x) (zlen pre) source = Some (pre ++ hex_string source ++ y)
            /\ zlen y = zlen x - 2 * zlen source.
Proof.
  induction source as [|b r IH]; intros pre x HB HL.
  - exists x. split; [ reflexivity | change (zlen (@nil Z)) with 0; lia ].
  - apply bytes_cons in HB as [Hb HB]. rewrite zlen_cons in HL.
    pose proof (zlen_nonneg _ r).
    destruct x as [|x0 [|x1 [|x2 x]]];
      [ change (zlen (@nil Z)) with 0 in HL; lia | change (zlen [x0]) with 1 in HL; lia
      | change (zlen [x0; x1]) with 2 in HL; lia | ].
    cbn [hex_loop].
    change (x0 :: x1 :: x2 :: x) with ([x0; x1; x2] ++ x).
    rewrite mem_store_app by reflexivity.
    rewrite !hex_char_digit by (unfold byte in Hb; lia).
    set (d := [hex_digit (b / 16); hex_digit (b mod 16)]).
    replace (pre ++ [hex_digit (b / 16); hex_digit (b mod 16); 0] ++ x) with ((pre ++ d) ++ 0 :: x)
      by (rewrite <- app_assoc; reflexivity).
    replace (zlen pre + 2) with (zlen (pre ++ d)) by (rewrite zlen_app; reflexivity).
    destruct (IH (pre ++ d) (0 :: x) HB) as (y & E & L).
    { zl. lia. }
    exists y. split.
    + rewrite E. rewrite <- !app_assoc. reflexivity.
    + zl. lia.
Qed.

Lemma hex_output_small : forall n, 0 <= n < 2^31 -> hex_output_size n = 2 * n + 1.
Proof. intros. unfold hex_output_size, u32. rewrite !Z.mod_small by lia. lia. Qed.

Lemma bin_to_hex_lemma : forall mem source, bytes source -> zlen source < 2^31 ->
  zlen mem = hex_alloc_size (zlen source) ->
  exists rest, bin_to_hex mem source = Some (hex_string source ++ [0] ++ rest, 2 * zlen source).
Proof.
  intros mem source HB HL HM. pose proof (zlen_nonneg _ source).
  unfold bin_to_hex. unfold hex_alloc_size in HM. rewrite hex_output_small in * by lia.
  cbv zeta in HM.
  assert (HA : 2 * zlen source + 1 <= zlen mem) by (destruct (Z.ltb_spec (2 * zlen source + 1) 32); lia).
  destruct (hex_loop_ok source [] mem HB HA) as (y & E & L).
  change ([] ++ mem) with mem in E. change (zlen (@nil Z)) with 0 in E. rewrite E.
  cbn [app]. destruct y as [|y0 y]; [ change (zlen (@nil Z)) with 0 in L; lia | ].
  replace (2 * zlen source + 1 - 1) with (zlen (hex_string source)) by (rewrite hex_string_len; lia).
  change (y0 :: y) with ([y0] ++ y). rewrite mem_store_app by reflexivity.
  exists y. rewrite hex_string_len; reflexivity.
Qed.

Lemma hex_loop_len : forall source mem w m, hex_loop mem w source = Some m -> zlen m = zlen mem.
Proof.
  induction source as [|b r IH]; intros mem w m H; cbn [hex_loop] in H; [ congruence | ].
  destruct (mem_store mem w _) eqn:E; [ | discriminate ].
  apply IH in H. apply mem_store_len in E. lia.
Qed.

Lemma hex_loop_short : forall source mem w, source <> [] -> 0 <= w ->
  zlen mem < w + 2 * zlen source + 1 -> hex_loop mem w source = None.
Proof.
  induction source as [|b r IH]; intros mem w Hne Hw H; [ congruence | ].
  rewrite zlen_cons in H. cbn [hex_loop].
  destruct (mem_store mem w _) eqn:E; [ | reflexivity ].
  destruct r as [|b' r].
  - rewrite mem_store_none in E; [ discriminate | auto | ]. change (zlen [_; _; _]) with 3. change (zlen (@nil Z)) with 0 in H. lia.
  - apply IH; [ discriminate | lia | ]. apply mem_store_len in E. lia.
Qed.

Lemma bin_to_hex_overflow : forall mem source, 2^31 <= zlen source < 2^32 ->
  zlen mem = hex_alloc_size (zlen source) -> bin_to_hex mem source = None.
Proof.
  intros mem source HL HM. unfold bin_to_hex. rewrite hex_loop_short; [ reflexivity | | lia | ].
  - intros ->. change (zlen (@nil Z)) with 0 in HL. lia.
  - rewrite HM. unfold hex_alloc_size, hex_output_size, u32. cbv zeta.
    destruct (Z.ltb_spec (((zlen source * 2) mod 2^32 + 1) mod 2^32) 32); lia.
Qed.

(** Injectivity *)
Definition unhex (c : Z) : Z := if c <? 58 then c - 48 else c - 87.
Lemma unhex_digit : forall d, 0 <= d < 16 -> unhex (hex_digit d) = d.
Proof.
  intros d H. apply Z.eqb_eq.
  assert (S : forallb (fun d => unhex (hex_digit d) =? d) (map Z.of_nat (seq 0 16)) = true) by (vm_compute; reflexivity).
  rewrite forallb_forall in S. apply S. apply in_map_iff. exists (Z.to_nat d). split; [ lia | apply in_seq; lia ].
Qed.
Lemma hex_string_inj : forall s s', bytes s -> bytes s' -> hex_string s = hex_string s' -> s = s'.
Proof.
  induction s as [|b s IH]; intros [|b' s'] H H' E; try reflexivity; try discriminate E.
  apply bytes_cons in H as [Hb H]. apply bytes_cons in H' as [Hb' H'].
  cbn [hex_string flat_map app] in E. injection E as E1 E2 E3.
  unfold byte in *. f_equal; [ | apply IH; auto ].
  apply (f_equal unhex) in E1, E2. rewrite !unhex_digit in E1, E2 by lia. lia.
Qed.
