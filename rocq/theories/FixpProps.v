(** C27: fixed point numbers. *)
From Coq Require Import ZArith List Bool QArith Qround Qabs Lia String.
From Verif Require Import Common FixpModel FixpSpec FixpProofs FixpParseProofs FixpTextProofs.
Import ListNotations.
Open Scope Z_scope.
Local Notation str := str_bytes.

(** A fixed point number converted to long double has the right value and
    converting it back gives the number. *)
Theorem fixp_ldouble_roundtrip x : - 2^63 < x < 2^63 ->
  exists d, fixp_to_ldouble x = FOk d /\ (d == fixp_value x)%Q /\ ldouble_to_fixp (Fin d) = FOk x.
Proof. exact (ldouble_roundtrip x). Qed.
Print Assumptions fixp_ldouble_roundtrip.
Example fixp_ldouble_roundtrip_ex : fixp_to_ldouble (-20971521) = FOk (-20971521 # 16777216)%Q
  /\ ldouble_to_fixp (Fin (-20971521 # 16777216)%Q) = FOk (-20971521).
Proof. vm_compute. split; reflexivity. Qed.

(** Except for the smallest number, where the negation overflows. *)
Theorem fixp_ldouble_roundtrip_refuted : exists x, - 2^63 <= x < 2^63 /\ fixp_to_ldouble x = FUb.
Proof. exists (- 2^63). split; [split; [apply Z.le_refl|reflexivity]|reflexivity]. Qed.
Print Assumptions fixp_ldouble_roundtrip_refuted.

(** A long double of magnitude below 2^39 is cut towards zero to a whole number of
    units; other than finite numbers are refused. *)
Theorem fixp_from_ldouble_truncates q : is_ldouble q -> (Qabs q < inject_Z (2^39))%Q ->
  ldouble_to_fixp (Fin q) = FOk (signed (negb (Qle_bool 0 q)) (Qfloor (Qabs q * inject_Z 16777216)))
  /\ ldouble_to_fixp NotFinite = FErr 1.
Proof. intros H1 H2. split; [exact (ldouble_to_fixp_exact q H1 H2)|reflexivity]. Qed.
Print Assumptions fixp_from_ldouble_truncates.
Example fixp_from_ldouble_truncates_ex : is_ldouble (-5 # 33554432)%Q /\ ldouble_to_fixp (Fin (-5 # 33554432)%Q) = FOk (-2).
Proof. split; [exists (-5), (-25); split; [discriminate|reflexivity]|vm_compute; reflexivity]. Qed.

(** Larger ones are not refused: 2^40 becomes 0. *)
Theorem fixp_from_ldouble_large_refuted : exists q, is_ldouble q /\ (q == inject_Z (2^40))%Q /\ ldouble_to_fixp (Fin q) = FOk 0.
Proof. exists (inject_Z (2^40)). split; [exists (2^40), 0; split; [discriminate|reflexivity]|]. split; [reflexivity|vm_compute; reflexivity]. Qed.
Print Assumptions fixp_from_ldouble_large_refuted.

(** The hexadecimal form of a number which is not negative is parsed back to the
    number, the whole text being used. *)
Theorem fixp_hex_roundtrip_partial x size t : 0 <= x < 2^63 -> fixp_to_str_16 size x = Some t ->
  str_to_fixp t = FOk (x, List.length t).
Proof. exact (hex_roundtrip x size t). Qed.
Print Assumptions fixp_hex_roundtrip_partial.
Example fixp_hex_roundtrip_ex : fixp_to_str_16 21 31457281 = Some (str "16#0000000001.e00001")
  /\ str_to_fixp (str "16#0000000001.e00001") = FOk (31457281, 20%nat).
Proof. vm_compute. split; reflexivity. Qed.

(** C27: the base 16 text and its NUL are written when, and only when, they fit. *)
Theorem fixp_hex_text_fits size x :
  match fixp_to_str_16 size x with Some t => zlen t = 20 /\ zlen t + 1 <= size | None => size < 21 end.
Proof.
  unfold fixp_to_str_16. pose proof (be_enc_len 8 (u64 x)) as L. unfold zlen in L. set (b := be_enc 8 (u64 x)) in *.
  assert (E : zlen (str_16_loop b 0) = 17).
  { clearbody b. clear x. do 8 (destruct b as [ | ? b ]; [ discriminate L | ]). destruct b as [ | ? b ]; [ reflexivity | exfalso; cbn [Datatypes.length] in L; lia ]. }
  rewrite E. destruct (Z.ltb_spec size (3 + 17 + 1)); [ lia | ]. rewrite zlen_app, E. change (zlen [49; 54; 35]) with 3. lia.
Qed.
Print Assumptions fixp_hex_text_fits.
Example fixp_hex_text_fits_ex : fixp_to_str_16 20 31457281 = None /\ fixp_to_str_16 21 31457281 = Some (str "16#0000000001.e00001").
Proof. split; vm_compute; reflexivity. Qed.

(** That of a negative number is parsed to another number. *)
Theorem fixp_hex_roundtrip_refuted : exists x t, - 2^63 < x < 2^63 /\ fixp_to_str_16 21 x = Some t /\
  str_to_fixp t = FOk (9223372036854775807, List.length t) /\ x <> 9223372036854775807.
Proof.
  exists (-1), (str "16#ffffffffff.ffffff"). split; [split; reflexivity|].
  split; [vm_compute; reflexivity|]. split; [vm_compute; reflexivity|discriminate].
Qed.
Print Assumptions fixp_hex_roundtrip_refuted.

(** Hexadecimal texts: the integer part below 2^39 and at most 16 fraction digits
    give the number cut to whole units; parsing ends right after the number. *)
Theorem fixp_parse_hex_exact neg is fs text rest : literal 16 neg is fs text -> number_ends 16 rest ->
  int_value 16 is < 2^39 -> (List.length fs <= 16)%nat ->
  str_to_fixp (text ++ rest) = FOk (signed neg (Qfloor (magnitude 16 is fs * inject_Z 16777216)), List.length text).
Proof. exact (parse_hex_exact neg is fs text rest). Qed.
Print Assumptions fixp_parse_hex_exact.
Example fixp_parse_hex_exact_ex : literal 16 true [1; 15] [8; 0; 12] (str "16#-1f.80C") /\ number_ends 16 (str ";x")
  /\ str_to_fixp (str "16#-1f.80C;x") = FOk (- (31 * 16777216 + 8437760), 10%nat).
Proof.
  split; [|split].
  - apply (L 16 true [1; 15] [8; 0; 12] [49; 54; 35] [45] (str "1f") (str ".80C")); try constructor.
    + discriminate.
    + split; [apply (DC_dec 1)|]; lia.
    + constructor; [split; [apply (DC_low 15)|]; lia|constructor].
    + constructor; [split; [apply (DC_dec 8)|]; lia|]. constructor; [split; [apply (DC_dec 0)|]; lia|].
      constructor; [split; [apply (DC_up 12)|]; lia|constructor].
  - change (str_bytes ";x") with [59; 120]. split; [discriminate|]. split; [discriminate|].
    intros d Hd. generalize (eq_refl 59). generalize 59 at 2 3. intros c E H. destruct H; lia.
  - vm_compute. reflexivity.
Qed.

(** Whole numbers below 2^39 are exact in both bases, with or without a fraction of
    zeros. *)
Theorem fixp_parse_whole_exact base neg is fs text rest : literal base neg is fs text -> number_ends base rest ->
  int_value base is < 2^39 -> Forall (fun d => d = 0) fs ->
  str_to_fixp (text ++ rest) = FOk (signed neg (int_value base is * 16777216), List.length text).
Proof. exact (parse_zero_fraction base neg is fs text rest). Qed.
Print Assumptions fixp_parse_whole_exact.
Example fixp_parse_whole_exact_ex : str_to_fixp (str "-00549755813887.00 V") = FOk (- 549755813887 * 16777216, 18%nat).
Proof. vm_compute. reflexivity. Qed.

(** Any text with at most 4096 fraction digits gives a number which is less than
    one unit and a tiny part of a unit too small, and at most a tiny part of a
    unit too large in magnitude (1/16777216 of a unit in both cases). *)
Theorem fixp_parse_close base neg is fs text rest : literal base neg is fs text -> number_ends base rest ->
  int_value base is < 2^39 -> (List.length fs <= 4096)%nat ->
  exists r, str_to_fixp (text ++ rest) = FOk (signed neg r, List.length text) /\ 0 <= r < 2^63 /\
    (magnitude base is fs - (16777217#281474976710656) < fixp_value r)%Q /\
    (fixp_value r <= magnitude base is fs + (1#281474976710656))%Q.
Proof. exact (parse_close base neg is fs text rest). Qed.
Print Assumptions fixp_parse_close.
Example fixp_parse_close_ex : str_to_fixp (str "+3.14159265358979") = FOk (52707178, 17%nat)
  /\ Qfloor ((314159265358979 # 100000000000000) * inject_Z 16777216) = 52707178.
Proof. vm_compute. split; reflexivity. Qed.

(** A decimal text of a number which has an exact representation is not always
    parsed to it: 0.9375 is 15728640 units but gives one unit less. *)
Theorem fixp_parse_decimal_exact_refuted : exists is fs text, literal 10 false is fs text /\
  (magnitude 10 is fs == fixp_value 15728640)%Q /\ str_to_fixp text = FOk (15728639, List.length text).
Proof.
  exists [0], [9; 3; 7; 5], (str "0.9375"). split; [|split; [reflexivity|vm_compute; reflexivity]].
  apply (L 10 false [0] [9; 3; 7; 5] [] [] (str "0") (str ".9375")); try constructor.
  - discriminate.
  - split; [apply (DC_dec 0)|]; lia.
  - constructor.
  - constructor; [split; [apply (DC_dec 9)|]; lia|]. constructor; [split; [apply (DC_dec 3)|]; lia|].
    constructor; [split; [apply (DC_dec 7)|]; lia|]. constructor; [split; [apply (DC_dec 5)|]; lia|constructor].
Qed.
Print Assumptions fixp_parse_decimal_exact_refuted.

(** Numbers from 2^39 on are accepted but parsed to something else. *)
Theorem fixp_parse_large_refuted : exists is text, literal 10 false is [] text /\
  int_value 10 is = 2^39 /\ str_to_fixp text = FOk (0, List.length text).
Proof.
  exists [5;4;9;7;5;5;8;1;3;8;8;8], (str "549755813888"). split; [|split; [reflexivity|vm_compute; reflexivity]].
  apply (L 10 false [5;4;9;7;5;5;8;1;3;8;8;8] [] [] [] (str "549755813888") []); try constructor.
  - discriminate.
  - split; [apply (DC_dec 5)|]; lia.
  - repeat first [ constructor; [split; [eapply (DC_dec 4) || eapply (DC_dec 9) || eapply (DC_dec 7) || eapply (DC_dec 5) || eapply (DC_dec 8) || eapply (DC_dec 1) || eapply (DC_dec 3); lia|lia]|] | constructor ].
Qed.
Print Assumptions fixp_parse_large_refuted.

(** Whatever is accepted is a number by the grammar, and no text makes the parser
    abort. *)
Theorem fixp_parse_accepts_literals s r used : str_to_fixp s = FOk (r, used) ->
  exists base neg is fs, literal base neg is fs (firstn used s).
Proof. exact (parse_sound s r used). Qed.
Print Assumptions fixp_parse_accepts_literals.
Example fixp_parse_accepts_literals_ex : str_to_fixp (str "12.5.6") = FErr 1 /\ str_to_fixp (str "10#") = FOk (10 * 16777216, 2%nat)
  /\ str_to_fixp (str "16#-") = FErr 3 /\ str_to_fixp (str ".5") = FErr 1 /\ str_to_fixp (str "7.") = FOk (7 * 16777216, 2%nat).
Proof. vm_compute. repeat split; reflexivity. Qed.
Theorem fixp_parse_never_aborts s : str_to_fixp s <> FBug.
Proof. exact (str_to_fixp_no_bug s). Qed.
Print Assumptions fixp_parse_never_aborts.
Example fixp_parse_never_aborts_ex : str_to_fixp (str "16#fg") = FOk (15 * 16777216, 4%nat).
Proof. vm_compute. reflexivity. Qed.
