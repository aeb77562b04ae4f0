(** The properties of conversions of values. *)
From Coq Require Import Strings.String.
From Coq Require Import ZArith List Bool Lia.
From Verif Require Import Common TypeModel TypeSpec TypeProofs ConvTypes ConvModel ConvSpec ConvProofs ConvSafe.
Import ListNotations.
Open Scope Z_scope.

(** C113. Numbers become their decimal texts; more than one number, each in 20 places. *)
Theorem conv_number_text : forall f v xs, In (v_type v) integer_types -> xs <> [] -> v_elements v = zlen xs -> v_data v = int64_memory xs ->
  Forall (int64_range (is_signed (v_flags v))) xs -> 20 * zlen xs < 2^32 ->
  exists s texts, convert f H2str v = ROk s /\ v_type s = TYPE_STR /\ v_tag s = v_tag v /\ v_elements s = v_elements v /\
    v_data s = concat texts /\ Forall2 (written (negb (zlen xs =? 1)) (is_signed (v_flags v))) texts xs.
Proof.
  intros f v xs T NE E D R B. unfold convert. assert (N : v_type v =? to_type H2str = false). { apply Z.eqb_neq. intros X. rewrite X in T. now apply (proj1 str_not_integer) in T. }
  rewrite N. cbn [convert_function]. rewrite (h2str_ok v xs T NE E D R B). eexists. exists (map (cell (many (zlen xs)) (is_signed (v_flags v))) xs). split; [ reflexivity | ]. cbn [v_type v_tag v_elements v_data]. repeat apply conj; auto.
  fold (many (zlen xs)). generalize (many (zlen xs)). clear - R. intros m. induction R as [ | x xs H R IH ]; cbn [map]; constructor; [ apply cell_written, H | exact IH ].
Qed.
Print Assumptions conv_number_text.

Example conv_number_text_ex : convert (mk_flags true true true) H2str (mk_value TYPE_H 1 [] 0 2 (int64_memory [-9223372036854775808; 7])) =
  ROk (mk_value TYPE_STR 0 [] 0 2 (str_bytes "-9223372036854775808                   7")).
Proof. vm_compute. reflexivity. Qed.

(** C113. Texts become numbers exactly when every element is blanks and a decimal number, of 64
    octets at most; numbers out of range become the limits, as documented.  Signed if there is a
    minus anywhere. *)
Theorem conv_text_number : forall f v ts size, In (v_type v) (string_types f) -> v_data v = concat ts -> v_elements v = zlen ts -> ts <> [] ->
  Forall (fun t => zlen t = size) ts -> 1 <= size -> 8 * zlen ts < 2^32 ->
  exists sgn : bool, (sgn = true <-> In 45 (v_data v)) /\
    (forall w, convert f Str2h v = ROk w <-> size <= 64 /\ exists xs, Forall2 (blanked sgn) ts xs /\
       w = mk_value TYPE_H (if sgn then 1 else 0) (v_tag v) 0 (v_elements v) (int64_memory (map (clamp64 sgn) xs))) /\
    ((exists w, convert f Str2h v = ROk w) \/ convert f Str2h v = RErr NOT_POSSIBLE).
Proof.
  intros f v ts size T D E NE L S1 B. exists (minus v). split; [ apply minus_iff | ].
  assert (N : v_type v =? to_type Str2h = false). { apply Z.eqb_neq. intros X. rewrite X in T. unfold string_types in T. destruct (strict_strings f); cbn in T; repeat (destruct T as [ T | T ]; [ discriminate | ]); exact T. }
  unfold convert. rewrite N. cbn [convert_function]. split.
  - intros w. rewrite E. apply (str2h_iff f v ts size T D E NE L S1 B).
  - apply (str2h_else f v ts size T D E NE L S1 B).
Qed.
Print Assumptions conv_text_number.

Example conv_text_number_ex :
  convert (mk_flags true false false) Str2h (mk_value TYPE_SEP 0 [] 0 3 (str_bytes " 12 +3-04")) = ROk (mk_value TYPE_H 1 [] 0 3 (int64_memory [12; 3; -4])) /\
  convert (mk_flags true false false) Str2h (mk_value TYPE_STR 0 [] 0 1 (str_bytes "12 ")) = RErr NOT_POSSIBLE.
Proof. split; vm_compute; reflexivity. Qed.

(** C113. Numbers converted to text and back are the same numbers. *)
Theorem conv_round_trip : forall f v xs, In (v_type v) integer_types -> xs <> [] -> v_elements v = zlen xs -> v_data v = int64_memory xs ->
  Forall (int64_range (is_signed (v_flags v))) xs -> 20 * zlen xs < 2^32 ->
  exists s w, convert f H2str v = ROk s /\ convert f Str2h s = ROk w /\ v_data w = v_data v /\ v_elements w = v_elements v /\ v_tag w = v_tag v /\ v_type w = TYPE_H /\
    (is_signed (v_flags w) = true -> is_signed (v_flags v) = true).
Proof.
  intros f v xs T NE E D R B. destruct (round_trip f v xs T NE E D R B) as (s & w & H1 & H2 & H). exists s, w. split; [ | split; [ | exact H ] ].
  - unfold convert. assert (N : v_type v =? to_type H2str = false) by (apply Z.eqb_neq; intros X; rewrite X in T; now apply (proj1 str_not_integer) in T). now rewrite N.
  - unfold convert. rewrite (h2str_ok v xs T NE E D R B) in H1. injection H1 as <-. exact H2.
Qed.
Print Assumptions conv_round_trip.

Example conv_round_trip_ex : let f := mk_flags true true true in let v := mk_value TYPE_H 0 (str_bytes "x") 8 2 (int64_memory [18446744073709551615; 0]) in
  let s := mk_value TYPE_STR 0 (str_bytes "x") 0 2 (str_bytes "18446744073709551615                   0") in
  convert f H2str v = ROk s /\ convert f Str2h s = ROk (mk_value TYPE_H 0 (str_bytes "x") 0 2 (v_data v)).
Proof. split; vm_compute; reflexivity. Qed.

(** C113. Hexadecimal text is double the size and reads back as the data.  What is missing: strings,
    which are left as they are (conv_hex_string_refuted), and sizes of 2 GB (conv_hex_size_refuted). *)
Theorem conv_hex_partial : forall f v, In (v_type v) (blob_types f) -> v_type v <> TYPE_STR -> well_formed v -> 2 * zlen (v_data v) + 1 < 2^32 ->
  exists s, convert f Blob2hex v = ROk s /\ v_type s = TYPE_STR /\ v_elements s = v_elements v /\ v_tag s = v_tag v /\ zlen (v_data s) = 2 * zlen (v_data v) /\ unhex (v_data s) = Some (v_data v).
Proof.
  intros f v T N (WB & WE & WM & _) B. unfold convert. replace (v_type v =? to_type Blob2hex) with false by (symmetry; apply Z.eqb_neq; exact N). cbn [convert_function]. rewrite (blob2hex_ok f v T B WE WM). eexists. split; [ reflexivity | ].
  cbn [set_type_data v_type v_elements v_tag v_data]. rewrite hex_len. repeat apply conj; auto. apply unhex_hex, WB.
Qed.
Print Assumptions conv_hex_partial.

Example conv_hex_ex : convert (mk_flags true true true) Blob2hex (mk_value TYPE_BLOB 0 [] 3 1 [0; 175; 255]) = ROk (mk_value TYPE_STR 0 [] 3 1 (str_bytes "00afff")).
Proof. vm_compute. reflexivity. Qed.

(** C113. Numbers as characters: possible exactly when all are octets, which then are the text. *)
Theorem conv_characters : forall f v xs, In (v_type v) integer_types -> xs <> [] -> v_elements v = zlen xs -> v_data v = int64_memory xs -> Forall (int64_range (is_signed (v_flags v))) xs ->
  (Forall byte xs -> convert f Hchar2str v = ROk (mk_value TYPE_STR 0 (v_tag v) 0 1 xs)) /\ (~ Forall byte xs -> convert f Hchar2str v = RErr NOT_POSSIBLE).
Proof.
  intros f v xs T NE E D R. unfold convert. assert (N : v_type v =? to_type Hchar2str = false) by (apply Z.eqb_neq; intros X; rewrite X in T; now apply (proj1 str_not_integer) in T). rewrite N. cbn [convert_function]. rewrite (hchar2str_eq v xs T NE E D).
  pose proof (chars_iff _ _ R) as C. split; intros H.
  - rewrite (proj2 C H), (chars_data _ H). reflexivity.
  - destruct (forallb _ xs); [ exfalso; apply H, C; reflexivity | reflexivity ].
Qed.
Print Assumptions conv_characters.

Example conv_characters_ex : convert (mk_flags true true true) Hchar2str (mk_value TYPE_H 1 [] 0 2 (int64_memory [72; 105])) = ROk (mk_value TYPE_STR 0 [] 0 1 (str_bytes "Hi")) /\
  convert (mk_flags true true true) Hchar2str (mk_value TYPE_H 1 [] 0 2 (int64_memory [72; -1])) = RErr NOT_POSSIBLE.
Proof. split; vm_compute; reflexivity. Qed.

(** C113. The conversions which keep the data: possible exactly for the types they are for, and only
    the type changes. *)
Theorem conv_kept : forall f m v, In m [Blob2str; Blob2blob; Str2str; Str2blob; Msg2blob] ->
  let result := match m with Blob2str | Str2str => TYPE_STR | _ => TYPE_BLOB end in
  let accepted := match m with Blob2str | Blob2blob => In (v_type v) (blob_types f) | Msg2blob => v_type v = TYPE_MSG | _ => In (v_type v) (string_types f) /\ (m = Str2blob -> v_data v <> []) end in
  (v_type v = result \/ accepted -> convert f m v = ROk (set_type_data v result (v_data v))) /\ (v_type v <> result -> ~ accepted -> convert f m v = RErr NOT_POSSIBLE).
Proof.
  intros f m v M result accepted.
  assert (RES : to_type m = result) by (cbn in M; destruct M as [ <- | [ <- | [ <- | [ <- | [ <- | [] ] ] ] ] ]; reflexivity). unfold convert. rewrite RES. destruct (Z.eqb_spec (v_type v) result) as [ E | NE ].
  { split; [ intros _ | congruence ]. f_equal. destruct v as [ t fl tg il el d ]. cbn [v_type v_data set_type_data v_flags v_tag v_import_length v_elements] in *. now rewrite E. }
  assert (G : (accepted -> convert_function f m v = ROk (set_type_data v result (v_data v))) /\ (~ accepted -> convert_function f m v = RErr NOT_POSSIBLE)).
  { pose proof (blob_ensure_iff f (v_type v)) as BE. pose proof (str_ensure_iff f (v_type v)) as SE.
    cbn in M; destruct M as [ <- | [ <- | [ <- | [ <- | [ <- | [] ] ] ] ] ]; cbn [convert_function]; unfold result, accepted.
    - unfold blob2. destruct (blob_ensure f (v_type v)); cbn [negb]; split; intros H; try reflexivity; exfalso; [ apply H, BE; reflexivity | apply BE in H; discriminate ].
    - unfold blob2. destruct (blob_ensure f (v_type v)); cbn [negb]; split; intros H; try reflexivity; exfalso; [ apply H, BE; reflexivity | apply BE in H; discriminate ].
    - unfold str2str. destruct (str_ensure f (v_type v)); cbn [negb]; split; intros H; try reflexivity; exfalso; [ apply H; split; [ apply SE; reflexivity | discriminate ] | destruct H as (H & _); apply SE in H; discriminate ].
    - unfold str2blob. destruct (v_data v) as [ | c l ] eqn:D.
      + rewrite zlen_nil. change (0 =? 0) with true. destruct (str_ensure f (v_type v)); cbn [negb]; split; intros H; try reflexivity; exfalso; destruct H as (_ & H); now apply H.
      + rewrite zlen_cons. pose proof (zlen_nonneg _ l). replace (1 + zlen l =? 0) with false by lia. unfold set_type. rewrite D.
        destruct (str_ensure f (v_type v)); cbn [negb]; split; intros H0; try reflexivity; exfalso; [ apply H0; split; [ apply SE; reflexivity | discriminate ] | destruct H0 as (H0 & _); apply SE in H0; discriminate ].
    - unfold msg2blob. destruct (Z.eqb_spec (v_type v) TYPE_MSG); cbn [negb]; split; intros H; try reflexivity; contradiction. }
  destruct G as (G1 & G2). split; [ intros [ H | H ]; [ contradiction | auto ] | intros _; exact G2 ].
Qed.
Print Assumptions conv_kept.

Example conv_kept_ex : convert (mk_flags true false true) Blob2str (mk_value TYPE_MSG 0 [] 3 1 [1; 2; 3]) = ROk (mk_value TYPE_STR 0 [] 3 1 [1; 2; 3]) /\
  convert (mk_flags true true true) Blob2str (mk_value TYPE_MSG 0 [] 3 1 [1; 2; 3]) = RErr NOT_POSSIBLE.
Proof. split; reflexivity. Qed.

(** C113. Vain values: zero and the empty text, and nothing else, become vain, and vain becomes them. *)
Theorem conv_vain : forall f tag fl il x, int64_range (is_signed fl) x ->
  convert f H2vain (mk_value TYPE_H fl tag il 1 (int64_memory [x])) = (if x =? 0 then ROk (mk_value TYPE_VAIN 0 tag 0 1 []) else RErr NOT_POSSIBLE) /\
  (forall d, convert f Str2vain (mk_value TYPE_STR fl tag il 1 d) = match d with [] => ROk (mk_value TYPE_VAIN 0 tag 0 1 []) | _ => RErr NOT_POSSIBLE end) /\
  convert f Vain2h (mk_value TYPE_VAIN fl tag il 1 []) = ROk (mk_value TYPE_H 0 tag 0 1 (int64_memory [0])) /\
  convert f Vain2str (mk_value TYPE_VAIN fl tag il 1 []) = ROk (mk_value TYPE_STR 0 tag 0 1 []).
Proof.
  intros f tag fl il x R. split; [ | split; [ | split; reflexivity ] ].
  - change (convert f H2vain (mk_value TYPE_H fl tag il 1 (int64_memory [x]))) with (h2vain (mk_value TYPE_H fl tag il 1 (int64_memory [x]))). unfold h2vain. cbn [v_type v_elements v_data v_tag]. change (is_64 TYPE_H) with true. change (1 <? 1) with false. cbn [negb].
    rewrite memory_len. change (8 * zlen [x] <? 8) with false. rewrite memory_cons. destruct (take8 (le_enc 8 (x mod 2^64)) (int64_memory []) (le_enc8_len _)) as (-> & _). rewrite le_dec_mod.
    assert (x mod 2^64 = 0 <-> x = 0) as I. { unfold int64_range in R. destruct (is_signed fl); [ | rewrite Z.mod_small by lia; lia ]. destruct (Z.ltb_spec x 0); [ rewrite <- (Z.mod_unique x (2^64) (-1) (x + 2^64)) by lia; lia | rewrite Z.mod_small by lia; lia ]. }
    destruct (Z.eqb_spec x 0) as [ E | N ]; destruct (Z.eqb_spec (x mod 2^64) 0) as [ E' | N' ]; try reflexivity; tauto.
  - intros d. change (convert f Str2vain (mk_value TYPE_STR fl tag il 1 d)) with (str2vain f (mk_value TYPE_STR fl tag il 1 d)). unfold str2vain. cbn [v_type v_elements v_data v_tag].
    rewrite (proj2 (str_ensure_iff f TYPE_STR)) by (unfold string_types; destruct (strict_strings f); left; reflexivity). cbn [negb]. change (1 <? 1) with false. destruct d as [ | c d ]; [ reflexivity | ]. rewrite zlen_cons. pose proof (zlen_nonneg _ d). now replace (1 + zlen d =? 0) with false by lia.
Qed.
Print Assumptions conv_vain.

Example conv_vain_ex : convert (mk_flags true true true) H2vain (mk_value TYPE_H 0 [] 0 1 (int64_memory [0])) = ROk (mk_value TYPE_VAIN 0 [] 0 1 []).
Proof. vm_compute. reflexivity. Qed.

(** C113. Values of other types are not converted; nor are many values made vain. *)
Theorem conv_refused : forall f m v, v_type v <> (match m with H2str | Blob2str | Blob2hex | Str2str | Vain2str | Hchar2str => TYPE_STR | H2vain | Str2vain => TYPE_VAIN | Blob2blob | Str2blob | Msg2blob => TYPE_BLOB | Str2h | Vain2h => TYPE_H end) ->
  ~ In (v_type v) (match m with
                   | H2str | H2vain | Hchar2str => integer_types
                   | Blob2str | Blob2blob | Blob2hex => blob_types f
                   | Str2str | Str2blob | Str2h | Str2vain => string_types f
                   | Msg2blob => [TYPE_MSG]
                   | Vain2h | Vain2str => [TYPE_VAIN]
                   end) \/ (In m [H2vain; Str2vain] /\ 1 < v_elements v) ->
  convert f m v = RErr NOT_POSSIBLE.
Proof.
  intros f m v N R. unfold convert. replace (v_type v =? to_type m) with false by (symmetry; apply Z.eqb_neq; destruct m; exact N). clear N.
  destruct R as [ A | (M & E) ].
  - destruct m; cbn [convert_function]; unfold h2str, h2vain, hchar2str, blob2, blob2hex, str2str, str2blob, str2h, str2vain, msg2blob, vain2h, vain2str;
    first [ destruct (is_64 (v_type v)) eqn:I; [ exfalso; apply A, is_64_iff, I | reflexivity ]
          | destruct (blob_ensure f (v_type v)) eqn:I; [ exfalso; apply A, blob_ensure_iff, I | reflexivity ]
          | destruct (str_ensure f (v_type v)) eqn:I; [ exfalso; apply A, str_ensure_iff, I | reflexivity ]
          | match goal with |- context [v_type v =? ?t] => destruct (Z.eqb_spec (v_type v) t) as [ I | _ ] end; [ exfalso; apply A; left; symmetry; exact I | reflexivity ] ].
  - cbn in M. destruct M as [ <- | [ <- | [] ] ]; cbn [convert_function]; unfold h2vain, str2vain; replace (1 <? v_elements v) with true by lia; [ destruct (is_64 _) | destruct (str_ensure _ _) ]; reflexivity.
Qed.
Print Assumptions conv_refused.

Example conv_refused_ex : convert (mk_flags true false false) H2str (mk_value TYPE_BLOB 0 [] 0 1 [1]) = RErr NOT_POSSIBLE /\
  convert (mk_flags true false false) H2vain (mk_value TYPE_H 0 [] 0 2 (int64_memory [0; 0])) = RErr NOT_POSSIBLE.
Proof. split; vm_compute; reflexivity. Qed.

(** FINDING: with tolerant blobs, strings are documented to be converted to hexadecimal text by
    blob2hex; they are left as they are. *)
Theorem conv_hex_string_refuted : exists f v, In (v_type v) (blob_types f) /\ well_formed v /\ v_data v = [65] /\ convert f Blob2hex v = ROk v.
Proof.
  exists (mk_flags true false false), (mk_value TYPE_STR 0 [] 1 1 [65]). split; [ cbn; tauto | ]. split; [ | split; reflexivity ].
  split; [ repeat constructor; unfold byte; lia | ]. split; [ cbn; lia | ]. split; [ reflexivity | ]. intros H. now apply (proj1 str_not_integer) in H.
Qed.
Print Assumptions conv_hex_string_refuted.

(** FINDING: with 2^31 octets or a little more blob2hex writes outside its memory. *)
Theorem conv_hex_size_refuted : forall f v, v_type v = TYPE_BLOB -> zlen (v_data v) = 2^31 -> convert f Blob2hex v = RUb.
Proof.
  intros f v T L. unfold convert. rewrite T. change (TYPE_BLOB =? to_type Blob2hex) with false. cbn [convert_function]. unfold blob2hex. rewrite T, (proj2 (blob_ensure_iff f TYPE_BLOB)) by (unfold blob_types; destruct (strict_blobs f); left; reflexivity).
  cbn [negb]. unfold bin_to_hex. rewrite L. reflexivity.
Qed.
Print Assumptions conv_hex_size_refuted.

(** C114. A recipe as documented, as long as its last conversion is possible for what the others have
    made; errors end it.  What is missing: the next theorem tells what happens otherwise. *)
Theorem recipe_partial : forall f ms m v, try_next f = true -> (forall v', recipe (convert f) ms v = ROk v' -> convert f m v' <> RErr NOT_POSSIBLE) -> recipe (convert f) (ms ++ [m]) v <> RErr NOT_POSSIBLE ->
  mangle f (ms ++ [m]) v = recipe (convert f) (ms ++ [m]) v.
Proof.
  intros f ms m v TN H NE. unfold mangle. rewrite (list_last f m TN).
  assert (A : recipe (convert f) (ms ++ [m]) v = match recipe (convert f) ms v with ROk v' => match convert f m v' with ROk w => ROk w | RErr e => if e =? 4 then ROk v' else RErr e | x => x end | x => x end).
  { clear. revert v. induction ms as [ | a ms IH ]; intros v; cbn [app recipe]; [ reflexivity | ]. destruct (convert f a v) as [ w | e | | ]; [ apply IH | | reflexivity | reflexivity ]. destruct (e =? 4); [ apply IH | reflexivity ]. }
  rewrite A in NE |- *. destruct (recipe (convert f) ms v) as [ v' | e | | ]; try reflexivity.
  - specialize (H v' eq_refl). destruct (convert f m v') as [ w | e | | ]; try reflexivity. unfold NOT_POSSIBLE in *. destruct (Z.eqb_spec e 4) as [ -> | ]; [ congruence | reflexivity ].
  - unfold NOT_POSSIBLE in *. destruct (Z.eqb_spec e 4) as [ -> | ]; [ congruence | reflexivity ].
Qed.
Print Assumptions recipe_partial.

Example recipe_ex : let f := mk_flags true true true in let v := mk_value TYPE_STR 0 [] 0 1 (str_bytes "05") in
  recipe (convert f) ([Blob2hex; Str2h] ++ [H2str]) v = ROk (mk_value TYPE_STR 0 [] 0 1 (str_bytes "5")) /\ mangle f [Blob2hex; Str2h; H2str] v = ROk (mk_value TYPE_STR 0 [] 0 1 (str_bytes "5")).
Proof. split; vm_compute; reflexivity. Qed.

(** FINDING: when the last conversion of a recipe is not possible for what the others have made, it is
    documented to be skipped; the value is left as it was before the recipe. *)
Theorem recipe_last_refuted : forall f ms m v v', try_next f = true -> recipe (convert f) ms v = ROk v' -> convert f m v' = RErr NOT_POSSIBLE -> mangle f (ms ++ [m]) v = ROk v.
Proof. intros f ms m v v' TN H E. unfold mangle. rewrite (list_last f m TN), H, E. reflexivity. Qed.
Print Assumptions recipe_last_refuted.

Example recipe_last_ex : let f := mk_flags true true true in let v := mk_value TYPE_STR 0 [] 0 1 (str_bytes "5") in
  recipe (convert f) ([Str2h] ++ [H2vain]) v = ROk (mk_value TYPE_H 0 [] 0 1 (int64_memory [5])) /\ mangle f ([Str2h] ++ [H2vain]) v = ROk v.
Proof. split; vm_compute; reflexivity. Qed.

(** C114. Whatever the recipe, no value whose elements are equal parts of its data makes it abort or
    read or write outside memory, and such a value comes out; here the size is bounded. *)
Theorem recipe_safe : forall f ms v, well_formed v -> (zlen (v_data v) + 1) * 16 ^ zlen ms < 2^30 ->
  (exists w, mangle f ms v = ROk w /\ well_formed w) \/ exists e, mangle f ms v = RErr e.
Proof.
  intros f ms v W B. unfold mangle. destruct (list_good f ms v W B) as [ (w & -> & WW) | (e & ->) ]; [ left; eauto | ]. destruct (e =? NOT_POSSIBLE); [ left; eauto | right; eauto ].
Qed.
Print Assumptions recipe_safe.

Example recipe_safe_ex : let v := mk_value TYPE_H 0 [] 0 2 (int64_memory [1; 2]) in well_formed v /\ (zlen (v_data v) + 1) * 16 ^ zlen [H2str; Str2blob; Blob2hex] < 2^30.
Proof. split; [ | vm_compute; reflexivity ]. split; [ apply memory_bytes | ]. split; [ cbn; lia | ]. split; [ reflexivity | reflexivity ]. Qed.

(** FINDING: values of array messages may have any number of elements: for numbers h2str reads
    outside the data, and a string without elements makes str2h abort. *)
Theorem recipe_elements_refuted : exists v w, value_new_and_unpack [] TYPE_BE 0 [] (repeat 0 8) 2 = ROk v /\ value_new_and_unpack [] TYPE_STR 0 [] [49] 0 = ROk w /\
  (forall f, mangle f [H2str] v = RUb) /\ (forall f, mangle f [Str2h] w = RBug).
Proof.
  eexists. eexists. split; [ reflexivity | ]. split; [ reflexivity | ]. split; intros f; [ vm_compute; reflexivity | ]. destruct f as [ a b [ | ] ]; vm_compute; reflexivity.
Qed.
Print Assumptions recipe_elements_refuted.
