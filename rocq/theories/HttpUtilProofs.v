(** Proofs about the text helpers of the HTTP implementation. *)
From Coq Require Import Strings.String.
From Coq Require Import ZArith List Bool Lia.
From Verif Require Import Common MsgModel ReadModel HttpUtilModel HttpUtilSpec.
Import ListNotations.
Open Scope Z_scope.

Notation len := Datatypes.length.

Ltac bools := repeat match goal with
  | H : _ && _ = true |- _ => apply andb_true_iff in H as (? & ?)
  | H : _ || _ = false |- _ => apply orb_false_iff in H as (? & ?)
  end.

Lemma one_of_iff l c : one_of l c = true <-> In c l.
Proof. unfold one_of. rewrite existsb_exists. split; [ intros (x & H & E); apply Z.eqb_eq in E; now subst | intros H; exists c; split; [ exact H | lia ] ]. Qed.
Lemma alnum_iff c : is_alnum c = true <-> letter c \/ digit c.
Proof. unfold is_alnum, letter, digit. lia. Qed.

(** ** Digits *)
Lemma hex_iff c : is_digit 16 c = true <-> hex c (digit_value c).
Proof.
  unfold is_digit, digit_value. change (16 =? 10) with false. cbv iota. split.
  - intros H. destruct (c <=? 57) eqn:A; [ constructor; lia | ]. destruct (c <=? 70) eqn:B; [ replace (c - 55) with (c - 65 + 10) by lia; constructor; lia | replace (c - 87) with (c - 97 + 10) by lia; constructor; lia ].
  - intros H. inversion H; lia.
Qed.
Lemma hex_value c x : hex c x -> is_digit 16 c = true /\ digit_value c = x /\ 0 <= x < 16.
Proof.
  unfold is_digit, digit_value. change (16 =? 10) with false. cbv iota. intros H. destruct H as [ c H | c H | c H ]; (split; [ lia | ]).
  - replace (c <=? 57) with true by lia. lia.
  - replace (c <=? 57) with false by lia. replace (c <=? 70) with true by lia. lia.
  - replace (c <=? 57) with false by lia. replace (c <=? 70) with false by lia. lia.
Qed.
Lemma two_digits a b x y : hex a x -> hex b y -> strtoull_raw 16 [a; b] = Some (16 * x + y, 2) /\ 0 <= 16 * x + y < 256.
Proof.
  intros H1 H2. destruct (hex_value _ _ H1) as (A1 & A2 & A3). destruct (hex_value _ _ H2) as (B1 & B2 & B3). split; [ | lia ].
  unfold strtoull_raw. cbn [digits]. rewrite A1, B1. change (zlen [a; b]) with 2. cbn [Z.eqb Z.ltb Z.compare orb Pos.compare Pos.compare_cont]. unfold strtoull. cbn [fold_left]. rewrite A2, B2.
  do 2 f_equal. rewrite Z.min_r; lia.
Qed.
(** One or two digits are below 256, whatever follows *)
Lemma strtoull_two a b : match strtoull_raw 16 [a; b] with Some (n, _) => 0 <= n < 256 | None => True end.
Proof.
  unfold strtoull_raw. cbn [digits]. destruct (is_digit 16 a) eqn:A; [ | exact I ]. apply hex_iff in A. pose proof (hex_value _ _ A) as (_ & _ & Ra).
  destruct (is_digit 16 b) eqn:B.
  - apply hex_iff in B. pose proof (hex_value _ _ B) as (_ & _ & Rb). change (zlen [a; b]) with 2. cbn [Z.eqb Z.ltb Z.compare orb Pos.compare Pos.compare_cont]. unfold strtoull. cbn [fold_left]. lia.
  - change (zlen [a]) with 1. cbn [Z.eqb Z.ltb Z.compare orb Pos.compare Pos.compare_cont]. unfold strtoull. cbn [fold_left]. lia.
Qed.

(** ** URL encoding *)
Lemma decode_encodes t s : encodes t s -> url_decode t = Ok (Some s).
Proof.
  induction 1 as [ | c t s N _ IH | a b x y t s H1 H2 _ IH ]; [ reflexivity | | ].
  - cbn [url_decode]. replace (c =? 37) with false by lia. now rewrite IH.
  - cbn [url_decode]. change (37 =? 37) with true. cbv iota. destruct (two_digits a b x y H1 H2) as (-> & R). replace (255 <? 16 * x + y) with false by lia. now rewrite IH.
Qed.
Lemma decode_total l : exists r, url_decode l = Ok r /\ match r with Some s => zlen s <= zlen l | None => True end.
Proof.
  assert (G : forall n l, (len l <= n)%nat -> exists r, url_decode l = Ok r /\ match r with Some s => zlen s <= zlen l | None => True end).
  { clear. induction n as [ | n IH ]; intros l H.
    - destruct l; [ exists (Some []); split; [ reflexivity | cbn; lia ] | cbn in H; lia ].
    - destruct l as [ | c r ]; [ exists (Some []); split; [ reflexivity | cbn; lia ] | ]. cbn [url_decode]. destruct (c =? 37).
      + destruct r as [ | a [ | b r' ] ]; [ exists None; auto | exists None; auto | ].
        pose proof (strtoull_two a b) as T. destruct (strtoull_raw 16 [a; b]) as [ (n0 & k) | ]; [ | exists None; auto ]. replace (255 <? n0) with false by lia.
        destruct (IH r') as ([ s | ] & E & L); [ cbn in H; lia | | ]; rewrite E; eexists; (split; [ reflexivity | ]); [ rewrite !zlen_cons; lia | exact I ].
      + destruct (IH r) as ([ s | ] & E & L); [ cbn in H; lia | | ]; rewrite E; eexists; (split; [ reflexivity | ]); [ rewrite !zlen_cons; lia | exact I ]. }
  exact (G (len l) l (le_n _)).
Qed.
Lemma hex_digit_ok n : 0 <= n < 16 -> hex (hex_digit n) n.
Proof. intros H. unfold hex_digit. destruct (n <? 10) eqn:E; [ replace n with (48 + n - 48) at 2 by lia; constructor; lia | replace n with (55 + n - 65 + 10) at 2 by lia; constructor; lia ]. Qed.
Lemma url_char_encodes c t s : octet c -> encodes t s -> encodes (url_char c ++ t) (c :: s).
Proof.
  intros O E. unfold url_char. destruct (is_alnum c || is_unreserved c) eqn:A.
  - cbn [app]. constructor; [ | exact E ]. intros ->. discriminate A.
  - cbn [app]. replace (c :: s) with (16 * (c / 16) + c mod 16 :: s) by (f_equal; unfold octet in O; lia). constructor; [ apply hex_digit_ok | apply hex_digit_ok | exact E ]; unfold octet in O; lia.
Qed.
Lemma url_char_size c : 1 <= zlen (url_char c) <= 3.
Proof. unfold url_char. destruct (_ || _); cbn; lia. Qed.
Lemma hex_digit_safe n : 0 <= n < 16 -> safe (hex_digit n).
Proof. intros H. unfold safe, letter, digit, hex_digit. destruct (n <? 10) eqn:E; lia. Qed.
Lemma url_char_safe c : octet c -> Forall safe (url_char c).
Proof.
  intros O. unfold url_char. destruct (is_alnum c || is_unreserved c) eqn:A.
  - constructor; [ | constructor ]. apply orb_true_iff in A as [ A | A ]; [ apply alnum_iff in A; unfold safe; tauto | ]. apply one_of_iff in A. right. right. cbn in *. tauto.
  - apply Forall_cons; [ right; right; cbn; tauto | ]. apply Forall_cons; [ apply hex_digit_safe; unfold octet in O; lia | ]. apply Forall_cons; [ apply hex_digit_safe; unfold octet in O; lia | constructor ].
Qed.
Lemma encode_facts s : Forall octet s -> encodes (concat (map url_char s)) s /\ Forall safe (concat (map url_char s)) /\ zlen s <= zlen (concat (map url_char s)) <= 3 * zlen s.
Proof.
  induction 1 as [ | c s O _ (IH1 & IH2 & IH3) ]; cbn [map concat]; [ repeat split; try constructor; cbn; lia | ].
  split; [ now apply url_char_encodes | ]. split; [ apply Forall_app; split; [ now apply url_char_safe | exact IH2 ] | ].
  pose proof (url_char_size c). rewrite zlen_app, zlen_cons. lia.
Qed.
Lemma uri_encode_ok s : Forall octet s -> 3 * zlen s < 2^32 -> exists t, uri_encode s = Ok t /\ t = concat (map url_char s) /\ encodes t s /\ Forall safe t /\ zlen s <= zlen t <= 3 * zlen s.
Proof.
  intros O L. destruct (encode_facts s O) as (E1 & E2 & E3). exists (concat (map url_char s)). unfold uri_encode. replace (2^32 - 1 <? zlen s * 3) with false by lia.
  cbv zeta. replace (zlen s * 3 + 1 <? zlen (concat (map url_char s)) + 1) with false by lia. auto.
Qed.
Lemma split_query_app e q : ~ In 63 e -> split_query (e ++ 63 :: q) = (e, q).
Proof. intros N. induction e as [ | c e IH ]; cbn [app split_query]; [ reflexivity | ]. replace (c =? 63) with false by (cbn in N; lia). rewrite IH; [ reflexivity | cbn in N; tauto ]. Qed.
Lemma split_query_none e : ~ In 63 e -> split_query e = (e, []).
Proof. intros N. induction e as [ | c e IH ]; cbn [app split_query]; [ reflexivity | ]. replace (c =? 63) with false by (cbn in N; lia). rewrite IH; [ reflexivity | cbn in N; tauto ]. Qed.

(** ** Forms *)
Lemma fplain_iff c : ~ In c (str_bytes "%+=& ") -> c <> 9 -> c <> 10 -> c <> 13 -> c <> 37 /\ c <> 43 /\ c <> 61 /\ c <> 38 /\ is_space c = false.
Proof. unfold is_space. cbn. intros. lia. Qed.
Definition starts_ok (l : list Z) : Prop := match l with c :: _ => is_space c = false | [] => True end.
Lemma fenc_starts t s rest : form_encodes t s -> starts_ok rest -> starts_ok (t ++ rest).
Proof. intros [] R; cbn [app starts_ok]; try reflexivity; [ exact R | now apply fplain_iff ]. Qed.
Definition add (s : qstate) (b : list Z) : qstate := mk_q (q_fields s) (q_buf s ++ b) (q_value s).
Lemma add_nil s : add s [] = s.
Proof. destruct s. unfold add. cbn. now rewrite app_nil_r. Qed.
Lemma add_add s a b : add (add s a) b = add s (a ++ b).
Proof. unfold add. cbn. now rewrite app_assoc. Qed.
(** Reading an encoded text which is followed by something *)
Lemma loop_mid t s : form_encodes t s -> forall fuel st rest, rest <> [] -> starts_ok rest -> (len (t ++ rest) <= fuel)%nat ->
  exists fuel', (len rest <= fuel')%nat /\ query_loop fuel st (t ++ rest) = query_loop fuel' (add st s) rest.
Proof.
  induction 1 as [ | c t s N1 N2 N3 N4 H IH | t s H IH | a b x y t s H1 H2 H IH ]; intros fuel st rest NR SR L; cbn [app] in *.
  - exists fuel. rewrite add_nil. auto.
  - destruct fuel as [ | fuel ]; [ cbn in L; lia | ]. destruct (fplain_iff c N1 N2 N3 N4) as (M1 & M2 & M3 & M4 & M5).
    destruct (IH fuel (add st [c]) rest NR SR) as (f' & L' & E); [ cbn in L; lia | ]. exists f'. split; [ exact L' | ]. rewrite add_add in E. cbn [app] in E. rewrite <- E.
    cbn [query_loop]. replace (c =? 43) with false by lia. replace (c =? 37) with false by lia. replace (c =? 61) with false by lia. replace (c =? 38) with false by lia. rewrite M5.
    destruct (t ++ rest) as [ | d q ] eqn:Q; [ destruct t; [ cbn in Q; congruence | discriminate ] | reflexivity ].
  - destruct fuel as [ | fuel ]; [ cbn in L; lia | ]. destruct (IH fuel (add st [32]) rest NR SR) as (f' & L' & E); [ cbn in L; lia | ]. exists f'. split; [ exact L' | ]. rewrite add_add in E. cbn [app] in E. rewrite <- E.
    cbn [query_loop]. change (43 =? 43) with true. cbv iota. change (is_space 43) with false. destruct (t ++ rest) as [ | d q ] eqn:Q; [ destruct t; [ cbn in Q; congruence | discriminate ] | reflexivity ].
  - destruct fuel as [ | fuel ]; [ cbn in L; lia | ]. destruct (IH fuel (add st [16 * x + y]) rest NR SR) as (f' & L' & E); [ cbn in L; lia | ]. exists f'. split; [ exact L' | ]. rewrite add_add in E. cbn [app] in E. rewrite <- E.
    cbn [query_loop]. change (37 =? 43) with false. change (37 =? 37) with true. cbv iota. change (is_space 37) with false. destruct (two_digits a b x y H1 H2) as (-> & R). replace (255 <? 16 * x + y) with false by lia.
    pose proof (fenc_starts t s rest H SR) as SS. destruct (t ++ rest) as [ | d q ] eqn:Q; [ destruct t; [ cbn in Q; congruence | discriminate ] | ]. cbn [starts_ok] in SS. rewrite SS. reflexivity.
Qed.
(** Reading an encoded text to the end *)
Lemma loop_end t s : form_encodes t s -> t <> [] -> forall fuel st, (len t <= fuel)%nat ->
  query_loop fuel st t = Ok (Some (rev (q_fields (finish (add st s))))).
Proof.
  induction 1 as [ | c t s N1 N2 N3 N4 H IH | t s H IH | a b x y t s H1 H2 H IH ]; intros NT fuel st L; [ congruence | | | ]; (destruct fuel as [ | fuel ]; [ cbn in L; lia | ]).
  - destruct (fplain_iff c N1 N2 N3 N4) as (M1 & M2 & M3 & M4 & M5). cbn [query_loop]. replace (c =? 43) with false by lia. replace (c =? 37) with false by lia. replace (c =? 61) with false by lia. replace (c =? 38) with false by lia.
    destruct t as [ | d t ]; [ inversion H; subst; reflexivity | ]. rewrite M5. fold (add st [c]). rewrite IH; [ | discriminate | cbn in L |- *; lia ]. now rewrite add_add.
  - cbn [query_loop]. change (43 =? 43) with true. cbv iota. change (is_space 43) with false. destruct t as [ | d t ]; [ inversion H; subst; reflexivity | ]. fold (add st [32]). rewrite IH; [ | discriminate | cbn in L |- *; lia ]. now rewrite add_add.
  - cbn [query_loop]. change (37 =? 43) with false. change (37 =? 37) with true. cbv iota. change (is_space 37) with false. destruct (two_digits a b x y H1 H2) as (-> & R). replace (255 <? 16 * x + y) with false by lia.
    destruct t as [ | d t ]; [ inversion H; subst; reflexivity | ]. assert (SD : is_space d = false) by (pose proof (fenc_starts (d :: t) s [] H I) as SS; exact SS). rewrite SD. cbn [orb]. fold (add st [16 * x + y]).
    rewrite IH; [ | discriminate | cbn in L |- *; lia ]. now rewrite add_add.
Qed.
Lemma fenc_len t s : form_encodes t s -> t <> [] -> s <> [].
Proof. intros []; congruence. Qed.
Definition value_ok (f : field) : Prop := match snd f with c :: _ => c <> 0 | [] => True end.
(** A field which is the last or followed by & *)
Lemma field_end f t fs fuel : field_text f t -> value_ok f -> (len t <= fuel)%nat -> query_loop fuel (mk_q fs [] false) t = Ok (Some (rev (f :: fs))).
Proof.
  intros [ n tn H NT | n v tn tv H NT HV ] V L.
  - rewrite (loop_end tn n H NT) by exact L. pose proof (fenc_len _ _ H NT). unfold add, finish, push_field. cbn [q_fields q_buf q_value app]. destruct n; [ congruence | reflexivity ].
  - destruct (loop_mid tn n H fuel (mk_q fs [] false) ([61] ++ tv)) as (f' & L' & ->); [ discriminate | reflexivity | exact L | ]. unfold add. cbn [q_fields q_buf q_value app].
    destruct f' as [ | f' ]; [ cbn in L'; lia | ]. pose proof (fenc_len _ _ H NT) as NN. cbn [query_loop]. change (61 =? 43) with false. change (61 =? 37) with false. change (61 =? 61) with true. cbv iota. cbn [q_value].
    unfold push_field. cbn [q_fields q_buf q_value]. destruct n as [ | c n ]; [ congruence | ]. destruct tv as [ | d tv ].
    + inversion HV; subst. reflexivity.
    + change (is_space 61) with false. cbv iota. rewrite (loop_end (d :: tv) v HV) by (try discriminate; cbn in L' |- *; lia). unfold add, finish, store_value, value_set. cbn [q_fields q_buf q_value app].
      pose proof (fenc_len _ _ HV ltac:(discriminate)). destruct v as [ | e v ]; [ congruence | ]. cbn [value_ok snd] in V. replace (e =? 0) with false by lia. reflexivity.
Qed.
Lemma field_mid f t fs fuel rest : field_text f t -> value_ok f -> (len (t ++ 38%Z :: rest) <= fuel)%nat ->
  exists fuel', (len rest <= fuel')%nat /\ query_loop fuel (mk_q fs [] false) (t ++ 38 :: rest) = query_loop fuel' (mk_q (f :: fs) [] false) rest.
Proof.
  intros [ n tn H NT | n v tn tv H NT HV ] V L.
  - destruct (loop_mid tn n H fuel (mk_q fs [] false) (38 :: rest)) as (f' & L' & ->); [ discriminate | reflexivity | exact L | ]. destruct f' as [ | f' ]; [ cbn in L'; lia | ]. exists f'. split; [ cbn in L'; lia | ].
    pose proof (fenc_len _ _ H NT). unfold add. cbn [query_loop q_fields q_buf q_value app]. change (38 =? 43) with false. change (38 =? 37) with false. change (38 =? 61) with false. change (38 =? 38) with true. cbv iota.
    change (is_space 38) with false. unfold finish, push_field. cbn [q_fields q_buf q_value]. destruct n; [ congruence | ]. destruct rest; [ destruct f'; reflexivity | reflexivity ].
  - rewrite <- !app_assoc in *. cbn [app] in *. destruct (loop_mid tn n H fuel (mk_q fs [] false) (61 :: tv ++ 38 :: rest)) as (f' & L' & ->); [ discriminate | reflexivity | exact L | ]. unfold add. cbn [q_fields q_buf q_value app].
    destruct f' as [ | f' ]; [ cbn in L'; lia | ]. pose proof (fenc_len _ _ H NT) as NN. cbn [query_loop]. change (61 =? 43) with false. change (61 =? 37) with false. change (61 =? 61) with true. cbv iota. cbn [q_value].
    change (is_space 61) with false. unfold push_field. cbn [q_fields q_buf q_value]. destruct n as [ | c n ]; [ congruence | ].
    assert (E1 : (match tv ++ 38 :: rest with [] => true | _ :: _ => false end) = false) by (destruct tv; reflexivity). rewrite E1. clear E1.
    destruct (loop_mid tv v HV f' (mk_q ((c :: n, []) :: fs) [] true) (38 :: rest)) as (f2 & L2 & ->); [ discriminate | reflexivity | cbn in L'; lia | ]. destruct f2 as [ | f2 ]; [ cbn in L2; lia | ]. exists f2. split; [ cbn in L2; lia | ].
    unfold add. cbn [query_loop q_fields q_buf q_value app]. change (38 =? 43) with false. change (38 =? 37) with false. change (38 =? 61) with false. change (38 =? 38) with true. cbv iota.
    change (is_space 38) with false. unfold finish, store_value, value_set. cbn [q_fields q_buf q_value]. destruct v as [ | e v ]; [ destruct rest; [ destruct f2; reflexivity | reflexivity ] | ]. cbn [value_ok snd] in V. replace (e =? 0) with false by lia. destruct rest; [ destruct f2; reflexivity | reflexivity ].
Qed.
Lemma form_nonempty fs t : form_text fs t -> fs <> [] -> t <> [].
Proof. intros [ | f t' H | f t' fs' ts H HF N ] NF; [ congruence | | intros E; apply app_eq_nil in E as (_ & E); discriminate ]. destruct H as [ n tn A B | n v tn tv A B C ]; [ exact B | intros E; apply app_eq_nil in E as (_ & E); discriminate ]. Qed.
Lemma form_loop fs t : form_text fs t -> Forall value_ok fs -> forall fuel done, (len t <= fuel)%nat -> query_loop fuel (mk_q done [] false) t = Ok (Some (rev done ++ fs)).
Proof.
  induction 1 as [ | f t H | f t fs ts H HF IH N ]; intros V fuel done L.
  - rewrite app_nil_r. destruct fuel; reflexivity.
  - inversion V; subst. rewrite (field_end f t done fuel) by auto. reflexivity.
  - inversion V as [ | ? ? V1 V2 ]; subst. cbn [app] in *. destruct (field_mid f t done fuel ts H V1 L) as (f' & L' & ->). rewrite IH by auto. cbn [rev]. now rewrite <- app_assoc.
Qed.
Lemma field_starts f t : field_text f t -> starts_ok t.
Proof. intros [ n tn H _ | n v tn tv H NT HV ]; [ rewrite <- (app_nil_r tn); now apply (fenc_starts tn n) | apply (fenc_starts tn n); [ exact H | reflexivity ] ]. Qed.
Lemma field_text_ne f t : field_text f t -> t <> [].
Proof. intros [ n tn A B | n v tn tv A B C ]; [ exact B | intros E; apply app_eq_nil in E as (_ & E); discriminate ]. Qed.
Lemma form_starts fs t : form_text fs t -> skip_spaces t = t.
Proof.
  intros H. assert (ST : starts_ok t).
  { destruct H as [ | f t H | f t fs ts H HF N ]; [ exact I | now apply (field_starts f) | ]. pose proof (field_text_ne f t H). apply field_starts in H. destruct t; [ congruence | exact H ]. }
  destruct t as [ | c t ]; [ reflexivity | ]. cbn [starts_ok] in ST. cbn [skip_spaces]. now rewrite ST.
Qed.
(** With & at the end *)
Lemma form_loop_amp fs t : form_text fs t -> fs <> [] -> Forall value_ok fs -> forall fuel done, (len (t ++ [38%Z]) <= fuel)%nat -> query_loop fuel (mk_q done [] false) (t ++ [38]) = Ok (Some (rev done ++ fs)).
Proof.
  induction 1 as [ | f t H | f t fs ts H HF IH N ]; intros NE V fuel done L; [ congruence | | ].
  - inversion V; subst. destruct (field_mid f t done fuel [] H ltac:(auto) L) as (f' & L' & ->). destruct f'; reflexivity.
  - inversion V as [ | ? ? V1 V2 ]; subst. cbn [app] in *. rewrite <- app_assoc in *. cbn [app] in *. destruct (field_mid f t done fuel (ts ++ [38]) H V1 L) as (f' & L' & ->). rewrite IH by auto. cbn [rev]. now rewrite <- app_assoc.
Qed.
Lemma query_form_amp fs t : form_text fs t -> fs <> [] -> Forall value_ok fs -> zlen t < 2^32 - 2 -> query_parse (t ++ [38]) = Ok (Some fs).
Proof.
  intros H NE V L. unfold query_parse. assert (S : skip_spaces (t ++ [38]) = t ++ [38]).
  { assert (ST : starts_ok t). { destruct H as [ | f t H | f t fs ts H HF N ]; [ exact I | now apply (field_starts f) | ]. pose proof (field_text_ne f t H). apply field_starts in H. destruct t; [ congruence | exact H ]. }
    destruct t as [ | c t ]; [ reflexivity | ]. cbn [starts_ok] in ST. cbn [app skip_spaces]. now rewrite ST. }
  rewrite S. cbv zeta. rewrite zlen_app. change (zlen [38]) with 1. replace (2^32 - 1 <? zlen t + 1 + 1) with false by lia. now rewrite (form_loop_amp fs t H NE V).
Qed.
Lemma query_form fs t : form_text fs t -> Forall value_ok fs -> zlen t < 2^32 - 1 -> query_parse t = Ok (Some fs).
Proof. intros H V L. unfold query_parse. rewrite (form_starts fs t H). cbv zeta. replace (2^32 - 1 <? zlen t + 1) with false by lia. now rewrite (form_loop fs t H V). Qed.

Lemma fenc_url s : Forall octet s -> form_encodes (concat (map url_char s)) s.
Proof.
  induction 1 as [ | c s O _ IH ]; [ constructor | ]. cbn [map concat]. unfold url_char. destruct (is_alnum c || is_unreserved c) eqn:A.
  - cbn [app]. assert (C : letter c \/ digit c \/ In c [45; 95; 46; 33; 126; 42; 39; 40; 41]) by (apply orb_true_iff in A as [ A | A ]; [ apply alnum_iff in A; tauto | apply one_of_iff in A; tauto ]).
    unfold letter, digit in C. cbn in C. constructor; [ cbn | | | | exact IH ]; lia.
  - cbn [app]. replace (c :: s) with (16 * (c / 16) + c mod 16 :: s) by (f_equal; unfold octet in O; lia). constructor; [ apply hex_digit_ok | apply hex_digit_ok | exact IH ]; unfold octet in O; lia.
Qed.
Lemma url_ne s : s <> [] -> concat (map url_char s) <> [].
Proof. destruct s as [ | c s ]; [ congruence | ]. intros _ E. cbn [map concat] in E. apply app_eq_nil in E as (E & _). pose proof (url_char_size c). rewrite E in H. cbn in H. lia. Qed.
Definition small (f : field) : Prop := Forall octet (fst f) /\ Forall octet (snd f) /\ 3 * zlen (fst f) < 2^32 /\ 3 * zlen (snd f) < 2^32.
Lemma form_field_ok f : small f -> fst f <> [] -> exists t, form_field f = Ok t /\ field_text f t.
Proof.
  destruct f as (n & v). intros (O1 & O2 & L1 & L2) N. cbn [fst snd] in *. unfold form_field. cbn [fst snd]. destruct (uri_encode_ok n O1 L1) as (tn & En & Tn & _). destruct n as [ | c n ]; [ congruence | ]. rewrite En. cbn [bind].
  destruct v as [ | d v ].
  - cbn [bind]. rewrite !app_nil_r. eexists. split; [ reflexivity | ]. constructor; [ rewrite Tn; now apply fenc_url | rewrite Tn; now apply url_ne ].
  - destruct (uri_encode_ok (d :: v) O2 L2) as (tv & -> & Tv & _). cbn [bind]. eexists. split; [ reflexivity | ]. constructor; [ rewrite Tn; now apply fenc_url | rewrite Tn; now apply url_ne | rewrite Tv; now apply fenc_url ].
Qed.
Lemma form_data_tail fs : Forall small fs -> Forall (fun f => fst f <> []) fs ->
  exists t, form_data true fs = Ok t /\ form_text fs t /\ form_data false fs = Ok (match fs with [] => [] | _ => [38] end ++ t).
Proof.
  induction 1 as [ | f fs S _ IH ]; intros N; [ exists []; repeat split; constructor | ]. inversion N as [ | ? ? N1 N2 ]; subst. destruct (form_field_ok f S N1) as (t & E & T). destruct (IH N2) as (ts & A1 & A2 & A3).
  cbn [form_data]. rewrite E. cbn [bind]. rewrite A3. cbn [bind app]. destruct fs as [ | g fs ].
  - inversion A2; subst. cbn [app]. rewrite app_nil_r. exists t. repeat split. now constructor.
  - cbn [app]. exists (t ++ [38] ++ ts). repeat split. constructor; [ exact T | exact A2 | discriminate ].
Qed.
