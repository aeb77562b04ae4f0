From Coq Require Import Strings.String.
From Coq Require Import ZArith List Bool Lia.
From Verif Require Import Common Dec ParseModel ParseSpec ParseProofs ConfigSpec ConfigProofs CondModel CondSpec.
Import ListNotations.
Open Scope Z_scope.

(** ** Operators in the text *)
Fixpoint starts (w l : list Z) : bool :=
  match w, l with
  | [], _ => true
  | a :: w, b :: l => (a =? b) && starts w l
  | _, _ => false
  end.
Lemma starts_iff w : forall l, starts w l = true <-> exists r, l = w ++ r.
Proof.
  induction w as [ | a w IH ]; intros l; cbn [starts app].
  - split; [ eauto | auto ].
  - destruct l as [ | b l ]; [ split; [ discriminate | intros (r & E); discriminate ] | ].
    rewrite andb_true_iff, IH, Z.eqb_eq. split.
    + intros (-> & r & ->). eauto.
    + intros (r & E). injection E as -> ->. eauto.
Qed.
Lemma word_starts t w p : located t p -> match_word t w p = Ok (if starts w (at_ t p) then (true, set_pos p (p_pos p + zlen w)) else (false, p)).
Proof.
  intros L. destruct (word_exact t w p (loc_range _ _ L)) as [ ((r & E) & R) | (E & R) ]; rewrite R.
  - replace (starts w (at_ t p)) with true; [ reflexivity | ]. symmetry. apply starts_iff. eauto.
  - destruct (starts w (at_ t p)) eqn:Q; [ | reflexivity ]. apply starts_iff in Q. destruct Q as (r & Q). now apply E in Q.
Qed.
Definition first_op (l : list Z) : option op := find (fun o => starts (op_word o) l) operators.
Lemma parse_op_first t p : located t p ->
  parse_op t p = Ok (match first_op (at_ t p) with Some o => (Some o, set_pos p (p_pos p + zlen (op_word o))) | None => (None, p) end).
Proof.
  intros L. unfold parse_op, first_op. induction operators as [ | o os IH ]; cbn [parse_op_loop find]; [ reflexivity | ].
  rewrite word_starts by auto. cbn [bind]. destruct (starts (op_word o) (at_ t p)); cbv iota; [ reflexivity | exact IH ].
Qed.
Lemma op_word_plain o : no_newline (op_word o) /\ op_word o <> [] /\ zlen (op_word o) <= 3.
Proof. destruct o; (split; [ | split; [ discriminate | vm_compute; discriminate ] ]); repeat (apply Forall_cons; [ reflexivity | ]); apply Forall_nil. Qed.
Lemma first_op_starts l o : first_op l = Some o -> exists r, l = op_word o ++ r.
Proof. intros H. apply find_some in H. now apply starts_iff. Qed.
Lemma located_word t p w r : located t p -> at_ t p = w ++ r -> no_newline w -> located t (set_pos p (p_pos p + zlen w)) /\ from t (p_pos p + zlen w) = r.
Proof.
  intros L E N. split; [ eapply located_plain; eauto | ]. eapply from_app; [ | exact E ]. apply loc_range in L. lia.
Qed.

(** ** Blanks *)
Lemma blanks_blank b : blanks b -> blank b.
Proof. apply Forall_impl. intros c [ -> | [ -> | [ -> | -> ] ] ]; reflexivity. Qed.

(** ** One round of the loop *)
Lemma op_head o : exists c w, op_word o = c :: w /\ is_spaces c = false.
Proof. destruct o; do 2 eexists; (split; [ reflexivity | reflexivity ]). Qed.
Lemma step_op t p bl o rest par prev out stack : located t p -> at_ t p = bl ++ op_word o ++ rest -> blanks bl -> first_op (op_word o ++ rest) = Some o ->
  (par = 0 -> o = ParOpen) -> (o = Sub -> prev = false /\ out <> []) ->
  exists p', located t p' /\ at_ t p' = rest /\ p_pos p' = p_pos p + zlen bl + zlen (op_word o) /\
  forall f, interpret_loop (S f) t p par prev out stack =
    let '(ret, par, out, stack) := shunt_op par out stack o in
    if negb (ret =? COND_OK) then Ok (ret, par, out, stack, p') else if par =? 0 then Ok (COND_OK, par, out, stack, p') else interpret_loop f t p' par true out stack.
Proof.
  intros L E B F P0 M. destruct (op_head o) as (c & w & W & C).
  destruct (spaces_at t p bl (op_word o ++ rest) L E (blanks_blank _ B)) as (p1 & R1 & A1 & L1 & P1); [ rewrite W; exact C | ].
  destruct (located_word t p1 (op_word o) rest L1 A1 (proj1 (op_word_plain o))) as (L2 & A2).
  exists (set_pos p1 (p_pos p1 + zlen (op_word o))). split; [ exact L2 | ]. split; [ exact A2 | ]. split; [ unfold set_pos; cbn [p_pos]; lia | ].
  intros f. cbn [interpret_loop].
  assert (Q : eof t p = false).
  { rewrite (eof_at _ _ L), E. destruct bl; [ | reflexivity ]. rewrite W. reflexivity. }
  rewrite Q, R1. cbn [bind]. rewrite (eof_false t p1 c (w ++ rest) L1) by (rewrite A1, W; reflexivity).
  rewrite parse_op_first by auto. rewrite A1, F. cbn [bind].
  assert (X : (par =? 0) && negb (match o with ParOpen => true | _ => false end) = false).
  { destruct (Z.eqb_spec par 0) as [ Z0 | ]; [ rewrite (P0 Z0); reflexivity | reflexivity ]. }
  rewrite X.
  assert (Y : (match o with Sub => true | _ => false end) && (prev || match out with [] => true | _ => false end) = false).
  { destruct o; try reflexivity. destruct (M eq_refl) as (-> & N). destruct out; [ congruence | reflexivity ]. }
  rewrite Y. reflexivity.
Qed.

Lemma flags_tag c : match_char F_LETTERS_NUMBERS c = is_letter c || is_number c.
Proof.
  unfold match_char, F_LETTERS_NUMBERS. repeat match goal with |- context [Z.testbit ?a ?b] => let r := eval vm_compute in (Z.testbit a b) in change (Z.testbit a b) with r end.
  cbn [andb orb]. now rewrite !orb_false_r.
Qed.
Lemma flags_hex c : match_char F_HEX_ c = is_hex c.
Proof.
  unfold match_char, F_HEX_. repeat match goal with |- context [Z.testbit ?a ?b] => let r := eval vm_compute in (Z.testbit a b) in change (Z.testbit a b) with r end.
  cbn [andb orb]. now rewrite !orb_false_r.
Qed.
Lemma flags_num c : match_char F_NUMBERS_ c = is_number c.
Proof.
  unfold match_char, F_NUMBERS_. repeat match goal with |- context [Z.testbit ?a ?b] => let r := eval vm_compute in (Z.testbit a b) in change (Z.testbit a b) with r end.
  cbn [andb orb]. now rewrite !orb_false_r.
Qed.

(** After an expression comes no letter and no digit. *)
Definition clean (r : list Z) : Prop := match r with [] => True | c :: _ => is_letter c || is_number c = false end.
Lemma clean_not f r : (forall c, is_letter c || is_number c = false -> f c = false) -> clean r -> match r with [] => True | c :: _ => f c = false end.
Proof. intros H. destruct r; [ auto | apply H ]. Qed.
Lemma hex_clean c : is_letter c || is_number c = false -> is_hex c = false.
Proof. unfold is_letter, is_number, is_hex. lia. Qed.
Lemma num_clean c : is_letter c || is_number c = false -> is_number c = false.
Proof. unfold is_letter, is_number. lia. Qed.

Lemma letters_at t p flags s rest : located t p -> at_ t p = s ++ rest -> Forall (fun c => match_char flags c = true) s ->
  match rest with [] => True | c :: _ => match_char flags c = false end -> no_newline s ->
  match_letters t p flags = Ok (p_pos p, p_pos p + zlen s - 1, set_pos p (p_pos p + zlen s)) /\
  located t (set_pos p (p_pos p + zlen s)) /\ from t (p_pos p + zlen s) = rest.
Proof.
  intros L E F S N. rewrite match_letters_ok by now apply loc_range. rewrite E, leading_stop by auto. cbv zeta. split; [ reflexivity | ]. eapply located_word; eauto.
Qed.
Lemma no_newline_of (P : Z -> Prop) s : (forall c, P c -> is_newline c = false) -> Forall P s -> no_newline s.
Proof. intros H. apply Forall_impl. exact H. Qed.
Lemma digit_number c : digit c -> is_number c = true.
Proof. unfold digit, is_number. lia. Qed.
Lemma digit_line c : digit c -> is_newline c = false.
Proof. unfold digit, is_newline. lia. Qed.

Lemma parse_value_at t p s v rest : located t p -> at_ t p = s ++ rest -> written_lit s v -> clean rest ->
  parse_value t p = Ok (Some (p_pos p, p_pos p + zlen s - 1), set_pos p (p_pos p + zlen s)) /\ located t (set_pos p (p_pos p + zlen s)) /\ from t (p_pos p + zlen s) = rest.
Proof.
  intros L E W C. pose proof (loc_range _ _ L) as B. unfold parse_value.
  destruct W as [ s N F Z1 Z2 | s N F Z1 Z2 | x s X N F Z1 Z2 | s N F Z1 ].
  - destruct s as [ | d s ]; [ congruence | ]. assert (D : digit d) by now inversion F.
    rewrite word_starts by auto. rewrite E. cbn [app].
    replace (starts (str_bytes "{") (d :: s ++ rest)) with false by (cbn; unfold digit in D; lia). cbn [bind].
    destruct (word_case_exact t (str_bytes "0x") p B) as [ ((l & r & E2 & Hl) & _) | (_ & R) ]; [ cbn; intuition discriminate | | ].
    { exfalso. destruct l as [ | a [ | b [ | e l ] ] ]; try discriminate Hl. cbn [map] in Hl. injection Hl as _ Hb. rewrite E in E2. cbn [app] in E2. injection E2 as -> E2.
      assert (b = 120 \/ b = 88) by (unfold lower in Hb; change (if (65 <=? 120) && (120 <=? 90) then 120 + 32 else 120) with 120 in Hb; destruct ((65 <=? b) && (b <=? 90)) eqn:Q; lia).
      destruct s as [ | b' s ]; cbn [app] in E2.
      - rewrite E2 in C. cbn [clean] in C. unfold is_letter in C. lia.
      - injection E2 as -> _. apply Forall_cons_iff in F. destruct F as (_ & F). inversion F; subst. unfold digit in *. lia. }
    rewrite R. cbn [bind].
    destruct (word_case_exact t (str_bytes "-") p B) as [ ((l & r & E2 & Hl) & _) | (_ & R2) ]; [ cbn; intuition discriminate | | ].
    { exfalso. destruct l as [ | a [ | b l ] ]; try discriminate Hl. cbn [map] in Hl. injection Hl as Hb. rewrite E in E2. cbn [app] in E2. injection E2 as -> E2. unfold lower, digit in *. cbn in Hb. destruct ((65 <=? a) && (a <=? 90)) eqn:Q; lia. }
    rewrite R2. cbn [bind].
    destruct (letters_at t p F_NUMBERS_ (d :: s) rest L E) as (R3 & L3 & A3).
    { eapply Forall_impl; [ | exact F ]. intros c Hc. rewrite flags_num. now apply digit_number. }
    { apply clean_not; [ | exact C ]. intros c Hc. rewrite flags_num. now apply num_clean. }
    { eapply no_newline_of; [ | exact F ]. apply digit_line. }
    rewrite R3. cbn [bind]. rewrite zlen_cons in *. pose proof (zlen_nonneg _ s). replace (p_pos p + (1 + zlen s) - 1 - p_pos p <? 0) with false by lia. auto.
  - rewrite word_starts by auto. rewrite E. cbn [app]. replace (starts (str_bytes "{") (45 :: s ++ rest)) with false by reflexivity. cbn [bind].
    destruct (word_case_exact t (str_bytes "0x") p B) as [ ((l & r & E2 & Hl) & _) | (_ & R) ]; [ cbn; intuition discriminate | | ].
    { exfalso. destruct l as [ | a [ | b [ | e l ] ] ]; try discriminate Hl. rewrite E in E2. injection E2 as <- _. discriminate Hl. }
    rewrite R. cbn [bind].
    destruct (word_case_exact t (str_bytes "-") p B) as [ (_ & R2) | (Q & _) ]; [ cbn; intuition discriminate | | exfalso; apply (Q [45] (s ++ rest) eq_refl); exact E ].
    rewrite R2. cbn [bind]. change (zlen (str_bytes "-")) with 1.
    destruct (located_word t p [45] (s ++ rest) L E) as (L1 & A1); [ repeat constructor | ]. change (zlen [45]) with 1 in *.
    destruct (letters_at t _ F_NUMBERS_ s rest L1 A1) as (R3 & L3 & A3).
    { eapply Forall_impl; [ | exact F ]. intros c Hc. rewrite flags_num. now apply digit_number. }
    { apply clean_not; [ | exact C ]. intros c Hc. rewrite flags_num. now apply num_clean. }
    { eapply no_newline_of; [ | exact F ]. apply digit_line. }
    rewrite R3. cbn [bind]. unfold set_pos in *; cbn [p_pos] in *. rewrite zlen_cons. destruct s as [ | d s ]; [ congruence | ]. rewrite zlen_cons in *. pose proof (zlen_nonneg _ s).
    replace (_ <? 0) with false by lia. replace (p_pos p + (1 + (1 + zlen s))) with (p_pos p + 1 + (1 + zlen s)) by lia. split; [ | auto ].
    repeat (f_equal; try lia).
  - rewrite word_starts by auto. rewrite E. cbn [app]. replace (starts (str_bytes "{") (48 :: x :: s ++ rest)) with false by reflexivity. cbn [bind].
    destruct (word_case_exact t (str_bytes "0x") p B) as [ (_ & R2) | (Q & _) ]; [ cbn; intuition discriminate | | exfalso; apply (Q [48; x] (s ++ rest)); [ destruct X; subst; reflexivity | exact E ] ].
    rewrite R2. cbn [bind]. change (zlen (str_bytes "0x")) with 2.
    destruct (located_word t p [48; x] (s ++ rest) L E) as (L1 & A1); [ destruct X; subst; repeat constructor | ]. change (zlen [48; x]) with 2 in *.
    assert (Hx : forall c, hex_digit_ c -> is_hex c = true) by (unfold hex_digit_, digit, is_hex; lia).
    destruct (letters_at t _ F_HEX_ s rest L1 A1) as (R3 & L3 & A3).
    { eapply Forall_impl; [ | exact F ]. intros c Hc. rewrite flags_hex. auto. }
    { apply clean_not; [ | exact C ]. intros c Hc. rewrite flags_hex. now apply hex_clean. }
    { eapply no_newline_of; [ | exact F ]. unfold hex_digit_, digit, is_newline. lia. }
    rewrite R3. cbn [bind]. unfold set_pos in *; cbn [p_pos] in *. rewrite !zlen_cons. destruct s as [ | d s ]; [ congruence | ]. rewrite zlen_cons in *. pose proof (zlen_nonneg _ s).
    replace (_ <? 0) with false by lia. replace (p_pos p + (1 + (1 + (1 + zlen s)))) with (p_pos p + 2 + (1 + zlen s)) by lia. split; [ | auto ].
    repeat (f_equal; try lia).
  - rewrite word_starts by auto. rewrite E. replace (starts (str_bytes "{") ((123 :: s ++ [125]) ++ rest)) with true by reflexivity. cbn [bind]. change (zlen (str_bytes "{")) with 1.
    cbn [app] in E. rewrite <- app_assoc in E. cbn [app] in E.
    destruct (located_word t p [123] (s ++ 125 :: rest) L E) as (L1 & A1); [ repeat constructor | ]. change (zlen [123]) with 1 in *.
    assert (Hx : forall c, name_char c -> is_letter c || is_number c = true) by (unfold name_char, digit, is_letter, is_number; lia).
    destruct (letters_at t _ F_LETTERS_NUMBERS s (125 :: rest) L1 A1) as (R3 & L3 & A3).
    { eapply Forall_impl; [ | exact F ]. intros c Hc. rewrite flags_tag. auto. }
    { reflexivity. }
    { eapply no_newline_of; [ | exact F ]. unfold name_char, digit, is_newline. lia. }
    rewrite R3. cbn [bind]. unfold set_pos in *; cbn [p_pos] in *. destruct s as [ | d s ]; [ congruence | ].
    pose proof (zlen_nonneg _ s). assert (zlen (d :: s) = 1 + zlen s) by apply zlen_cons.
    replace (p_pos p + 1 + zlen (d :: s) - 1 - (p_pos p + 1) <? 0) with false by lia. rewrite word_starts by exact L3. cbn [p_pos]. rewrite A3. replace (starts (str_bytes "}") (125 :: rest)) with true by reflexivity. cbn [bind].
    change (zlen (str_bytes "}")) with 1.
    destruct (located_word t _ [125] rest L3 A3) as (L4 & A4); [ repeat constructor | ]. change (zlen [125]) with 1 in *. unfold set_pos in *; cbn [p_pos] in *.
    change (123 :: (d :: s) ++ [125]) with ([123] ++ (d :: s) ++ [125]). rewrite !zlen_app. change (zlen [123]) with 1. change (zlen [125]) with 1.
    replace (p_pos p + (1 + (zlen (d :: s) + 1))) with (p_pos p + 1 + zlen (d :: s) + 1) by lia. split; [ | auto ]. repeat (f_equal; try lia).
Qed.

Lemma lit_facts s v : written_lit s v -> exists c r, s = c :: r /\ is_spaces c = false /\ zlen s <= 63 /\ last s 0 <> 41 /\
  forall rest, first_op (s ++ rest) = if c =? 45 then Some Sub else None.
Proof.
  intros W.
  assert (Dg : forall c, digit c -> is_spaces c = false /\ (c =? 45) = false /\ forall rest, first_op (c :: rest) = None).
  { intros c D. unfold digit in D. split; [ unfold is_spaces, is_space_tab, is_newline; lia | ]. split; [ lia | ].
    intros rest. destruct (first_op (c :: rest)) as [ o | ] eqn:Q; [ | reflexivity ].
    apply first_op_starts in Q. destruct Q as (r & Q). exfalso. destruct o; vm_compute in Q; injection Q as Q _; lia. }
  assert (La : forall (P : Z -> Prop) (l : list Z) d, l <> [] -> Forall P l -> P (last l d)).
  { intros P l d N F. destruct (exists_last N) as (m & x & ->). rewrite last_last. apply Forall_app in F. destruct F as (_ & F). now inversion F. }
  destruct W as [ s N F Z1 Z2 | s N F Z1 Z2 | x s X N F Z1 Z2 | s N F Z1 ].
  - pose proof (La _ _ 0 N F) as Hl. destruct s as [ | d s ]; [ congruence | ]. apply Forall_cons_iff in F. destruct F as (D & F). destruct (Dg d D) as (D1 & D2 & D3). exists d, s. split; [ reflexivity | ]. split; [ exact D1 | ]. split; [ exact Z1 | ]. split; [ unfold digit in Hl; lia | ].
    intros rest. rewrite D2. apply D3.
  - exists 45, s. split; [ reflexivity | ]. split; [ reflexivity | ]. rewrite zlen_cons. split; [ lia | ]. split; [ | reflexivity ].
    pose proof (La _ _ 0 N F) as Hl. destruct s; [ congruence | ]. change (last (45 :: z :: s) 0) with (last (z :: s) 0). unfold digit in Hl. lia.
  - exists 48, (x :: s). split; [ reflexivity | ]. split; [ reflexivity | ]. rewrite !zlen_cons. split; [ lia | ]. split.
    + pose proof (La _ _ 0 N F) as Hl. destruct s; [ congruence | ]. change (last (48 :: x :: z :: s) 0) with (last (z :: s) 0). unfold hex_digit_, digit in Hl. lia.
    + intros rest. apply (Dg 48). unfold digit. lia.
  - exists 123, (s ++ [125]). split; [ reflexivity | ]. split; [ reflexivity | ]. rewrite zlen_cons, zlen_app. change (zlen [125]) with 1. split; [ lia | ]. split; [ | reflexivity ].
    change (123 :: s ++ [125]) with ((123 :: s) ++ [125]). rewrite last_last. discriminate.
Qed.

Lemma step_lit t p bl s v rest par out stack : located t p -> at_ t p = bl ++ s ++ rest -> blanks bl -> written_lit s v -> clean rest -> 0 < par ->
  exists p', located t p' /\ at_ t p' = rest /\ p_pos p' = p_pos p + zlen bl + zlen s /\
  forall f, interpret_loop (S f) t p par true out stack = interpret_loop f t p' par false (out ++ [CVal s]) stack.
Proof.
  intros L E B W C P. destruct (lit_facts s v W) as (c & r & S & Sp & Len & _ & Fo).
  destruct (spaces_at t p bl (s ++ rest) L E (blanks_blank _ B)) as (p1 & R1 & A1 & L1 & P1); [ rewrite S; exact Sp | ].
  destruct (parse_value_at t p1 s v rest L1 A1 W C) as (R2 & L2 & A2).
  exists (set_pos p1 (p_pos p1 + zlen s)). split; [ exact L2 | ]. split; [ exact A2 | ]. split; [ unfold set_pos; cbn [p_pos]; lia | ].
  intros f. cbn [interpret_loop].
  assert (Q : eof t p = false) by (rewrite (eof_at _ _ L), E; destruct bl; [ rewrite S; reflexivity | reflexivity ]).
  assert (Q1 : eof t p1 = false) by (rewrite (eof_at _ _ L1), A1; rewrite S; reflexivity).
  rewrite Q, R1. cbn [bind]. rewrite Q1. rewrite parse_op_first by auto. rewrite A1, Fo.
  assert (R3 : ignore_spaces t p1 = Ok p1).
  { destruct (spaces_at t p1 [] (s ++ rest) L1 A1 ltac:(constructor)) as (p3 & R3 & _ & L3 & P3); [ rewrite S; exact Sp | ]. rewrite R3. f_equal. apply (loc_unique t); auto. change (zlen (@nil Z)) with 0 in P3. lia. }
  assert (Sh : shunt_value t out (p_pos p1) (p_pos p1 + zlen s - 1) = Ok (COND_OK, out ++ [CVal s])).
  { unfold shunt_value, name_length. pose proof (zlen_nonneg _ r). assert (0 < zlen s) by (rewrite S, zlen_cons; lia).
    replace (p_pos p1 + zlen s - 1 <? p_pos p1) with false by lia. cbn [bind].
    replace (p_pos p1 + zlen s - 1 - p_pos p1 + 1) with (zlen s) by lia. unfold VALUE_MAX. replace (64 - 1 <? zlen s) with false by lia.
    rewrite (copy_from t (p_pos p1) s rest) by (auto; now apply loc_range). reflexivity. }
  replace (par =? 0) with false by lia. cbn [andb].
  destruct (c =? 45); cbn [bind andb orb].
  - replace (set_pos (set_pos p1 (p_pos p1 + zlen (op_word Sub))) (p_pos (set_pos p1 (p_pos p1 + zlen (op_word Sub))) - 1)) with p1.
    2:{ unfold set_pos. cbn [p_pos p_line p_begin]. change (zlen (op_word Sub)) with 1. replace (p_pos p1 + 1 - 1) with (p_pos p1) by lia. now destruct p1. }
    rewrite R3. cbn [bind]. rewrite Q1, R2. cbn [bind]. rewrite Sh. reflexivity.
  - rewrite R3. cbn [bind]. rewrite Q1, R2. cbn [bind]. rewrite Sh. reflexivity.
Qed.

(** ** Expressions in the text *)
Definition ops_of (o : binop) : list op :=
  match o with
  | BMul => [Mul] | BDiv => [Div] | BAdd => [Add] | BSub => [Sub] | BShl => [BwLeft] | BShr => [BwRight]
  | BLe => [Lteq] | BGe => [Gteq] | BLt => [Lt] | BGt => [Gt] | BEq => [Eq] | BNe => [Ne]
  | BAnd => [BwAnd] | BXor => [BwXor] | BOr => [BwOr] | BLand => [AndSym; AndWord] | BLor => [OrSym; OrWord]
  end.
Inductive code : expr -> list carrier -> Prop :=
| c_lit s v : written_lit s v -> code (Lit v) [CVal s]
| c_not e c : code e c -> code (Not e) (c ++ [COp BwNot])
| c_bin o m a ca b cb : In m (ops_of o) -> code a ca -> code b cb -> code (Bin o a b) (ca ++ cb ++ [COp m]).

Definition calm (r : list Z) : Prop := match r with [] => True | c :: _ => ~ In c (str_bytes "=<>&|") end.
Lemma spelled_op o w : spelled o w -> exists m, In m (ops_of o) /\ op_word m = str_bytes w.
Proof.
  destruct o; cbn [spelled ops_of]; intros H; repeat match type of H with _ \/ _ => destruct H as [ H | H ] end; subst w;
    match goal with |- exists m, In m ?l /\ _ = ?w => 
      first [ exists (nth 0 l ParOpen); split; [ left; reflexivity | reflexivity ] | exists (nth 1 l ParOpen); split; [ right; left; reflexivity | reflexivity ] ] end.
Qed.
Lemma ops_facts o m : In m (ops_of o) -> prio m = level o /\ m <> ParOpen /\ m <> ParClose /\ (m = Sub -> o = BSub) /\ prio m <> 1.
Proof. destruct o; cbn [ops_of In]; intros H; repeat destruct H as [ <- | H ]; try easy; (split; [ reflexivity | ]); repeat (split; [ discriminate | ]); (split; [ try discriminate; reflexivity | discriminate ]). Qed.
Lemma first_op_binop o m rest : In m (ops_of o) -> calm rest -> first_op (op_word m ++ rest) = Some m.
Proof.
  intros H C. destruct rest as [ | c rest ].
  { destruct o; cbn [ops_of In] in H; repeat destruct H as [ <- | H ]; try easy; reflexivity. }
  cbn [calm] in C. assert (N : c <> 61 /\ c <> 60 /\ c <> 62 /\ c <> 38 /\ c <> 124) by (repeat split; intros ->; apply C; vm_compute; tauto). clear C. destruct N as (N1 & N2 & N3 & N4 & N5).
  assert (Q : (61 =? c) = false /\ (60 =? c) = false /\ (62 =? c) = false /\ (38 =? c) = false /\ (124 =? c) = false) by lia. destruct Q as (Q1 & Q2 & Q3 & Q4 & Q5).
  destruct o; cbn [ops_of In] in H; repeat destruct H as [ <- | H ]; try easy; unfold first_op; cbv [operators op_word str_bytes app find starts];
    repeat match goal with |- context [Z.of_nat ?a] => let r := eval vm_compute in (Z.of_nat a) in change (Z.of_nat a) with r end; rewrite ?Q1, ?Q2, ?Q3, ?Q4, ?Q5; reflexivity.
Qed.

Lemma calm_blanks b r : blanks b -> calm r -> calm (b ++ r).
Proof. intros B C. destruct b as [ | c b ]; [ exact C | ]. cbn [app calm]. inversion B; subst. vm_compute. intuition (subst; discriminate). Qed.
Lemma clean_blanks b r : blanks b -> clean r -> clean (b ++ r).
Proof. intros B C. destruct b as [ | c b ]; [ exact C | ]. cbn [app clean]. inversion B; subst. intuition (subst; reflexivity). Qed.
Lemma written_head g l s e : written g l s e -> exists c r, s = c :: r /\ (digit c \/ c = 45 \/ c = 123 \/ c = 40 \/ c = 126).
Proof.
  induction 1 as [ s v W | l s e b1 b2 W IH B1 B2 | l s e b W IH Hl B | o w la sa a lb sb b b1 b2 Wa IHa Ha Wb IHb Hb Sp B1 B2 Hw Hm ].
  - destruct W as [ s N F Z1 Z2 | s N F Z1 Z2 | x s X N F Z1 Z2 | s N F Z1 ]; try (do 2 eexists; split; [ reflexivity | auto ]).
    + destruct s; [ congruence | ]. inversion F; subst. eauto.
    + left. unfold digit. lia.
  - do 2 eexists. split; [ reflexivity | auto ].
  - do 2 eexists. split; [ reflexivity | auto ].
  - destruct IHa as (c & r & -> & D). do 2 eexists. split; [ reflexivity | exact D ].
Qed.
Lemma written_calm g l s e r : written g l s e -> calm (s ++ r).
Proof. intros W. destruct (written_head _ _ _ _ W) as (c & q & -> & D). cbn [app calm]. vm_compute. unfold digit in D. intuition lia. Qed.
Lemma op_clean o w b1 r : spelled o w -> blanks b1 -> (w = "AND" \/ w = "OR" -> b1 <> [])%string -> clean (b1 ++ str_bytes w ++ r).
Proof.
  intros Sp B H. destruct b1 as [ | c b ]; [ | cbn [app clean]; inversion B; subst; intuition (subst; reflexivity) ]. cbn [app].
  destruct o; cbn [spelled] in Sp; repeat match type of Sp with _ \/ _ => destruct Sp as [ Sp | Sp ] end; subst w; try reflexivity; exfalso; apply H; auto.
Qed.

Definition top_ok (l : Z) (stack : list op) : Prop := match stack with [] => False | o :: _ => o = ParOpen \/ l <= prio o end.
Lemma pop_prio_all new : forall sa out stack, Forall (fun o => prio o < prio new /\ o <> ParOpen) sa -> top_ok (prio new) stack ->
  pop_prio new out (sa ++ stack) = (out ++ map COp sa, stack).
Proof.
  induction sa as [ | o sa IH ]; cbn [app map pop_prio]; intros out stack F T.
  - rewrite app_nil_r. destruct stack as [ | o r ]; [ easy | ]. cbn [pop_prio]. destruct T as [ -> | T ]; [ rewrite andb_false_r; reflexivity | ]. replace (prio o <? prio new) with false by lia. reflexivity.
  - apply Forall_cons_iff in F. destruct F as ((F1 & F2) & F). replace (prio o <? prio new) with true by lia. replace (op_eqb o ParOpen) with false by (destruct o; try reflexivity; congruence). cbn [negb andb].
    rewrite IH by auto. rewrite <- app_assoc. reflexivity.
Qed.
Lemma pop_par_all : forall sa out stack, Forall (fun o => o <> ParOpen) sa -> pop_par out (sa ++ ParOpen :: stack) = (out ++ map COp sa, stack).
Proof.
  induction sa as [ | o sa IH ]; cbn [app map pop_par]; intros out stack F.
  - now rewrite app_nil_r.
  - apply Forall_cons_iff in F. destruct F as (F1 & F). replace (op_eqb o ParOpen) with false by (destruct o; try reflexivity; congruence). rewrite IH by auto. rewrite <- app_assoc. reflexivity.
Qed.
Lemma shunt_binary par out stack o : o <> ParOpen -> o <> ParClose -> stack <> [] ->
  shunt_op par out stack o = let '(out, stack) := pop_prio o out stack in (COND_OK, par, out, o :: stack).
Proof. intros A B C. unfold shunt_op. destruct stack as [ | x stack ]; [ congruence | ]. destruct o; try congruence; reflexivity. Qed.
Lemma first_open r : first_op (40 :: r) = Some ParOpen. Proof. reflexivity. Qed.
Lemma first_close r : first_op (41 :: r) = Some ParClose. Proof. reflexivity. Qed.
Lemma first_not r : first_op (126 :: r) = Some BwNot. Proof. reflexivity. Qed.

Lemma run_written l s e : written ToRight l s e -> forall t p bl rest par out stack,
  located t p -> at_ t p = bl ++ s ++ rest -> blanks bl -> clean rest -> 0 < par -> top_ok l stack ->
  exists n oa sa p' prev, (n <= List.length s)%nat /\ located t p' /\ at_ t p' = rest /\ p_pos p' = p_pos p + zlen bl + zlen s /\
    (prev = true -> last s 0 = 41) /\ code e (oa ++ map COp sa) /\ Forall (fun o => prio o <= l /\ o <> ParOpen) sa /\ oa <> [] /\
    forall f, interpret_loop (n + f) t p par true out stack = interpret_loop f t p' par prev (out ++ oa) (sa ++ stack).
Proof.
  induction 1 as [ s v W | l s e b1 b2 W IH B1 B2 | l s e b W IH Hl B | o w la sa a lb sb b b1 b2 Wa IHa Ha Wb IHb Hb Sp B1 B2 Hw Hm ];
    intros t p bl rest par out stack L E Bl C P T.
  - destruct (step_lit t p bl s v rest par out stack L E Bl W C P) as (p' & L' & A' & P' & R).
    exists 1%nat, [CVal s], [], p', false. destruct (lit_facts s v W) as (c & r & S & _). split; [ rewrite S; cbn [List.length]; lia | ]. split; [ exact L' | ]. split; [ exact A' | ]. split; [ exact P' | ].
    split; [ discriminate | ]. split; [ now constructor | ]. split; [ constructor | ]. split; [ discriminate | exact R ].
  - change (40 :: b1 ++ s ++ b2 ++ [41]) with (op_word ParOpen ++ b1 ++ s ++ b2 ++ [41]) in E. rewrite <- app_assoc in E.
    destruct (step_op t p bl ParOpen ((b1 ++ s ++ b2 ++ [41]) ++ rest) par true out stack L E Bl (first_open _)) as (p1 & L1 & A1 & P1 & R1); [ auto | discriminate | ].
    rewrite <- !app_assoc in A1.
    destruct (IH t p1 b1 (b2 ++ [41] ++ rest) (par + 1) out (ParOpen :: stack) L1 A1 B1) as (n & oa & sa & p2 & prev & N & L2 & A2 & P2 & _ & Cd & F & NE & R2); [ apply clean_blanks; [ exact B2 | reflexivity ] | lia | left; reflexivity | ].
    destruct (step_op t p2 b2 ParClose rest (par + 1) prev (out ++ oa) (sa ++ ParOpen :: stack) L2 A2 B2 (first_close _)) as (p3 & L3 & A3 & P3 & R3); [ lia | discriminate | ].
    exists (S (n + 1)), (oa ++ map COp sa), [], p3, true. change (zlen (op_word ParOpen)) with 1 in P1. change (zlen (op_word ParClose)) with 1 in P3.
    split. { cbn [List.length]. rewrite !app_length. cbn [List.length]. lia. }
    split; [ exact L3 | ]. split; [ exact A3 | ]. split. { rewrite zlen_cons, !zlen_app. change (zlen [41]) with 1. lia. }
    split. { intros _. change (40 :: b1 ++ s ++ b2 ++ [41]) with ((40 :: b1) ++ s ++ b2 ++ [41]). rewrite !app_assoc. apply last_last. }
    cbn [map]. rewrite app_nil_r. split; [ exact Cd | ]. split; [ constructor | ]. split; [ destruct oa; [ congruence | discriminate ] | ].
    intros f. cbn [Nat.add]. rewrite R1. unfold shunt_op at 1. cbn [op_eqb]. change (negb (COND_OK =? COND_OK)) with false. cbv iota. replace (par + 1 =? 0) with false by lia.
    rewrite <- Nat.add_assoc. rewrite R2. cbn [Nat.add]. rewrite R3. unfold shunt_op. cbn [op_eqb]. cbv zeta. replace (par + 1 - 1 <? 0) with false by lia.
    rewrite pop_par_all by (eapply Forall_impl; [ | exact F ]; cbn beta; tauto). change (negb (COND_OK =? COND_OK)) with false. cbv iota. replace (par + 1 - 1) with par by lia. replace (par =? 0) with false by lia.
    rewrite <- app_assoc. reflexivity.
  - change (126 :: b ++ s) with (op_word BwNot ++ b ++ s) in E. rewrite <- app_assoc in E.
    destruct (step_op t p bl BwNot ((b ++ s) ++ rest) par true out stack L E Bl (first_not _)) as (p1 & L1 & A1 & P1 & R1); [ lia | discriminate | ]. change (zlen (op_word BwNot)) with 1 in P1.
    rewrite <- !app_assoc in A1.
    destruct (IH t p1 b rest par out (BwNot :: stack) L1 A1 B C P) as (n & oa & sa & p2 & prev & N & L2 & A2 & P2 & Pv & Cd & F & NE & R2); [ right; exact Hl | ].
    exists (S n), oa, (sa ++ [BwNot]), p2, prev. split. { cbn [List.length]. rewrite app_length. lia. }
    split; [ exact L2 | ]. split; [ exact A2 | ]. split. { rewrite zlen_cons, zlen_app. lia. }
    split. { intros Q. specialize (Pv Q). destruct (written_head _ _ _ _ W) as (c & r & Es & _). rewrite Es in *. change (126 :: b ++ c :: r) with ((126 :: b) ++ c :: r). clear -Pv. induction (126 :: b) as [ | x q IHq ]; [ exact Pv | ]. cbn [app]. destruct (q ++ c :: r) eqn:Q; [ destruct q; discriminate | exact IHq ]. }
    split. { rewrite map_app. cbn [map]. rewrite app_assoc. now constructor. }
    split. { apply Forall_app. split; [ eapply Forall_impl; [ | exact F ]; cbn beta; intros o (A & B'); split; [ lia | exact B' ] | ]. constructor; [ split; [ cbn; lia | discriminate ] | constructor ]. }
    split; [ exact NE | ]. intros f. cbn [Nat.add]. rewrite R1. rewrite shunt_binary by (try discriminate; destruct stack; easy).
    assert (Q : pop_prio BwNot out stack = (out, stack)).
    { pose proof (pop_prio_all BwNot [] out stack ltac:(constructor) T) as Q. cbn [map app] in Q. rewrite app_nil_r in Q. exact Q. }
    rewrite Q. change (negb (COND_OK =? COND_OK)) with false. cbv iota. replace (par =? 0) with false by lia.
    rewrite R2. rewrite <- app_assoc. reflexivity.
  - destruct (spelled_op o w Sp) as (m & Mi & Mw). destruct (ops_facts o m Mi) as (Mp & M1 & M2 & M3 & _). cbn [left_level right_level] in *.
    rewrite <- !app_assoc in E.
    destruct (IHa t p bl (b1 ++ str_bytes w ++ b2 ++ sb ++ rest) par out stack L E Bl) as (n & oa & sa' & p1 & prev & N & L1 & A1 & P1 & Pv & Cd & F & NE & R1); [ eapply op_clean; eauto | exact P | | ].
    { destruct stack; [ easy | ]. destruct T as [ T | T ]; [ left; exact T | right; lia ]. }
    rewrite <- Mw in A1.
    destruct (step_op t p1 b1 m (b2 ++ sb ++ rest) par prev (out ++ oa) (sa' ++ stack) L1 A1 B1) as (p2 & L2 & A2 & P2 & R2).
    { eapply first_op_binop; [ exact Mi | ]. apply calm_blanks; [ exact B2 | ]. eapply written_calm; eauto. }
    { lia. }
    { intros Q. specialize (M3 Q). specialize (Hm M3). split; [ destruct prev; [ specialize (Pv eq_refl); congruence | reflexivity ] | destruct out; [ exact NE | discriminate ] ]. }
    destruct (IHb t p2 b2 rest par ((out ++ oa) ++ map COp sa') (m :: stack) L2 A2 B2 C P) as (n2 & ob & sb' & p3 & prev3 & N3 & L3 & A3 & P3 & Pv3 & Cd3 & F3 & NE3 & R3); [ right; lia | ].
    exists (n + S n2)%nat, (oa ++ map COp sa' ++ ob), (sb' ++ [m]), p3, prev3.
    assert (Lw : List.length (str_bytes w) = List.length (op_word m)) by now rewrite Mw.
    assert (Hw1 : (1 <= List.length (op_word m))%nat) by (destruct (op_head m) as (c & q & -> & _); cbn [List.length]; lia).
    split. { rewrite !app_length, Lw. lia. }
    split; [ exact L3 | ]. split; [ exact A3 | ]. split. { rewrite !zlen_app. unfold zlen in *. rewrite Lw. lia. }
    split. { intros Q. specialize (Pv3 Q). destruct (written_head _ _ _ _ Wb) as (c & r & Es & _). rewrite Es in *. rewrite !app_assoc. clear -Pv3. induction (((sa ++ b1) ++ str_bytes w) ++ b2) as [ | x q IHq ]; [ exact Pv3 | ]. cbn [app]. destruct (q ++ c :: r) eqn:Q; [ destruct q; discriminate | exact IHq ]. }
    split. { rewrite map_app. cbn [map]. replace ((oa ++ map COp sa' ++ ob) ++ map COp sb' ++ [COp m]) with ((oa ++ map COp sa') ++ (ob ++ map COp sb') ++ [COp m]) by (rewrite <- !app_assoc; reflexivity). now constructor. }
    split. { apply Forall_app. split; [ eapply Forall_impl; [ | exact F3 ]; cbn beta; intros q (A & B'); split; [ lia | exact B' ] | ]. constructor; [ split; [ lia | exact M1 ] | constructor ]. }
    split. { destruct oa; [ congruence | discriminate ]. }
    intros f. rewrite <- Nat.add_assoc. rewrite R1. cbn [Nat.add]. rewrite R2. rewrite shunt_binary; [ | exact M1 | exact M2 | clear -T; destruct stack; [ easy | destruct sa'; discriminate ] ].
    rewrite pop_prio_all.
    2:{ eapply Forall_impl; [ | exact F ]. cbn beta. intros q (A & B'). split; [ lia | exact B' ]. }
    2:{ destruct stack; [ easy | ]. destruct T as [ T | T ]; [ left; exact T | right; lia ]. }
    change (negb (COND_OK =? COND_OK)) with false. cbv iota. replace (par =? 0) with false by lia.
    rewrite R3. rewrite <- !app_assoc. reflexivity.
Qed.

(** ** The whole condition *)
Lemma counts_app a : forall b o v, counts_loop (a ++ b) o v = let '(o, v) := counts_loop a o v in counts_loop b o v.
Proof. induction a as [ | [ x | x ] a IH ]; intros b o v; cbn [app counts_loop]; [ reflexivity | apply IH | apply IH ]. Qed.
Lemma counts_code e c : code e c -> forall o v, exists k, counts_loop c o v = (o + k, v + k + 1).
Proof.
  induction 1 as [ s v W | e c H IH | o m a ca b cb M Ha IHa Hb IHb ]; intros x y.
  - exists 0. cbn [counts_loop]. f_equal; lia.
  - destruct (IH x y) as (k & Q). exists k. rewrite counts_app, Q. reflexivity.
  - destruct (IHa x y) as (k & Q). destruct (IHb (x + k) (y + k + 1)) as (k2 & Q2). exists (k + k2 + 1). rewrite counts_app, Q, counts_app, Q2. cbn [counts_loop].
    destruct (ops_facts _ _ M) as (_ & _ & _ & _ & P). unfold PRIO_SINGULAR. replace (prio m =? 1) with false by lia. cbn [negb]. f_equal; lia.
Qed.
Lemma code_nonempty e c : code e c -> c <> [].
Proof. destruct 1 as [ s v W | e c H | o m a ca b cb M Ha Hb ]; [ discriminate | destruct c; discriminate | destruct ca; [ destruct cb; discriminate | discriminate ] ]. Qed.

Lemma interpret_condition s e : condition ToRight s e -> forall t p rest, located t p -> at_ t p = s ++ rest ->
  exists cs p', interpret t p = Ok (COND_OK, cs, p') /\ code e cs /\ located t p' /\ at_ t p' = rest /\ p_pos p' = p_pos p + zlen s.
Proof.
  intros [ b0 b1 l s' b2 e' B0 B1 W B2 ] t p rest L E.
  change (b0 ++ 40 :: b1 ++ s' ++ b2 ++ [41]) with (b0 ++ op_word ParOpen ++ b1 ++ s' ++ b2 ++ [41]) in *. rewrite <- !app_assoc in E.
  destruct (step_op t p b0 ParOpen (b1 ++ s' ++ b2 ++ [41] ++ rest) 0 false [] [] L E B0 (first_open _)) as (p1 & L1 & A1 & P1 & R1); [ auto | discriminate | ].
  destruct (run_written l s' e' W t p1 b1 (b2 ++ [41] ++ rest) 1 [] [ParOpen] L1 A1 B1) as (n & oa & sa & p2 & prev & N & L2 & A2 & P2 & _ & Cd & F & NE & R2); [ apply clean_blanks; [ exact B2 | reflexivity ] | lia | left; reflexivity | ].
  destruct (step_op t p2 b2 ParClose rest 1 prev ([] ++ oa) (sa ++ [ParOpen]) L2 A2 B2 (first_close _)) as (p3 & L3 & A3 & P3 & R3); [ lia | discriminate | ].
  exists (oa ++ map COp sa), p3.
  assert (Len : (List.length (t_data t) >= 2 + n)%nat).
  { assert (H : (List.length (at_ t p) <= List.length (t_data t))%nat) by (unfold from; rewrite skipn_length; lia). rewrite E in H. rewrite !app_length in H. change (List.length (op_word ParOpen)) with 1%nat in H. cbn [List.length] in H. lia. }
  split.
  - unfold interpret. replace (S (List.length (t_data t))) with (S (n + S (List.length (t_data t) - n - 1)))%nat by lia.
    rewrite R1. unfold shunt_op at 1. cbn [op_eqb]. change (negb (COND_OK =? COND_OK)) with false. cbv iota. change (0 + 1 =? 0) with false. cbv iota. change (0 + 1) with 1. rewrite R2, R3.
    unfold shunt_op at 1. cbn [op_eqb]. cbv zeta. change (1 - 1 <? 0) with false. cbv iota.
    rewrite pop_par_all by (eapply Forall_impl; [ | exact F ]; cbn beta; tauto). change (negb (COND_OK =? COND_OK)) with false. cbv iota. change (1 - 1 =? 0) with true. cbv iota. cbn [bind app].
    change (negb (COND_OK =? COND_OK)) with false. cbv iota. change (negb (1 - 1 =? 0)) with false. cbv iota. cbv zeta.
    pose proof (code_nonempty _ _ Cd) as Q. destruct (oa ++ map COp sa) as [ | c0 cs ] eqn:Ec; [ congruence | ].
    unfold finalize. destruct (counts_code _ _ Cd 0 0) as (k & K). rewrite K. replace (0 + k + 1 - (0 + k) =? 1) with true by lia. reflexivity.
  - split; [ exact Cd | ]. split; [ exact L3 | ]. split; [ exact A3 | ]. change (zlen (op_word ParOpen)) with 1 in *. change (zlen (op_word ParClose)) with 1 in *. rewrite !zlen_app. change (zlen [41]) with 1. change (zlen (op_word ParOpen)) with 1. lia.
Qed.

Lemma written_weaken g g' l s e : (forall o, left_level g o <= left_level g' o /\ right_level g o <= right_level g' o) -> written g l s e -> written g' l s e.
Proof.
  intros H. induction 1 as [ s v W | l s e b1 b2 W IH B1 B2 | l s e b W IH Hl B | o w la sa a lb sb b b1 b2 Wa IHa Ha Wb IHb Hb Sp B1 B2 Hw Hm ].
  - now constructor.
  - econstructor; eauto.
  - econstructor; eauto.
  - destruct (H o). eapply W_bin; [ exact IHa | lia | exact IHb | lia | auto .. ].
Qed.
Lemma condition_never g s e : condition Never s e -> condition g s e.
Proof. intros [ b0 b1 l s' b2 e' B0 B1 W B2 ]. econstructor; eauto. eapply written_weaken; [ | exact W ]. intros o. destruct g; cbn [left_level right_level]; lia. Qed.

(** ** Evaluation as a stack machine *)
Fixpoint compact (rs : list (option result)) : list result := match rs with [] => [] | Some r :: k => r :: compact k | None :: k => compact k end.
Lemma compact_find rs : match find_evaluated rs with
  | None => compact rs = []
  | Some (n, r, rest) => compact rs = r :: compact rest
  end.
Proof.
  induction rs as [ | [ r | ] rs IH ]; cbn [find_evaluated compact]; try reflexivity. destruct (find_evaluated rs) as [ ((n, r), rest) | ]; exact IH.
Qed.
Lemma compact_nones n rs : compact (repeat None n ++ rs) = compact rs.
Proof. induction n as [ | n IH ]; [ reflexivity | exact IH ]. Qed.

Definition lift {A B} (r : eres A) (f : A -> eres B) : eres B := match r with EOk a => f a | EErr c => EErr c | EUb => EUb | EBug => EBug end.
Fixpoint ev (cb : list Z -> Z * Z * bool) (cs : list carrier) (st : list result) (last : Z) : eres Z :=
  match cs with
  | [] => EOk last
  | CVal v :: r => lift (evaluate_value cb v) (fun x => ev cb r (x :: st) last)
  | COp o :: r =>
      match st with
      | [] => EBug
      | b :: k => if prio o =? PRIO_SINGULAR then lift (apply_op o None b) (fun x => ev cb r (x :: k) (fst x))
                  else match k with
                       | [] => lift (apply_op o None b) (fun x => ev cb r [x] (fst x))
                       | a :: k => lift (apply_op o (Some a) b) (fun x => ev cb r (x :: k) (fst x))
                       end
      end
  end.
Lemma evaluate_ev cb : forall cs rs last, evaluate_loop cb cs rs last = ev cb cs (compact rs) last.
Proof.
  induction cs as [ | [ o | v ] cs IH ]; intros rs last; cbn [evaluate_loop ev]; [ reflexivity | | ].
  - unfold evaluate_op. pose proof (compact_find rs) as F. destruct (find_evaluated rs) as [ ((n, b), rest) | ]; rewrite F; [ | reflexivity ].
    destruct (prio o =? PRIO_SINGULAR).
    + destruct (apply_op o None b) as [ (x, s) | c | | ]; cbn [lift]; try reflexivity. rewrite IH. cbn [compact fst]. rewrite compact_nones. reflexivity.
    + pose proof (compact_find rest) as F2. destruct (find_evaluated rest) as [ ((m, a), rest') | ]; rewrite F2.
      * destruct (apply_op o (Some a) b) as [ (x, s) | c | | ]; cbn [lift]; try reflexivity. rewrite IH. cbn [compact fst]. rewrite !compact_nones. reflexivity.
      * destruct (apply_op o None b) as [ (x, s) | c | | ]; cbn [lift]; try reflexivity. rewrite IH. cbn [compact fst]. rewrite compact_nones, F2. reflexivity.
  - destruct (evaluate_value cb v) as [ x | c | | ]; cbn [lift]; try reflexivity. rewrite IH. reflexivity.
Qed.

(** ** Arithmetic *)
Lemma mod_bit x i : 0 <= i -> Z.testbit (x mod 2^64) i = (i <? 64) && Z.testbit x i.
Proof. intros H. destruct (Z.ltb_spec i 64); [ rewrite Z.mod_pow2_bits_low by lia; reflexivity | rewrite Z.mod_pow2_bits_high by lia; reflexivity ]. Qed.
Lemma land_u64 a b : 0 <= a < 2^64 -> 0 <= b < 2^64 -> Z.land a b mod 2^64 = Z.land a b.
Proof.
  intros A B. rewrite <- (Z.mod_small a (2^64)), <- (Z.mod_small b (2^64)) by lia. apply Z.bits_inj'. intros i Hi. rewrite mod_bit, !Z.land_spec, !mod_bit by auto. destruct (i <? 64); cbn [andb]; reflexivity.
Qed.
Lemma lor_u64 a b : 0 <= a < 2^64 -> 0 <= b < 2^64 -> Z.lor a b mod 2^64 = Z.lor a b.
Proof.
  intros A B. rewrite <- (Z.mod_small a (2^64)), <- (Z.mod_small b (2^64)) by lia. apply Z.bits_inj'. intros i Hi. rewrite mod_bit, !Z.lor_spec, !mod_bit by auto. destruct (i <? 64); cbn [andb]; reflexivity.
Qed.
Lemma lxor_u64 a b : 0 <= a < 2^64 -> 0 <= b < 2^64 -> Z.lxor a b mod 2^64 = Z.lxor a b.
Proof.
  intros A B. rewrite <- (Z.mod_small a (2^64)), <- (Z.mod_small b (2^64)) by lia. apply Z.bits_inj'. intros i Hi. rewrite mod_bit, !Z.lxor_spec, !mod_bit by auto. destruct (i <? 64); cbn [andb]; reflexivity.
Qed.
Lemma i64_shift x : - 2^63 <= x < 2^63 <-> Z.shiftr x 63 = 0 \/ Z.shiftr x 63 = -1.
Proof. rewrite Z.shiftr_div_pow2 by lia. lia. Qed.
Lemma i64_land a b : - 2^63 <= a < 2^63 -> - 2^63 <= b < 2^63 -> - 2^63 <= Z.land a b < 2^63.
Proof. rewrite !i64_shift, Z.shiftr_land. intros [ -> | -> ] [ -> | -> ]; cbn; auto. Qed.
Lemma i64_lor a b : - 2^63 <= a < 2^63 -> - 2^63 <= b < 2^63 -> - 2^63 <= Z.lor a b < 2^63.
Proof. rewrite !i64_shift, Z.shiftr_lor. intros [ -> | -> ] [ -> | -> ]; cbn; auto. Qed.
Lemma i64_lxor a b : - 2^63 <= a < 2^63 -> - 2^63 <= b < 2^63 -> - 2^63 <= Z.lxor a b < 2^63.
Proof. rewrite !i64_shift, Z.shiftr_lxor. intros [ -> | -> ] [ -> | -> ]; cbn; auto. Qed.

Definition out_res (o : outcome) : eres result := match o with Value x s => EOk (x mod 2^64, s) | Failed c => EErr c | Undefined => EUb end.
Lemma signed_back x : - 2^63 <= x < 2^63 -> as_signed (x mod 2^64) = x.
Proof. intros H. unfold as_signed. destruct (Z.leb_spec (2^63) (x mod 2^64)); lia. Qed.
Lemma bit_mod b : bit b mod 2^64 = bit b.
Proof. now destruct b. Qed.
Lemma bit_range b : 0 <= bit b <= 1.
Proof. destruct b; cbn; lia. Qed.

Lemma unsigned_exact o m a b : In m (ops_of o) -> 0 <= a < 2^64 -> 0 <= b < 2^64 ->
  of_ores (evaluate_unsigned a b m) false = out_res (compute o false a b).
Proof.
  intros M A B.
  destruct o; cbn [ops_of In] in M; repeat destruct M as [ <- | M ]; try easy; cbn [evaluate_unsigned compute of_ores]; unfold fit, u64; cbn [out_res];
    try (rewrite bit_mod; reflexivity); try reflexivity; try (rewrite Z.mod_mod by lia; reflexivity).
  - destruct (Z.eqb_spec b 0); cbn [of_ores andb]; [ reflexivity | ]. cbn [out_res]. rewrite Z.quot_div_nonneg by lia. rewrite Z.mod_mod by lia. rewrite Z.mod_small; [ reflexivity | ]. nia.
  - replace (0 <=? b) with true by lia. replace (0 <=? a) with true by lia. cbn [andb]. rewrite andb_true_r. destruct (b <? 64) eqn:Q; cbn [of_ores out_res]; [ | reflexivity ]. rewrite Z.shiftl_mul_pow2 by lia. rewrite Z.mod_mod by lia. reflexivity.
  - replace (0 <=? b) with true by lia. cbn [andb]. destruct (b <? 64) eqn:Q; cbn [of_ores out_res]; [ | reflexivity ]. rewrite Z.shiftr_div_pow2 by lia. rewrite Z.mod_small; [ reflexivity | ].
    assert (0 < 2 ^ b) by (apply Z.pow_pos_nonneg; lia). split; [ apply Z.div_pos; lia | ]. apply Z.le_lt_trans with a; [ | lia ]. apply Z.div_le_upper_bound; nia.
  - rewrite land_u64 by auto. reflexivity.
  - rewrite lxor_u64 by auto. reflexivity.
  - rewrite lor_u64 by auto. reflexivity.
Qed.
Lemma fit_i64 x : match i64_or_ub x with OVal x => EOk (u64 x, true) | r => of_ores r true end = out_res (fit true x).
Proof.
  unfold i64_or_ub, fit, INT64_MIN, INT64_MAX. replace (x <=? 2^63 - 1) with (x <? 2^63) by lia. destruct ((- 2^63 <=? x) && (x <? 2^63)); reflexivity.
Qed.
Lemma quot_range a b : - 2^63 <= a < 2^63 -> b <> 0 -> - 2^63 <= Z.quot a b <= 2^63 /\ (Z.quot a b = 2^63 <-> a = - 2^63 /\ b = -1).
Proof.
  intros A B. assert (Q : Z.abs (Z.quot a b) <= Z.abs a) by (rewrite <- Z.quot_abs by auto; apply Z.quot_le_upper_bound; nia).
  split; [ lia | ]. split; [ | intros (-> & ->); reflexivity ]. intros H. assert (a = - 2^63) by lia. split; [ auto | ]. subst a.
  destruct (Z.lt_trichotomy b 0) as [ N | [ N | N ] ]; [ | lia | ].
  - rewrite <- (Z.opp_involutive b) in H. rewrite Z.quot_opp_opp in H by lia. rewrite Z.quot_div_nonneg in H by lia. assert (H1 : 2^63 <= 2^63 / - b) by lia.
    assert (H2 : b = -1 \/ - b >= 2) by lia. destruct H2; [ auto | ]. exfalso. assert (H3 : 2^63 / - b <= 2^63 / 2) by (apply Z.div_le_compat_l; lia). change (2^63 / 2) with (2^62) in H3. lia.
  - rewrite Z.quot_opp_l in H by lia. rewrite Z.quot_div_nonneg in H by lia. assert (0 <= 2^63 / b) by (apply Z.div_pos; lia). lia.
Qed.
Lemma signed_exact o m a b : In m (ops_of o) -> - 2^63 <= a < 2^63 -> - 2^63 <= b < 2^63 ->
  match evaluate_signed a b m with OVal x => EOk (u64 x, true) | r => of_ores r true end = out_res (compute o true a b).
Proof.
  intros M A B.
  destruct o; cbn [ops_of In] in M; repeat destruct M as [ <- | M ]; try easy; cbn [evaluate_signed compute]; try (unfold u64; cbn [out_res]; reflexivity); try apply fit_i64.
  - destruct (Z.eqb_spec b 0) as [ | N ]; cbn [orb]; [ reflexivity | ]. destruct (quot_range a b A N) as (R & Q). cbn [andb].
    destruct (Z.eqb_spec (Z.quot a b) (2^63)) as [ E | E ].
    + destruct (proj1 Q E) as (-> & ->). reflexivity.
    + replace ((a =? INT64_MIN) && (b =? -1)) with false by (unfold INT64_MIN; lia). rewrite <- fit_i64. unfold i64_or_ub, INT64_MIN, INT64_MAX. replace ((_ <=? _) && (_ <=? _)) with true by lia. reflexivity.
  - destruct ((0 <=? b) && (b <? 64) && (0 <=? a)) eqn:Q; [ | reflexivity ]. rewrite Z.shiftl_mul_pow2 by lia. apply fit_i64.
  - destruct ((0 <=? b) && (b <? 64)) eqn:Q; [ | reflexivity ]. rewrite Z.shiftr_div_pow2 by lia. reflexivity.
Qed.
Lemma binary_exact o m a sa b sb : In m (ops_of o) -> fits a sa -> fits b sb ->
  apply_op m (Some (a mod 2^64, sa)) (b mod 2^64, sb) = out_res (binary o a sa b sb).
Proof.
  intros M A B. unfold apply_op, binary, ensure_signed, INT64_MAX.
  destruct sa, sb; cbn [fits orb andb negb] in *.
  - rewrite !signed_back by auto. now apply signed_exact.
  - rewrite signed_back by auto. rewrite (Z.mod_small b) by lia. replace (2^63 - 1 <? b) with (2^63 <=? b) by lia. destruct (2^63 <=? b) eqn:Q; [ reflexivity | ]. apply signed_exact; [ exact M | lia | lia ].
  - rewrite (Z.mod_small a) by lia. replace (2^63 - 1 <? a) with (2^63 <=? a) by lia. destruct (2^63 <=? a) eqn:Q; cbn [orb]; [ reflexivity | ]. rewrite signed_back by auto. apply signed_exact; [ exact M | lia | lia ].
  - rewrite !Z.mod_small by lia. now apply unsigned_exact.
Qed.
Lemma complement_exact b sb : fits b sb -> apply_op BwNot None (b mod 2^64, sb) = out_res (complement b sb).
Proof.
  intros B. unfold apply_op, complement, ensure_signed. destruct sb; cbn [fits orb andb negb] in *.
  - rewrite signed_back by auto. cbn [evaluate_signed]. unfold Z.lnot. cbn [out_res]. unfold u64. reflexivity.
  - cbn [evaluate_unsigned of_ores out_res]. rewrite (Z.mod_small b) by lia. rewrite Z.mod_small by lia. reflexivity.
Qed.
