(** Conditions mean what they say; no text breaks the parser. *)
From Coq Require Import Strings.String.
From Coq Require Import ZArith List Bool Lia.
From Verif Require Import Common Dec ParseModel ParseSpec ParseProofs ConfigSpec ConfigProofs ConfigSafe CondModel CondSpec CondProofs.
Import ListNotations.
Open Scope Z_scope.

(** ** Literals *)
Lemma number_app b l : forall m, number b (l ++ m) = number b l + b ^ zlen l * number b m.
Proof.
  induction l as [ | d l IH ]; intros m; cbn [app number]; [ rewrite zlen_nil; lia | ]. rewrite IH, zlen_cons, Z.pow_add_r by (pose proof (zlen_nonneg _ l); lia). lia.
Qed.
Lemma number_fold b f l : (forall d, In d l -> f d = digit_value d) -> number b (rev l) = fold_left (fun a c => a * b + f c) l 0.
Proof.
  induction l as [ | d l IH ] using rev_ind; intros H; [ reflexivity | ]. rewrite rev_app_distr, fold_left_app. cbn [rev app number fold_left]. rewrite IH by (intros x Hx; apply H, in_or_app; auto).
  rewrite H by (apply in_or_app; right; left; reflexivity). lia.
Qed.
Lemma number_nonneg b l : 0 <= b -> Forall (fun d => 0 <= digit_value d) l -> 0 <= number b l.
Proof. intros B. induction 1; cbn [number]; [ lia | nia ]. Qed.
Lemma digit_facts c : digit c -> is_dec_digit c = true /\ digit_value c = c - 48 /\ 0 <= digit_value c.
Proof. unfold digit, is_dec_digit, digit_value. intros H. replace (c <=? 57) with true by lia. lia. Qed.
Lemma hex_facts c : hex_digit_ c -> is_hex c = true /\ digit_value c = hex_digit c /\ 0 <= digit_value c.
Proof. unfold hex_digit_, digit, is_hex, digit_value, hex_digit. intros H. destruct (Z.leb_spec c 57), (Z.leb_spec c 70); lia. Qed.
Lemma dec_number s : Forall digit s -> number 10 (rev s) = dec_val s /\ 0 <= dec_val s /\ forallb is_dec_digit s = true.
Proof.
  intros F. assert (E : number 10 (rev s) = dec_val s).
  { unfold dec_val. apply (number_fold 10 (fun c => c - 48)). intros d Hd. rewrite Forall_forall in F. symmetry. now apply digit_facts, F. }
  split; [ exact E | ]. split.
  - rewrite <- E. apply number_nonneg; [ lia | ]. apply Forall_rev. eapply Forall_impl; [ | exact F ]. apply digit_facts.
  - apply forallb_forall. intros c Hc. rewrite Forall_forall in F. now apply digit_facts, F.
Qed.
Lemma hex_number s : Forall hex_digit_ s -> number 16 (rev s) = hex_val s /\ 0 <= hex_val s /\ forallb is_hex s = true.
Proof.
  intros F. assert (E : number 16 (rev s) = hex_val s).
  { unfold hex_val. apply (number_fold 16 hex_digit). intros d Hd. rewrite Forall_forall in F. symmetry. now apply hex_facts, F. }
  split; [ exact E | ]. split.
  - rewrite <- E. apply number_nonneg; [ lia | ]. apply Forall_rev. eapply Forall_impl; [ | exact F ]. apply hex_facts.
  - apply forallb_forall. intros c Hc. rewrite Forall_forall in F. now apply hex_facts, F.
Qed.
Lemma digit_cases c : digit c -> c = 48 \/ c = 49 \/ c = 50 \/ c = 51 \/ c = 52 \/ c = 53 \/ c = 54 \/ c = 55 \/ c = 56 \/ c = 57.
Proof. unfold digit. lia. Qed.
Lemma value_dec cb s : s <> [] -> Forall digit s -> evaluate_value cb s = EOk (Z.min (dec_val s) (2^64 - 1), false).
Proof.
  intros N F. assert (E : evaluate_value cb s = match strtoull s with Some x => EOk (x, false) | None => EErr COND_SOFT end).
  { destruct s as [ | c s ]; [ congruence | ]. apply Forall_cons_iff in F. destruct F as (D & F). apply digit_cases in D.
    repeat destruct D as [ -> | D ]; try subst c; try reflexivity.
    destruct s as [ | d s ]; [ reflexivity | ]. apply Forall_cons_iff in F. destruct F as (D & F). apply digit_cases in D. repeat destruct D as [ -> | D ]; try subst d; reflexivity. }
  rewrite E. unfold strtoull. destruct (dec_number s F) as (_ & _ & ->). destruct s; [ congruence | reflexivity ].
Qed.
Lemma value_exact cb env s v : answers cb env -> written_lit s v -> evaluate_value cb s = out_res (meaning env (Lit v)).
Proof.
  intros An [ s' N F Z1 Z2 | s' N F Z1 Z2 | x s' X N F Z1 Z2 | s' N F Z1 ].
  - rewrite value_dec by auto. destruct (dec_number s' F) as (E & P & _). cbn [meaning out_res]. rewrite E in *. rewrite Z.mod_small by lia. do 2 f_equal. lia.
  - cbn [evaluate_value meaning out_res]. destruct (dec_number s' F) as (E & P & ->). rewrite E in *. unfold u64, INT64_MIN. do 3 f_equal. lia.
  - destruct (hex_number s' F) as (E & P & H). cbn [meaning out_res]. rewrite E in *. rewrite Z.mod_small by lia. replace (hex_val s') with (Z.min (hex_val s') (2^64 - 1)) at 1 by lia.
    destruct X; subst x; cbn [evaluate_value]; rewrite H; do 2 f_equal; lia.
  - cbn [evaluate_value meaning]. rewrite removelast_last. specialize (An s'). destruct (env s') as [ x sg | c | ].
    + destruct An as (_ & ->). cbn [out_res]. change (negb (0 =? 0)) with false. cbv iota. unfold u64. rewrite Z.mod_mod by lia. reflexivity.
    + destruct An as (C & x & sg & ->). replace (c =? 0) with false by lia. reflexivity.
    + easy.
Qed.
Lemma lit_fits env cb s v x sg : answers cb env -> written_lit s v -> meaning env (Lit v) = Value x sg -> fits x sg.
Proof.
  intros An [ s' N F Z1 Z2 | s' N F Z1 Z2 | x' s' X N F Z1 Z2 | s' N F Z1 ]; cbn [meaning]; intros Q.
  - injection Q as <- <-. cbn [fits]. destruct (dec_number s' F) as (E & P & _). lia.
  - injection Q as <- <-. cbn [fits]. destruct (dec_number s' F) as (E & P & _). lia.
  - injection Q as <- <-. cbn [fits]. destruct (hex_number s' F) as (E & P & _). lia.
  - specialize (An s'). rewrite Q in An. apply An.
Qed.

(** ** Results stay in range *)
Lemma fit_fits s x y sg : fit s x = Value y sg -> fits y sg.
Proof. unfold fit. destruct s; [ destruct ((- 2^63 <=? x) && (x <? 2^63)) eqn:Q; [ | discriminate ] | ]; intros E; injection E as <- <-; cbn [fits]; lia. Qed.
Lemma value_inj x s y t : Value x s = Value y t -> x = y /\ s = t.
Proof. intros E. split; [ exact (f_equal (fun o => match o with Value x _ => x | _ => x end) E) | exact (f_equal (fun o => match o with Value _ s => s | _ => s end) E) ]. Qed.
Lemma complement_fits b sb y sg : fits b sb -> complement b sb = Value y sg -> fits y sg.
Proof. unfold complement. intros B E. apply value_inj in E. destruct E as (<- & <-). destruct sb; cbn [fits] in *; lia. Qed.
Lemma bit_fits b s : fits (bit b) s.
Proof. pose proof (bit_range b). destruct s; cbn [fits]; lia. Qed.
Lemma compute_fits o s a b y sg : fits a s -> fits b s -> compute o s a b = Value y sg -> fits y sg.
Proof.
  intros A B. destruct o; cbn [compute]; intros E; try (apply fit_fits in E; exact E); try (injection E as <- <-; apply bit_fits).
  - destruct (b =? 0); [ discriminate | ]. destruct (s && _); [ discriminate | ]. now apply fit_fits in E.
  - destruct (_ && _ && _); [ | discriminate ]. now apply fit_fits in E.
  - destruct ((0 <=? b) && (b <? 64)) eqn:Q; [ | discriminate ]. injection E as <- <-. assert (0 < 2 ^ b) by (apply Z.pow_pos_nonneg; lia).
    assert (H1 : 0 <= a -> 0 <= a / 2^b <= a). { intros. split; [ apply Z.div_pos; lia | apply Z.div_le_upper_bound; nia ]. }
    assert (H2 : a < 0 -> a <= a / 2^b < 0). { intros. split; [ apply Z.div_le_lower_bound; nia | apply Z.div_lt_upper_bound; nia ]. }
    destruct s; cbn [fits] in *; lia.
  - injection E as <- <-. destruct s; cbn [fits] in *; [ now apply i64_land | rewrite <- (land_u64 a b) by auto; lia ].
  - injection E as <- <-. destruct s; cbn [fits] in *; [ now apply i64_lxor | rewrite <- (lxor_u64 a b) by auto; lia ].
  - injection E as <- <-. destruct s; cbn [fits] in *; [ now apply i64_lor | rewrite <- (lor_u64 a b) by auto; lia ].
Qed.
Lemma binary_fits o a sa b sb y sg : fits a sa -> fits b sb -> binary o a sa b sb = Value y sg -> fits y sg.
Proof.
  intros A B. unfold binary. destruct ((sa || sb) && _) eqn:Q; [ discriminate | ]. apply compute_fits; destruct sa, sb; cbn [fits orb andb negb] in *; lia.
Qed.
Lemma meaning_fits cb env e cs : answers cb env -> code e cs -> forall x s, meaning env e = Value x s -> fits x s.
Proof.
  intros An. induction 1 as [ s v W | e c H IH | o m a ca b cb' M Ha IHa Hb IHb ]; intros x sg.
  - now apply lit_fits with cb s.
  - cbn [meaning]. destruct (meaning env e) as [ y s' | | ]; try discriminate. apply complement_fits. now apply IH.
  - cbn [meaning]. destruct (meaning env a) as [ y s1 | | ]; try discriminate. destruct (meaning env b) as [ z s2 | | ]; try discriminate. apply binary_fits; auto.
Qed.

Definition last_of (e : expr) (x last : Z) : Z := match e with Lit _ => last | _ => x mod 2^64 end.
Lemma ev_code cb env e cs : answers cb env -> code e cs -> forall k st last,
  ev cb (cs ++ k) st last = match meaning env e with Value x s => ev cb k ((x mod 2^64, s) :: st) (last_of e x last) | Failed c => EErr c | Undefined => EUb end.
Proof.
  intros An. induction 1 as [ s v W | e c H IH | o m a ca b cb' M Ha IHa Hb IHb ]; intros k st last.
  - cbn [app ev]. rewrite (value_exact cb env s v An W). cbn [last_of]. destruct (meaning env (Lit v)); reflexivity.
  - rewrite <- app_assoc, IH. cbn [meaning]. destruct (meaning env e) as [ x s | | ] eqn:Q; try reflexivity. cbn [app ev]. change (prio BwNot =? PRIO_SINGULAR) with true. cbv iota.
    rewrite (complement_exact x s) by (eapply meaning_fits; eauto). unfold complement. cbn [out_res lift fst last_of]. reflexivity.
  - rewrite <- !app_assoc, IHa. cbn [meaning]. destruct (meaning env a) as [ x s | | ] eqn:Q; try reflexivity. rewrite IHb. destruct (meaning env b) as [ y s2 | | ] eqn:Q2; try reflexivity.
    cbn [app ev]. destruct (ops_facts _ _ M) as (_ & _ & _ & _ & P). unfold PRIO_SINGULAR. replace (prio m =? 1) with false by lia.
    transitivity (lift (out_res (binary o x s y s2)) (fun r => ev cb k (r :: st) (fst r))).
    { f_equal. apply binary_exact; [ exact M | eapply (meaning_fits cb env a ca); eauto | eapply (meaning_fits cb env b cb'); eauto ]. }
    destruct (binary o x s y s2); reflexivity.
Qed.

Definition answer (o : outcome) : eres Z := match o with Value x _ => EOk (x mod 2^64) | Failed c => EErr c | Undefined => EUb end.
Lemma evaluate_code cb env e cs : answers cb env -> code e cs ->
  evaluate cb cs = match e with Lit _ => match meaning env e with Value _ _ => EOk 0 | Failed c => EErr c | Undefined => EUb end | _ => answer (meaning env e) end.
Proof.
  intros An Cd. unfold evaluate. rewrite evaluate_ev. pose proof (ev_code cb env e cs An Cd [] [] 0) as H. rewrite app_nil_r in H. cbn [compact]. rewrite H. destruct e; cbn [last_of]; destruct (meaning env _); reflexivity.
Qed.
Lemma evaluate_condition cb env s e : answers cb env -> condition ToRight s e -> forall t p rest, located t p -> at_ t p = s ++ rest ->
  exists cs p', interpret t p = Ok (COND_OK, cs, p') /\ located t p' /\ p_pos p' = p_pos p + zlen s /\
    evaluate cb cs = match e with Lit _ => match meaning env e with Value _ _ => EOk 0 | Failed c => EErr c | Undefined => EUb end | _ => answer (meaning env e) end.
Proof.
  intros An C t p rest L E. destruct (interpret_condition s e C t p rest L E) as (cs & p' & R & Cd & L' & _ & P). exists cs, p'. split; [ exact R | ]. split; [ exact L' | ]. split; [ exact P | ]. now apply evaluate_code.
Qed.

(** ** No text breaks the parser *)
Fixpoint opens (s : list op) : Z := match s with [] => 0 | o :: r => (if op_eqb o ParOpen then 1 else 0) + opens r end.
Definition stack_inv (par : Z) (stack : list op) : Prop := opens stack = par /\ (stack = [] \/ last stack ParClose = ParOpen).
Lemma opens_nonneg s : 0 <= opens s.
Proof. induction s as [ | o s IH ]; cbn [opens]; [ lia | destruct (op_eqb o ParOpen); lia ]. Qed.
Lemma stack_empty stack : stack_inv 0 stack -> stack = [].
Proof.
  intros (O & [ -> | La ]); [ reflexivity | ]. exfalso. revert O La. induction stack as [ | o s IH ]; cbn [opens]; intros O La; [ discriminate La | ]. pose proof (opens_nonneg s).
  destruct s as [ | o' s ]; [ cbn in La; subst o; cbn in O; lia | ]. apply IH; [ destruct (op_eqb o ParOpen); lia | exact La ].
Qed.
Lemma last_cons_ne {A} (a : A) l d : l <> [] -> last (a :: l) d = last l d.
Proof. destruct l; [ congruence | reflexivity ]. Qed.
Lemma pop_par_inv : forall stack out par, stack_inv par stack -> 0 < par -> exists out' stack', pop_par out stack = (out', stack') /\ stack_inv (par - 1) stack' /\
  exists k, out' = out ++ map COp k.
Proof.
  induction stack as [ | o s IH ]; intros out par (O & La) P; cbn [opens pop_par] in *; [ lia | ].
  destruct (op_eqb o ParOpen) eqn:Q.
  - do 2 eexists. split; [ reflexivity | ]. split; [ split; [ lia | ] | exists []; now rewrite app_nil_r ]. destruct s; [ now left | right ]. destruct La as [ La | La ]; [ discriminate | exact La ].
  - destruct (IH (out ++ [COp o]) par) as (o' & s' & R & I & k & K); [ | exact P | ].
    { split; [ lia | ]. destruct s as [ | x s ]; [ cbn in O; lia | right; destruct La as [ La | La ]; [ discriminate | exact La ] ]. }
    exists o', s'. split; [ exact R | ]. split; [ exact I | ]. exists (o :: k). rewrite K, <- app_assoc. reflexivity.
Qed.
Lemma pop_prio_inv new : forall stack out par, stack_inv par stack -> 0 < par -> exists out' stack', pop_prio new out stack = (out', stack') /\ stack_inv par stack' /\ stack' <> [] /\
  exists k, out' = out ++ map COp k.
Proof.
  induction stack as [ | o s IH ]; intros out par (O & La) P; cbn [opens pop_prio] in *; [ lia | ].
  destruct ((prio o <? prio new) && negb (op_eqb o ParOpen)) eqn:Q.
  - apply andb_prop in Q. destruct Q as (_ & Q). apply negb_true_iff in Q. rewrite Q in O.
    destruct (IH (out ++ [COp o]) par) as (o' & s' & R & I & NE & k & K); [ | exact P | ].
    { split; [ lia | ]. destruct s as [ | x s ]; [ cbn in O; lia | right; destruct La as [ La | La ]; [ discriminate | exact La ] ]. }
    exists o', s'. split; [ exact R | ]. split; [ exact I | ]. split; [ exact NE | ]. exists (o :: k). rewrite K, <- app_assoc. reflexivity.
  - do 2 eexists. split; [ reflexivity | ]. split; [ split; [ exact O | exact La ] | ]. split; [ discriminate | ]. exists []. now rewrite app_nil_r.
Qed.
Lemma shunt_inv par out stack o : stack_inv par stack -> 0 <= par -> (par = 0 -> o = ParOpen) ->
  exists par' out' stack', shunt_op par out stack o = (COND_OK, par', out', stack') /\ stack_inv par' stack' /\ 0 <= par' /\ exists k, out' = out ++ map COp k.
Proof.
  intros I P Z0. unfold shunt_op. destruct (op_eqb o ParOpen) eqn:Qo.
  - exists (par + 1), out, (o :: stack). split; [ reflexivity | ]. split; [ | split; [ lia | exists []; now rewrite app_nil_r ] ]. destruct I as (O & La). split; [ cbn [opens]; rewrite Qo; lia | right ].
    assert (o = ParOpen) as -> by (destruct o; try discriminate Qo; reflexivity). destruct stack as [ | x s ]; [ reflexivity | ]. destruct La as [ La | La ]; [ discriminate | exact La ].
  - assert (Pp : 0 < par). { destruct (Z.eq_dec par 0) as [ E | ]; [ | lia ]. rewrite (Z0 E) in Qo. discriminate. }
    destruct (op_eqb o ParClose) eqn:Qc.
    + cbv zeta. replace (par - 1 <? 0) with false by lia. destruct (pop_par_inv stack out par I Pp) as (o' & s' & R & I' & K). rewrite R. exists (par - 1), o', s'. split; [ reflexivity | ]. split; [ exact I' | ]. split; [ lia | exact K ].
    + destruct stack as [ | x s ]; [ destruct I as (O & _); cbn in O; lia | ]. destruct (pop_prio_inv o (x :: s) out par I Pp) as (o' & s' & R & I' & NE & K). rewrite R. exists par, o', (o :: s'). split; [ reflexivity | ]. split; [ | split; [ lia | exact K ] ].
      destruct I' as (O' & La'). split; [ cbn [opens]; rewrite Qo; lia | right ]. rewrite last_cons_ne by exact NE. destruct La' as [ La' | La' ]; [ congruence | exact La' ].
Qed.

(** A literal the parser lets through: as those written, of any size of number. *)
Inductive literal_form : list Z -> Prop :=
| f_dec s : s <> [] -> Forall digit s -> literal_form s
| f_neg s : s <> [] -> Forall digit s -> literal_form (45 :: s)
| f_hex x s : x = 120 \/ x = 88 -> s <> [] -> Forall hex_digit_ s -> literal_form (48 :: x :: s)
| f_name s : s <> [] -> Forall name_char s -> literal_form (123 :: s ++ [125]).
Definition carrier_ok (c : carrier) : Prop := match c with COp _ => True | CVal v => literal_form v /\ zlen v <= 63 end.

Lemma leading_num l : Forall digit (leading (match_char F_NUMBERS_) l).
Proof. induction l as [ | c l IH ]; cbn [leading]; [ constructor | ]. destruct (match_char F_NUMBERS_ c) eqn:Q; [ | constructor ]. constructor; [ rewrite flags_num in Q; unfold is_number in Q; unfold digit; lia | exact IH ]. Qed.
Lemma leading_hexd l : Forall hex_digit_ (leading (match_char F_HEX_) l).
Proof. induction l as [ | c l IH ]; cbn [leading]; [ constructor | ]. destruct (match_char F_HEX_ c) eqn:Q; [ | constructor ]. constructor; [ rewrite flags_hex in Q; unfold is_hex in Q; unfold hex_digit_, digit; lia | exact IH ]. Qed.
Lemma leading_name l : Forall name_char (leading (match_char F_LETTERS_NUMBERS) l).
Proof. induction l as [ | c l IH ]; cbn [leading]; [ constructor | ]. destruct (match_char F_LETTERS_NUMBERS c) eqn:Q; [ | constructor ]. constructor; [ rewrite flags_tag in Q; unfold is_letter, is_number in Q; unfold name_char, digit; lia | exact IH ]. Qed.
Lemma letters_safe t p flags : located t p -> (forall c, match_char flags c = true -> is_newline c = false) ->
  let s := leading (match_char flags) (at_ t p) in
  match_letters t p flags = Ok (p_pos p, p_pos p + zlen s - 1, set_pos p (p_pos p + zlen s)) /\ located t (set_pos p (p_pos p + zlen s)) /\
  exists r, at_ t p = s ++ r /\ from t (p_pos p + zlen s) = r.
Proof.
  intros L N s. split; [ rewrite match_letters_ok by (now apply loc_range); reflexivity | ]. destruct (leading_split (match_char flags) (at_ t p)) as (r & Sp). fold s in Sp.
  destruct (located_word t p s r L Sp) as (L' & A).
  { pose proof (leading_all (match_char flags) (at_ t p)) as F. fold s in F. eapply no_newline_of; [ exact N | exact F ]. }
  split; [ exact L' | ]. exists r. auto.
Qed.
Definition found (t : text) (p : pos) (v : option (Z * Z)) (p' : pos) : Prop :=
  match v with
  | None => True
  | Some (a, b) => exists s r, at_ t p = s ++ r /\ literal_form s /\ a = p_pos p /\ b = p_pos p + zlen s - 1 /\ p_pos p' = p_pos p + zlen s
  end.
Lemma form_nonempty s : literal_form s -> 0 < zlen s.
Proof.
  destruct 1 as [ s N F | s N F | x s X N F | s N F ].
  - destruct s; [ congruence | ]. rewrite zlen_cons. pose proof (zlen_nonneg _ s). lia.
  - rewrite zlen_cons. pose proof (zlen_nonneg _ s). lia.
  - rewrite !zlen_cons. pose proof (zlen_nonneg _ s). lia.
  - rewrite zlen_cons. pose proof (zlen_nonneg _ (s ++ [125])). lia.
Qed.
Lemma zlen_pos_ne {A} (l : list A) : (zlen l - 1 <? 0) = false -> l <> [].
Proof. intros H ->. discriminate H. Qed.
Lemma parse_value_safe t p : located t p -> exists v p', parse_value t p = Ok (v, p') /\ located t p' /\ p_pos p <= p_pos p' /\ found t p v p'.
Proof.
  intros L. pose proof (loc_range _ _ L) as B. unfold parse_value. rewrite word_starts by auto.
  assert (Nt : forall c, match_char F_LETTERS_NUMBERS c = true -> is_newline c = false) by (intros c; rewrite flags_tag; unfold is_letter, is_number, is_newline; lia).
  assert (Nh : forall c, match_char F_HEX_ c = true -> is_newline c = false) by (intros c; rewrite flags_hex; unfold is_hex, is_newline; lia).
  assert (Nn : forall c, match_char F_NUMBERS_ c = true -> is_newline c = false) by (intros c; rewrite flags_num; unfold is_number, is_newline; lia).
  destruct (starts (str_bytes "{") (at_ t p)) eqn:Q1; cbn [bind].
  { apply starts_iff in Q1. destruct Q1 as (r1 & E1). change (zlen (str_bytes "{")) with 1.
    destruct (located_word t p [123] r1 L E1) as (L1 & A1); [ repeat constructor | ]. change (zlen [123]) with 1 in *.
    destruct (letters_safe t _ F_LETTERS_NUMBERS L1 Nt) as (R2 & L2 & r2 & E2 & A2). rewrite R2. cbn [bind]. pose proof (leading_name (at_ t (set_pos p (p_pos p + 1)))) as F.
    set (s := leading (match_char F_LETTERS_NUMBERS) (at_ t (set_pos p (p_pos p + 1)))) in *. clearbody s. unfold set_pos in *. cbn [p_pos p_line p_begin] in *. pose proof (zlen_nonneg _ s).
    replace (p_pos p + 1 + zlen s - 1 - (p_pos p + 1)) with (zlen s - 1) by lia. destruct (zlen s - 1 <? 0) eqn:Q2; [ do 2 eexists; split; [ reflexivity | ]; cbn [p_pos]; split; [ exact L2 | split; [ lia | exact I ] ] | ].
    rewrite word_starts by exact L2. cbn [p_pos]. rewrite A2. destruct (starts (str_bytes "}") r2) eqn:Q3; cbn [bind]; [ | do 2 eexists; split; [ reflexivity | ]; cbn [p_pos]; split; [ exact L2 | split; [ lia | exact I ] ] ].
    apply starts_iff in Q3. destruct Q3 as (r3 & E3). change (zlen (str_bytes "}")) with 1. rewrite E3 in A2.
    destruct (located_word t _ [125] r3 L2 A2) as (L3 & A3); [ repeat constructor | ]. change (zlen [125]) with 1 in *. unfold set_pos in *. cbn [p_pos p_line p_begin] in *.
    do 2 eexists. split; [ reflexivity | ]. cbn [p_pos]. split; [ exact L3 | ]. split; [ lia | ].
    exists (123 :: s ++ [125]), r3. split. { rewrite E1. change (str_bytes "{") with [123]. cbn [app]. f_equal. rewrite A1 in E2. rewrite E2, E3, <- app_assoc. reflexivity. }
    split; [ constructor; [ now apply zlen_pos_ne | exact F ] | ]. rewrite zlen_cons, zlen_app. change (zlen [125]) with 1. cbn [p_pos]. lia. }
  destruct (word_case_exact t (str_bytes "0x") p B) as [ ((l & r1 & E1 & Hl) & R1) | (_ & R1) ]; [ cbn; intuition discriminate | | ]; rewrite R1; cbn [bind].
  { destruct l as [ | a [ | b [ | e l ] ] ]; try discriminate Hl. cbn [map] in Hl. injection Hl as Ha Hb. change (zlen (str_bytes "0x")) with 2.
    assert (a = 48) as -> by (unfold lower in Ha; cbn in Ha; destruct ((65 <=? a) && (a <=? 90)) eqn:Q; lia).
    assert (X : b = 120 \/ b = 88) by (unfold lower in Hb; cbn in Hb; destruct ((65 <=? b) && (b <=? 90)) eqn:Q; lia).
    destruct (located_word t p [48; b] r1 L E1) as (L1 & A1); [ destruct X; subst; repeat constructor | ]. change (zlen [48; b]) with 2 in *.
    destruct (letters_safe t _ F_HEX_ L1 Nh) as (R2 & L2 & r2 & E2 & A2). rewrite R2. cbn [bind]. pose proof (leading_hexd (at_ t (set_pos p (p_pos p + 2)))) as F.
    set (s := leading (match_char F_HEX_) (at_ t (set_pos p (p_pos p + 2)))) in *. clearbody s. unfold set_pos in *. cbn [p_pos p_line p_begin] in *. pose proof (zlen_nonneg _ s).
    replace (p_pos p + 2 + zlen s - 1 - (p_pos p + 2)) with (zlen s - 1) by lia. destruct (zlen s - 1 <? 0) eqn:Q2; [ do 2 eexists; split; [ reflexivity | ]; cbn [p_pos]; split; [ exact L2 | split; [ lia | exact I ] ] | ].
    do 2 eexists. split; [ reflexivity | ]. cbn [p_pos]. split; [ exact L2 | ]. split; [ lia | ].
    exists (48 :: b :: s), r2. split. { rewrite E1. cbn [app]. do 2 f_equal. rewrite A1 in E2. exact E2. }
    split; [ constructor; [ exact X | now apply zlen_pos_ne | exact F ] | ]. rewrite !zlen_cons. cbn [p_pos]. lia. }
  destruct (word_case_exact t (str_bytes "-") p B) as [ ((l & r2 & E1 & Hl) & R2) | (_ & R2) ]; [ cbn; intuition discriminate | | ]; rewrite R2; cbn [bind].
  { destruct l as [ | a [ | b l ] ]; try discriminate Hl. cbn [map] in Hl. injection Hl as Ha. change (zlen (str_bytes "-")) with 1.
    assert (a = 45) as -> by (unfold lower in Ha; cbn in Ha; destruct ((65 <=? a) && (a <=? 90)) eqn:Q; lia).
    destruct (located_word t p [45] r2 L E1) as (L1 & A1); [ repeat constructor | ]. change (zlen [45]) with 1 in *.
    destruct (letters_safe t _ F_NUMBERS_ L1 Nn) as (R3 & L2 & r3 & E2 & A2). rewrite R3. cbn [bind]. pose proof (leading_num (at_ t (set_pos p (p_pos p + 1)))) as F.
    set (s := leading (match_char F_NUMBERS_) (at_ t (set_pos p (p_pos p + 1)))) in *. clearbody s. unfold set_pos in *. cbn [p_pos p_line p_begin] in *. pose proof (zlen_nonneg _ s).
    replace (p_pos p + 1 + zlen s - 1 - (p_pos p + 1)) with (zlen s - 1) by lia. destruct (zlen s - 1 <? 0) eqn:Q2; [ do 2 eexists; split; [ reflexivity | ]; cbn [p_pos]; split; [ exact L2 | split; [ lia | exact I ] ] | ].
    do 2 eexists. split; [ reflexivity | ]. cbn [p_pos]. split; [ exact L2 | ]. split; [ lia | ].
    exists (45 :: s), r3. split. { rewrite E1. cbn [app]. f_equal. rewrite A1 in E2. exact E2. }
    split; [ constructor; [ now apply zlen_pos_ne | exact F ] | ]. rewrite !zlen_cons. cbn [p_pos]. lia. }
  destruct (letters_safe t p F_NUMBERS_ L Nn) as (R3 & L2 & r3 & E2 & A2). rewrite R3. cbn [bind]. pose proof (leading_num (at_ t p)) as F.
  set (s := leading (match_char F_NUMBERS_) (at_ t p)) in *. clearbody s. pose proof (zlen_nonneg _ s).
  replace (p_pos p + zlen s - 1 - p_pos p) with (zlen s - 1) by lia. destruct (zlen s - 1 <? 0) eqn:Q2; [ do 2 eexists; split; [ reflexivity | ]; split; [ exact L2 | split; [ unfold set_pos; cbn [p_pos]; lia | exact I ] ] | ].
  do 2 eexists. split; [ reflexivity | ]. split; [ exact L2 | ]. split; [ unfold set_pos; cbn [p_pos]; lia | ].
  exists s, r3. split; [ exact E2 | ]. split; [ apply f_dec; [ now apply zlen_pos_ne | exact F ] | ]. unfold set_pos. cbn [p_pos]. lia.
Qed.

Lemma shunt_value_safe t p out a b p' : located t p -> found t p (Some (a, b)) p' -> Forall carrier_ok out ->
  exists ret out', shunt_value t out a b = Ok (ret, out') /\ (ret = 0 \/ ret = 2) /\ Forall carrier_ok out' /\ p_pos p < p_pos p'.
Proof.
  intros L (s & r & E & Lf & -> & -> & P) F. pose proof (form_nonempty s Lf). unfold shunt_value, name_length. replace (p_pos p + zlen s - 1 <? p_pos p) with false by lia. cbn [bind].
  replace (p_pos p + zlen s - 1 - p_pos p + 1) with (zlen s) by lia. unfold VALUE_MAX. destruct (64 - 1 <? zlen s) eqn:Q; [ do 2 eexists; split; [ reflexivity | ]; split; [ now right | ]; split; [ exact F | lia ] | ].
  rewrite (copy_from t (p_pos p) s r) by (auto; now apply loc_range). cbn [bind]. do 2 eexists. split; [ reflexivity | ]. split; [ now left | ]. split; [ | lia ].
  apply Forall_app. split; [ exact F | ]. constructor; [ | constructor ]. split; [ exact Lf | lia ].
Qed.
Lemma ops_ok out k : Forall carrier_ok out -> Forall carrier_ok (out ++ map COp k).
Proof. intros F. apply Forall_app. split; [ exact F | ]. induction k; constructor; [ exact I | exact IHk ]. Qed.

Lemma loop_safe t : forall fuel p par prev out stack, located t p -> t_size t - p_pos p < Z.of_nat fuel -> stack_inv par stack -> 0 <= par -> Forall carrier_ok out ->
  exists ret par' out' stack' p', interpret_loop fuel t p par prev out stack = Ok (ret, par', out', stack', p') /\ (ret = 0 \/ ret = 2) /\ stack_inv par' stack' /\ Forall carrier_ok out' /\ located t p' /\ p_pos p <= p_pos p'.
Proof.
  induction fuel as [ | fuel IH ]; intros p par prev out stack L Hf I P F; [ pose proof (loc_range _ _ L); lia | ]. cbn [interpret_loop].
  assert (Stop : forall ret par out stack p', stack_inv par stack -> (ret = 0 \/ ret = 2) -> Forall carrier_ok out -> located t p' -> p_pos p <= p_pos p' ->
    exists ret' par' out' stack' p'', Ok (ret, par, out, stack, p') = Ok (ret', par', out', stack', p'') /\ (ret' = 0 \/ ret' = 2) /\ stack_inv par' stack' /\ Forall carrier_ok out' /\ located t p'' /\ p_pos p <= p_pos p'').
  { intros ret par0 out0 stack0 p' H1 H2 H3 H4 H5. exists ret, par0, out0, stack0, p'. auto 10. }
  destruct (eof t p); [ apply Stop; auto; lia | ].
  destruct (spaces_safe t p L) as (p1 & R1 & P1 & L1). rewrite R1. cbn [bind]. destruct (eof t p1) eqn:Q1; [ apply Stop; auto | ].
  rewrite parse_op_first by auto. destruct (first_op (at_ t p1)) as [ o | ] eqn:Fo; cbn [bind].
  - destruct (first_op_starts _ _ Fo) as (r & E). destruct (op_word_plain o) as (Nl & Nn & _). destruct (located_word t p1 (op_word o) r L1 E Nl) as (L2 & A2).
    assert (0 < zlen (op_word o)) by (destruct (op_word o); [ congruence | rewrite zlen_cons; pose proof (zlen_nonneg _ l); lia ]).
    destruct ((par =? 0) && negb match o with ParOpen => true | _ => false end) eqn:Q2; [ apply Stop; auto; unfold set_pos; cbn [p_pos]; lia | ].
    assert (Z0 : par = 0 -> o = ParOpen) by (intros ->; cbn [andb] in Q2; destruct o; try discriminate Q2; reflexivity).
    destruct ((match o with Sub => true | _ => false end) && (prev || match out with [] => true | _ => false end)) eqn:Q3.
    + assert (o = Sub) as -> by (destruct o; try discriminate Q3; reflexivity).
      replace (set_pos (set_pos p1 (p_pos p1 + zlen (op_word Sub))) (p_pos (set_pos p1 (p_pos p1 + zlen (op_word Sub))) - 1)) with p1.
      2:{ unfold set_pos. cbn [p_pos p_line p_begin]. change (zlen (op_word Sub)) with 1. replace (p_pos p1 + 1 - 1) with (p_pos p1) by lia. now destruct p1. }
      destruct (spaces_safe t p1 L1) as (p2 & R2 & P2 & L3). rewrite R2. cbn [bind]. destruct (eof t p2); [ apply Stop; auto; lia | ].
      destruct (parse_value_safe t p2 L3) as (v & p3 & R3 & L4 & P3 & Fd). rewrite R3. cbn [bind]. destruct v as [ (a, b) | ]; [ | apply Stop; auto; lia ].
      destruct (shunt_value_safe t p2 out a b p3 L3 Fd F) as (ret & out' & R4 & Hr & F' & P4). rewrite R4. cbn [bind].
      destruct (negb (ret =? COND_OK)); [ apply Stop; auto; lia | ].
      destruct (IH p3 par false out' stack L4 ltac:(lia) I P F') as (x1 & x2 & x3 & x4 & x5 & Y & Y1 & Y2 & Y3 & Y4 & Y5). exists x1, x2, x3, x4, x5. split; [ exact Y | ]. split; [ exact Y1 | ]. split; [ exact Y2 | ]. split; [ exact Y3 | ]. split; [ exact Y4 | lia ].
    + destruct (shunt_inv par out stack o I P Z0) as (par' & out' & stack' & R2 & I' & P' & k & K). rewrite R2. change (negb (COND_OK =? COND_OK)) with false. cbv iota. subst out'. pose proof (ops_ok out k F) as F'.
      destruct (par' =? 0); [ apply Stop; auto; unfold set_pos; cbn [p_pos]; lia | ].
      destruct (IH (set_pos p1 (p_pos p1 + zlen (op_word o))) par' true (out ++ map COp k) stack' L2) as (x1 & x2 & x3 & x4 & x5 & Y & Y1 & Y2 & Y3 & Y4 & Y5); auto; [ unfold set_pos; cbn [p_pos]; lia | ].
      exists x1, x2, x3, x4, x5. split; [ exact Y | ]. split; [ exact Y1 | ]. split; [ exact Y2 | ]. split; [ exact Y3 | ]. split; [ exact Y4 | unfold set_pos in Y5; cbn [p_pos] in Y5; lia ].
  - destruct ((par =? 0) && _) eqn:Q2; [ apply Stop; auto | ]. cbn [andb].
    destruct (spaces_safe t p1 L1) as (p2 & R2 & P2 & L3). rewrite R2. cbn [bind]. destruct (eof t p2); [ apply Stop; auto; lia | ].
    destruct (parse_value_safe t p2 L3) as (v & p3 & R3 & L4 & P3 & Fd). rewrite R3. cbn [bind]. destruct v as [ (a, b) | ]; [ | apply Stop; auto; lia ].
    destruct (shunt_value_safe t p2 out a b p3 L3 Fd F) as (ret & out' & R4 & Hr & F' & P4). rewrite R4. cbn [bind].
    destruct (negb (ret =? COND_OK)); [ apply Stop; auto; lia | ].
    destruct (IH p3 par false out' stack L4 ltac:(lia) I P F') as (x1 & x2 & x3 & x4 & x5 & Y & Y1 & Y2 & Y3 & Y4 & Y5). exists x1, x2, x3, x4, x5. split; [ exact Y | ]. split; [ exact Y1 | ]. split; [ exact Y2 | ]. split; [ exact Y3 | ]. split; [ exact Y4 | lia ].
Qed.
Lemma interpret_safe t p : located t p -> exists ret cs p', interpret t p = Ok (ret, cs, p') /\ (ret = 0 \/ ret = 1 \/ ret = 2) /\ located t p' /\ p_pos p <= p_pos p' /\
  (ret <> 0 -> cs = []) /\ Forall carrier_ok cs.
Proof.
  intros L. unfold interpret. pose proof (loc_range _ _ L).
  destruct (loop_safe t (S (List.length (t_data t))) p 0 false [] [] L) as (ret & par & out & stack & p' & R & Hr & I & F & L' & P); [ unfold t_size, zlen in *; lia | split; [ reflexivity | now left ] | lia | constructor | ].
  rewrite R. cbn [bind].
  destruct (Z.eqb_spec ret COND_OK) as [ -> | N ]; cbn [negb]; [ | exists ret, [], p'; split; [ reflexivity | ]; split; [ tauto | ]; auto 10 using Forall_nil ].
  destruct (Z.eqb_spec par 0) as [ -> | N ]; cbn [negb]; [ | exists COND_SOFT, [], p'; split; [ reflexivity | ]; split; [ now right; right | ]; auto 10 using Forall_nil ].
  rewrite (stack_empty stack I). set (o := match out with [] => [CVal (str_bytes "0")] | _ => out end).
  assert (Fo : Forall carrier_ok o). { unfold o. destruct out; [ | exact F ]. constructor; [ | constructor ]. split; [ apply f_dec; [ discriminate | constructor; [ unfold digit; cbn; lia | constructor ] ] | vm_compute; discriminate ]. }
  unfold finalize. destruct o as [ | c o' ] eqn:Eo; [ cbn [bind]; exists COND_OK, [], p'; split; [ reflexivity | auto 10 ] | ].
  destruct (counts_loop (c :: o') 0 0) as (x, y). destruct (negb (y - x =? 1)); cbn [bind].
  - exists 1, [], p'. split; [ reflexivity | ]. split; [ tauto | ]. auto 10 using Forall_nil.
  - exists COND_OK, (c :: o'), p'. split; [ reflexivity | ]. split; [ now left | ]. split; [ exact L' | ]. split; [ exact P | ]. split; [ now intros | exact Fo ].
Qed.
Lemma form_evaluates cb v : literal_form v -> (forall n, v <> 123 :: n ++ [125]) -> exists x s, evaluate_value cb v = EOk (x, s).
Proof.
  intros [ s N F | s N F | x s X N F | s N F ] H.
  - rewrite value_dec by auto. eauto.
  - cbn [evaluate_value]. destruct (dec_number s F) as (_ & _ & ->). eauto.
  - destruct (hex_number s F) as (_ & _ & E). destruct X; subst x; cbn [evaluate_value]; rewrite E; eauto.
  - exfalso. exact (H s eq_refl).
Qed.

(** ** The statements of the properties *)
Lemma exact_right cb env s e t p rest : answers cb env -> condition ToRight s e -> has_operator e -> located t p -> from t (p_pos p) = s ++ rest ->
  exists cs p', interpret t p = Ok (0, cs, p') /\ located t p' /\ p_pos p' = p_pos p + zlen s /\
    evaluate cb cs = match meaning env e with Value x _ => EOk (x mod 2^64) | Failed c => EErr c | Undefined => EUb end.
Proof.
  intros An C H L E. destruct (evaluate_condition cb env s e An C t p rest L E) as (cs & p' & R & L' & P & V). exists cs, p'. split; [ exact R | ]. split; [ exact L' | ]. split; [ exact P | ].
  rewrite V. destruct e; [ easy | reflexivity | reflexivity ].
Qed.
Lemma exact_never cb env s e t p rest : answers cb env -> condition Never s e -> has_operator e -> located t p -> from t (p_pos p) = s ++ rest ->
  condition ToLeft s e /\
  exists cs p', interpret t p = Ok (0, cs, p') /\ located t p' /\ p_pos p' = p_pos p + zlen s /\
    evaluate cb cs = match meaning env e with Value x _ => EOk (x mod 2^64) | Failed c => EErr c | Undefined => EUb end.
Proof. intros An C H L E. split; [ now apply condition_never | ]. apply exact_right with rest; auto. now apply condition_never. Qed.
Lemma single_refuted cb env s v t p rest : answers cb env -> condition Never s (Lit v) -> located t p -> from t (p_pos p) = s ++ rest ->
  exists cs p', interpret t p = Ok (0, cs, p') /\ forall x sg, meaning env (Lit v) = Value x sg -> evaluate cb cs = EOk 0.
Proof.
  intros An C L E. destruct (evaluate_condition cb env s (Lit v) An (condition_never _ _ _ C) t p rest L E) as (cs & p' & R & L' & P & V). exists cs, p'. split; [ exact R | ].
  intros x sg Q. rewrite V, Q. reflexivity.
Qed.
Lemma safe_interpret t p : located t p ->
  exists ret cs p', interpret t p = Ok (ret, cs, p') /\ (ret = 0 \/ ret = 1 \/ ret = 2) /\ located t p' /\ p_pos p <= p_pos p' /\ (ret <> 0 -> cs = []).
Proof. intros L. destruct (interpret_safe t p L) as (ret & cs & p' & R & H1 & H2 & H3 & H4 & _). exists ret, cs, p'. auto 10. Qed.
Lemma literals_kept t p cs p' v : located t p -> interpret t p = Ok (0, cs, p') -> In (CVal v) cs ->
  zlen v + 1 <= 64 /\ forall cb, (exists n, v = 123 :: n ++ [125]) \/ exists x s, evaluate_value cb v = EOk (x, s).
Proof.
  intros L R H. destruct (interpret_safe t p L) as (ret & cs' & p2 & R' & _ & _ & _ & _ & F). rewrite R in R'. injection R' as _ <- _. rewrite Forall_forall in F. destruct (F _ H) as (Lf & Z1). split; [ lia | ].
  intros cb. inversion Lf as [ s N D | s N D | x s X N D | s N D ]; subst.
  - right. apply form_evaluates; [ exact Lf | ]. intros n Q. subst v. apply Forall_cons_iff in D. destruct D as (D & _). unfold digit in D. lia.
  - right. apply form_evaluates; [ exact Lf | ]. discriminate.
  - right. apply form_evaluates; [ exact Lf | ]. discriminate.
  - left. eauto.
Qed.

(** Names: [x] is 5, [y] is -3, others are not known. *)
Definition two_names (n : list Z) : Z * Z * bool := match n with [120] => (0, 5, false) | [121] => (0, 2^64 - 3, true) | _ => (1, 0, false) end.
Definition two_env (n : list Z) : outcome := match n with [120] => Value 5 false | [121] => Value (-3) true | _ => Failed 1 end.
Lemma two_answers_ : answers two_names two_env.
Proof.
  intros n. unfold two_env, two_names. assert (D : n = [120] \/ n = [121] \/ (n <> [120] /\ n <> [121])).
  { destruct (list_eq_dec Z.eq_dec n [120]); [ auto | ]. destruct (list_eq_dec Z.eq_dec n [121]); auto. }
  destruct D as [ -> | [ -> | (A & B) ] ]; [ split; [ cbn; lia | reflexivity ] | split; [ cbn; lia | reflexivity ] | ].
  destruct n as [ | c [ | d n ] ]; [ split; [ discriminate | eauto ] | | ].
  - assert (c <> 120 /\ c <> 121) by (split; congruence). destruct c as [ | c | c ]; try (split; [ discriminate | eauto ]). 
    repeat (destruct c as [ c | c | ]; try (split; [ discriminate | eauto ]); try lia).
  - destruct c as [ | c | c ]; try (split; [ discriminate | eauto ]). repeat (destruct c as [ c | c | ]; try (split; [ discriminate | eauto ])).
Qed.
Ltac blanks_ := repeat (apply Forall_cons; [ tauto | ]); apply Forall_nil.
Ltac side_ := first [ blanks_ | cbn; lia | reflexivity | now right | intros [ Q | Q ]; discriminate Q | intros _; vm_compute; discriminate | discriminate ].
Ltac digits_ := repeat (apply Forall_cons; [ unfold digit, hex_digit_, name_char, digit; lia | ]); apply Forall_nil.
Ltac dec_ x := apply (W_lit _ x); apply (w_dec x); [ discriminate | digits_ | vm_compute; discriminate | reflexivity ].
Ltac name_ x := apply (W_lit _ (123 :: x ++ [125])); apply (w_name x); [ discriminate | digits_ | vm_compute; discriminate ].
Lemma written_example : condition Never (str_bytes "( {x} + 0x0a * -2 < {y} AND ~1 )")
  (Bin BLand (Bin BLt (Bin BAdd (Lit (Name [120])) (Bin BMul (Lit (Number 10 false)) (Lit (Number (-2) true)))) (Lit (Name [121]))) (Not (Lit (Number 1 false)))).
Proof.
  apply (C_cond Never [] [32] 10 (str_bytes "{x} + 0x0a * -2 < {y} AND ~1") [32]); [ blanks_ | blanks_ | | blanks_ ].
  apply (W_bin Never BLand "AND" 5 (str_bytes "{x} + 0x0a * -2 < {y}") _ 1 (str_bytes "~1") _ [32] [32]); try side_.
  2:{ apply (W_not Never 0 [49] _ []); [ dec_ [49] | lia | blanks_ ]. }
  apply (W_bin Never BLt "<" 3 (str_bytes "{x} + 0x0a * -2") _ 0 (str_bytes "{y}") _ [32] [32]); try side_.
  2:{ name_ [121]. }
  apply (W_bin Never BAdd "+" 0 (str_bytes "{x}") _ 2 (str_bytes "0x0a * -2") _ [32] [32]); try side_.
  1:{ name_ [120]. }
  apply (W_bin Never BMul "*" 0 (str_bytes "0x0a") _ 0 (str_bytes "-2") _ [32] [32]); try side_.
  - apply (W_lit _ [48; 120; 48; 97]). apply (w_hex 120 [48; 97]); [ now left | discriminate | digits_ | vm_compute; discriminate | reflexivity ].
  - apply (W_lit _ [45; 50]). apply (w_neg [50]); [ discriminate | digits_ | vm_compute; discriminate | vm_compute; discriminate ].
Qed.
Lemma chain_written : condition ToLeft (str_bytes "(10 - 3 - 2)") (Bin BSub (Bin BSub (Lit (Number 10 false)) (Lit (Number 3 false))) (Lit (Number 2 false))).
Proof.
  apply (C_cond ToLeft [] [] 3 (str_bytes "10 - 3 - 2") []); [ blanks_ | blanks_ | | blanks_ ].
  apply (W_bin ToLeft BSub "-" 3 (str_bytes "10 - 3") _ 0 (str_bytes "2") _ [32] [32]); try side_.
  2:{ dec_ [50]. }
  apply (W_bin ToLeft BSub "-" 0 (str_bytes "10") _ 0 (str_bytes "3") _ [32] [32]); try side_.
  - dec_ [49; 48].
  - dec_ [51].
Qed.

(** A text interpreted and evaluated; [None] if it is refused. *)
Definition run (cb : list Z -> Z * Z * bool) (s : string) : option (eres Z) :=
  match interpret (mk_text (str_bytes s) true) pos_init with Ok (ret, cs, _) => if ret =? 0 then Some (evaluate cb cs) else None | _ => None end.
Lemma chain_refuted :
  ~ (forall cb env s e t p rest, answers cb env -> condition ToLeft s e -> has_operator e -> located t p -> from t (p_pos p) = s ++ rest ->
      exists cs p', interpret t p = Ok (0, cs, p') /\
        evaluate cb cs = match meaning env e with Value x _ => EOk (x mod 2^64) | Failed c => EErr c | Undefined => EUb end) /\
  run two_names "(10 - 3 - 2)" = Some (EOk 9).
Proof.
  split; [ | vm_compute; reflexivity ]. intros H.
  destruct (H two_names two_env _ _ (mk_text (str_bytes "(10 - 3 - 2)") true) pos_init [] two_answers_ chain_written I (located_init _) eq_refl) as (cs & p' & R & V).
  vm_compute in R. injection R as <- _. vm_compute in V. discriminate V.
Qed.
Lemma single_example : condition Never (str_bytes "({x})") (Lit (Name [120])) /\ run two_names "({x})" = Some (EOk 0) /\ run two_names "({x} + 0)" = Some (EOk 5).
Proof.
  split; [ | split; vm_compute; reflexivity ]. apply (C_cond Never [] [] 0 (str_bytes "{x}") []); [ blanks_ | blanks_ | | blanks_ ]. name_ [120].
Qed.
Lemma abort_refuted : run two_names "(~ + 1 2)" = Some EBug /\ run two_names "((~) 1)" = Some EBug /\ run two_names "(1 * + 2 3)" <> None.
Proof. split; [ vm_compute; reflexivity | ]. split; [ vm_compute; reflexivity | vm_compute; discriminate ]. Qed.
