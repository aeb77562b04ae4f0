From Coq Require Import Strings.String.
From Coq Require Import ZArith List Bool Lia.
From Verif Require Import Common MsgModel TopicModel TopicSpec TopicProofs TopicProps Utf8Spec ParseModel ParseSpec ParseProofs ConfigSpec ConfigProofs CondProofs DiscernModel DiscernSpec.
Import ListNotations.
Open Scope Z_scope.

(** ** Lexing, on the text alone *)
Definition after (f : Z -> bool) (l : list Z) : list Z := skipn (List.length (leading f l)) l.
Lemma after_split f l : l = leading f l ++ after f l.
Proof. apply ParseProofs.leading_split. Qed.
Lemma after_head f l : match after f l with [] => True | c :: _ => f c = false end.
Proof.
  unfold after. induction l as [ | c l IH ]; cbn [leading]; [ exact I | ]. destruct (f c) eqn:E; cbn [List.length skipn]; [ exact IH | exact E ].
Qed.
Lemma after_stop f l r : Forall (fun c => f c = true) l -> match r with [] => True | c :: _ => f c = false end -> after f (l ++ r) = r.
Proof. intros F S. unfold after. rewrite leading_stop by auto. rewrite skipn_app, skipn_all, Nat.sub_diag. reflexivity. Qed.
Lemma after_id f r : match r with [] => True | c :: _ => f c = false end -> after f r = r.
Proof. intros S. apply (after_stop f [] r); auto. Qed.
Lemma after_leading f g l : (forall c, f c = true -> g c = true) -> after g (after f l) = after g l.
Proof.
  intros H. unfold after. induction l as [ | c l IH ]; cbn [leading List.length skipn]; [ reflexivity | ].
  destruct (f c) eqn:F.
  - rewrite (H c F). cbn [List.length skipn]. exact IH.
  - cbn [List.length skipn leading]. reflexivity.
Qed.
Lemma after_idem f l : after f (after f l) = after f l.
Proof. now apply after_leading. Qed.

Definition sep (c : Z) : bool := match_char SEPARATORS c.
Definition chars (e : etype) (c : Z) : bool :=
  match e with ETopic => negb (is_control (signed c)) | ETag => match_char MATCH_TAG c | EDest => match_char MATCH_NAME c | _ => false end.
Definition no_newline_char (c : Z) : bool := negb (is_newline c).
Definition op_of (i : instr) : option eop :=
  match i with And => Some OAnd | Or => Some OOr | Not => Some ONot | Apply => Some OApply | Pop => Some OPop | Bail => Some OBail | _ => None end.
Definition keyword_instr (k : keyword) : option instr :=
  match k with KAnd => Some And | KOr => Some Or | KNot => Some Not | KApply => Some Apply | KPop => Some Pop | KBail => Some Bail
  | KTrue => Some (Const true) | KFalse => Some (Const false) | _ => None end.
Definition value_instr (e : etype) (v : list Z) : instr := match e with ETopic => Topic v | ETag => Has v | _ => Dest v end.
Definition first_keyword (l : list Z) : option keyword := find (fun k => starts (word k) l) keywords.

Inductive lexed : Type := LEnd | LError | LSkip (rest : list Z) | LInstr (i : instr) (rest : list Z).
Definition starts_with (f : Z -> bool) (l : list Z) : bool := match l with c :: _ => f c | [] => false end.
Definition valid (e : etype) (v : list Z) : bool :=
  match e with ETopic => match filter_validate v with Some 0 => true | _ => false end | _ => true end.
Definition lex_value (e : etype) (l : list Z) : lexed :=
  let l := after is_spaces l in
  let v := leading (chars e) l in let r := after (chars e) l in
  match v, r with
  | [], _ | _, [] => LError
  | _, _ =>
      if match e with ETopic => true | _ => starts_with sep r end
      then if valid e v then LInstr (value_instr e v) r else LError
      else LError
  end.
Definition lexeme (l : list Z) : lexed :=
  match after is_spaces l with
  | [] => LEnd
  | l =>
      match first_keyword l with
      | None => LError
      | Some k =>
          let r := skipn (List.length (word k)) l in
          match keyword_meaning k with
          | MSkip => LSkip (after is_spaces (after no_newline_char r))
          | MOp o => match keyword_instr k with Some i => LInstr i r | None => LError end
          | MBool x => if starts_with sep r then match keyword_instr k with Some i => LInstr i r | None => LError end else LError
          | MValue e => if starts_with sep r then lex_value e r else LError
          end
      end
  end.

(** ** The parser follows it *)
Definition push_instr (s : pstate) (i : instr) : res next :=
  match i with
  | Topic f => push s ETopic OPush (PData (f ++ [0]))
  | Has t => push s ETag OPush (PData (t ++ [0]))
  | Dest d => push s EDest OPush (PData (d ++ [0]))
  | Const b => push s EBool OPush (PNumber (b2z b))
  | And => push s ENone OAnd (PNumber 0) | Or => push s ENone OOr (PNumber 0) | Not => push s ENone ONot (PNumber 0)
  | Apply => push s ENone OApply (PNumber 0) | Pop => push s ENone OPop (PNumber 0) | Bail => push s ENone OBail (PNumber 0)
  end.
Definition go (f : nat) (t : text) (s : pstate) (r : res next) (p : pos) : res (Z * fault * pstate * pos) :=
  bind r (fun n => match n with
                   | Again s => parse_loop f t p s
                   | Done s => Ok (0, FOk, s, p)
                   | Failed ret x => Ok (ret, x, s, p)
                   end).

Lemma at_after t p f : located t p -> from t (p_pos p + zlen (leading f (at_ t p))) = after f (at_ t p).
Proof. intros L. eapply from_app; [ apply loc_range in L; lia | apply after_split ]. Qed.
Lemma spaces_after t p : located t p -> exists p', ignore_spaces t p = Ok p' /\ located t p' /\ at_ t p' = after is_spaces (at_ t p) /\ p_pos p <= p_pos p'.
Proof.
  intros L. destruct (ignore_ok t is_spaces p eq_refl (loc_range _ _ L)) as (p' & R & P & L'). exists p'. split; [ exact R | ]. split; [ auto | ]. split; [ rewrite P; now apply at_after | ].
  pose proof (leading_len is_spaces (at_ t p)). lia.
Qed.
Lemma keyword_first t p : located t p -> forall ks,
  parse_keyword ks t p = Ok (match find (fun k => starts (word k) (at_ t p)) ks with Some k => (Some k, set_pos p (p_pos p + zlen (word k))) | None => (None, p) end).
Proof.
  intros L. induction ks as [ | k ks IH ]; cbn [parse_keyword find]; [ reflexivity | ].
  rewrite word_starts by auto. cbn [bind]. destruct (starts (word k) (at_ t p)); [ reflexivity | exact IH ].
Qed.
Lemma word_plain k : no_newline (word k) /\ word k <> [].
Proof. destruct k; (split; [ | discriminate ]); repeat (apply Forall_cons; [ reflexivity | ]); apply Forall_nil. Qed.
Lemma first_keyword_starts l k : first_keyword l = Some k -> l = word k ++ skipn (List.length (word k)) l.
Proof.
  intros H. apply find_some in H. destruct H as (_ & H). apply starts_iff in H. destruct H as (r & ->).
  rewrite skipn_app, skipn_all, Nat.sub_diag. reflexivity.
Qed.
Lemma peek_sep t p : located t p -> match_letters_peek t p SEPARATORS = Ok (zlen (leading sep (at_ t p))).
Proof.
  intros L. pose proof (loc_range _ _ L). unfold match_letters_peek. rewrite while_loop_ok by (auto; apply full_fuel; lia). cbn [bind].
  unfold set_pos. cbn [p_pos]. f_equal. exact (Z.add_simpl_l _ _).
Qed.
Lemma peek_zero l : (zlen (leading sep l) =? 0) = negb (starts_with sep l).
Proof.
  destruct l as [ | c l ]; cbn [leading starts_with]; [ reflexivity | ]. destruct (sep c); [ | reflexivity ].
  cbn [negb]. rewrite zlen_cons. pose proof (zlen_nonneg _ (leading sep l)). lia.
Qed.

Lemma chars_plain e c : chars e c = true -> is_newline c = false /\ (c <> 0).
Proof.
  destruct e; cbn [chars]; try discriminate; unfold match_char, MATCH_TAG, MATCH_NAME;
    repeat match goal with |- context [Z.testbit ?a ?b] => let r := eval vm_compute in (Z.testbit a b) in change (Z.testbit a b) with r end; cbn [andb orb];
    unfold is_newline, is_control, signed, is_letter, is_number, is_dash; [ destruct (c <? 128) eqn:Q; lia | lia | lia ].
Qed.
Lemma c_string_id l : ~ In 0 l -> c_string l = l.
Proof. induction l as [ | c l IH ]; cbn [c_string In]; intros H; [ reflexivity | ]. destruct (Z.eqb_spec c 0); [ tauto | ]. rewrite IH by tauto. reflexivity. Qed.

Lemma value_follows t p e : t_nul t = true -> located t p -> starts_with sep (at_ t p) = true -> e = ETopic \/ e = ETag \/ e = EDest ->
  match lex_value e (at_ t p) with
  | LInstr i r => exists v p', parse_value t p e = Ok (inr (v ++ [0]), p') /\ located t p' /\ at_ t p' = r /\ i = value_instr e v
  | LError => exists x p', parse_value t p e = Ok (inl x, p') /\ located t p'
  | _ => False
  end.
Proof.
  intros T L Sp He. unfold parse_value, lex_value. destruct (spaces_after t p L) as (p1 & R1 & L1 & A1 & P1). rewrite R1. cbn [bind]. rewrite <- A1. clear A1 R1.
  pose proof (loc_range _ _ L1) as B1. set (v := leading (chars e) (at_ t p1)). set (r := after (chars e) (at_ t p1)).
  assert (E : match e with ETopic => non_control t p1 | ETag => match_letters t p1 MATCH_TAG | EDest => match_letters t p1 MATCH_NAME | _ => Bug end
              = Ok (p_pos p1, p_pos p1 + zlen v - 1, set_pos p1 (p_pos p1 + zlen v))).
  { destruct He as [ -> | [ -> | -> ] ]; [ rewrite non_control_ok by auto; reflexivity | rewrite match_letters_ok by auto; reflexivity | rewrite match_letters_ok by auto; reflexivity ]. }
  rewrite E. cbn [bind]. clear E.
  assert (S : at_ t p1 = v ++ r) by apply after_split.
  assert (V : Forall (fun c => chars e c = true) v) by apply ParseProofs.leading_all.
  assert (N : no_newline v) by (eapply Forall_impl; [ | exact V ]; intros c Hc; now apply chars_plain in Hc).
  assert (Z0 : ~ In 0 v).
  { intros H. rewrite Forall_forall in V. apply V, chars_plain in H. tauto. }
  destruct (located_word t p1 v r L1 S N) as (L2 & A2). set (p2 := set_pos p1 (p_pos p1 + zlen v)) in *.
  assert (A3 : at_ t p2 = r) by exact A2. pose proof (zlen_nonneg _ v) as Nv.
  destruct v as [ | c0 v0 ] eqn:Ev.
  { rewrite zlen_nil. replace (p_pos p1 + 0 - 1 <? p_pos p1) with true by lia. eauto. }
  rewrite <- Ev in *. assert (Zv : 0 < zlen v) by (rewrite Ev, zlen_cons; pose proof (zlen_nonneg _ v0); lia).
  replace (p_pos p1 + zlen v - 1 <? p_pos p1) with false by lia.
  rewrite (eof_at _ _ L2), A3. destruct r as [ | c1 r0 ] eqn:Er; [ eauto | ]. rewrite <- Er in *.
  replace (p_pos p1 + zlen v - 1 - p_pos p1 + 1) with (zlen v) by lia.
  assert (X : str_extract t (p_pos p1) (zlen v) = Ok v).
  { unfold str_extract. replace (zlen v =? 0) with false by lia. eapply copy_from; [ lia | exact S ]. }
  destruct He as [ -> | [ -> | -> ] ]; cbn [bind].
  - rewrite X. change (1 =? 0) with false. cbv iota. cbn [bind]. rewrite c_string_id by auto. cbn [valid]. destruct (filter_validate v) as [ [ | | ] | ]; eauto 10.
  - rewrite peek_sep by auto. cbn [bind]. rewrite peek_zero, A3. destruct (starts_with sep r); cbn [negb]; [ | eauto ]. rewrite X. cbn [bind valid]. rewrite c_string_id by auto. eauto 10.
  - rewrite peek_sep by auto. cbn [bind]. rewrite peek_zero, A3. destruct (starts_with sep r); cbn [negb]; [ | eauto ]. rewrite X. cbn [bind valid]. rewrite c_string_id by auto. eauto 10.
Qed.

Lemma round t p s f : t_nul t = true -> located t p ->
  match lexeme (at_ t p) with
  | LEnd => exists p', parse_loop (S f) t p s = Ok (0, FOk, s, p') /\ located t p' /\ at_ t p' = []
  | LError => exists x p', parse_loop (S f) t p s = Ok (1, x, s, p') /\ located t p'
  | LSkip r => exists p', parse_loop (S f) t p s = parse_loop f t p' s /\ located t p' /\ at_ t p' = r
  | LInstr i r => exists p', parse_loop (S f) t p s = go f t s (push_instr s i) p' /\ located t p' /\ at_ t p' = r
  end.
Proof.
  intros T L. cbn [parse_loop]. rewrite (eof_at _ _ L). destruct (spaces_after t p L) as (p1 & R1 & L1 & A1 & _). unfold lexeme. rewrite <- A1.
  destruct (at_ t p) as [ | c0 l0 ] eqn:E0.
  { change (after is_spaces []) with (@nil Z) in A1. rewrite A1. exists p. now rewrite E0. }
  rewrite R1. cbn [bind]. rewrite (eof_at _ _ L1). destruct (at_ t p1) as [ | c1 l1 ] eqn:E1; [ eauto | ]. rewrite <- E1 in *. clear c1 l1 E1.
  rewrite keyword_first by auto. fold (first_keyword (at_ t p1)). destruct (first_keyword (at_ t p1)) as [ k | ] eqn:K; cbn [bind option_map]; [ | eauto ].
  pose proof (first_keyword_starts _ _ K) as S1. destruct (located_word t p1 (word k) _ L1 S1 (proj1 (word_plain k))) as (L2 & A2).
  set (p2 := set_pos p1 (p_pos p1 + zlen (word k))) in *. set (r := skipn (List.length (word k)) (at_ t p1)) in *. assert (A3 : at_ t p2 = r) by exact A2. clear A2.
  assert (O : forall o i, keyword_meaning k = MOp o -> keyword_instr k = Some i -> push s ENone o (PNumber 0) = push_instr s i).
  { intros o i. destruct k; cbn; intros H1 H2; try discriminate; injection H1 as <-; injection H2 as <-; reflexivity. }
  assert (B : forall x i, keyword_meaning k = MBool x -> keyword_instr k = Some i -> push s EBool OPush (PNumber x) = push_instr s i).
  { intros x i. destruct k; cbn; intros H1 H2; try discriminate; injection H1 as <-; injection H2 as <-; reflexivity. }
  assert (V : forall e, keyword_meaning k = MValue e -> e = ETopic \/ e = ETag \/ e = EDest).
  { intros e. destruct k; cbn; intros H1; try discriminate; injection H1 as <-; auto. }
  assert (Ki : match keyword_meaning k with MOp _ | MBool _ => keyword_instr k <> None | _ => True end) by (destruct k; cbn; try exact I; discriminate).
  destruct (keyword_meaning k) as [ | x | e | o ] eqn:M.
  - destruct (comment_ok t p2 (loc_range _ _ L2) T) as (p3 & R3 & P3 & L3). cbv zeta in P3. rewrite R3. cbn [bind]. exists p3. split; [ reflexivity | ]. split; [ auto | ].
    assert (Q : located t (set_pos p2 (p_pos p2 + zlen (leading no_newline_char (at_ t p2))))).
    { apply leading_plain; [ auto | ]. intros c Hc. unfold no_newline_char. now rewrite Hc. }
    rewrite P3. change (fun c => negb (is_newline c)) with no_newline_char. set (p4 := set_pos p2 (p_pos p2 + zlen (leading no_newline_char (at_ t p2)))) in *.
    change (p_pos p2 + zlen (leading no_newline_char (at_ t p2))) with (p_pos p4). rewrite at_after by auto.
    change (at_ t p4) with (from t (p_pos p2 + zlen (leading no_newline_char (at_ t p2)))). rewrite at_after by auto. now rewrite A3.
  - rewrite peek_sep by auto. cbn [bind]. rewrite peek_zero, A3. destruct (starts_with sep r); cbn [negb]; [ | eauto ].
    destruct (keyword_instr k) as [ i | ]; [ | congruence ]. rewrite (B x i) by auto. exists p2. split; [ reflexivity | auto ].
  - rewrite peek_sep by auto. cbn [bind]. rewrite peek_zero, A3. destruct (starts_with sep r) eqn:Sp; cbn [negb]; [ | eauto ].
    pose proof (value_follows t p2 e T L2 ltac:(rewrite A3; exact Sp) (V e eq_refl)) as F. rewrite A3 in F. destruct (lex_value e r) as [ | | r' | i r' ]; try contradiction.
    + destruct F as (x & p3 & F & L3). rewrite F. cbn [bind]. eauto.
    + destruct F as (v & p3 & F & L3 & A4 & ->). rewrite F. cbn [bind]. exists p3. split; [ | auto ].
      destruct (V e eq_refl) as [ -> | [ -> | -> ] ]; reflexivity.
  - destruct (keyword_instr k) as [ i | ]; [ | congruence ]. rewrite (O o i) by auto. exists p2. split; [ reflexivity | auto ].
Qed.

(** ** The lexer and the way instructions are written *)
Lemma spaces_blank c : is_spaces c = true <-> blank_char c.
Proof. unfold is_spaces, is_space_tab, is_newline, blank_char. lia. Qed.
Lemma newline_iff c : is_newline c = true <-> newline c.
Proof. unfold is_newline, newline. lia. Qed.
Ltac flags := repeat match goal with |- context [Z.testbit ?a ?b] => let r := eval vm_compute in (Z.testbit a b) in change (Z.testbit a b) with r end; cbn [andb orb].
Lemma tag_chars c : chars ETag c = true <-> tag_char c.
Proof. unfold chars, match_char, MATCH_TAG. flags. unfold is_letter, is_number, tag_char. lia. Qed.
Lemma name_chars c : chars EDest c = true <-> name_char c.
Proof. unfold chars, match_char, MATCH_NAME. flags. unfold is_letter, is_number, is_dash, name_char, tag_char. lia. Qed.
Lemma topic_chars c : 0 <= c < 256 -> (chars ETopic c = true <-> 32 <= c <= 127).
Proof. unfold chars, is_control, signed. destruct (c <? 128) eqn:Q; lia. Qed.
Lemma sep_iff c : 0 <= c < 256 -> (sep c = true <-> c <= 32 \/ 128 <= c).
Proof. unfold sep, match_char, SEPARATORS. flags. unfold is_space_tab, is_control, signed. destruct (c <? 128) eqn:Q; lia. Qed.

Lemma utf8_ascii f : Forall (fun c => 32 <= c <= 127) f -> utf8_well_formed f.
Proof.
  intros F. exists f. split.
  - eapply Forall_impl; [ | exact F ]. intros c Hc. cbn beta in Hc. unfold scalar. lia.
  - induction F as [ | c f Hc F IH ]; [ reflexivity | ]. unfold utf8_encode_all. cbn [flat_map]. fold (utf8_encode_all f). rewrite <- IH.
    unfold utf8_encode. cbn beta in Hc. replace (c <? 128) with true by lia. reflexivity.
Qed.
Lemma filter_valid f : f <> [] -> Forall (fun c => 32 <= c <= 127) f -> hd 32 f <> 32 -> (valid ETopic f = true <-> filter_text f).
Proof.
  intros N F H. cbn [valid]. destruct (filter_validate_exact f) as (E & O).
  { eapply Forall_impl; [ | exact F ]. intros c Hc. cbn beta in Hc. unfold byte. lia. }
  { intros X. rewrite Forall_forall in F. apply F in X. lia. }
  split.
  - intros V. split; [ exact F | ]. split; [ exact H | ].
    assert (V0 : filter_validate f = Some 0) by (destruct (filter_validate f) as [ [ | | ] | ]; (reflexivity || discriminate)). apply E in V0. tauto.
  - intros (_ & _ & Z1 & X). rewrite (proj2 E); [ reflexivity | ]. split; [ now apply utf8_ascii | auto ].
Qed.

Lemma after_blanks b r : blanks b -> stops r -> after is_spaces (b ++ r) = r.
Proof. intros B S. apply after_stop; [ | exact S ]. eapply Forall_impl; [ | exact B ]. intros c Hc. now apply spaces_blank. Qed.
Lemma blanks_sep b r : blanks b -> b <> [] -> starts_with sep (b ++ r) = true.
Proof.
  intros B N. destruct b as [ | c b ]; [ congruence | ]. inversion B; subst. cbn [app starts_with]. apply sep_iff; unfold blank_char in *; lia.
Qed.
Lemma value_lex e b v r : blanks b -> v <> [] -> Forall (fun c => chars e c = true) v -> is_spaces (hd 0 v) = false -> r <> [] ->
  chars e (hd 0 r) = false -> (e = ETopic \/ starts_with sep r = true) -> valid e v = true -> lex_value e (b ++ v ++ r) = LInstr (value_instr e v) r.
Proof.
  intros B N V H R C S O. unfold lex_value. destruct v as [ | c0 v ]; [ congruence | ]. destruct r as [ | c1 r ]; [ congruence | ]. cbn [hd] in *.
  rewrite after_blanks by (auto; exact H).
  rewrite leading_stop by auto. rewrite (after_stop (chars e)) by auto.
  destruct S as [ -> | S ]; [ now rewrite O | ]. rewrite O, S. now destruct e.
Qed.
Lemma tag_space c : tag_char c -> is_spaces c = false.
Proof. unfold tag_char, is_spaces, is_space_tab, is_newline. lia. Qed.
Lemma name_space c : name_char c -> is_spaces c = false.
Proof. unfold name_char, tag_char, is_spaces, is_space_tab, is_newline. lia. Qed.

Definition lex_keyword (k : keyword) (r : list Z) : lexed :=
  match keyword_meaning k with
  | MSkip => LSkip (after is_spaces (after no_newline_char r))
  | MOp o => match keyword_instr k with Some i => LInstr i r | None => LError end
  | MBool x => if starts_with sep r then match keyword_instr k with Some i => LInstr i r | None => LError end else LError
  | MValue e => if starts_with sep r then lex_value e r else LError
  end.
Lemma lexeme_keyword l l1 k : after is_spaces l = l1 -> first_keyword l1 = Some k -> lexeme l = lex_keyword k (skipn (List.length (word k)) l1).
Proof. intros <- K. unfold lexeme. destruct (after is_spaces l) as [ | c r ]; [ discriminate K | ]. now rewrite K. Qed.

Lemma lex_token b s i rest : blanks b -> token s i -> ended i rest -> lexeme (b ++ s ++ rest) = LInstr i rest.
Proof.
  intros B T En. unfold lexeme. destruct T as [ i w H | b1 f B1 N1 F | b1 v B1 N1 Nv F | k b1 v K B1 N1 Nv F ].
  - assert (W : after is_spaces (b ++ str_bytes w ++ rest) = str_bytes w ++ rest).
    { apply after_blanks; [ auto | ]. destruct i as [ | | [ | ] | | | | | | | ]; try discriminate H; injection H as <-; reflexivity. }
    rewrite W.
    destruct i as [ | | [ | ] | | | | | | | ]; try discriminate H; injection H as <-; try reflexivity;
      destruct En as (c & r & -> & Hc); (assert (X : starts_with sep (c :: r) = true) by (apply sep_iff; unfold blank_char in Hc; lia)).
    + transitivity (if starts_with sep (c :: r) then LInstr (Const true) (c :: r) else LError); [ reflexivity | now rewrite X ].
    + transitivity (if starts_with sep (c :: r) then LInstr (Const false) (c :: r) else LError); [ reflexivity | now rewrite X ].
  - destruct b1 as [ | c1 b1 ]; [ congruence | ].
    pose proof F as (F1 & F2 & F3 & F4). destruct f as [ | c0 f ]; [ now destruct F2 | ]. cbn [hd] in F2.
    assert (F0 : 32 <= c0 <= 127) by now inversion F1. destruct En as (c & r & -> & Hc). rewrite <- !app_assoc. fold (lexeme (b ++ str_bytes "T" ++ (c1 :: b1) ++ (c0 :: f) ++ c :: r)).
    rewrite (lexeme_keyword _ (str_bytes "T" ++ (c1 :: b1) ++ (c0 :: f) ++ c :: r) KT); [ | now apply after_blanks | ].
    2: { inversion B1; subst. match goal with H : blank_char c1 |- _ => destruct H as [ -> | [ -> | [ -> | -> ] ] ] end; reflexivity. }
    change (skipn (List.length (word KT)) (str_bytes "T" ++ (c1 :: b1) ++ (c0 :: f) ++ c :: r)) with ((c1 :: b1) ++ (c0 :: f) ++ c :: r).
    unfold lex_keyword. cbn [keyword_meaning]. rewrite blanks_sep by (auto; discriminate).
    rewrite value_lex; try reflexivity; auto; try discriminate.
    + eapply Forall_impl; [ | exact F1 ]. intros a Ha. cbn beta in Ha. apply topic_chars; lia.
    + cbn [hd]. unfold is_spaces, is_space_tab, is_newline. lia.
    + cbn [hd]. destruct (chars ETopic c) eqn:X; [ | reflexivity ]. apply topic_chars in X; unfold newline in Hc; lia.
    + apply filter_valid; auto; discriminate.
  - rewrite after_blanks by (auto; reflexivity). destruct b1 as [ | c1 b1 ]; [ congruence | ]. destruct v as [ | c0 v ]; [ congruence | ]. destruct En as (c & r & -> & Hc).
    rewrite <- !app_assoc.
    transitivity (if starts_with sep ((c1 :: b1) ++ (c0 :: v) ++ c :: r) then lex_value ETag ((c1 :: b1) ++ (c0 :: v) ++ c :: r) else LError); [ reflexivity | ].
    rewrite blanks_sep by (auto; discriminate). rewrite value_lex; try reflexivity; auto; try discriminate.
    + eapply Forall_impl; [ | exact F ]. intros a Ha. now apply tag_chars.
    + cbn [hd]. apply tag_space. now inversion F.
    + cbn [hd]. destruct (chars ETag c) eqn:X; [ | reflexivity ]. apply tag_chars in X. unfold tag_char, blank_char in *. lia.
    + right. apply sep_iff; unfold blank_char in Hc; lia.
  - assert (W : after is_spaces (b ++ (str_bytes k ++ b1 ++ v) ++ rest) = str_bytes k ++ b1 ++ v ++ rest).
    { rewrite <- !app_assoc. apply after_blanks; [ auto | ]. destruct K as [ -> | -> ]; reflexivity. }
    rewrite W. destruct b1 as [ | c1 b1 ]; [ congruence | ]. destruct v as [ | c0 v ]; [ congruence | ]. destruct En as (c & r & -> & Hc).
    assert (Q : (if starts_with sep ((c1 :: b1) ++ (c0 :: v) ++ c :: r) then lex_value EDest ((c1 :: b1) ++ (c0 :: v) ++ c :: r) else LError) = LInstr (Dest (c0 :: v)) (c :: r)).
    { rewrite blanks_sep by (auto; discriminate). rewrite value_lex; try reflexivity; auto; try discriminate.
      + eapply Forall_impl; [ | exact F ]. intros a Ha. now apply name_chars.
      + cbn [hd]. apply name_space. now inversion F.
      + cbn [hd]. destruct (chars EDest c) eqn:X; [ | reflexivity ]. apply name_chars in X. unfold name_char, tag_char, blank_char in *. lia.
      + right. apply sep_iff; unfold blank_char in Hc; lia. }
    destruct K as [ -> | -> ]; exact Q.
Qed.

(** What the lexer saw was written. *)
Definition nearly_ended (i : instr) (rest : list Z) : Prop :=
  match i with
  | Topic _ => exists c r, rest = c :: r /\ chars ETopic c = false
  | Has _ | Dest _ | Const _ => starts_with sep rest = true
  | _ => True
  end.
Lemma bytes_after f l : bytes l -> bytes (after f l).
Proof. intros B. rewrite (after_split f l) in B. apply bytes_app in B. tauto. Qed.
Lemma leading_blanks l : blanks (leading is_spaces l).
Proof. eapply Forall_impl; [ | apply ParseProofs.leading_all ]. intros c Hc. now apply spaces_blank. Qed.
Lemma sep_blanks l : starts_with sep l = true -> leading is_spaces l <> [] \/ (exists c r, l = c :: r /\ is_spaces c = false /\ sep c = true).
Proof.
  destruct l as [ | c r ]; cbn [starts_with leading]; [ discriminate | ]. intros H. destruct (is_spaces c) eqn:E; [ left; discriminate | right; eauto ].
Qed.
Lemma sep_chars e c : 0 <= c < 256 -> e = ETopic \/ e = ETag \/ e = EDest -> sep c = true -> is_spaces c = false -> chars e c = false.
Proof.
  intros B He S N. apply sep_iff in S; [ | auto ]. destruct (chars e c) eqn:X; [ | reflexivity ]. unfold is_spaces, is_space_tab, is_newline in N.
  destruct He as [ -> | [ -> | -> ] ]; [ apply topic_chars in X; lia | apply tag_chars in X; unfold tag_char in X; lia | apply name_chars in X; unfold name_char, tag_char in X; lia ].
Qed.
Lemma lex_value_blanks e l i r : bytes l -> e = ETopic \/ e = ETag \/ e = EDest -> starts_with sep l = true -> lex_value e l = LInstr i r -> leading is_spaces l <> [].
Proof.
  intros By He Sp H. destruct (sep_blanks l Sp) as [ X | (c & r0 & -> & X1 & X2) ]; [ exact X | ]. exfalso. unfold lex_value in H. rewrite after_id in H by exact X1.
  inversion By; subst. cbn [leading] in H. rewrite sep_chars in H by auto. discriminate H.
Qed.
Lemma lex_value_sound e l i r : bytes l -> e = ETopic \/ e = ETag \/ e = EDest -> starts_with sep l = true -> lex_value e l = LInstr i r ->
  exists b v, l = b ++ v ++ r /\ blanks b /\ b <> [] /\ v <> [] /\ Forall (fun c => chars e c = true) v /\ is_spaces (hd 0 v) = false /\ valid e v = true /\
    i = value_instr e v /\ nearly_ended i r.
Proof.
  intros By He Sp H. pose proof (lex_value_blanks e l i r By He Sp H) as Nb0. unfold lex_value in H.
  pose proof (after_split is_spaces l) as S1. set (b := leading is_spaces l) in *. set (l1 := after is_spaces l) in *.
  pose proof (after_split (chars e) l1) as S2. pose proof (ParseProofs.leading_all (chars e) l1) as V. pose proof (after_head (chars e) l1) as Hd. pose proof (after_head is_spaces l) as Hs. fold l1 in Hs.
  set (v := leading (chars e) l1) in *. set (r1 := after (chars e) l1) in *.
  assert (Nb : b <> []) by exact Nb0.
  destruct v as [ | c0 v0 ] eqn:Ev; [ discriminate H | ]. destruct r1 as [ | c1 r0 ] eqn:Er; [ discriminate H | ]. rewrite <- Ev, <- Er in *.
  exists b, v.
  destruct (match e with ETopic => true | _ => starts_with sep r1 end) eqn:Q; [ | discriminate H ]. destruct (valid e v) eqn:O; [ | discriminate H ].
  injection H as <- <-. split; [ now rewrite S1, S2 at 1 | ]. split; [ apply leading_blanks | ]. split; [ exact Nb | ]. split; [ congruence | ]. split; [ exact V | ].
  split; [ | split; [ reflexivity | split; [ reflexivity | ] ] ].
  - rewrite S2, Ev in Hs. rewrite Ev. exact Hs.
  - destruct He as [ -> | [ -> | -> ] ]; cbn [value_instr nearly_ended]; [ rewrite Er in *; eauto | exact Q | exact Q ].
Qed.
Lemma bytes_skipn n l : bytes l -> bytes (skipn n l).
Proof. intros B. rewrite <- (firstn_skipn n l) in B. apply bytes_app in B. tauto. Qed.
Lemma lex_sound l i r : bytes l -> lexeme l = LInstr i r -> exists b s, l = b ++ s ++ r /\ blanks b /\ token s i /\ nearly_ended i r.
Proof.
  intros By H. unfold lexeme in H. pose proof (after_split is_spaces l) as S. pose proof (bytes_after is_spaces l By) as By1. pose proof (leading_blanks l) as B. set (b := leading is_spaces l) in *. set (l1 := after is_spaces l) in *.
  destruct l1 as [ | c1 l2 ] eqn:E1; [ discriminate H | ]. rewrite <- E1 in *. destruct (first_keyword l1) as [ k | ] eqn:K; [ | discriminate H ].
  pose proof (first_keyword_starts _ _ K) as S2. pose proof (bytes_skipn (List.length (word k)) l1 By1) as By2. set (r1 := skipn (List.length (word k)) l1) in *. cbv zeta in H.
  assert (G : forall e, starts_with sep r1 = true -> lex_value e r1 = LInstr i r -> e = ETopic \/ e = ETag \/ e = EDest ->
    exists b1 v, r1 = b1 ++ v ++ r /\ blanks b1 /\ b1 <> [] /\ v <> [] /\ Forall (fun c => chars e c = true) v /\ is_spaces (hd 0 v) = false /\ valid e v = true /\ i = value_instr e v /\ nearly_ended i r).
  { intros e X1 X2 X3. now apply lex_value_sound. }
  assert (D : forall k', (k' = "D" \/ k' = "I")%string -> word k = str_bytes k' -> starts_with sep r1 = true -> lex_value EDest r1 = LInstr i r ->
     exists b0 s, l = b0 ++ s ++ r /\ blanks b0 /\ token s i /\ nearly_ended i r).
  { intros k' K' W X1 X2. destruct (G EDest X1 X2 ltac:(auto)) as (b1 & v & S3 & Bb & Nb & Nv & V & Hs & O & -> & En).
    exists b, (str_bytes k' ++ b1 ++ v). split; [ rewrite S, S2, S3, W; now rewrite <- !app_assoc | ]. split; [ exact B | ]. split; [ | exact En ].
    apply T_dest; auto. eapply Forall_impl; [ | exact V ]. intros c Hc. now apply name_chars. }
  destruct k; cbn [keyword_meaning keyword_instr] in H; try discriminate H;
    try (injection H as <- <-; match goal with K : first_keyword _ = Some ?k |- _ => exists b, (word k) end; split; [ rewrite S; f_equal; exact S2 | split; [ exact B | split; [ now apply T_word | exact I ] ] ]);
    destruct (starts_with sep r1) eqn:Sp; try discriminate H.
  - injection H as <- <-. exists b, (word KTrue). split; [ rewrite S; f_equal; exact S2 | ]. split; [ exact B | ]. split; [ now apply T_word | exact Sp ].
  - injection H as <- <-. exists b, (word KFalse). split; [ rewrite S; f_equal; exact S2 | ]. split; [ exact B | ]. split; [ now apply T_word | exact Sp ].
  - destruct (G ETopic eq_refl H ltac:(auto)) as (b1 & v & S3 & Bb & Nb & Nv & V & Hs & O & -> & En).
    exists b, (str_bytes "T" ++ b1 ++ v). split; [ rewrite S, S2, S3; now rewrite <- !app_assoc | ]. split; [ exact B | ]. split; [ | exact En ].
    apply T_topic; auto. assert (Bv : bytes v) by (rewrite S3 in By2; apply bytes_app in By2 as (_ & By2); apply bytes_app in By2; tauto).
    assert (V' : Forall (fun c => 32 <= c <= 127) v).
    { clear - V Bv. induction v as [ | c v IH ]; [ apply Forall_nil | ]. inversion V; subst. inversion Bv; subst. apply Forall_cons; [ now apply topic_chars | auto ]. }
    apply filter_valid; auto. destruct v as [ | c v ]; [ congruence | ]. cbn [hd] in *. intros ->. discriminate Hs.
  - destruct (G ETag eq_refl H ltac:(auto)) as (b1 & v & S3 & Bb & Nb & Nv & V & Hs & O & -> & En).
    exists b, (str_bytes "H" ++ b1 ++ v). split; [ rewrite S, S2, S3; now rewrite <- !app_assoc | ]. split; [ exact B | ]. split; [ | exact En ].
    apply T_has; auto. eapply Forall_impl; [ | exact V ]. intros c Hc. now apply tag_chars.
  - apply (D "D"%string); auto.
  - apply (D "I"%string); auto.
Qed.
Lemma keyword_head l k : first_keyword l = Some k -> exists c r, l = c :: r /\ 32 < c < 128.
Proof.
  intros K. rewrite (first_keyword_starts _ _ K). destruct k; do 2 eexists; (split; [ reflexivity | vm_compute; split; reflexivity ]).
Qed.
(** Something can follow only after a blank. *)
Lemma upgrade i r : bytes r -> nearly_ended i r -> lexeme r <> LError -> ended i r.
Proof.
  intros By En Ok. assert (X : forall c r0, r = c :: r0 -> c <= 32 \/ 128 <= c -> blank_char c).
  { intros c r0 -> Hc. apply spaces_blank. destruct (is_spaces c) eqn:Sp; [ reflexivity | ]. exfalso. apply Ok. unfold lexeme. rewrite after_id by exact Sp.
    destruct (first_keyword (c :: r0)) as [ k | ] eqn:K; [ | reflexivity ]. apply keyword_head in K as (c' & r' & E & Hk). injection E as -> ->. lia. }
  destruct i; cbn [nearly_ended ended] in *; try exact I.
  - destruct En as (c & r0 & -> & Hc). exists c, r0. split; [ reflexivity | ]. inversion By; subst. assert (Hn : ~ 32 <= c <= 127) by (rewrite <- topic_chars by auto; congruence). unfold byte in *.
    specialize (X c r0 eq_refl ltac:(lia)). unfold blank_char, newline in *. lia.
  - destruct r as [ | c r ]; [ discriminate | ]. inversion By; subst. exists c, r. split; [ reflexivity | ]. apply (X c r eq_refl). now apply sep_iff.
  - destruct r as [ | c r ]; [ discriminate | ]. inversion By; subst. exists c, r. split; [ reflexivity | ]. apply (X c r eq_refl). now apply sep_iff.
  - destruct r as [ | c r ]; [ discriminate | ]. inversion By; subst. exists c, r. split; [ reflexivity | ]. apply (X c r eq_refl). now apply sep_iff.
Qed.
Lemma nearly_nil i : nearly_ended i [] -> ended i [].
Proof. destruct i; cbn [nearly_ended ended starts_with]; try (intros; exact I); intros H; try discriminate. now destruct H as (c & r & E & _). Qed.

(** Comments *)
Lemma lexeme_after l : lexeme (after is_spaces l) = lexeme l.
Proof. unfold lexeme. now rewrite after_idem. Qed.
Lemma lex_comment b tx nl g : blanks b -> Forall (fun c => ~ newline c) tx -> newline nl -> lexeme (b ++ 35 :: tx ++ nl :: g) = LSkip (after is_spaces g).
Proof.
  intros B T N. rewrite (lexeme_keyword _ (35 :: tx ++ nl :: g) KComment); [ | now apply after_blanks | reflexivity ].
  unfold lex_keyword. cbn [keyword_meaning]. change (skipn (List.length (word KComment)) (35 :: tx ++ nl :: g)) with (tx ++ nl :: g).
  rewrite after_stop.
  - f_equal. change (nl :: g) with ([nl] ++ g). rewrite <- (after_leading (fun c => c =? nl) is_spaces); [ | intros c Hc; apply spaces_blank; unfold blank_char; unfold newline in N; lia ].
    unfold after at 2. cbn [app leading]. rewrite Z.eqb_refl. cbn [List.length skipn]. fold (after (fun c => c =? nl) g). apply after_leading.
    intros c Hc. apply spaces_blank. unfold blank_char, newline in *. lia.
  - eapply Forall_impl; [ | exact T ]. intros c Hc. cbn beta in Hc. unfold no_newline_char. destruct (is_newline c) eqn:E; [ | reflexivity ]. apply newline_iff in E. tauto.
  - unfold no_newline_char. apply newline_iff in N. now rewrite N.
Qed.
(** What remains of comments: nothing, or text after a line end and blanks. *)
Lemma skip_sound l r : lexeme l = LSkip r -> (r = [] /\ exists b tx, blanks b /\ l = b ++ 35 :: tx) \/ (exists b tx nl b2, l = b ++ 35 :: tx ++ nl :: b2 ++ r /\ blanks b /\ blanks b2 /\ newline nl /\ Forall (fun c => ~ newline c) tx).
Proof.
  intros H. unfold lexeme in H. pose proof (after_split is_spaces l) as S. pose proof (leading_blanks l) as B. set (b := leading is_spaces l) in *. set (l1 := after is_spaces l) in *.
  destruct l1 as [ | c1 l2 ] eqn:E1; [ discriminate H | ]. rewrite <- E1 in *. destruct (first_keyword l1) as [ k | ] eqn:K; [ | discriminate H ].
  pose proof (first_keyword_starts _ _ K) as S2. set (r1 := skipn (List.length (word k)) l1) in *. cbv zeta in H.
  assert (k = KComment).
  { destruct k; cbn [keyword_meaning keyword_instr] in H; try reflexivity; try discriminate H; (destruct (starts_with sep r1); [ | discriminate H ]); try discriminate H; exfalso; unfold lex_value in H;
      match type of H with match ?x with [] => _ | _ => _ end = _ => destruct x end; try discriminate H;
      match type of H with match ?x with [] => _ | _ => _ end = _ => destruct x end; try discriminate H; revert H;
      repeat match goal with |- context [if ?x then _ else _] => destruct x end; discriminate. }
  subst k. cbn [keyword_meaning] in H. injection H as <-.
  pose proof (after_split no_newline_char r1) as S3. pose proof (ParseProofs.leading_all no_newline_char r1) as T. pose proof (after_head no_newline_char r1) as Hd. set (tx := leading no_newline_char r1) in *. set (r2 := after no_newline_char r1) in *.
  destruct r2 as [ | nl r3 ] eqn:E2.
  - left. split; [ reflexivity | ]. exists b, r1. split; [ exact B | ]. rewrite S. f_equal. exact S2.
  - right. assert (NL : is_newline nl = true) by (unfold no_newline_char in Hd; destruct (is_newline nl); [ reflexivity | discriminate Hd ]).
    assert (Sn : is_spaces nl = true) by (unfold is_spaces; rewrite NL; apply orb_true_r).
    exists b, tx, nl, (leading is_spaces r3). split.
    + rewrite S, S2, S3. change (word KComment) with [35]. cbn [app]. do 2 f_equal. f_equal. unfold after. cbn [leading]. rewrite Sn. cbn [List.length skipn]. f_equal. apply after_split.
    + split; [ exact B | ]. split; [ apply leading_blanks | ]. split; [ now apply newline_iff | ]. eapply Forall_impl; [ | exact T ]. intros c Hc Hn. apply newline_iff in Hn. unfold no_newline_char in Hc. now rewrite Hn in Hc.
Qed.
Lemma end_sound l : lexeme l = LEnd -> blanks l.
Proof.
  intros H. assert (A : after is_spaces l = []).
  { unfold lexeme in H. destruct (after is_spaces l) as [ | c r ] eqn:E; [ reflexivity | ]. exfalso. destruct (first_keyword (c :: r)) as [ k | ]; [ | discriminate H ]. cbv zeta in H.
    destruct k; cbn [keyword_meaning keyword_instr] in H; try discriminate H; (match type of H with (if ?x then _ else _) = _ => destruct x end; [ | discriminate H ]); try discriminate H; unfold lex_value in H;
      match type of H with match ?x with [] => _ | _ => _ end = _ => destruct x end; try discriminate H;
      match type of H with match ?x with [] => _ | _ => _ end = _ => destruct x end; try discriminate H; revert H;
      repeat match goal with |- context [if ?x then _ else _] => destruct x end; discriminate. }
  rewrite (after_split is_spaces l), A, app_nil_r. apply leading_blanks.
Qed.
