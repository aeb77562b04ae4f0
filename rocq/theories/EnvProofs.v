From Coq Require Import ZArith List Bool Lia.
From Verif Require Import Common ParseModel ParseSpec ParseProofs ConfigModel ConfigSpec ConfigProofs ConfigSafe EnvModel EnvSpec.
Import ListNotations.
Open Scope Z_scope.

Lemma newline_eq c : newline c = is_newline c.
Proof. reflexivity. Qed.
Lemma blank_eq c : blank_in_line c = is_space_tab c.
Proof. unfold blank_in_line, is_space_tab. try reflexivity; destruct (c =? 32), (c =? 9); reflexivity. Qed.
Lemma spaces_split c : is_spaces c = true -> newline c = true \/ blank_in_line c = true.
Proof. rewrite newline_eq, blank_eq. unfold is_spaces. intros H. apply orb_true_iff in H. tauto. Qed.

Lemma lines_cons d : exists l ls, lines d = l :: ls.
Proof. destruct d as [ | c d ]; cbn [lines]; [ eauto | ]. destruct (newline c); [ eauto | ]. destruct (lines d); eauto. Qed.
(** Blanks and line ends at the beginning mean nothing. *)
Lemma meaning_blanks bl r : blank bl -> file_meaning (lines (bl ++ r)) = file_meaning (lines r) /\ (comment_last (bl ++ r) <-> comment_last r).
Proof.
  induction bl as [ | c bl IH ]; intros B; cbn [app lines]; [ tauto | ]. inversion B as [ | ? ? B1 B2 ]; subst. destruct (IH B2) as (IH1 & IH2). unfold comment_last in *.
  destruct (lines_cons (bl ++ r)) as (l & ls & E). destruct (spaces_split c B1) as [ H | H ].
  - cbn [lines]. rewrite H, E in *. cbn [file_meaning line_meaning from_word last]. split; [ exact IH1 | ]. rewrite <- IH2. tauto.
  - cbn [lines]. assert (N : newline c = false) by (rewrite newline_eq; rewrite blank_eq in H; unfold is_space_tab, is_newline in *; lia). rewrite N, E in *.
    split.
    + rewrite <- IH1. cbn [file_meaning]. unfold line_meaning. cbn [from_word]. now rewrite H.
    + rewrite <- IH2. destruct ls as [ | l2 ls ]; [ | tauto ]. cbn [last from_word]. rewrite H. tauto.
Qed.
(** The first line. *)
Lemma lines_first l r : no_newline l -> match r with [] => True | c :: _ => newline c = true end ->
  lines (l ++ r) = l :: match r with [] => [] | _ :: r' => lines r' end.
Proof.
  induction l as [ | c l IH ]; intros N Hr; cbn [app].
  - destruct r as [ | c r ]; [ reflexivity | ]. cbn [lines]. now rewrite Hr.
  - inversion N as [ | ? ? N1 N2 ]; subst. cbn [lines]. rewrite newline_eq, N1, (IH N2 Hr). reflexivity.
Qed.
Lemma lines_rest r : match r with [] => True | c :: _ => newline c = true end ->
  file_meaning (lines r) = file_meaning match r with [] => [] | _ :: r' => lines r' end.
Proof. destruct r as [ | c r ]; intros H; [ reflexivity | ]. cbn [lines]. now rewrite H. Qed.
Lemma last_rest l r : no_newline l -> match r with [] => True | c :: _ => newline c = true end ->
  last (lines (l ++ r)) [] = match r with [] => l | _ => last (lines r) [] end.
Proof.
  intros N Hr. rewrite lines_first by assumption. destruct r as [ | c r ]; [ reflexivity | ]. destruct (lines_cons r) as (a & b & E). cbn [lines]. rewrite Hr, E. reflexivity.
Qed.

Lemma to_word_eq l : no_newline l -> str_trim l = to_word l.
Proof.
  intros N. unfold str_trim, to_word. f_equal. assert (N' : no_newline (rev l)) by (apply Forall_rev; exact N). revert N'. generalize (rev l). clear.
  induction l as [ | c l IH ]; intros N; cbn [trim_loop from_word]; [ reflexivity | ]. inversion N; subst. rewrite blank_eq. unfold is_spaces. rewrite H1, orb_false_r, IH by assumption. reflexivity.
Qed.
Lemma cut_eq l : str_extract_until l 61 = match cut l with Some (a, _) => Some a | None => None end.
Proof. induction l as [ | c l IH ]; cbn [str_extract_until cut]; [ reflexivity | ]. destruct (c =? 61); [ reflexivity | ]. rewrite IH. destruct (cut l) as [ (a, b) | ]; reflexivity. Qed.
Lemma cut_split l a b : cut l = Some (a, b) -> l = a ++ 61 :: b.
Proof.
  revert a b. induction l as [ | c l IH ]; intros a b; cbn [cut]; [ discriminate | ]. destruct (Z.eqb_spec c 61); [ intros [= <- <-]; subst; reflexivity | ].
  destruct (cut l) as [ (a', b') | ]; [ | discriminate ]. intros [= <- <-]. cbn [app]. f_equal. now apply IH.
Qed.
Lemma from_word_eq l : exists bl, l = bl ++ from_word l /\ bl = leading is_space_tab l.
Proof. induction l as [ | c l (bl & E & E') ]; cbn [from_word leading]; [ now exists [] | ]. rewrite blank_eq. destruct (is_space_tab c); [ exists (c :: bl); cbn [app]; split; congruence | now exists [] ]. Qed.
Lemma from_word_stop l r : no_newline l -> from_word l = l -> match l with [] => False | _ => True end -> stops (l ++ r).
Proof.
  destruct l as [ | c l ]; [ contradiction | ]. intros N E _. inversion N; subst. cbn [app stops]. unfold is_spaces. rewrite H1, orb_false_r. cbn [from_word] in E. rewrite blank_eq in E.
  destruct (is_space_tab c); [ | reflexivity ]. exfalso. destruct (from_word_eq l) as (bl & E1 & _). rewrite E in E1. apply (f_equal (@List.length Z)) in E1. rewrite app_length in E1. cbn in E1. lia.
Qed.
Lemma in_range t p : 0 <= p_pos p <= t_size t -> from t (p_pos p) = [] <-> eof t p = true.
Proof. intros H. unfold eof, from. rewrite Z.leb_le. unfold t_size, zlen in *. split; intros E; [ apply (f_equal (@List.length Z)) in E; rewrite skipn_length in E; cbn in E; lia | apply skipn_all2; lia ]. Qed.

(** What the loop does from a position, in terms of the lines from there. *)
Definition with_map (m : list (list Z * list Z)) (r : Z * list (list Z * list Z)) : Z * list (list Z * list Z) := let '(ret, x) := r in (ret, m ++ x).
Lemma no_zero_part (a b : list Z) : ~ In 0 (a ++ b) -> ~ In 0 a /\ ~ In 0 b.
Proof. rewrite in_app_iff. tauto. Qed.
Lemma leading_nn f l : f = (fun c => negb (is_newline c)) -> no_newline (leading f l) /\ exists r, l = leading f l ++ r /\ match r with [] => True | c :: _ => newline c = true end.
Proof.
  intros ->. induction l as [ | c l (I1 & r & I2 & I3) ]; cbn [leading]; [ split; [ constructor | now exists [] ] | ].
  destruct (is_newline c) eqn:Q; cbn [negb]; [ split; [ constructor | exists (c :: l); auto ] | ]. split; [ now constructor | ]. exists r. cbn [app]. split; [ congruence | exact I3 ].
Qed.

Lemma comment_env t p l c r : located t p -> at_ t p = l ++ c :: r -> no_newline l -> newline c = true ->
  exists p', comment t p = Ok p' /\ located t p' /\ exists bl, c :: r = bl ++ at_ t p' /\ blank bl /\ p_pos p' = p_pos p + zlen l + zlen bl.
Proof.
  intros L E N C. pose proof (loc_range _ _ L) as B. unfold comment.
  assert (Sz : p_pos p + zlen l < t_size t).
  { assert (X : zlen (at_ t p) = t_size t - p_pos p) by (apply from_len; lia). rewrite E, zlen_app, zlen_cons in X. pose proof (zlen_nonneg _ r). lia. }
  pose proof (zlen_nonneg _ l). replace (t_size t <=? p_pos p) with false by lia.
  assert (G : forall fuel l q, (length l < fuel)%nat -> 0 <= p_pos q -> from t (p_pos q) = l ++ c :: r -> no_newline l ->
            exists x, rd t (p_pos q) = Ok x /\ comment_loop fuel t x q = Ok (set_pos q (p_pos q + zlen l))).
  { clear -C. induction fuel as [ | fuel IH ]; intros l q Hf Hq E N; [ lia | ].
    assert (Hs : p_pos q < t_size t).
    { destruct (Z.lt_ge_cases (p_pos q) (t_size t)); [ assumption | ]. rewrite from_end in E by lia. destruct l; discriminate. }
    rewrite rd_in by lia. eexists. split; [ reflexivity | ]. rewrite from_cons in E by lia. destruct l as [ | x l ]; cbn [app] in E; injection E as E1 E2.
    - rewrite E1. cbn [comment_loop]. change (zlen (@nil Z)) with 0. rewrite Z.add_0_r, set_pos_same. unfold newline in C. destruct (c =? 13), (c =? 10); try discriminate; reflexivity.
    - rewrite E1. inversion N as [ | ? ? N1 N2 ]; subst. cbn [comment_loop]. unfold is_newline in N1. apply orb_false_iff in N1. destruct N1 as (-> & ->). cbn [negb andb]. replace (p_pos q <? t_size t) with true by lia.
      cbn [length] in Hf. destruct (IH l (set_pos q (p_pos q + 1)) ltac:(lia) ltac:(cbn [set_pos p_pos]; lia)) as (y & Ry & Cy); [ cbn [set_pos p_pos]; exact E2 | exact N2 | ].
      cbn [set_pos p_pos] in *. rewrite Ry. cbn [bind]. rewrite Cy. rewrite zlen_cons. f_equal. unfold set_pos. cbn [p_pos]. f_equal. lia. }
  destruct (G (S (length (t_data t))) l p) as (x & Rx & Cx); [ | lia | exact E | exact N | ].
  { assert (length (at_ t p) <= length (t_data t))%nat by (unfold from; rewrite skipn_length; lia). rewrite E, app_length in H0. cbn [length] in H0. lia. }
  rewrite Rx. cbn [bind]. rewrite Cx. cbn [bind].
  assert (L1 : located t (set_pos p (p_pos p + zlen l))) by (eapply located_plain; [ exact L | exact E | exact N ]).
  destruct (ignore_ok t is_spaces _ eq_refl (loc_range _ _ L1)) as (p' & R & P & L'). exists p'. split; [ exact R | ]. split; [ auto | ]. cbn [set_pos p_pos] in P.
  assert (A1 : from t (p_pos p + zlen l) = c :: r) by (eapply from_app; [ lia | exact E ]). rewrite A1 in P.
  destruct (leading_split is_spaces (c :: r)) as (r' & Sp). exists (leading is_spaces (c :: r)). split; [ | split; [ apply leading_all | exact P ] ].
  rewrite Sp at 1. f_equal. symmetry. rewrite P. eapply from_app; [ lia | ]. rewrite A1. exact Sp.
Qed.

Theorem env_loop_ok t : t_nul t = false -> ~ In 0 (t_data t) -> forall fuel p m, located t p -> (length (at_ t p) < fuel)%nat -> ~ comment_last (at_ t p) ->
  env_loop fuel t p m = Ok (with_map m (file_meaning (lines (at_ t p)))).
Proof.
  intros T Z0. induction fuel as [ | fuel IH ]; intros p m L Hf NC; [ lia | ]. cbn [env_loop].
  assert (Done : forall q, located t q -> eof t q = true -> with_map m (file_meaning (lines (at_ t q))) = (0, m)).
  { intros q Lq E. apply in_range in E; [ | apply loc_range; assumption ]. rewrite E. cbn. now rewrite app_nil_r. }
  destruct (eof t p) eqn:E0; [ now rewrite Done | ].
  destruct (ignore_ok t is_spaces p eq_refl (loc_range _ _ L)) as (p1 & R1 & P1 & L1). specialize (L1 L). unfold ignore_spaces at 1. rewrite R1. cbn [bind].
  destruct (leading_split is_spaces (at_ t p)) as (r & Sp). assert (A1 : at_ t p1 = r) by (rewrite P1; eapply from_app; [ exact (proj1 (loc_range _ _ L)) | exact Sp ]).
  destruct (meaning_blanks (leading is_spaces (at_ t p)) r (leading_all _ _)) as (M1 & M2). rewrite <- Sp in M1, M2. rewrite M1. rewrite M2 in NC. rewrite <- A1 in NC.
  assert (Hf1 : (length (at_ t p1) <= length (at_ t p))%nat) by (rewrite A1; rewrite Sp at 1; rewrite app_length; lia).
  destruct (eof t p1) eqn:E1; [ rewrite <- A1, Done by assumption; reflexivity | ].
  pose proof (loc_range _ _ L1) as B1. pose proof E1 as E1'. unfold eof in E1'. pose proof (rd_in t (p_pos p1) ltac:(lia)) as R2.
  destruct r as [ | c r ]; [ apply in_range in A1; [ congruence | assumption ] | ]. rewrite from_cons in A1 by lia. injection A1 as A1 A1'. rewrite A1 in R2. rewrite R2. cbn [bind].
  assert (A : at_ t p1 = c :: r) by (rewrite from_cons by lia; congruence).
  assert (Sc : is_spaces c = false).
  { clear -Sp. revert Sp. generalize (at_ t p). induction l as [ | x l IH ]; intros Sp; cbn [leading] in Sp; [ discriminate | ].
    destruct (is_spaces x) eqn:Q; cbn [app] in Sp; [ apply (f_equal (@tl Z)) in Sp; cbn [tl] in Sp; eauto | ]. apply (f_equal (hd 0)) in Sp. cbn [hd] in Sp. congruence. }
  assert (Nc : is_newline c = false /\ blank_in_line c = false) by (rewrite blank_eq; unfold is_spaces in Sc; apply orb_false_iff in Sc; tauto). destruct Nc as (Nc & Bc).
  destruct (leading_nn _ (c :: r) eq_refl) as (Nl & rest & El & Hrest). set (l := leading (fun c => negb (is_newline c)) (c :: r)) in *.
  assert (Lc : exists l', l = c :: l') by (unfold l; cbn [leading]; rewrite Nc; cbn [negb]; eauto). destruct Lc as (l' & Lc).
  assert (FW : from_word l = l) by (rewrite Lc; cbn [from_word]; now rewrite Bc).
  rewrite El, (lines_first l rest Nl Hrest). cbn [file_meaning]. rewrite <- (lines_rest rest Hrest).
  assert (LC : comment_last (l ++ rest) <-> match rest with [] => exists x, from_word l = 35 :: x | _ => comment_last rest end).
  { unfold comment_last. rewrite last_rest by assumption. destruct rest; tauto. }
  rewrite A, El, LC in NC.
  assert (Zl : ~ In 0 l).
  { assert (~ In 0 (at_ t p1)) by (unfold from; intros H; apply Z0; rewrite <- (firstn_skipn (Z.to_nat (p_pos p1)) (t_data t)); apply in_or_app; auto). rewrite A, El in H. now apply no_zero_part in H. }
  assert (Ll : 0 < zlen l) by (rewrite Lc, zlen_cons; pose proof (zlen_nonneg _ l'); lia).
  unfold line_meaning. rewrite FW, Lc.
  destruct (Z.eqb_spec c 35) as [ Hc | Hc ].
  - (* a comment *)
    destruct rest as [ | nl rest ]; [ exfalso; apply NC; rewrite FW, Lc; rewrite Hc; eauto | ].
    destruct (comment_env t p1 l nl rest L1 ltac:(congruence) Nl Hrest) as (p2 & R3 & L2 & bl & E2 & Bl & P2). rewrite R3. cbn [bind].
    rewrite E2. destruct (meaning_blanks bl (at_ t p2) Bl) as (M3 & M4). rewrite M3. apply IH; [ exact L2 | | rewrite <- M4, <- E2; exact NC ].
    assert (length (at_ t p2) < length (at_ t p1))%nat by (apply later; auto; pose proof (zlen_nonneg _ bl); lia). lia.
  - (* a variable *)
    rewrite non_newline_ok by (auto; left; lia). cbv zeta. rewrite A. fold l. cbn [bind]. unfold name_length at 1. replace (p_pos p1 + zlen l - 1 <? p_pos p1) with false by lia. cbn [bind].
    replace (p_pos p1 + zlen l - 1 - p_pos p1 + 1) with (zlen l) by lia. unfold str_extract at 1. replace (zlen l =? 0) with false by lia.
    rewrite (copy_from t (p_pos p1) l rest B1 ltac:(congruence)). cbn [bind]. rewrite cstr_id by assumption. rewrite cut_eq.
    assert (Next : forall q v w, p_line q = p_line p1 -> p_begin q = p_begin p1 ->
               env_loop fuel t (set_pos q (p_pos p1 + zlen l - 1 + 1)) (m ++ [(v, w)]) = Ok (with_map m (let '(ret, x) := file_meaning (lines rest) in (ret, (v, w) :: x)))).
    { intros q v w Q1 Q2. assert (Eq : set_pos q (p_pos p1 + zlen l - 1 + 1) = set_pos p1 (p_pos p1 + zlen l)) by (unfold set_pos; f_equal; auto; lia). rewrite Eq.
      assert (L2 : located t (set_pos p1 (p_pos p1 + zlen l))) by (eapply located_plain; [ exact L1 | rewrite A; exact El | exact Nl ]).
      assert (A2 : from t (p_pos p1 + zlen l) = rest) by (eapply from_app; [ lia | congruence ]).
      rewrite IH; [ | exact L2 | | ].
      - cbn [set_pos p_pos]. rewrite A2. destruct (file_meaning (lines rest)) as (ret, x). cbn [with_map]. now rewrite <- app_assoc.
      - assert (length (at_ t (set_pos p1 (p_pos p1 + zlen l))) < length (at_ t p1))%nat by (apply later; auto; cbn [set_pos p_pos]; lia). lia.
      - cbn [set_pos p_pos]. rewrite A2. destruct rest; [ intros (x & X); discriminate | exact NC ]. }
    rewrite <- Lc. destruct (cut l) as [ (a, b) | ] eqn:Cu.
    2:{ change (zlen (@nil Z) =? 0) with true. cbv iota. rewrite Next by reflexivity. now rewrite to_word_eq. }
    destruct a as [ | a0 a ].
    { change (zlen (@nil Z) =? 0) with true. cbv iota. rewrite Next by reflexivity. now rewrite to_word_eq. }
    pose proof (cut_split _ _ _ Cu) as Sl. set (n := a0 :: a) in *. assert (Ln : 0 < zlen n) by (unfold n; rewrite zlen_cons; pose proof (zlen_nonneg _ a); lia).
    replace (zlen n =? 0) with false by lia. cbn [set_pos p_pos]. fold (set_pos p1 (p_pos p1 + zlen n + 1)).
    assert (Sn : no_newline n /\ no_newline b) by (rewrite Sl in Nl; apply Forall_app in Nl; destruct Nl as (X & Y); inversion Y; auto). destruct Sn as (Sn & Sb).
    assert (Lb : zlen l = zlen n + 1 + zlen b) by (rewrite Sl, zlen_app, zlen_cons; lia). pose proof (zlen_nonneg _ b).
    assert (L3 : located t (set_pos p1 (p_pos p1 + zlen n + 1))).
    { replace (p_pos p1 + zlen n + 1) with (p_pos p1 + zlen (n ++ [61])) by (rewrite zlen_app; change (zlen [61]) with 1; lia). eapply located_plain; [ exact L1 | rewrite A, El, Sl, <- app_assoc; cbn [app]; rewrite <- app_assoc; reflexivity | ].
      apply Forall_app. split; [ exact Sn | repeat constructor ]. }
    assert (A3 : from t (p_pos p1 + zlen n + 1) = b ++ rest).
    { replace (p_pos p1 + zlen n + 1) with (p_pos p1 + zlen (n ++ [61])) by (rewrite zlen_app; change (zlen [61]) with 1; lia). eapply from_app; [ lia | rewrite A, El, Sl; rewrite <- !app_assoc; reflexivity ]. }
    destruct (from_word_eq b) as (bl & Eb & Ebl).
    assert (Ldg : leading is_space_tab (b ++ rest) = bl).
    { assert (Stop : match from_word b ++ rest with [] => True | x :: _ => is_space_tab x = false end).
      { destruct (from_word b) as [ | x w ] eqn:Fb.
        - cbn [app]. destruct rest as [ | x rest ]; [ exact I | ]. rewrite newline_eq in Hrest. unfold is_newline, is_space_tab in *. lia.
        - cbn [app]. rewrite <- blank_eq. clear -Fb. induction b as [ | y b IH ]; cbn [from_word] in Fb; [ discriminate | ]. destruct (blank_in_line y) eqn:Q; [ auto | ]. injection Fb as <- _. exact Q. }
      rewrite Eb, <- app_assoc. apply leading_stop; [ rewrite Ebl; apply leading_all | exact Stop ]. }
    destruct (ignore_ok t is_space_tab _ eq_refl (loc_range _ _ L3)) as (p4 & R4 & P4 & L4). specialize (L4 L3). cbn [set_pos p_pos] in P4. rewrite A3, Ldg in P4.
    unfold ignore_space_and_tab. match goal with |- context [ignore t is_space_tab ?q] => change q with (set_pos p1 (p_pos p1 + zlen n + 1)) end. rewrite R4. cbn [bind].
    assert (Lbl : zlen b = zlen bl + zlen (from_word b)) by (rewrite Eb at 1; rewrite zlen_app; lia).
    assert (Dst : p_line p4 = p_line p1 /\ p_begin p4 = p_begin p1).
    { assert (X : located t (set_pos p1 (p_pos p4))).
      { rewrite P4. replace (p_pos p1 + zlen n + 1 + zlen bl) with (p_pos p1 + zlen (n ++ 61 :: bl)) by (rewrite zlen_app, zlen_cons; lia).
        eapply located_plain; [ exact L1 | rewrite A, El, Sl; rewrite Eb at 1; rewrite <- !app_assoc; cbn [app]; rewrite <- !app_assoc; reflexivity | ].
        apply Forall_app. split; [ exact Sn | ]. constructor; [ reflexivity | ]. rewrite Eb in Sb. apply Forall_app in Sb. tauto. }
      rewrite (loc_unique t p4 _ L4 X eq_refl). split; reflexivity. }
    assert (Sz : p_pos p1 + zlen l <= t_size t).
    { assert (X : zlen (at_ t p1) = t_size t - p_pos p1) by (apply from_len; lia). rewrite A, El, zlen_app in X. pose proof (zlen_nonneg _ rest). lia. }
    destruct (from_word b) as [ | w0 w ] eqn:Fb.
    + change (zlen (@nil Z)) with 0 in Lbl. replace (p_pos p1 + zlen l - 1 <? p_pos p4) with true by lia. rewrite orb_true_r. cbn [with_map]. now rewrite app_nil_r.
    + rewrite <- Fb in *. set (v := from_word b) in *. assert (Lv : 0 < zlen v) by (rewrite Fb, zlen_cons; pose proof (zlen_nonneg _ w); lia).
      unfold eof. replace (t_size t <=? p_pos p4) with false by lia. replace (p_pos p1 + zlen l - 1 <? p_pos p4) with false by lia. cbn [orb].
      unfold name_length. replace (p_pos p1 + zlen l - 1 <? p_pos p4) with false by lia. cbn [bind]. replace (p_pos p1 + zlen l - 1 - p_pos p4 + 1) with (zlen v) by lia. unfold str_extract. replace (zlen v =? 0) with false by lia.
      assert (A4 : at_ t p4 = v ++ rest). { rewrite P4. eapply from_app; [ pose proof (zlen_nonneg _ n); lia | ]. rewrite A3, Eb at 1. now rewrite <- app_assoc. }
      rewrite (copy_from t (p_pos p4) v rest (loc_range _ _ L4) A4). cbn [bind].
      assert (Nv : no_newline v /\ ~ In 0 v).
      { rewrite Eb in Sb. apply Forall_app in Sb. split; [ tauto | ]. intros X. apply Zl. rewrite Sl, Eb. apply in_or_app. right. right. apply in_or_app. auto. }
      rewrite cstr_id by tauto. destruct Dst. rewrite Next by assumption. rewrite !to_word_eq by tauto. now rewrite Fb.
Qed.

Lemma env_ok d : ~ In 0 d -> ~ comment_last d -> env_parse d = Ok (file_meaning (lines d)).
Proof.
  intros Z0 NC. unfold env_parse. rewrite (env_loop_ok (mk_text d false) eq_refl Z0 _ pos_init [] (located_init _)); [ | cbn; lia | exact NC ].
  change (at_ (mk_text d false) pos_init) with d. destruct (file_meaning (lines d)); reflexivity.
Qed.

(** * Reading what was written *)
Definition env_name (n : list Z) : Prop :=
  no_newline n /\ ~ In 0 n /\ ~ In 61 n /\ (exists c r, n = c :: r /\ blank_in_line c = false /\ c <> 35) /\ (exists r c, n = r ++ [c] /\ blank_in_line c = false).
Definition env_value (v : list Z) : Prop :=
  no_newline v /\ ~ In 0 v /\ (exists c r, v = c :: r /\ blank_in_line c = false) /\ (exists r c, v = r ++ [c] /\ blank_in_line c = false).
Definition env_line (nv : list Z * list Z) : list Z := fst nv ++ 61 :: snd nv ++ [10].
Lemma to_word_id r c : blank_in_line c = false -> to_word (r ++ [c]) = r ++ [c].
Proof. intros H. unfold to_word. rewrite rev_app_distr. cbn [rev app from_word]. rewrite H. cbn [rev]. now rewrite rev_involutive. Qed.
Lemma cut_at n v : ~ In 61 n -> cut (n ++ 61 :: v) = Some (n, v).
Proof. induction n as [ | c n IH ]; intros H; cbn [app cut]; [ reflexivity | ]. cbn [In] in H. destruct (Z.eqb_spec c 61); [ tauto | ]. rewrite IH by tauto. reflexivity. Qed.
Lemma line_ok n v : env_name n -> env_value v -> line_meaning (n ++ 61 :: v) = Variable_ n v.
Proof.
  intros (N1 & N2 & N3 & (c & r & N4 & N5 & N6) & (r2 & c2 & N7 & N8)) (V1 & V2 & (d & s & V4 & V5) & (s2 & d2 & V7 & V8)). unfold line_meaning.
  assert (F : from_word (n ++ 61 :: v) = n ++ 61 :: v) by (rewrite N4; cbn [app from_word]; now rewrite N5). rewrite F. pose proof (cut_at n v N3) as Cu. rewrite N4 in *. cbn [app] in *.
  destruct (Z.eqb_spec c 35); [ contradiction | ]. rewrite Cu. assert (Fv : from_word v = v) by (rewrite V4; cbn [from_word]; now rewrite V5). rewrite Fv.
  rewrite V4 at 1. rewrite <- V4. rewrite N7, V7, !to_word_id by assumption. reflexivity.
Qed.
Lemma lines_env nv r : no_newline (fst nv) -> no_newline (snd nv) -> lines (env_line nv ++ r) = (fst nv ++ 61 :: snd nv) :: lines r.
Proof.
  destruct nv as (n, v). unfold env_line. cbn [fst snd]. intros N V. replace ((n ++ 61 :: v ++ [10]) ++ r) with ((n ++ 61 :: v) ++ 10 :: r) by (rewrite <- !app_assoc; cbn [app]; rewrite <- app_assoc; reflexivity).
  rewrite lines_first; [ reflexivity | | reflexivity ]. apply Forall_app. split; [ exact N | ]. constructor; [ reflexivity | exact V ].
Qed.
Lemma env_written m : Forall (fun nv => env_name (fst nv) /\ env_value (snd nv)) m -> env_parse (concat (map env_line m)) = Ok (0, m).
Proof.
  intros F.
  assert (G : file_meaning (lines (concat (map env_line m))) = (0, m) /\ last (lines (concat (map env_line m))) [] = [] /\ ~ In 0 (concat (map env_line m))).
  { induction F as [ | (n, v) m (N & V) F (IH1 & IH2 & IH3) ]; [ split; [ reflexivity | split; [ reflexivity | intros [] ] ] | ]. cbn [map concat fst snd] in *.
    rewrite lines_env by (cbn [fst snd]; first [ exact (proj1 N) | exact (proj1 V) ]). cbn [fst snd file_meaning]. rewrite (line_ok n v N V), IH1. split; [ reflexivity | ]. split.
    - destruct (lines_cons (concat (map env_line m))) as (a & b & E). rewrite E in *. exact IH2.
    - unfold env_line. cbn [fst snd]. rewrite !in_app_iff. cbn [In]. rewrite in_app_iff. cbn [In]. destruct N as (_ & N & _). destruct V as (_ & V & _). intuition discriminate. }
  destruct G as (G1 & G2 & G3). rewrite env_ok; [ now rewrite G1 | exact G3 | ]. unfold comment_last. rewrite G2. intros (r & H). discriminate.
Qed.

(** * A comment at the end of the file *)
Lemma overread c : no_newline c -> env_parse (35 :: c) = Ub.
Proof.
  intros N. unfold env_parse. set (t := mk_text (35 :: c) false). change (length (35 :: c)) with (S (length c)). cbn [env_loop].
  assert (L := located_init t). assert (A : at_ t pos_init = 35 :: c) by reflexivity.
  rewrite (eof_at _ _ L), A. destruct (rd_at _ _ _ _ L A) as (R & Hs).
  assert (R1 : ignore_spaces t pos_init = Ok pos_init).
  { destruct (ignore_ok t is_spaces pos_init eq_refl (loc_range _ _ L)) as (p' & R1 & P1 & L1). unfold ignore_spaces. rewrite R1. f_equal. apply (loc_unique t); auto. }
  rewrite R1. cbn [bind]. rewrite (eof_at _ _ L), A, R. cbn [bind]. change (35 =? 35) with true. cbv iota. unfold comment. replace (t_size t <=? p_pos pos_init) with false by lia. rewrite R. cbn [bind].
  assert (G : forall fuel l q x, (length l < fuel)%nat -> 0 <= p_pos q -> from t (p_pos q) = x :: l -> no_newline (x :: l) -> comment_loop fuel t x q = Ub).
  { clear. induction fuel as [ | fuel IH ]; intros l q x Hf Hq E N; [ lia | ]. cbn [comment_loop]. inversion N as [ | ? ? N1 N2 ]; subst. unfold is_newline in N1. apply orb_false_iff in N1. destruct N1 as (-> & ->). cbn [negb andb].
    assert (Hs : p_pos q < t_size t) by (destruct (Z.lt_ge_cases (p_pos q) (t_size t)); [ assumption | rewrite from_end in E by lia; discriminate ]). replace (p_pos q <? t_size t) with true by lia. cbn [set_pos p_pos].
    rewrite from_cons in E by lia. assert (E2 := f_equal (@tl Z) E). cbn [tl] in E2. destruct l as [ | y l ].
    - assert (H : t_size t = p_pos q + 1). { assert (X : zlen (from t (p_pos q + 1)) = t_size t - (p_pos q + 1)) by (apply from_len; lia). rewrite E2 in X. change (zlen (@nil Z)) with 0 in X. lia. }
      unfold rd. replace ((0 <=? p_pos q + 1) && (p_pos q + 1 <? t_size t)) with false by lia. cbn [t_nul t]. rewrite andb_false_r. reflexivity.
    - assert (Hs1 : p_pos q + 1 < t_size t) by (destruct (Z.lt_ge_cases (p_pos q + 1) (t_size t)); [ assumption | rewrite from_end in E2 by lia; discriminate ]).
      rewrite rd_in by lia. pose proof E2 as E3. rewrite from_cons in E3 by lia. apply (f_equal (hd 0)) in E3. cbn [hd] in E3. rewrite E3. cbn [bind]. cbn [length] in Hf. apply (IH l); [ lia | cbn [set_pos p_pos]; lia | exact E2 | exact N2 ]. }
  rewrite (G (S (length (t_data t))) c pos_init 35); [ reflexivity | cbn; lia | cbn; lia | exact A | now constructor ].
Qed.
