(** No configuration text makes the parser read outside it, loop for ever or abort, except where
    a name is missing between brackets. *)
From Coq Require Import ZArith List Bool Lia.
From Verif Require Import Common ParseModel ParseSpec ParseProofs ConfigModel ConfigSpec ConfigProofs.
From Verif Require SettingsModel SettingsProofs.
Import ListNotations.
Open Scope Z_scope.

Definition s_ok (s : SettingsModel.settings) : Prop := SettingsModel.t_max s = 32 /\ zlen (SettingsModel.t_list s) <= 32.
Lemma add_safe s n v : s_ok s -> exists ret s', SettingsModel.add_string s n v = SettingsModel.Ok (ret, s') /\ s_ok s'.
Proof.
  intros (M & H). unfold SettingsModel.add_string, SettingsModel.add_raw. rewrite M.
  destruct (SettingsModel.find _ _ _) as [ (i, x) | ]; [ do 2 eexists; split; [ reflexivity | split; assumption ] | ].
  replace (32 <? zlen (SettingsModel.t_list s)) with false by lia.
  destruct (Z.eqb_spec (zlen (SettingsModel.t_list s)) 32); [ do 2 eexists; split; [ reflexivity | split; assumption ] | ].
  destruct (_ <? _); do 2 eexists; (split; [ reflexivity | ]); split; cbn [SettingsModel.t_max SettingsModel.t_list]; rewrite ?zlen_app; try reflexivity; unfold zlen in *; cbn [length]; lia.
Qed.

Lemma spaces_safe t p : located t p -> exists p', ignore_spaces t p = Ok p' /\ p_pos p <= p_pos p' /\ located t p'.
Proof.
  intros L. destruct (ignore_ok t is_spaces p eq_refl (loc_range _ _ L)) as (p' & R & P & L'). exists p'. split; [ exact R | ]. pose proof (leading_len is_spaces (at_ t p)). split; [ lia | auto ].
Qed.
Lemma comment_safe t p : t_nul t = true -> located t p -> exists p', comment t p = Ok p' /\ p_pos p <= p_pos p' /\ located t p' /\
  (rd t (p_pos p) = Ok 35 -> p_pos p < t_size t -> p_pos p < p_pos p').
Proof.
  intros T L. destruct (comment_ok t p (loc_range _ _ L) T) as (p' & R & P & L'). cbv zeta in P. exists p'. split; [ exact R | ].
  pose proof (leading_len (fun c => negb (is_newline c)) (at_ t p)) as X.
  pose proof (leading_len is_spaces (from t (p_pos p + zlen (leading (fun c => negb (is_newline c)) (at_ t p))))) as Y.
  split; [ lia | ]. split; [ auto | ]. intros Hr Hs. pose proof (loc_range _ _ L). rewrite rd_in in Hr by lia. injection Hr as Hr.
  rewrite from_cons in P by lia. rewrite Hr in P. cbn [leading] in P. change (negb (is_newline 35)) with true in P. cbv iota in P. rewrite zlen_cons in P.
  match type of P with p_pos p' = p_pos p + (1 + zlen ?l) + zlen ?m => pose proof (zlen_nonneg _ l); pose proof (zlen_nonneg _ m) end. lia.
Qed.
Lemma skip_safe t : t_nul t = true -> forall fuel p, located t p -> p_pos p < t_size t -> t_size t - p_pos p < Z.of_nat fuel ->
  exists p', skip_comments fuel t p = Ok p' /\ p_pos p <= p_pos p' /\ located t p'.
Proof.
  intros T. induction fuel as [ | fuel IH ]; intros p L H Hf; [ lia | ]. cbn [skip_comments]. pose proof (loc_range _ _ L) as B. pose proof (rd_in t (p_pos p) ltac:(lia)) as R. rewrite R. cbn [bind].
  destruct (Z.eqb_spec (nth (Z.to_nat (p_pos p)) (t_data t) 0) 35) as [ E | E ]; [ | exists p; auto using Z.le_refl ].
  destruct (comment_safe t p T L) as (p' & R' & P & L' & X). rewrite E in R. specialize (X R H). rewrite R'. cbn [bind].
  destruct (eof t p') eqn:Q; [ exists p'; auto | ]. unfold eof in Q. destruct (IH p' L' ltac:(lia) ltac:(lia)) as (p2 & R2 & P2 & L2). exists p2. split; [ exact R2 | ]. split; [ lia | exact L2 ].
Qed.
Lemma trim_safe t b : 0 <= b -> forall fuel e, e < t_size t -> b - 1 <= e -> e - b + 1 < Z.of_nat fuel -> exists e', trim_end fuel t b e = Ok e' /\ b - 1 <= e' <= e.
Proof.
  intros Hb. induction fuel as [ | fuel IH ]; intros e He Hl Hf; [ lia | ]. cbn [trim_end]. destruct (b <? e) eqn:Q; [ | exists e; split; [ reflexivity | lia ] ].
  rewrite rd_in by lia. cbn [bind]. destruct (is_space_tab _); [ | exists e; split; [ reflexivity | lia ] ].
  destruct (IH (e - 1) ltac:(lia) ltac:(lia) ltac:(lia)) as (e' & R & B). exists e'. split; [ exact R | lia ].
Qed.

Lemma setting_safe t p s : t_nul t = true -> located t p -> s_ok s ->
  exists ret did s' p', parse_setting t p s = Ok (ret, did, s', p') /\ p_pos p <= p_pos p' /\ located t p' /\ s_ok s' /\ (did = true -> p_pos p < p_pos p').
Proof.
  intros T L Hs. unfold parse_setting.
  destruct (spaces_safe t p L) as (p1 & R1 & P1 & L1). rewrite R1. cbn [bind]. destruct (eof t p1) eqn:Q1; [ do 4 eexists; split; [ reflexivity | ]; repeat (split; [ lia || assumption | ]); discriminate | ].
  unfold eof in Q1. pose proof (loc_range _ _ L1). destruct (skip_safe t T (S (length (t_data t))) p1 L1 ltac:(lia)) as (p2 & R2 & P2 & L2); [ unfold t_size, zlen; lia | ]. rewrite R2. cbn [bind].
  destruct (eof t p2) eqn:Q2; [ do 4 eexists; split; [ reflexivity | ]; repeat (split; [ lia || assumption | ]); discriminate | ].
  pose proof (extract_name_ok t p2 61 (loc_range _ _ L2) eq_refl) as X. unfold after_name in X. cbv zeta in X. destruct X as (ret & nm & p3 & R3 & X1 & X2 & X3 & L3 & X). specialize (L3 L2). rewrite R3. cbn [bind].
  destruct (Z.eqb_spec ret 0) as [ -> | Hr ]; cbn [negb]; [ | do 4 eexists; split; [ reflexivity | ]; repeat (split; [ lia || assumption | ]); discriminate ].
  destruct nm as [ name | ]; [ | do 4 eexists; split; [ reflexivity | ]; repeat (split; [ lia || assumption | ]); discriminate ].
  assert (P3 : p_pos p2 < p_pos p3) by (destruct X as (_ & _ & _ & _ & X); pose proof (leading_len is_spaces (at_ t p2)); lia). cbv zeta.
  destruct (spaces_safe t p3 L3) as (p4 & R4 & P4 & L4). rewrite R4. cbn [bind].
  destruct (eof t p4) eqn:Q4; [ do 4 eexists; split; [ reflexivity | ]; repeat (split; [ lia || assumption | ]); discriminate | ]. unfold eof in Q4.
  destruct (negb (p_line p4 =? p_line p3)); [ do 4 eexists; split; [ reflexivity | ]; repeat (split; [ lia || assumption | ]); discriminate | ].
  pose proof (loc_range _ _ L4) as B4. rewrite non_newline_ok by auto. cbv zeta. cbn [bind]. set (n := zlen (leading (fun c => negb (is_newline c)) (at_ t p4))).
  assert (Bn : 0 <= n) by apply zlen_nonneg. pose proof (leading_end t (fun c => negb (is_newline c)) (p_pos p4) B4) as Be. fold n in Be.
  assert (L5 : located t (set_pos p4 (p_pos p4 + n))).
  { apply leading_plain; [ exact L4 | ]. intros c Hc. now rewrite Hc. }
  destruct (trim_safe t (p_pos p4) ltac:(lia) (S (length (t_data t))) (p_pos p4 + n - 1) ltac:(lia) ltac:(lia)) as (e & R5 & B5); [ unfold t_size, zlen in *; lia | ]. rewrite R5. cbn [bind].
  destruct (e <? p_pos p4) eqn:Q5; [ do 4 eexists; split; [ reflexivity | ]; cbn [set_pos p_pos]; repeat (split; [ lia || assumption | ]); discriminate | ].
  unfold name_length. rewrite Q5. cbn [bind]. unfold str_extract. replace (e - p_pos p4 + 1 =? 0) with false by lia. rewrite copy_ok by lia. cbn [bind].
  match goal with |- context [SettingsModel.add_string s name ?v] => destruct (add_safe s name v Hs) as (ret & s' & Ra & Hs') end. rewrite Ra. cbn [lift bind].
  destruct (negb (ret =? 0)); do 4 eexists; (split; [ reflexivity | ]); cbn [set_pos p_pos]; repeat (split; [ lia || assumption | ]); intros; lia.
Qed.

Lemma settings_safe t : t_nul t = true -> forall fuel p s, located t p -> s_ok s -> t_size t - p_pos p < Z.of_nat fuel ->
  exists ret s' p', settings_loop fuel t p s = Ok (ret, s', p') /\ p_pos p <= p_pos p' /\ located t p'.
Proof.
  intros T. induction fuel as [ | fuel IH ]; intros p s L Hs Hf; [ pose proof (loc_range _ _ L); lia | ]. cbn [settings_loop].
  destruct (setting_safe t p s T L Hs) as (ret & did & s1 & p1 & R1 & P1 & L1 & Hs1 & D). rewrite R1. cbn [bind].
  destruct (negb (ret =? 0)); [ eauto 8 | ]. destruct did; [ | eauto 8 ]. specialize (D eq_refl).
  destruct (spaces_safe t p1 L1) as (p2 & R2 & P2 & L2). rewrite R2. cbn [bind].
  destruct (IH p2 s1 L2 Hs1 ltac:(lia)) as (ret' & s' & p' & R & P & L'). exists ret', s', p'. split; [ exact R | ]. split; [ lia | exact L' ].
Qed.

(** A bracket is right before the position. *)
Definition bracket_before (t : text) (p : pos) : Prop := exists pre, t_data t = pre ++ 91 :: at_ t p.
Lemma bracket_step t p : located t p -> rd t (p_pos p) = Ok 91 -> p_pos p < t_size t -> bracket_before t (set_pos p (p_pos p + 1)).
Proof.
  intros L R H. pose proof (loc_range _ _ L). exists (firstn (Z.to_nat (p_pos p)) (t_data t)). cbn [set_pos p_pos].
  rewrite rd_in in R by lia. injection R as R. rewrite <- R. rewrite <- from_cons by lia. unfold from. now rewrite firstn_skipn.
Qed.
Lemma leading_all f l : Forall (fun c => f c = true) (leading f l).
Proof. induction l as [ | c l IH ]; cbn [leading]; [ constructor | ]. destruct (f c) eqn:E; constructor; auto. Qed.
Lemma leading_split f l : exists r, l = leading f l ++ r.
Proof. induction l as [ | c l (r & IH) ]; cbn [leading]; [ now exists [] | ]. destruct (f c); [ exists r; cbn [app]; congruence | now exists (c :: l) ]. Qed.

Lemma names_safe cb t : t_nul t = true -> forall fuel level p, located t p -> bracket_before t p ->
  match subscript_loop fuel cb t level p 91 93 with
  | Ok (_, _, p') => p_pos p <= p_pos p' /\ located t p'
  | Ub => False
  | Bug => missing_name (t_data t)
  end.
Proof.
  intros T fuel level p L B. pose proof (subscript_ok cb t 91 93 eq_refl eq_refl T fuel level p (loc_range _ _ L)) as S.
  destruct (subscript_loop fuel cb t level p 91 93) as [ [ [ret names] p' ] | | ] eqn:E; [ destruct S as (S1 & S2); split; [ lia | auto ] | exact S | ]. clear S.
  revert level p L B E. induction fuel as [ | fuel IH ]; intros level p L B E; [ discriminate | ]. cbn [subscript_loop] in E.
  destruct (ignore_ok t is_spaces p eq_refl (loc_range _ _ L)) as (p1 & R1 & P1 & L1). specialize (L1 L). unfold ignore_spaces in E at 1. rewrite R1 in E. cbn [bind] in E.
  destruct (eof t p1) eqn:E1; [ discriminate | ]. pose proof (loc_range _ _ L1) as B1. rewrite match_letters_ok in E by lia. cbv zeta in E. cbn [bind] in E. fold name_char in E.
  set (n := leading name_char (at_ t p1)) in *.
  assert (L2 : located t (set_pos p1 (p_pos p1 + zlen n))) by (apply leading_plain; [ exact L1 | apply name_char_newline ]).
  destruct (ignore_ok t is_spaces _ eq_refl (loc_range _ _ L2)) as (p3 & R3 & P3 & L3). specialize (L3 L2). unfold ignore_spaces in E at 1. rewrite R3 in E. cbn [bind] in E. cbn [set_pos p_pos] in P3.
  pose proof (loc_range _ _ L3) as B3.
  assert (R : exists cur, rd t (p_pos p3) = Ok cur).
  { destruct (Z.lt_ge_cases (p_pos p3) (t_size t)); [ rewrite rd_in by lia; eauto | ]. rewrite rd_end by (auto; lia). eauto. }
  destruct R as (cur & R). rewrite R in E. cbn [bind] in E. destruct (eof t p3 || _) eqn:E3; [ discriminate | ]. apply orb_false_iff in E3. destruct E3 as (E3 & E3'). unfold eof in E3.
  unfold name_length in E. destruct (p_pos p1 + zlen n - 1 <? p_pos p1) eqn:En; cbn [bind] in E.
  - pose proof (zlen_nonneg _ n). assert (Zn : zlen n = 0) by lia. apply zlen_0 in Zn. unfold n in Zn. clear E. destruct B as (pre & B).
    destruct (leading_split is_spaces (at_ t p)) as (r & Sp). assert (A1 : at_ t p1 = r) by (rewrite P1; eapply from_app; [ exact (proj1 (loc_range _ _ L)) | exact Sp ]).
    assert (N0 : leading is_spaces r = []).
    { clear -Sp. revert r Sp. generalize (at_ t p). induction l as [ | c l IH ]; intros r Sp; cbn [leading app] in Sp; [ rewrite <- Sp; reflexivity | ].
      destruct (is_spaces c) eqn:Q; cbn [app] in Sp; [ injection Sp as Sp; now apply IH | ]. subst r. cbn [leading]. now rewrite Q. }
    assert (P3' : p_pos p3 = p_pos p1).
    { assert (X : zlen n = 0) by lia. rewrite P3, X, Z.add_0_r, A1, N0. change (zlen (@nil Z)) with 0. lia. }
    rewrite P3' in R. rewrite rd_in in R by lia. injection R as R. rewrite from_cons in A1 by lia. rewrite R in A1.
    exists pre, (leading is_spaces (at_ t p)), cur, (from t (p_pos p1 + 1)). split; [ rewrite A1, <- Sp; exact B | ]. split; [ apply leading_all | ]. lia.
  - replace (p_pos p1 + zlen n - 1 - p_pos p1 + 1) with (zlen n) in E by lia. unfold n in E at 1. rewrite copy_leading in E by lia. cbn [bind] in E.
    destruct (negb (cb _ _ =? 0)); [ discriminate | ]. destruct (Z.eqb_spec cur 91) as [ -> | Hc ]; [ | discriminate ].
    assert (L4 : located t (set_pos p3 (p_pos p3 + 1))).
    { apply located_step; [ exact L3 | lia | ]. rewrite rd_in in R by lia. injection R as R. now rewrite R. }
    pose proof (subscript_ok cb t 91 93 eq_refl eq_refl T fuel (level + 1) _ (loc_range _ _ L4)) as S.
    destruct (subscript_loop fuel cb t (level + 1) (set_pos p3 (p_pos p3 + 1)) 91 93) as [ [ [ret names] p5 ] | | ] eqn:E5.
    + exfalso. cbn [bind] in E. destruct S as (S1 & S2). specialize (S2 L4). destruct (negb (ret =? 0)); [ discriminate | ].
      destruct (spaces_safe t p5 S2) as (p6 & R6 & P6 & L6). rewrite R6 in E. cbn [bind] in E. destruct (eof t p6) eqn:E6; [ discriminate | ]. unfold eof in E6. pose proof (loc_range _ _ L6).
      rewrite rd_in in E by lia. cbn [bind] in E. match type of E with (if ?b then _ else _) = _ => destruct b end; discriminate.
    + discriminate.
    + apply (IH (level + 1) _ L4); [ apply bracket_step; auto; lia | exact E5 ].
Qed.

Section Safe.
Variable other : Z -> text -> pos -> res (Z * pos).
Definition safe (t : text) (p : pos) (r : res (Z * list instance * pos)) : Prop :=
  match r with Ok (_, _, p') => p_pos p <= p_pos p' /\ located t p' | Ub => False | Bug => missing_name (t_data t) end.
Lemma safe_ok t p ret c p' : p_pos p <= p_pos p' -> located t p' -> safe t p (Ok (ret, c, p')).
Proof. intros; split; assumption. Qed.

Lemma block_safe t p c : t_nul t = true -> located t p -> bracket_before t p -> safe t p (parse_block t p c).
Proof.
  intros T L B. unfold parse_block, extract_name_with_subscript. pose proof (names_safe block_name_callback t T (S (length (t_data t))) (-1) p L B) as N.
  destruct (subscript_loop _ _ _ _ _ _ _) as [ [ [ret names] p1 ] | | ]; cbn [bind]; [ | exact N | exact N ]. destruct N as (P1 & L1).
  destruct (negb (ret =? 0)); [ now apply safe_ok | ]. destruct names as [ | main more ]; [ now apply safe_ok | ]. destruct (eof t p1); [ now apply safe_ok | ]. cbv zeta. destruct (find_instance _ _ _); [ now apply safe_ok | ].
  destruct (settings_safe t T (S (length (t_data t))) p1 (SettingsModel.settings_new MAX_SETTINGS) L1) as (ret2 & s2 & p2 & R2 & P2 & L2).
  { split; [ reflexivity | ]. unfold SettingsModel.settings_new, zlen. cbn [SettingsModel.t_list length]. lia. }
  { pose proof (loc_range _ _ L1). unfold t_size, zlen in *. lia. }
  rewrite R2. cbn [bind]. apply safe_ok; [ lia | exact L2 ].
Qed.

Lemma any_safe t p c : t_nul t = true -> other_ok other t -> located t p -> eof t p = false ->
  match parse_any other t p c with Ok (_, _, p') => p_pos p < p_pos p' /\ located t p' | Ub => False | Bug => missing_name (t_data t) end.
Proof.
  intros T O L E. unfold parse_any. unfold eof in E. destruct (spaces_safe t p L) as (p1 & R1 & P1 & L1). rewrite R1. cbn [bind].
  pose proof (loc_range _ _ L1) as B1. destruct (eof t p1) eqn:E1; unfold eof in E1; [ split; [ lia | exact L1 ] | ]. pose proof (rd_in t (p_pos p1) ltac:(lia)) as R. rewrite R. cbn [bind]. set (x := nth _ _ _) in *. cbv zeta. cbn [set_pos p_pos].
  fold (set_pos p1 (p_pos p1 + 1)).
  assert (L2 : is_newline x = false -> located t (set_pos p1 (p_pos p1 + 1))) by (intros; apply located_step; [ exact L1 | lia | assumption ]).
  assert (Sp : is_spaces x = false \/ is_newline x = false).
  { right. destruct (ignore_ok t is_spaces p eq_refl (loc_range _ _ L)) as (q & Rq & Pq & _). unfold ignore_spaces in R1. rewrite R1 in Rq. injection Rq as <-.
    destruct (is_newline x) eqn:Nx; [ | reflexivity ]. exfalso.
    assert (Hx : at_ t p1 = x :: from t (p_pos p1 + 1)) by (unfold x; apply from_cons; lia).
    destruct (leading_split is_spaces (at_ t p)) as (r & Sr). assert (A1 : at_ t p1 = r) by (rewrite Pq; eapply from_app; [ exact (proj1 (loc_range _ _ L)) | exact Sr ]).
    rewrite <- A1, Hx in Sr. assert (Nsp : is_spaces x = false).
    { clear -Sr. revert Sr. generalize (from t (p_pos p1 + 1)). generalize (at_ t p). induction l as [ | c l IH ]; intros l' Sr; cbn [leading] in Sr; [ discriminate | ].
      destruct (is_spaces c) eqn:Q; cbn [app] in Sr; [ apply (f_equal (@tl Z)) in Sr; cbn [tl] in Sr; eauto | ]. apply (f_equal (hd 0)) in Sr. cbn [hd] in Sr. congruence. }
    unfold is_spaces in Nsp. rewrite Nx, orb_true_r in Nsp. discriminate. }
  assert (Nx : is_newline x = false).
  { destruct Sp as [ Sp | Sp ]; [ | exact Sp ]. unfold is_spaces in Sp. apply orb_false_iff in Sp. tauto. }
  specialize (L2 Nx).
  destruct (p_pos p1 + 1 <? t_size t) eqn:Q; [ | split; [ cbn [set_pos p_pos]; lia | exact L2 ] ].
  destruct (x =? 35).
  { destruct (comment_safe t _ T L2) as (p3 & R3 & P3 & L3 & _). rewrite R3. cbn [bind]. cbn [set_pos p_pos] in P3. split; [ lia | exact L3 ]. }
  destruct (_ || _).
  { destruct (O x _ L2) as (ret & p3 & R3 & P3 & L3). rewrite R3. cbn [bind]. cbn [set_pos p_pos] in P3. split; [ lia | exact L3 ]. }
  destruct (Z.eqb_spec x 91) as [ Hx | Hx ]; [ | split; [ cbn [set_pos p_pos]; lia | exact L2 ] ].
  pose proof (block_safe t _ c T L2 (bracket_step t p1 L1 ltac:(rewrite R; congruence) ltac:(lia))) as S. unfold safe in S. destruct (parse_block _ _ _) as [ [ [ret c'] p3 ] | | ]; auto.
  destruct S as (S & L3). cbn [set_pos p_pos] in S. split; [ lia | exact L3 ].
Qed.
Lemma loop_safe t : t_nul t = true -> other_ok other t -> forall fuel p c, located t p -> t_size t - p_pos p < Z.of_nat fuel -> safe t p (parse_loop other fuel t p c).
Proof.
  intros T O. induction fuel as [ | fuel IH ]; intros p c L Hf; [ pose proof (loc_range _ _ L); lia | ]. cbn [parse_loop].
  destruct (eof t p) eqn:E; [ apply safe_ok; [ lia | exact L ] | ]. pose proof (any_safe t p c T O L E) as A. destruct (parse_any other t p c) as [ [ [ret c'] p1 ] | | ]; cbn [bind]; auto. destruct A as (P1 & L1).
  destruct (negb (ret =? 0)); [ apply safe_ok; [ lia | exact L1 ] | ]. specialize (IH p1 c' L1 ltac:(lia)). unfold safe in *. destruct (parse_loop other fuel t p1 c') as [ [ [ret2 c2] p2 ] | | ]; auto. destruct IH. split; [ lia | assumption ].
Qed.
Theorem parse_safe t : t_nul t = true -> t_size t < 2^32 -> other_ok other t ->
  match parse_string other t with Ok _ => True | Ub => False | Bug => missing_name (t_data t) end.
Proof.
  intros T H O. unfold parse_string, config_parse_string. pose proof (loop_safe t T O (S (length (t_data t))) pos_init [] (located_init t)) as S.
  assert (X : t_size t - p_pos pos_init < Z.of_nat (Datatypes.S (length (t_data t)))) by (unfold t_size, zlen; change (p_pos pos_init) with 0; lia). specialize (S X). unfold safe in S.
  destruct (parse_loop _ _ _ _ _) as [ [ [ret c] p ] | | ]; cbn [bind]; auto. destruct S as (_ & L).
  destruct (negb (ret =? 0)) eqn:R; [ | exact I ]. pose proof (location_ok t p T L H) as M. cbv zeta in M. rewrite M. exact I.
Qed.
End Safe.

(** * Findings *)
Section Findings.
Variable other : Z -> text -> pos -> res (Z * pos).
Lemma missing_aborts b e rest : blank b -> e = 91 \/ e = 93 -> parse_string other (mk_text (91 :: b ++ e :: rest) true) = Bug.
Proof.
  intros B He. set (t := mk_text (91 :: b ++ e :: rest) true). assert (Es : is_spaces e = false) by (destruct He; subst; reflexivity).
  assert (A : at_ t pos_init = 91 :: b ++ e :: rest) by reflexivity. pose proof (located_init t) as L.
  destruct (rd_at _ _ _ _ L A) as (R & Hs).
  assert (A1 : from t (p_pos pos_init + 1) = b ++ e :: rest) by (eapply at_next; eauto).
  assert (L1 : located t (set_pos pos_init (p_pos pos_init + 1))).
  { replace (p_pos pos_init + 1) with (p_pos pos_init + zlen [91]) by reflexivity. eapply located_plain; [ exact L | exact A | repeat constructor ]. }
  assert (Hs1 : p_pos pos_init + 1 < t_size t).
  { change (p_pos pos_init) with 0. unfold t_size. cbn [t t_data]. rewrite zlen_cons, zlen_app, zlen_cons. pose proof (zlen_nonneg _ b). pose proof (zlen_nonneg _ rest). lia. }
  unfold parse_string, config_parse_string. cbn [parse_loop]. rewrite (eof_at _ _ L), A. unfold parse_any.
  destruct (spaces_at t pos_init [] _ L A ltac:(constructor) eq_refl) as (p0 & R0 & A0 & L0 & P0). rewrite (loc_unique t p0 pos_init L0 L ltac:(change (zlen (@nil Z)) with 0 in P0; lia)) in R0. rewrite R0. cbn [bind].
  rewrite (eof_at _ _ L), A, R. cbn [bind]. cbv zeta. cbn [set_pos p_pos]. fold (set_pos pos_init (p_pos pos_init + 1)). destruct (Z.ltb_spec (p_pos pos_init + 1) (t_size t)); [ | lia ].
  change (91 =? 35) with false. change ((91 =? 123) || (91 =? 60) || (91 =? 40)) with false. change (91 =? 91) with true. cbv iota. unfold parse_block, extract_name_with_subscript. cbn [subscript_loop].
  destruct (spaces_at t _ b (e :: rest) L1 A1 B Es) as (p2 & R2 & A2 & L2 & P2). rewrite R2. cbn [bind]. rewrite (eof_at _ _ L2), A2.
  rewrite match_letters_ok by (apply loc_range; assumption). cbv zeta. cbn [bind]. rewrite A2. cbn [leading]. replace (match_char MATCH_NAME e) with false by (destruct He; subst; reflexivity). change (zlen (@nil Z)) with 0. rewrite !Z.add_0_r, set_pos_same.
  destruct (spaces_at t p2 [] (e :: rest) L2 A2 ltac:(constructor) Es) as (p3 & R3 & A3 & L3 & P3). rewrite (loc_unique t p3 p2 L3 L2 ltac:(change (zlen (@nil Z)) with 0 in P3; lia)) in R3. rewrite R3. cbn [bind].
  destruct (rd_at _ _ _ _ L2 A2) as (R4 & _). rewrite R4. cbn [bind]. rewrite (eof_at _ _ L2), A2. cbn [orb]. replace (negb (e =? 93) && negb (e =? 91)) with false by (destruct He; subst; reflexivity).
  unfold name_length. replace (p_pos p2 - 1 <? p_pos p2) with true by lia. reflexivity.
Qed.

Lemma truncated_accepted c b : blank (c :: b) -> parse_string other (mk_text (91 :: c :: b) true) = Ok (Some []).
Proof.
  intros B. set (t := mk_text (91 :: c :: b) true).
  assert (A : at_ t pos_init = 91 :: c :: b) by reflexivity. pose proof (located_init t) as L.
  destruct (rd_at _ _ _ _ L A) as (R & Hs).
  assert (A1 : from t (p_pos pos_init + 1) = (c :: b) ++ []) by (rewrite app_nil_r; eapply at_next; eauto).
  assert (L1 : located t (set_pos pos_init (p_pos pos_init + 1))).
  { replace (p_pos pos_init + 1) with (p_pos pos_init + zlen [91]) by reflexivity. eapply located_plain; [ exact L | exact A | repeat constructor ]. }
  assert (Hs1 : p_pos pos_init + 1 < t_size t).
  { change (p_pos pos_init) with 0. unfold t_size. cbn [t t_data]. rewrite !zlen_cons. pose proof (zlen_nonneg _ b). lia. }
  unfold parse_string, config_parse_string. change (length (t_data t)) with (S (S (length b))). cbn [parse_loop]. rewrite (eof_at _ _ L), A. unfold parse_any at 1.
  destruct (spaces_at t pos_init [] _ L A ltac:(constructor) eq_refl) as (p0 & R0 & A0 & L0 & P0). rewrite (loc_unique t p0 pos_init L0 L ltac:(change (zlen (@nil Z)) with 0 in P0; lia)) in R0. rewrite R0. cbn [bind].
  rewrite (eof_at _ _ L), A, R. cbn [bind]. cbv zeta. cbn [set_pos p_pos]. fold (set_pos pos_init (p_pos pos_init + 1)). destruct (Z.ltb_spec (p_pos pos_init + 1) (t_size t)); [ | lia ].
  change (91 =? 35) with false. change ((91 =? 123) || (91 =? 60) || (91 =? 40)) with false. change (91 =? 91) with true. cbv iota. unfold parse_block, extract_name_with_subscript. cbn [subscript_loop].
  destruct (spaces_at t _ (c :: b) [] L1 A1 B I) as (p2 & R2 & A2 & L2 & P2). rewrite R2. cbn [bind]. assert (E2 : eof t p2 = true) by (rewrite (eof_at _ _ L2), A2; reflexivity). rewrite E2. cbn [bind].
  change (negb (0 =? 0)) with false. cbv iota. cbn [bind]. change (negb (0 =? 0)) with false. cbv iota. rewrite E2. reflexivity.
Qed.

Lemma unended_refused n : name_ok n -> zlen n < 2^31 -> parse_string other (mk_text (91 :: n ++ [93]) true) = Ok None.
Proof.
  intros N Hn. set (t := mk_text (91 :: n ++ [93]) true).
  assert (A : at_ t pos_init = 91 :: n ++ [93]) by reflexivity. pose proof (located_init t) as L.
  destruct (rd_at _ _ _ _ L A) as (R & Hs).
  assert (A1 : from t (p_pos pos_init + 1) = r_names (mk_frame [] [] [] [] [] (mk_gap [] [])) n None ++ []).
  { rewrite app_nil_r. eapply at_next; [ exact L | ]. rewrite A. reflexivity. }
  assert (L1 : located t (set_pos pos_init (p_pos pos_init + 1))).
  { replace (p_pos pos_init + 1) with (p_pos pos_init + zlen [91]) by reflexivity. eapply located_plain; [ exact L | exact A | repeat constructor ]. }
  assert (Sz : t_size t = zlen n + 2) by (unfold t_size; cbn [t t_data]; rewrite !zlen_cons, zlen_app; change (zlen [93]) with 1; lia).
  pose proof (zlen_nonneg _ n).
  destruct (names_at t (set_pos pos_init (p_pos pos_init + 1)) _ n None [] eq_refl L1 A1 (Forall_nil _) (Forall_nil _) (Forall_nil _) (Forall_nil _) (Forall_nil _) N I) as (p2 & R2 & A2 & L2 & P2).
  unfold parse_string, config_parse_string. cbn [parse_loop]. rewrite (eof_at _ _ L), A. unfold parse_any at 1.
  destruct (spaces_at t pos_init [] _ L A ltac:(constructor) eq_refl) as (p0 & R0 & A0 & L0 & P0). rewrite (loc_unique t p0 pos_init L0 L ltac:(change (zlen (@nil Z)) with 0 in P0; lia)) in R0. rewrite R0. cbn [bind].
  rewrite (eof_at _ _ L), A, R. cbn [bind]. cbv zeta. cbn [set_pos p_pos]. fold (set_pos pos_init (p_pos pos_init + 1)). change (p_pos pos_init) with 0 in *. destruct (Z.ltb_spec (0 + 1) (t_size t)); [ | lia ].
  change (91 =? 35) with false. change ((91 =? 123) || (91 =? 60) || (91 =? 40)) with false. change (91 =? 91) with true. cbv iota. unfold parse_block. rewrite R2. cbn [bind]. change (negb (0 =? 0)) with false. cbv iota.
  assert (E2 : eof t p2 = true) by (rewrite (eof_at _ _ L2), A2; reflexivity). rewrite E2. cbn [bind]. change (negb (1 =? 0)) with true. cbv iota.
  pose proof (location_ok t p2 eq_refl L2 ltac:(lia)) as M. cbv zeta in M. cbn [bind]. change (negb (1 =? 0)) with true. cbv iota. rewrite M. reflexivity.
Qed.
End Findings.
