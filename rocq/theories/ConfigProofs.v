From Coq Require Import ZArith List Bool Lia.
From Verif Require Import Common ParseModel ParseSpec ParseProofs ConfigModel ConfigSpec.
From Verif Require SettingsModel SettingsSpec SettingsProofs.
Import ListNotations.
Open Scope Z_scope.

(** The text from a position. *)
Notation at_ t p := (from t (p_pos p)).
Definition stops (r : list Z) : Prop := match r with [] => True | c :: _ => is_spaces c = false end.

Lemma loc_range t p : located t p -> 0 <= p_pos p <= t_size t.
Proof. now intros (H & _). Qed.
Lemma eof_at t p : located t p -> eof t p = match at_ t p with [] => true | _ => false end.
Proof.
  intros L. pose proof (loc_range _ _ L). unfold eof. destruct (Z.leb_spec (t_size t) (p_pos p)).
  - now rewrite from_end by lia.
  - rewrite from_cons by lia. reflexivity.
Qed.
Lemma rd_at t p c r : located t p -> at_ t p = c :: r -> rd t (p_pos p) = Ok c /\ p_pos p < t_size t.
Proof.
  intros L E. pose proof (loc_range _ _ L). assert (p_pos p < t_size t).
  { destruct (Z.eq_dec (p_pos p) (t_size t)) as [ Q | ]; [ | lia ]. rewrite from_end in E by lia. discriminate. }
  split; [ | assumption ]. rewrite rd_in by lia. rewrite from_cons in E by lia. congruence.
Qed.
Lemma at_next t p c r : located t p -> at_ t p = c :: r -> from t (p_pos p + 1) = r.
Proof. intros L E. pose proof (loc_range _ _ L). destruct (rd_at _ _ _ _ L E). rewrite from_cons in E by lia. congruence. Qed.

Lemma leading_stop f l r : Forall (fun c => f c = true) l -> match r with [] => True | c :: _ => f c = false end -> leading f (l ++ r) = l.
Proof.
  induction l as [ | a l IH ]; cbn [app]; intros F H.
  - destruct r; cbn [leading]; [ reflexivity | now rewrite H ].
  - inversion F; subst. cbn [leading]. rewrite H2, IH; auto.
Qed.

Lemma spaces_at t p bl r : located t p -> at_ t p = bl ++ r -> blank bl -> stops r ->
  exists p', ignore_spaces t p = Ok p' /\ at_ t p' = r /\ located t p' /\ p_pos p' = p_pos p + zlen bl.
Proof.
  intros L E B S. pose proof (loc_range _ _ L) as Hp. destruct (ignore_ok t is_spaces p eq_refl Hp) as (p' & R & P & L'). exists p'. split; [ exact R | ].
  rewrite E, leading_stop in P by auto. split; [ | auto ]. rewrite P. eapply from_app; [ lia | exact E ].
Qed.

Lemma comment_at t p tx nl bl r : t_nul t = true -> located t p -> at_ t p = tx ++ nl :: bl ++ r -> no_newline tx -> is_newline nl = true -> blank bl -> stops r ->
  exists p', comment t p = Ok p' /\ at_ t p' = r /\ located t p' /\ p_pos p' = p_pos p + zlen tx + 1 + zlen bl.
Proof.
  intros T L E N NL B S. pose proof (loc_range _ _ L) as Hp. destruct (comment_ok t p Hp T) as (p' & R & P & L'). exists p'. split; [ exact R | ].
  cbv zeta in P. rewrite E, leading_stop in P; [ | | cbn; now rewrite NL ].
  2:{ eapply Forall_impl; [ | exact N ]. cbn beta. intros c Hc. now rewrite Hc. }
  assert (E2 : from t (p_pos p + zlen tx) = (nl :: bl) ++ r) by (eapply from_app; [ lia | exact E ]).
  assert (B2 : blank (nl :: bl)) by (constructor; [ unfold is_spaces; rewrite NL; apply orb_true_r | exact B ]).
  rewrite E2, leading_stop in P by auto. rewrite zlen_cons in P. split; [ | split; [ auto | lia ] ].
  replace (p_pos p') with (p_pos p + zlen tx + zlen (nl :: bl)) by (rewrite zlen_cons; lia). eapply from_app; [ pose proof (zlen_nonneg _ tx); lia | exact E2 ].
Qed.

(** What remains of a gap after its blanks. *)
Definition r_comments (cs : list (list Z * Z * list Z)) : list Z := concat (map r_comment cs).
Lemma comments_stop cs r : stops r -> stops (r_comments cs ++ r).
Proof. intros S. destruct cs as [ | ((tx, nl), bl) cs ]; [ exact S | reflexivity ]. Qed.

Lemma skip_comments_at t : t_nul t = true -> forall cs r p fuel, located t p -> at_ t p = r_comments cs ++ r ->
  Forall (fun '(text, nl, blanks) => no_newline text /\ is_newline nl = true /\ blank blanks) cs ->
  (length cs < fuel)%nat -> match r with [] => cs <> [] | c :: _ => is_spaces c = false /\ c <> 35 end ->
  exists p', skip_comments fuel t p = Ok p' /\ at_ t p' = r /\ located t p' /\ p_pos p <= p_pos p'.
Proof.
  intros T. induction cs as [ | ((tx, nl), bl) cs IH ]; intros r p [ | fuel ] L E F Hf Hr; cbn [length] in Hf; try lia; cbn [skip_comments].
  - cbn [r_comments map concat app] in E. destruct r as [ | c r ]; [ congruence | ]. destruct (rd_at _ _ _ _ L E) as (R & _). rewrite R. cbn [bind]. destruct (Z.eqb_spec c 35); [ tauto | ]. exists p. auto using Z.le_refl.
  - apply Forall_cons_iff in F; cbn beta iota in F; destruct F as ((F1 & F2 & F3) & F4). cbn [r_comments map concat] in E. fold (r_comments cs) in E. cbn [r_comment] in E. rewrite <- app_assoc in E. cbn [app] in E.
    destruct (rd_at _ _ _ _ L E) as (R & _). rewrite R. cbn [bind]. change (35 =? 35) with true. cbv iota.
    assert (E2 : at_ t p = (35 :: tx) ++ nl :: bl ++ (r_comments cs ++ r)) by (rewrite E; cbn [app]; rewrite <- app_assoc; cbn [app]; reflexivity).
    assert (S : stops (r_comments cs ++ r)) by (apply comments_stop; destruct r; [ exact I | exact (proj1 Hr) ]).
    destruct (comment_at t p (35 :: tx) nl bl (r_comments cs ++ r) T L E2) as (p' & C & A & L' & P); auto.
    { constructor; [ reflexivity | exact F1 ]. }
    rewrite C. cbn [bind]. rewrite (eof_at _ _ L'), A. destruct (r_comments cs ++ r) as [ | c0 r0 ] eqn:Q.
    + apply app_eq_nil in Q. destruct Q as (Q1 & ->). exists p'. split; [ reflexivity | ]. split; [ now rewrite A | ]. split; [ exact L' | ].
      pose proof (zlen_nonneg _ (35 :: tx)). pose proof (zlen_nonneg _ bl). lia.
    + destruct (IH r p' fuel) as (p2 & R2 & A2 & L2 & P2); auto; [ now rewrite A, Q | lia | | ].
      { destruct r as [ | c r ]; [ | tauto ]. intros ->. cbn in Q. discriminate. }
      exists p2. rewrite R2. split; [ reflexivity | ]. split; [ exact A2 | ]. split; [ exact L2 | ]. pose proof (zlen_nonneg _ (35 :: tx)). pose proof (zlen_nonneg _ bl). lia.
Qed.

Lemma gap_len cs r t p : located t p -> at_ t p = r_comments cs ++ r -> (length cs < S (length (t_data t)))%nat.
Proof.
  intros L E. assert (H : (length cs <= length (at_ t p))%nat).
  { rewrite E, app_length. unfold r_comments. clear. induction cs as [ | ((tx, nl), bl) cs IH ]; cbn [map concat length r_comment app]; [ lia | ]. rewrite !app_length. lia. }
  unfold from in H. rewrite skipn_length in H. lia.
Qed.

Lemma rd_from t b l1 c l2 : 0 <= b <= t_size t -> from t b = l1 ++ c :: l2 -> rd t (b + zlen l1) = Ok c /\ b + zlen l1 < t_size t.
Proof.
  intros Hb E. pose proof (zlen_nonneg _ l1). pose proof (from_app t b l1 (c :: l2) ltac:(lia) E) as E2.
  assert (Len : zlen (from t b) = t_size t - b) by (apply from_len; lia). rewrite E, zlen_app, zlen_cons in Len. pose proof (zlen_nonneg _ l2).
  split; [ | lia ]. rewrite rd_in by lia. rewrite from_cons in E2 by lia. congruence.
Qed.

Lemma trim_end_at t b v aft rest : 0 <= b <= t_size t -> from t b = v ++ aft ++ rest -> blank_inline aft -> (exists r c, v = r ++ [c] /\ is_space_tab c = false) ->
  forall fuel, (length aft < fuel)%nat -> trim_end fuel t b (b + zlen v + zlen aft - 1) = Ok (b + zlen v - 1).
Proof.
  intros Hb. revert rest. induction aft as [ | a aft IH ] using rev_ind; intros rest E B (r & c & V & C) fuel Hf; rewrite ?app_length in Hf; cbn [length] in Hf; destruct fuel as [ | f ]; try lia; cbn [trim_end].
  - change (zlen (@nil Z)) with 0. replace (b + zlen v + 0 - 1) with (b + zlen v - 1) by lia.
    destruct (Z.ltb_spec b (b + zlen v - 1)); [ | reflexivity ].
    assert (E2 : from t b = r ++ c :: rest) by (rewrite E, V; rewrite <- app_assoc; reflexivity).
    destruct (rd_from t b r c rest Hb E2) as (R & _). replace (b + zlen v - 1) with (b + zlen r) by (rewrite V, zlen_app; change (zlen [c]) with 1; lia). rewrite R. cbn [bind]. now rewrite C.
  - apply Forall_app in B. destruct B as (B1 & B2). inversion B2; subst. rewrite (zlen_app _ aft [a]). change (zlen [a]) with 1.
    assert (0 < zlen (r ++ [c])) by (rewrite zlen_app; change (zlen [c]) with 1; pose proof (zlen_nonneg _ r); lia). pose proof (zlen_nonneg _ aft).
    replace (b <? b + zlen (r ++ [c]) + (zlen aft + 1) - 1) with true by lia.
    assert (E2 : from t b = ((r ++ [c]) ++ aft) ++ a :: rest) by (rewrite E; rewrite <- !app_assoc; reflexivity).
    destruct (rd_from t b ((r ++ [c]) ++ aft) a rest Hb E2) as (R & _). rewrite (zlen_app _ (r ++ [c]) aft) in R.
    replace (b + zlen (r ++ [c]) + (zlen aft + 1) - 1) with (b + (zlen (r ++ [c]) + zlen aft)) by lia. rewrite R. cbn [bind]. rewrite H1.
    replace (b + (zlen (r ++ [c]) + zlen aft) - 1) with (b + zlen (r ++ [c]) + zlen aft - 1) by lia.
    apply IH with (a :: rest); auto; [ | eauto | lia ]. rewrite E. rewrite <- !app_assoc. reflexivity.
Qed.

Lemma cstr_id v : ~ In 0 v -> cstr v = v.
Proof. induction v as [ | c v IH ]; cbn [cstr In]; intros H; [ reflexivity | ]. destruct (Z.eqb_spec c 0); [ tauto | ]. rewrite IH by tauto. reflexivity. Qed.

Lemma copy_from t b v rest : 0 <= b <= t_size t -> from t b = v ++ rest -> copy t b (Z.to_nat (zlen v)) = Ok v.
Proof.
  intros Hb E. assert (Len : zlen (from t b) = t_size t - b) by (apply from_len; lia). rewrite E, zlen_app in Len. pose proof (zlen_nonneg _ rest).
  replace (Z.to_nat (zlen v)) with (length v) by (unfold zlen; lia). rewrite copy_ok by (unfold zlen in *; lia). rewrite E, firstn_app, firstn_all, Nat.sub_diag. cbn [firstn]. now rewrite app_nil_r.
Qed.

Lemma line_same t p p' l r : located t p -> located t p' -> at_ t p = l ++ r -> p_pos p' = p_pos p + zlen l -> no_newline l -> p_line p' = p_line p.
Proof.
  intros L L' E P N. pose proof (located_plain t p l r L E N) as Q. destruct Q as (_ & Q & _). destruct L' as (_ & L' & _). cbn [set_pos p_line p_pos] in Q. rewrite L', P. rewrite <- Q. reflexivity.
Qed.

Lemma name_head n r : name_ok n -> exists c m, n ++ r = c :: m /\ is_spaces c = false /\ c <> 35 /\ c <> 91.
Proof.
  intros (N & F). destruct n as [ | c n ]; [ congruence | ]. inversion F; subst. exists c, (n ++ r). split; [ reflexivity | ]. rewrite <- name_octet_eq in H1. split; [ now apply name_not_space | ].
  split; intros ->; vm_compute in H1; discriminate.
Qed.

Lemma inline_spaces l : blank_inline l -> blank l.
Proof. apply Forall_impl. intros c H. unfold is_spaces. now rewrite H. Qed.
Lemma inline_newline l : blank_inline l -> no_newline l.
Proof. apply Forall_impl. intros c H. unfold is_space_tab, is_newline in *. destruct (Z.eqb_spec c 32), (Z.eqb_spec c 9); subst; try discriminate; reflexivity. Qed.

Lemma setting_at t p a n v r s s' : t_nul t = true -> located t p -> at_ t p = r_setting (a, (n, v)) ++ r -> setting_ok (a, (n, v)) ->
  SettingsModel.add_string s n v = SettingsModel.Ok (0, s') ->
  exists p', parse_setting t p s = Ok (0, true, s', p') /\ at_ t p' = a_nl a :: r /\ located t p' /\ p_pos p < p_pos p'.
Proof.
  intros T L E (G & B1 & B2 & B3 & NL & N & Nl & V) Add. destruct G as (G1 & G2). cbn [r_setting] in E. unfold r_gap in E. fold (r_comments (g_comments (a_gap a))) in E.
  rewrite <- !app_assoc in E. cbn [app] in E. rewrite <- !app_assoc in E. cbn [app] in E.
  set (after_eq := a_before a ++ v ++ a_after a ++ a_nl a :: r) in *.
  destruct (name_head n (a_eq a ++ 61 :: after_eq) N) as (c & m & H1 & H2 & H3 & _).
  assert (S1 : stops (n ++ a_eq a ++ 61 :: after_eq)) by (rewrite H1; exact H2).
  unfold parse_setting.
  destruct (spaces_at t p _ _ L E G1 (comments_stop _ _ S1)) as (p1 & R1 & A1 & L1 & P1). rewrite R1. cbn [bind].
  rewrite (eof_at _ _ L1), A1.
  assert (Q1 : match r_comments (g_comments (a_gap a)) ++ n ++ a_eq a ++ 61 :: after_eq with [] => true | _ => false end = false).
  { rewrite H1. destruct (r_comments (g_comments (a_gap a))); reflexivity. }
  rewrite Q1.
  destruct (skip_comments_at t T (g_comments (a_gap a)) (n ++ a_eq a ++ 61 :: after_eq) p1 (S (length (t_data t))) L1 A1 G2 (gap_len _ _ _ _ L1 A1)) as (p2 & R2 & A2 & L2 & P2).
  { rewrite H1. auto. }
  rewrite R2. cbn [bind]. rewrite (eof_at _ _ L2), A2, H1.
  destruct (name_complete t p2 61 [] n (a_eq a) after_eq (loc_range _ _ L2) eq_refl eq_refl A2 (Forall_nil _)) as (p3 & R3 & P3 & L3); [ now apply name_octets, (proj2 N) | exact (proj1 N) | exact B1 | ].
  specialize (L3 L2). rewrite R3. cbn [bind]. change (negb (0 =? 0)) with false. cbv iota zeta.
  assert (A3 : at_ t p3 = after_eq).
  { replace (p_pos p3) with (p_pos p2 + zlen (n ++ a_eq a ++ [61])) by (rewrite !zlen_app; change (zlen [61]) with 1; change (zlen (@nil Z)) with 0 in P3; lia).
    eapply from_app; [ pose proof (loc_range _ _ L2); lia | ]. rewrite A2. rewrite <- !app_assoc. reflexivity. }
  destruct V as (V1 & V2 & (vc & vr & V3 & V3') & V4).
  assert (Vn : is_spaces vc = false).
  { rewrite V3 in V1. inversion V1; subst. unfold is_spaces. now rewrite V3', H4. }
  destruct (spaces_at t p3 (a_before a) (v ++ a_after a ++ a_nl a :: r) L3 A3 (inline_spaces _ B2)) as (p4 & R4 & A4 & L4 & P4); [ rewrite V3; exact Vn | ].
  rewrite R4. cbn [bind]. rewrite (eof_at _ _ L4), A4. assert (Q2 : match v ++ a_after a ++ a_nl a :: r with [] => true | _ => false end = false) by (rewrite V3; reflexivity). rewrite Q2.
  rewrite (line_same t p3 p4 (a_before a) _ L3 L4 A3 P4 (inline_newline _ B2)). rewrite Z.eqb_refl. cbn [negb].
  pose proof (loc_range _ _ L4) as Rg. rewrite non_newline_ok by auto. cbv zeta. cbn [bind].
  assert (Ld : leading (fun c => negb (is_newline c)) (at_ t p4) = v ++ a_after a).
  { rewrite A4. rewrite app_assoc. apply leading_stop; [ | cbn; now rewrite NL ]. apply Forall_app. split.
    - eapply Forall_impl; [ | exact V1 ]. cbn beta. intros x Hx. now rewrite Hx.
    - eapply Forall_impl; [ | exact (inline_newline _ B3) ]. cbn beta. intros x Hx. now rewrite Hx. }
  rewrite Ld, zlen_app. replace (p_pos p4 + (zlen v + zlen (a_after a)) - 1) with (p_pos p4 + zlen v + zlen (a_after a) - 1) by lia.
  assert (Lf : (length (a_after a) < S (length (t_data t)))%nat).
  { assert (length (a_after a) <= length (at_ t p4))%nat by (rewrite A4, !app_length; lia). unfold from in H. rewrite skipn_length in H. lia. }
  rewrite (trim_end_at t (p_pos p4) v (a_after a) _ Rg A4 B3 V4 _ Lf). cbn [bind].
  assert (Vl : 0 < zlen v) by (rewrite V3, zlen_cons; pose proof (zlen_nonneg _ vr); lia).
  replace (p_pos p4 + zlen v - 1 <? p_pos p4) with false by lia. unfold name_length. replace (p_pos p4 + zlen v - 1 <? p_pos p4) with false by lia. cbn [bind].
  replace (p_pos p4 + zlen v - 1 - p_pos p4 + 1) with (zlen v) by lia. unfold str_extract. replace (zlen v =? 0) with false by lia.
  rewrite (copy_from t (p_pos p4) v _ Rg A4). cbn [bind]. rewrite cstr_id by assumption. rewrite Add. cbn [lift bind]. change (negb (0 =? 0)) with false. cbv iota.
  eexists. split; [ reflexivity | ]. cbn [set_pos p_pos].
  assert (A5 : from t (p_pos p4 + (zlen v + zlen (a_after a))) = a_nl a :: r).
  { rewrite <- zlen_app. eapply from_app; [ lia | ]. rewrite A4. now rewrite <- app_assoc. }
  split; [ exact A5 | ]. split.
  - apply located_plain with (l := v ++ a_after a) (r := a_nl a :: r) in L4; [ rewrite zlen_app in L4; exact L4 | rewrite A4; now rewrite <- app_assoc | apply Forall_app; split; [ exact V1 | exact (inline_newline _ B3) ] ].
  - pose proof (zlen_nonneg _ (g_blanks (a_gap a))). pose proof (zlen_nonneg _ n). pose proof (zlen_nonneg _ (a_eq a)). pose proof (zlen_nonneg _ (a_before a)). pose proof (zlen_nonneg _ (a_after a)).
    change (zlen (@nil Z)) with 0 in P3. lia.
Qed.

(** No setting follows. *)
Lemma no_setting_at t p g r s : t_nul t = true -> located t p -> at_ t p = r_gap g ++ r -> gap_ok g -> match r with [] => True | c :: _ => c = 91 end ->
  exists p', parse_setting t p s = Ok (0, false, s, p') /\ at_ t p' = r /\ located t p' /\ p_pos p <= p_pos p'.
Proof.
  intros T L E (G1 & G2) Hr. unfold r_gap in E. fold (r_comments (g_comments g)) in E. rewrite <- app_assoc in E.
  assert (S1 : stops r) by (destruct r; [ exact I | subst; reflexivity ]).
  unfold parse_setting. destruct (spaces_at t p _ _ L E G1 (comments_stop _ _ S1)) as (p1 & R1 & A1 & L1 & P1). rewrite R1. cbn [bind]. pose proof (zlen_nonneg _ (g_blanks g)).
  rewrite (eof_at _ _ L1), A1. destruct (r_comments (g_comments g) ++ r) as [ | c0 r0 ] eqn:Q.
  - apply app_eq_nil in Q. destruct Q as (_ & ->). exists p1. rewrite A1. split; [ reflexivity | ]. split; [ reflexivity | ]. split; [ exact L1 | lia ].
  - rewrite <- Q in A1. destruct (skip_comments_at t T (g_comments g) r p1 (S (length (t_data t))) L1 A1 G2 (gap_len _ _ _ _ L1 A1)) as (p2 & R2 & A2 & L2 & P2).
    { destruct r as [ | c r ]; [ intros Z; rewrite Z in Q; discriminate | ]. subst c. split; [ reflexivity | discriminate ]. }
    rewrite R2. cbn [bind]. rewrite (eof_at _ _ L2), A2. destruct r as [ | c r ]; [ exists p2; split; [ reflexivity | ]; split; [ exact A2 | ]; split; [ exact L2 | lia ] | ]. subst c.
    unfold extract_name. destruct (spaces_at t p2 [] (91 :: r) L2 A2 (Forall_nil _) eq_refl) as (p3 & R3 & A3 & L3 & P3). change (zlen (@nil Z)) with 0 in P3.
    rewrite R3. cbn [bind]. rewrite (eof_at _ _ L3), A3. rewrite match_letters_ok by (apply loc_range; assumption). rewrite A3. cbn [leading]. change (match_char MATCH_NAME 91) with false. cbv iota zeta.
    change (zlen (@nil Z)) with 0. cbn [bind]. replace (p_pos p3 + 0 - 1 <? p_pos p3) with true by lia. cbn [bind]. change (negb (0 =? 0)) with false. cbv iota.
    exists (set_pos p3 (p_pos p3 + 0)). split; [ reflexivity | ]. rewrite Z.add_0_r, set_pos_same.
    split; [ exact A3 | ]. split; [ exact L3 | lia ].
Qed.

(** * The settings of a block *)
Definition s_of (l : list (list Z * list Z)) : SettingsModel.settings :=
  SettingsModel.mk_settings MAX_SETTINGS (map (fun '(n, v) => SettingsModel.mk_setting n (SettingsModel.VString v)) l).
Lemma names_of l : map SettingsModel.s_name (SettingsModel.t_list (s_of l)) = map fst l.
Proof. unfold s_of. cbn [SettingsModel.t_list]. rewrite map_map. apply map_ext. now intros (n, v). Qed.
Lemma add_at l n v : ~ In n (map fst l) -> zlen l < 32 -> zlen n < 244 -> SettingsModel.add_string (s_of l) n v = SettingsModel.Ok (0, s_of (l ++ [(n, v)])).
Proof.
  intros H1 H2 H3. unfold SettingsModel.add_string, SettingsModel.add_raw.
  destruct (SettingsModel.find (SettingsModel.t_list (s_of l)) n 0) as [ (i, x) | ] eqn:F.
  { exfalso. destruct (SettingsProofs.find_some _ _ _ _ _ F) as (k & _ & E & N). apply H1. rewrite <- names_of, <- N. apply in_map. eapply nth_error_In; eauto. }
  assert (E : zlen (SettingsModel.t_list (s_of l)) = zlen l) by (unfold s_of; cbn [SettingsModel.t_list]; apply zlen_map).
  rewrite E. change (SettingsModel.t_max (s_of l)) with 32. replace (32 <? zlen l) with false by lia. replace (zlen l =? 32) with false by lia.
  unfold SettingsModel.MAX_NAME_SIZE. replace (244 <? zlen n + 1) with false by lia. unfold s_of, MAX_SETTINGS. cbn [SettingsModel.t_list]. rewrite map_app. reflexivity.
Qed.

Definition no_blanks (g : gap) : gap := mk_gap [] (g_comments g).
Lemma no_blanks_ok g : gap_ok g -> gap_ok (no_blanks g).
Proof. intros (_ & H). split; [ constructor | exact H ]. Qed.
Lemma blanks_split g : r_gap g = g_blanks g ++ r_gap (no_blanks g).
Proof. reflexivity. Qed.
Definition next_settings (ss : list (around * (list Z * list Z))) : list (around * (list Z * list Z)) :=
  match ss with [] => [] | (a, nv) :: r => (mk_around (no_blanks (a_gap a)) (a_eq a) (a_before a) (a_after a) (a_nl a), nv) :: r end.
Definition next_gap (ss : list (around * (list Z * list Z))) (g : gap) : gap := match ss with [] => no_blanks g | _ => g end.
Definition first_blanks (ss : list (around * (list Z * list Z))) (g : gap) : list Z := match ss with [] => g_blanks g | (a, _) :: _ => g_blanks (a_gap a) end.
Lemma next_render ss g r : concat (map r_setting ss) ++ r_gap g ++ r = first_blanks ss g ++ concat (map r_setting (next_settings ss)) ++ r_gap (next_gap ss g) ++ r.
Proof.
  destruct ss as [ | (a, (n, v)) ss ]; cbn [next_settings next_gap first_blanks map concat app].
  - rewrite blanks_split at 1. now rewrite <- app_assoc.
  - cbn [r_setting a_gap a_eq a_before a_after a_nl]. rewrite blanks_split at 1. rewrite <- !app_assoc. reflexivity.
Qed.
Lemma next_ok ss g : Forall setting_ok ss -> gap_ok g -> Forall setting_ok (next_settings ss) /\ gap_ok (next_gap ss g) /\ blank (first_blanks ss g) /\ map snd (next_settings ss) = map snd ss /\ length (next_settings ss) = length ss.
Proof.
  intros F G. destruct ss as [ | (a, (n, v)) ss ]; cbn [next_settings next_gap first_blanks].
  - split; [ constructor | ]. split; [ now apply no_blanks_ok | ]. split; [ exact (proj1 G) | ]. auto.
  - inversion F as [ | ? ? F1 F2 ]; subst. unfold setting_ok in F1. destruct F1 as (X1 & X2). split; [ | split; [ exact G | split; [ exact (proj1 X1) | auto ] ] ].
    constructor; [ | exact F2 ]. unfold setting_ok. cbn [a_gap a_eq a_before a_after a_nl]. split; [ now apply no_blanks_ok | exact X2 ].
Qed.
Lemma next_stops ss g r : Forall setting_ok ss -> gap_ok g -> match r with [] => True | c :: _ => c = 91 end -> stops (concat (map r_setting (next_settings ss)) ++ r_gap (next_gap ss g) ++ r).
Proof.
  intros F G Hr. assert (Sr : stops r) by (destruct r; [ exact I | subst; reflexivity ]).
  destruct ss as [ | (a, (n, v)) ss ]; cbn [next_settings next_gap map concat app].
  - unfold r_gap, no_blanks. cbn [g_blanks g_comments app]. now apply comments_stop.
  - inversion F as [ | ? ? F1 F2 ]; subst. unfold setting_ok in F1. destruct F1 as (_ & _ & _ & _ & _ & N & _).
    cbn [r_setting a_gap a_eq a_before a_after a_nl]. unfold r_gap, no_blanks at 1. cbn [g_blanks g_comments app]. rewrite <- !app_assoc. apply comments_stop.
    match goal with |- stops (n ++ ?x) => destruct (name_head n x N) as (c & m & -> & S & _) end. exact S.
Qed.

Lemma settings_at t : t_nul t = true -> forall ss g r l p fuel, located t p -> at_ t p = concat (map r_setting ss) ++ r_gap g ++ r ->
  Forall setting_ok ss -> gap_ok g -> match r with [] => True | c :: _ => c = 91 end ->
  NoDup (map fst (l ++ map snd ss)) -> zlen l + zlen ss <= 32 -> (length ss < fuel)%nat ->
  exists p', settings_loop fuel t p (s_of l) = Ok (0, s_of (l ++ map snd ss), p') /\ at_ t p' = r /\ located t p' /\ p_pos p <= p_pos p'.
Proof.
  intros T ss. remember (length ss) as k eqn:K. revert ss K. induction k as [ | k IH ]; intros ss K g r l p fuel L E F G Hr D Hl Hf; destruct fuel as [ | fuel ]; try lia; cbn [settings_loop].
  - destruct ss; [ | discriminate ]. cbn [map concat app] in *. destruct (no_setting_at t p g r (s_of l) T L E G Hr) as (p' & R & A & L' & P). rewrite R. cbn [bind]. change (negb (0 =? 0)) with false. cbv iota.
    exists p'. rewrite app_nil_r. auto.
  - destruct ss as [ | (a, (n, v)) ss ]; [ discriminate | ]. cbn [length] in K. injection K as K. inversion F as [ | ? ? F1 F2 ]; subst x l0. cbn [map concat] in E. rewrite <- app_assoc in E.
    rewrite zlen_cons in Hl. pose proof (zlen_nonneg _ ss). pose proof F1 as F1'. unfold setting_ok in F1'. destruct F1' as (_ & _ & _ & _ & NL & N & Nl & V).
    assert (Nn : ~ In n (map fst l)).
    { cbn [map snd] in D. rewrite map_app in D. cbn [map fst] in D. apply NoDup_remove_2 in D. rewrite in_app_iff in D. tauto. }
    destruct (setting_at t p a n v _ (s_of l) _ T L E F1 (add_at l n v Nn ltac:(lia) Nl)) as (p1 & R1 & A1 & L1 & P1). rewrite R1. cbn [bind]. change (negb (0 =? 0)) with false. cbv iota.
    destruct (next_ok ss g F2 G) as (O1 & O2 & O3 & O4 & O5).
    destruct (spaces_at t p1 (a_nl a :: first_blanks ss g) (concat (map r_setting (next_settings ss)) ++ r_gap (next_gap ss g) ++ r) L1) as (p2 & R2 & A2 & L2 & P2).
    { rewrite A1. cbn [app]. f_equal. apply next_render. }
    { constructor; [ unfold is_spaces; rewrite NL; apply orb_true_r | exact O3 ]. }
    { now apply next_stops. }
    rewrite R2. cbn [bind].
    destruct (IH (next_settings ss) ltac:(congruence) (next_gap ss g) r (l ++ [(n, v)]) p2 fuel L2 A2 O1 O2 Hr) as (p3 & R3 & A3 & L3 & P3).
    { rewrite O4, <- app_assoc. exact D. }
    { rewrite zlen_app. change (zlen [(n, v)]) with 1. assert (zlen (next_settings ss) = zlen ss) by (unfold zlen; lia). lia. }
    { lia. }
    exists p3. rewrite R3, O4, <- app_assoc. cbn [map snd app]. split; [ reflexivity | ]. split; [ exact A3 | ]. split; [ exact L3 | ]. rewrite zlen_cons in P2. pose proof (zlen_nonneg _ (first_blanks ss g)). lia.
Qed.

(** * The names of a block *)
Lemma level_at cb t lv p b1 n b2 e r f : t_nul t = true -> located t p -> at_ t p = b1 ++ n ++ b2 ++ e :: r -> blank b1 -> name_ok n -> blank b2 -> e = 91 \/ e = 93 ->
  cb (lv + 1) n = 0 ->
  exists p', at_ t p' = r /\ located t p' /\ p_pos p < p_pos p' /\
    subscript_loop (S f) cb t lv p 91 93 =
      if e =? 91 then
        bind (subscript_loop f cb t (lv + 1) p' 91 93) (fun '(ret, names, p) =>
          if negb (ret =? 0) then Ok (ret, n :: names, p)
          else bind (ignore_spaces t p) (fun p =>
            if eof t p then Ok (1, n :: names, p)
            else bind (rd t (p_pos p)) (fun c => if negb (c =? 93) then Ok (1, n :: names, p) else Ok (0, n :: names, set_pos p (p_pos p + 1)))))
      else Ok (0, [n], p').
Proof.
  intros T L E B1 N B2 He Cb.
  assert (Es : is_spaces e = false /\ name_octet e = false /\ is_newline e = false /\ (e =? 93) || (e =? 91) = true) by (destruct He; subst; repeat split; reflexivity).
  destruct Es as (Es & En & Enl & Ee).
  destruct (name_head n (b2 ++ e :: r) N) as (c & m & H1 & H2 & _).
  destruct (spaces_at t p b1 (n ++ b2 ++ e :: r) L E B1) as (p1 & R1 & A1 & L1 & P1); [ rewrite H1; exact H2 | ].
  assert (X2 : leading (match_char MATCH_NAME) (at_ t p1) = n).
  { rewrite A1. apply leading_stop; [ apply name_octets; exact (proj2 N) | ].
    destruct b2 as [ | x b2 ]; cbn [app]; [ change (match_char MATCH_NAME e) with (name_char e); now rewrite name_octet_eq | ]. inversion B2; subst. now apply spaces_not_name. }
  pose proof (leading_plain (match_char MATCH_NAME) t p1 L1 name_char_newline) as L2. rewrite X2 in L2.
  assert (A2 : from t (p_pos p1 + zlen n) = b2 ++ e :: r) by (eapply from_app; [ pose proof (loc_range _ _ L1); lia | exact A1 ]).
  destruct (spaces_at t (set_pos p1 (p_pos p1 + zlen n)) b2 (e :: r) L2 A2 B2 Es) as (p3 & R3 & A3 & L3 & P3). cbn [set_pos p_pos] in P3.
  destruct (rd_at _ _ _ _ L3 A3) as (R4 & _).
  exists (set_pos p3 (p_pos p3 + 1)).
  assert (Nl : 0 < zlen n) by (destruct N as (N & _); destruct n; [ congruence | rewrite zlen_cons; pose proof (zlen_nonneg _ n); lia ]).
  split; [ cbn [set_pos p_pos]; eapply at_next; eauto | ]. split.
  { replace (p_pos p3 + 1) with (p_pos p3 + zlen [e]) by reflexivity. eapply located_plain; [ exact L3 | exact A3 | repeat constructor; exact Enl ]. }
  split; [ cbn [set_pos p_pos]; pose proof (zlen_nonneg _ b1); pose proof (zlen_nonneg _ b2); lia | ].
  cbn [subscript_loop]. rewrite R1. cbn [bind]. rewrite (eof_at _ _ L1), A1, H1. rewrite match_letters_ok by (apply loc_range; assumption). cbv zeta. cbn [bind]. rewrite X2.
  rewrite R3. cbn [bind]. rewrite R4. cbn [bind]. rewrite (eof_at _ _ L3), A3. cbn [orb].
  replace (negb (e =? 93) && negb (e =? 91)) with false by (destruct (e =? 93), (e =? 91); try discriminate; reflexivity). unfold name_length.
  replace (p_pos p1 + zlen n - 1 <? p_pos p1) with false by lia. cbn [bind]. replace (p_pos p1 + zlen n - 1 - p_pos p1 + 1) with (zlen n) by lia.
  rewrite (copy_from t (p_pos p1) n (b2 ++ e :: r) (loc_range _ _ L1) A1). cbn [bind]. rewrite Cb. reflexivity.
Qed.

Lemma names_at t p f main sub r : t_nul t = true -> located t p -> at_ t p = r_names f main sub ++ r ->
  blank (f_1 f) -> blank (f_2 f) -> blank (f_3 f) -> blank (f_4 f) -> blank (f_5 f) -> name_ok main -> match sub with Some s => name_ok s | None => True end ->
  exists p', extract_name_with_subscript block_name_callback t p 91 93 = Ok (0, main :: match sub with Some s => [s] | None => [] end, p') /\ at_ t p' = r /\ located t p' /\ p_pos p < p_pos p'.
Proof.
  intros T L E B1 B2 B3 B4 B5 N1 N2. unfold extract_name_with_subscript, r_names in *.
  destruct sub as [ s | ]; rewrite <- !app_assoc in E; cbn [app] in E.
  - assert (Len : exists k, length (t_data t) = S k).
    { assert (0 < length (at_ t p))%nat by (rewrite E, !app_length; cbn [length]; lia). unfold from in H. rewrite skipn_length in H. destruct (length (t_data t)); [ lia | eauto ]. }
    destruct Len as (k & Len). rewrite Len.
    destruct (level_at block_name_callback t (-1) p (f_1 f) main (f_2 f) 91 _ (S k) T L E B1 N1 B2 (or_introl eq_refl) eq_refl) as (p1 & A1 & L1 & P1 & R1). rewrite R1. change (91 =? 91) with true. cbv iota.
    rewrite <- !app_assoc in A1. cbn [app] in A1. rewrite <- !app_assoc in A1. cbn [app] in A1.
    destruct (level_at block_name_callback t (-1 + 1) p1 (f_3 f) s (f_4 f) 93 _ k T L1 A1 B3 N2 B4 (or_intror eq_refl) eq_refl) as (p2 & A2 & L2 & P2 & R2). rewrite R2. change (93 =? 91) with false. cbv iota. cbn [bind].
    change (negb (0 =? 0)) with false. cbv iota.
    destruct (spaces_at t p2 (f_5 f) (93 :: r) L2 A2 B5 eq_refl) as (p3 & R3 & A3 & L3 & P3). rewrite R3. cbn [bind]. rewrite (eof_at _ _ L3), A3. destruct (rd_at _ _ _ _ L3 A3) as (R4 & _). rewrite R4. cbn [bind]. change (93 =? 93) with true. cbn [negb].
    exists (set_pos p3 (p_pos p3 + 1)). split; [ reflexivity | ]. split; [ eapply at_next; eauto | ]. split.
    + replace (p_pos p3 + 1) with (p_pos p3 + zlen [93]) by reflexivity. eapply located_plain; [ exact L3 | exact A3 | repeat constructor ].
    + cbn [set_pos p_pos]. pose proof (zlen_nonneg _ (f_5 f)). lia.
  - destruct (level_at block_name_callback t (-1) p (f_1 f) main (f_2 f) 93 _ (length (t_data t)) T L E B1 N1 B2 (or_intror eq_refl) eq_refl) as (p1 & A1 & L1 & P1 & R1). rewrite R1. change (93 =? 91) with false. cbv iota. eauto.
Qed.

(** * The blocks of a file *)
Definition block_of (l : laid) : block := mk_block (l_main l) (l_sub l) (map snd (l_settings l)).
Definition key (b : block) : list Z * option (list Z) := (b_main b, b_sub b).
Lemma streq_iff a b : streq a b = true <-> a = b.
Proof. apply SettingsProofs.streq_iff. Qed.
Lemma sub_eq_iff a b : sub_eq a b = true <-> a = b.
Proof. destruct a, b; cbn [sub_eq]; try (split; congruence). rewrite streq_iff. split; congruence. Qed.
Lemma find_iff bs main sub : find_instance (map instance_of bs) main sub = true <-> In (main, sub) (map key bs).
Proof.
  unfold find_instance. rewrite existsb_exists. split.
  - intros (i & Hi & E). apply in_map_iff in Hi. destruct Hi as (b & <- & Hb). apply andb_true_iff in E. rewrite streq_iff, sub_eq_iff in E. cbn [instance_of i_main i_sub] in E.
    apply in_map_iff. exists b. split; [ unfold key; destruct E; congruence | assumption ].
  - intros H. apply in_map_iff in H. destruct H as (b & E & Hb). unfold key in E. injection E as <- <-. exists (instance_of b). split; [ now apply in_map | ].
    apply andb_true_iff. rewrite streq_iff, sub_eq_iff. auto.
Qed.
Lemma after_blocks ls : match concat (map r_block ls) with [] => True | c :: _ => c = 91 end.
Proof. destruct ls; [ exact I | reflexivity ]. Qed.
Lemma gap_render_nil ss g r : Forall setting_ok ss -> (ss = [] -> r_gap g <> []) -> concat (map r_setting ss) ++ r_gap g ++ r <> [].
Proof.
  intros F H E. destruct ss as [ | (a, (n, v)) ss ].
  - cbn [map concat app] in E. apply app_eq_nil in E. now apply (H eq_refl).
  - apply app_eq_nil in E. destruct E as (E & _). cbn [map concat] in E. apply app_eq_nil in E. destruct E as (E & _). cbn [r_setting] in E. apply app_eq_nil in E. destruct E as (_ & E).
    inversion F as [ | ? ? F1 ? ]; subst. unfold setting_ok in F1. destruct F1 as (_ & _ & _ & _ & _ & (N & _) & _). apply app_eq_nil in E. destruct E. contradiction.
Qed.

Lemma loc_unique t p q : located t p -> located t q -> p_pos p = p_pos q -> p = q.
Proof. intros (_ & A & B) (_ & C & D) E. rewrite E in A, B. destruct p, q; cbn in *; congruence. Qed.
Lemma eof_false t p c r : located t p -> at_ t p = c :: r -> eof t p = false.
Proof. intros L E. now rewrite (eof_at _ _ L), E. Qed.
Lemma later t p p' : located t p -> located t p' -> p_pos p < p_pos p' -> (length (at_ t p') < length (at_ t p))%nat.
Proof. intros L L' H. pose proof (loc_range _ _ L). pose proof (loc_range _ _ L'). unfold from. rewrite !skipn_length. unfold t_size, zlen in *. lia. Qed.

Section Parse.
Variable other : Z -> text -> pos -> res (Z * pos).
Lemma block_at t p l ls bs : t_nul t = true -> located t p -> at_ t p = 91 :: r_names (l_frame l) (l_main l) (l_sub l) ++ concat (map r_setting (l_settings l)) ++ r_gap (f_gap (l_frame l)) ++ concat (map r_block ls) ->
  block_ok l -> ~ In (key (block_of l)) (map key bs) -> NoDup (map fst (map snd (l_settings l))) -> zlen (l_settings l) <= 32 ->
  exists p', parse_any other t p (map instance_of bs) = Ok (0, map instance_of (bs ++ [block_of l]), p') /\ at_ t p' = concat (map r_block ls) /\ located t p' /\ p_pos p < p_pos p'.
Proof.
  intros T L E (B1 & B2 & B3 & B4 & B5 & G & N1 & N2 & F & NE) K D Hl. unfold parse_any.
  destruct (spaces_at t p [] _ L E ltac:(constructor) eq_refl) as (p1 & R1 & A1 & L1 & P1). rewrite R1. cbn [bind]. change (zlen (@nil Z)) with 0 in P1.
  destruct (rd_at _ _ _ _ L1 A1) as (R2 & _). rewrite (eof_at _ _ L1), A1, R2. cbn [bind].
  assert (A2 : from t (p_pos p1 + 1) = r_names (l_frame l) (l_main l) (l_sub l) ++ concat (map r_setting (l_settings l)) ++ r_gap (f_gap (l_frame l)) ++ concat (map r_block ls)) by (eapply at_next; eauto).
  assert (L2 : located t (set_pos p1 (p_pos p1 + 1))).
  { replace (p_pos p1 + 1) with (p_pos p1 + zlen [91]) by reflexivity. eapply located_plain; [ exact L1 | exact A1 | repeat constructor ]. }
  assert (Hs : p_pos p1 + 1 < t_size t).
  { assert (X : eof t (set_pos p1 (p_pos p1 + 1)) = false).
    { rewrite (eof_at _ _ L2). cbn [set_pos p_pos]. rewrite A2. unfold r_names. destruct N1 as (N1 & _). destruct (f_1 (l_frame l)); [ | reflexivity ]. destruct (l_main l); [ congruence | reflexivity ]. }
    unfold eof, set_pos in X. cbn [p_pos] in X. lia. }
  cbv zeta. cbn [set_pos p_pos]. replace (p_pos p1 + 1 <? t_size t) with true by lia. change (91 =? 35) with false. change ((91 =? 123) || (91 =? 60) || (91 =? 40)) with false. change (91 =? 91) with true. cbv iota.
  fold (set_pos p1 (p_pos p1 + 1)). unfold parse_block.
  destruct (names_at t (set_pos p1 (p_pos p1 + 1)) (l_frame l) (l_main l) (l_sub l) _ T L2 A2 B1 B2 B3 B4 B5 N1 N2) as (p3 & R3 & A3 & L3 & P3). rewrite R3. cbn [bind]. change (negb (0 =? 0)) with false. cbv iota.
  assert (X3 : eof t p3 = false).
  { rewrite (eof_at _ _ L3). destruct (at_ t p3) eqn:Q; [ | reflexivity ]. exfalso. symmetry in A3. eapply gap_render_nil; [ exact F | exact NE | exact A3 ]. }
  rewrite X3.
  assert (Sub : match match l_sub l with Some s => [s] | None => [] end with [] => None | s :: _ => Some s end = l_sub l) by (destruct (l_sub l); reflexivity). rewrite Sub.
  destruct (find_instance (map instance_of bs) (l_main l) (l_sub l)) eqn:Fi; [ exfalso; apply find_iff in Fi; apply K; exact Fi | ].
  change (SettingsModel.settings_new MAX_SETTINGS) with (s_of []).
  destruct (settings_at t T (l_settings l) (f_gap (l_frame l)) (concat (map r_block ls)) [] p3 (S (length (t_data t))) L3 A3 F G (after_blocks ls) D) as (p4 & R4 & A4 & L4 & P4).
  { change (zlen (@nil (list Z * list Z))) with 0. lia. }
  { assert (length (l_settings l) <= length (at_ t p3))%nat.
    { rewrite A3, app_length. assert (length (l_settings l) <= length (concat (map r_setting (l_settings l))))%nat; [ clear | lia ].
      induction (l_settings l) as [ | (a, (n, v)) ss IH ]; cbn [map concat length]; [ lia | ]. rewrite app_length. cbn [r_setting]. rewrite !app_length. cbn [length]. lia. }
    unfold from in H. rewrite skipn_length in H. lia. }
  rewrite R4. cbn [bind]. exists p4. split.
  - rewrite map_app. cbn [map]. unfold instance_of at 3. cbn [block_of b_main b_sub b_settings]. reflexivity.
  - split; [ exact A4 | ]. split; [ exact L4 | ]. cbn [set_pos p_pos] in P3. lia.
Qed.

Lemma skip_any t p bl r bs : located t p -> at_ t p = bl ++ r -> blank bl -> stops r ->
  exists p1, ignore_spaces t p = Ok p1 /\ at_ t p1 = r /\ located t p1 /\ p_pos p1 = p_pos p + zlen bl /\
    parse_any other t p (map instance_of bs) = (if eof t p1 then Ok (0, map instance_of bs, p1) else parse_any other t p1 (map instance_of bs)).
Proof.
  intros L E B S. destruct (spaces_at t p bl r L E B S) as (p1 & R1 & A1 & L1 & P1). exists p1. repeat (split; [ assumption | ]). unfold parse_any at 1. rewrite R1. cbn [bind].
  destruct (eof t p1) eqn:Q; [ reflexivity | ]. unfold parse_any.
  assert (R2 : ignore_spaces t p1 = Ok p1).
  { unfold ignore_spaces, ignore. destruct r as [ | c r ]; [ rewrite (eof_at _ _ L1), A1 in Q; discriminate | ].
    destruct (rd_at _ _ _ _ L1 A1) as (R & Hs). cbn [stops] in S. replace (t_size t <=? p_pos p1) with false by lia. rewrite R. cbn [bind ignore_loop]. rewrite S. reflexivity. }
  rewrite R2. cbn [bind]. rewrite Q. reflexivity.
Qed.
Lemma blocks_at t : t_nul t = true -> forall ls bl bs p fuel, located t p -> at_ t p = bl ++ concat (map r_block ls) -> blank bl -> Forall block_ok ls ->
  NoDup (map key (bs ++ map block_of ls)) -> Forall (fun b => NoDup (map fst (b_settings b)) /\ zlen (b_settings b) <= 32) (map block_of ls) -> (length (at_ t p) < fuel)%nat ->
  exists p', parse_loop other fuel t p (map instance_of bs) = Ok (0, map instance_of (bs ++ map block_of ls), p').
Proof.
  intros T. induction ls as [ | l ls IH ]; intros bl bs p fuel L E B F D H Hf.
  - cbn [map concat] in *. rewrite app_nil_r in E. destruct fuel as [ | fuel ]; [ lia | ]. cbn [parse_loop]. rewrite !app_nil_r. destruct (eof t p) eqn:Q; [ eauto | ].
    destruct (skip_any t p bl [] bs L ltac:(now rewrite app_nil_r) B I) as (p1 & _ & A1 & L1 & P1 & R1). rewrite R1. assert (X : eof t p1 = true) by (rewrite (eof_at _ _ L1), A1; reflexivity). rewrite X. cbn [bind].
    change (negb (0 =? 0)) with false. cbv iota. rewrite E in Hf. destruct bl as [ | x bl ]; [ rewrite (eof_at _ _ L), E in Q; discriminate | ]. cbn [length] in Hf. destruct fuel as [ | fuel ]; [ lia | ]. cbn [parse_loop]. rewrite X. eauto.
  - inversion F as [ | ? ? F1 F2 ]; subst x l0. cbn [map] in H. inversion H as [ | ? ? H1 H2 ]; subst x l0. cbn [map concat] in E. destruct fuel as [ | fuel ]; [ lia | ].
    destruct (skip_any t p bl (r_block l ++ concat (map r_block ls)) bs L E B eq_refl) as (p1 & _ & A1 & L1 & P1 & R1).
    pose proof A1 as A1'. unfold r_block in A1' at 1. cbn [app] in A1'. rewrite (eof_false _ _ _ _ L1 A1') in R1. cbn [parse_loop].
    assert (X : eof t p = false). { rewrite (eof_at _ _ L), E. destruct bl; reflexivity. } rewrite X, R1.
    rewrite <- !app_assoc in A1'.
    destruct (block_at t p1 l ls bs T L1 A1' F1) as (p2 & R2 & A2 & L2 & P2).
    { cbn [map] in D. rewrite map_app in D. cbn [map] in D. apply NoDup_remove_2 in D. rewrite in_app_iff in D. tauto. }
    { exact (proj1 H1). }
    { destruct H1 as (_ & H1). cbn [block_of b_settings] in H1. now rewrite zlen_map in H1. }
    rewrite R2. cbn [bind]. change (negb (0 =? 0)) with false. cbv iota.
    destruct (IH [] (bs ++ [block_of l]) p2 fuel L2 A2 ltac:(constructor) F2) as (p3 & R3).
    { rewrite <- app_assoc. exact D. }
    { exact H2. }
    { assert (length (at_ t p2) < length (at_ t p))%nat; [ apply later; auto; pose proof (zlen_nonneg _ bl); lia | lia ]. }
    exists p3. rewrite R3, <- app_assoc. reflexivity.
Qed.

Lemma head_at t : t_nul t = true -> forall cs ls bl p fuel, located t p -> at_ t p = bl ++ r_comments cs ++ concat (map r_block ls) -> blank bl ->
  Forall (fun '(text, nl, blanks) => no_newline text /\ is_newline nl = true /\ blank blanks) cs -> Forall block_ok ls ->
  NoDup (map key (map block_of ls)) -> Forall (fun b => NoDup (map fst (b_settings b)) /\ zlen (b_settings b) <= 32) (map block_of ls) -> (length (at_ t p) < fuel)%nat ->
  exists p', parse_loop other fuel t p [] = Ok (0, map instance_of (map block_of ls), p').
Proof.
  intros T. induction cs as [ | ((tx, nl), bk) cs IH ]; intros ls bl p fuel L E B C F D H Hf.
  - cbn [r_comments map concat app] in E. exact (blocks_at t T ls bl [] p fuel L E B F D H Hf).
  - inversion C as [ | ? ? C1 C2 ]; subst x l. cbn beta iota in C1. destruct C1 as (N & NL & Bk). destruct fuel as [ | fuel ]; [ lia | ].
    assert (E' : at_ t p = bl ++ 35 :: tx ++ nl :: bk ++ r_comments cs ++ concat (map r_block ls)).
    { rewrite E. f_equal. unfold r_comments. cbn [map concat r_comment app]. rewrite <- !app_assoc. reflexivity. }
    destruct (skip_any t p bl _ [] L E' B eq_refl) as (p1 & _ & A1 & L1 & P1 & R1). cbn [map] in R1. rewrite (eof_false _ _ _ _ L1 A1) in R1. cbn [parse_loop].
    assert (X : eof t p = false). { rewrite (eof_at _ _ L), E'. destruct bl; reflexivity. } rewrite X, R1.
    destruct (rd_at _ _ _ _ L1 A1) as (R2 & _).
    assert (A2 : from t (p_pos p1 + 1) = tx ++ nl :: bk ++ r_comments cs ++ concat (map r_block ls)) by (eapply at_next; eauto).
    assert (L2 : located t (set_pos p1 (p_pos p1 + 1))).
    { replace (p_pos p1 + 1) with (p_pos p1 + zlen [35]) by reflexivity. eapply located_plain; [ exact L1 | exact A1 | repeat constructor ]. }
    assert (Hs : p_pos p1 + 1 < t_size t).
    { assert (Y : eof t (set_pos p1 (p_pos p1 + 1)) = false) by (rewrite (eof_at _ _ L2); cbn [set_pos p_pos]; rewrite A2; destruct tx; reflexivity). unfold eof, set_pos in Y. cbn [p_pos] in Y. lia. }
    assert (S : stops (r_comments cs ++ concat (map r_block ls))) by (apply comments_stop; destruct ls; [ exact I | reflexivity ]).
    destruct (comment_at t (set_pos p1 (p_pos p1 + 1)) tx nl bk _ T L2 A2 N NL Bk S) as (p3 & R3 & A3 & L3 & P3). cbn [set_pos p_pos] in P3.
    destruct (skip_any t p1 [] _ [] L1 A1 ltac:(constructor) eq_refl) as (p1' & R0 & A0 & L0 & P0 & _). rewrite (loc_unique t p1' p1 L0 L1 ltac:(change (zlen (@nil Z)) with 0 in P0; lia)) in R0.
    unfold parse_any. rewrite R0. cbn [bind]. rewrite (eof_false _ _ _ _ L1 A1), R2. cbn [bind]. cbv zeta. cbn [set_pos p_pos]. replace (p_pos p1 + 1 <? t_size t) with true by lia. change (35 =? 35) with true. cbv iota.
    fold (set_pos p1 (p_pos p1 + 1)). rewrite R3. cbn [bind]. change (negb (0 =? 0)) with false. cbv iota.
    apply (IH ls [] p3 fuel L3 A3 ltac:(constructor) C2 F D H).
    assert (length (at_ t p3) < length (at_ t p))%nat; [ apply later; auto; pose proof (zlen_nonneg _ bl); pose proof (zlen_nonneg _ tx); pose proof (zlen_nonneg _ bk); lia | lia ].
Qed.

Theorem roundtrip f t : t = mk_text (render f) true -> layout_ok f -> content_ok (content f) -> parse_string other t = Ok (Some (map instance_of (content f))).
Proof.
  intros -> (G & F) (D1 & D2 & D3). unfold parse_string, config_parse_string. fold block_of in D1, D2, D3. change (content f) with (map block_of (f_blocks f)) in *.
  set (t := mk_text (render f) true).
  destruct (head_at t eq_refl (g_comments (f_head f)) (f_blocks f) (g_blanks (f_head f)) pos_init (S (length (t_data t))) (located_init t)) as (p' & R).
  { change (at_ t pos_init) with (render f). unfold render, r_gap. now rewrite <- app_assoc. }
  { exact (proj1 G). } { exact (proj2 G). } { exact F. } { exact D1. } { exact D2. }
  { change (at_ t pos_init) with (t_data t). lia. }
  rewrite R. cbn [bind]. change (negb (0 =? 0)) with false. cbv iota.
  assert (X : generate_tree (map instance_of (map block_of (f_blocks f))) = 0).
  { unfold generate_tree. match goal with |- (if ?b then _ else _) = _ => destruct b eqn:Q end; [ reflexivity | ]. exfalso. apply not_true_iff_false in Q. apply Q. apply forallb_forall.
    intros i Hi. apply in_map_iff in Hi. destruct Hi as (b & <- & Hb). cbn [instance_of i_sub i_main]. destruct (b_sub b) eqn:S; [ | reflexivity ].
    rewrite Forall_forall in D3. destruct (D3 b Hb ltac:(congruence)) as (m & Hm & E1 & E2). apply find_iff. apply in_map_iff. exists m. split; [ unfold key; congruence | exact Hm ]. }
  cbn [bind]. rewrite X. reflexivity.
Qed.
End Parse.
