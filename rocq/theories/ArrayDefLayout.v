(** Reading back what is written: proofs about ArrayDefSpec.lays. *)
From Coq Require Import Strings.String.
From Coq Require Import ZArith List Bool Lia.
From Verif Require Import Common Dec TypeModel ParseModel ParseSpec ParseProofs ConfigSpec ConfigProofs CondModel CondSpec CondProofs CondEval ArrayTreeModel ArrayTreeSpec ArrayDefModel ArrayDefSpec ArrayDefProofs.
Import ListNotations.
Open Scope Z_scope.
Notation len := Datatypes.length.
Notation bind := ParseModel.bind.
Notation gap := ArrayDefSpec.gap.

(** ** Without the blanks at the beginning *)
Fixpoint strip (l : list Z) : list Z := match l with c :: r => if is_spaces c then strip r else l | [] => [] end.
Lemma strip_blanks b r : blanks b -> strip (b ++ r) = strip r.
Proof. induction 1 as [|c b Hc Hb IH]; [reflexivity|]. cbn [app strip]. replace (is_spaces c) with true; [exact IH|]. symmetry. apply blanks_iff. exact Hc. Qed.
Lemma strip_split l : exists b, blanks b /\ l = b ++ strip l /\ stops (strip l).
Proof.
  induction l as [|c l (b & Hb & E & S)]; cbn [strip]; [exists []; split; [constructor|]; split; [reflexivity|exact I]|]. destruct (is_spaces c) eqn:Ec.
  - exists (c :: b). split; [constructor; [apply blanks_iff; exact Ec|exact Hb]|]. split; [cbn [app]; congruence|exact S].
  - exists []. split; [constructor|]. split; [reflexivity|exact Ec].
Qed.
Lemma strip_stop c r : is_spaces c = false -> strip (c :: r) = c :: r.
Proof. intros H. cbn [strip]. rewrite H. reflexivity. Qed.
Lemma strip_strip l : strip (strip l) = strip l.
Proof. destruct (strip_split l) as (_ & _ & _ & S). destruct (strip l) as [|c r]; [reflexivity|]. apply strip_stop. exact S. Qed.

(** The text at a position is [l] except for blanks. *)
Definition sees (t : text) (p : pos) (l : list Z) : Prop := located t p /\ strip (at_ t p) = strip l.
(** The same, blanks having been passed or not. *)
Definition leaves (t : text) (p : pos) (l : list Z) : Prop := located t p /\ (at_ t p = l \/ at_ t p = strip l).
Lemma leaves_sees t p l : leaves t p l -> sees t p l.
Proof. intros [L [E|E]]; (split; [exact L|]); rewrite E; [reflexivity|apply strip_strip]. Qed.
Lemma sees_at t p : located t p -> sees t p (at_ t p).
Proof. intros L. split; [exact L|reflexivity]. Qed.
Lemma sees_spaces t p l : sees t p l -> exists p', ignore_spaces t p = Ok p' /\ onwards t p p' /\ at_ t p' = strip l.
Proof.
  intros [L E]. destruct (strip_split (at_ t p)) as (b & Hb & Eb & S). destruct (spaces_at t p b (strip (at_ t p)) L Eb (blanks_blank b Hb) S) as (p' & R & A & L' & P).
  exists p'. split; [exact R|]. split; [split; [exact L'|pose proof (zlen_nonneg _ b); lia]|]. rewrite A. exact E.
Qed.
Lemma sees_eof t p l c r : sees t p l -> strip l = c :: r -> eof t p = false.
Proof. intros [L E] E2. rewrite (eof_at _ _ L). rewrite E2 in E. destruct (at_ t p); [discriminate|reflexivity]. Qed.

(** ** How definitions begin *)
Definition head_char (c : Z) : Prop := c = 59 \/ c = 73 \/ c = 82 \/ 97 <= c <= 122.
Lemma names_head id ty : In (id, ty) names -> exists c r, str_bytes id = c :: r /\ 97 <= c <= 122.
Proof. intros H. cbn [names In] in H. repeat (destruct H as [H|H]; [injection H as <- <-; eexists _, _; split; [reflexivity|vm_compute; split; discriminate]|]). contradiction. Qed.
Lemma writes_head d s : writes d s -> exists c r, s = c :: r /\ 97 <= c <= 122.
Proof. intros [id ty n nref flags count cref tag s1 s2 s3 s4 HI _ _ _ _]. destruct (names_head id ty HI) as (c & r & -> & H). cbn [app]. eauto. Qed.
Lemma values_head ds s : values_text ds s -> exists c r, s = c :: r /\ 97 <= c <= 122.
Proof. intros [d s0 H _|d s0 b1 b2 ds0 s' H _ _ _ _]; destruct (writes_head _ _ H) as (c & r & -> & Hc); cbn [app]; eauto. Qed.
Lemma bare_head d s : bare d s -> exists c r, s = c :: r /\ head_char c.
Proof.
  unfold head_char. intros [|b k s0 rest s' _ _ _ _ _|ds s0 rest s' H _ _|c e t st more sm rest s0 _ _ _ _ _].
  - eexists _, _. split; [reflexivity|lia].
  - eexists _, _. split; [reflexivity|cbn; lia].
  - destruct (values_head _ _ H) as (c & r & -> & Hc). cbn [app]. eexists _, _. split; [reflexivity|lia].
  - eexists _, _. split; [reflexivity|cbn; lia].
Qed.
Lemma head_stop c : head_char c -> is_spaces c = false /\ c <> 44.
Proof. unfold head_char, is_spaces, is_space_tab, is_newline. lia. Qed.
Lemma lays_cases d X : lays d X -> (exists b g s, blanks b /\ gap g /\ bare d s /\ X = b ++ 44 :: g ++ s) \/ (exists b s, blanks b /\ bare d s /\ X = b ++ s).
Proof.
  intros [g d0 s HG HB]. clear d X. induction HG as [|c g Hc HG IH]; [right; exists [], s; split; [constructor|auto]|]. destruct Hc as [->|Hc].
  - left. exists [], g, s. split; [constructor|]. auto.
  - destruct IH as [(b & g' & s' & Hb & Hg & Hs & E)|(b & s' & Hb & Hs & E)].
    + left. exists (c :: b), g', s'. split; [constructor; [exact Hc|exact Hb]|]. split; [exact Hg|]. split; [exact Hs|]. cbn [app]. rewrite E. reflexivity.
    + right. exists (c :: b), s'. split; [constructor; [exact Hc|exact Hb]|]. split; [exact Hs|]. cbn [app]. rewrite E. reflexivity.
Qed.
Lemma strip_comma b r tail : blanks b -> strip ((b ++ 44 :: r) ++ tail) = 44 :: r ++ tail.
Proof. intros Hb. rewrite <- app_assoc. rewrite strip_blanks by exact Hb. reflexivity. Qed.
Lemma strip_bare b s tail d : blanks b -> bare d s -> strip ((b ++ s) ++ tail) = s ++ tail.
Proof. intros Hb HS. rewrite <- app_assoc. rewrite strip_blanks by exact Hb. destruct (bare_head _ _ HS) as (c & r & -> & Hc). cbn [app]. apply strip_stop. apply head_stop. exact Hc. Qed.
Lemma lays_head d X tail : lays d X -> exists c r, strip (X ++ tail) = c :: r /\ (c = 44 \/ head_char c).
Proof.
  intros H. destruct (lays_cases _ _ H) as [(b & g & s & Hb & Hg & Hs & ->)|(b & s & Hb & Hs & ->)].
  - rewrite strip_comma by exact Hb. eauto.
  - rewrite (strip_bare b s tail d Hb Hs). destruct (bare_head _ _ Hs) as (c & r & -> & Hc). cbn [app]. eauto.
Qed.

(** ** Keywords and ends *)
Definition keyed (l : list Z) : bool := starts (str_bytes "IF") l || starts (str_bytes "ELSIF") l || starts (str_bytes "ELSE") l || starts (str_bytes "REWIND") l.
Lemma keyword_keyed t p : located t p -> keyword t p = Ok (keyed (at_ t p)).
Proof.
  intros L. unfold keyword, keyed. rewrite !word_starts by exact L. cbn [bind].
  destruct (starts (str_bytes "IF") (at_ t p)); [reflexivity|]. destruct (starts (str_bytes "ELSIF") (at_ t p)); [reflexivity|]. destruct (starts (str_bytes "ELSE") (at_ t p)); [reflexivity|]. destruct (starts (str_bytes "REWIND") (at_ t p)); reflexivity.
Qed.
Lemma not_keyed c r : c <> 69 -> c <> 73 -> c <> 82 -> keyed (c :: r) = false.
Proof.
  intros H1 H2 H3. unfold keyed. change (starts (str_bytes "IF") (c :: r)) with ((73 =? c) && starts (str_bytes "F") r). change (starts (str_bytes "ELSIF") (c :: r)) with ((69 =? c) && starts (str_bytes "LSIF") r).
  change (starts (str_bytes "ELSE") (c :: r)) with ((69 =? c) && starts (str_bytes "LSE") r). change (starts (str_bytes "REWIND") (c :: r)) with ((82 =? c) && starts (str_bytes "EWIND") r).
  replace (73 =? c) with false by lia. replace (69 =? c) with false by lia. replace (82 =? c) with false by lia. reflexivity.
Qed.
Lemma not_word w c d r x : str_bytes w = d :: x -> c <> d -> starts (str_bytes w) (c :: r) = false.
Proof. intros -> H. cbn [starts]. replace (d =? c) with false by lia. reflexivity. Qed.

Lemma end_comma t p l r : sees t p l -> strip l = 44 :: r -> (exists c x, strip r = c :: x) ->
  exists sp q, check_end t p = Ok (mk_ends false false true sp, q) /\ onwards t p q /\ p_pos p < p_pos q /\ at_ t q = strip r.
Proof.
  intros HS E (c & x & Er). unfold check_end. destruct (sees_spaces t p l HS) as (p1 & -> & [L1 H1] & A1). cbn [bind]. rewrite E in A1. cbv zeta.
  rewrite (eof_false _ _ _ _ L1 A1). rewrite (keyword_keyed _ _ L1), A1, (not_keyed 44) by lia. cbn [bind]. destruct (rd_at _ _ _ _ L1 A1) as [R _]. rewrite R. cbn [bind]. change (44 =? 44) with true. cbv iota.
  destruct (located_word t p1 [44] r L1 A1) as [L2 A2]; [repeat constructor|]. change (zlen [44]) with 1 in L2, A2.
  destruct (sees_spaces t (set_pos p1 (p_pos p1 + 1)) r) as (p3 & -> & [L3 H3] & A3). { split; [exact L2|]. cbn [p_pos set_pos]. rewrite A2. reflexivity. }
  cbn [bind p_pos set_pos] in *. rewrite Er in A3. rewrite (eof_false _ _ _ _ L3 A3). destruct (keyword_safe t p3 L3) as (sp & ->). cbn [bind].
  rewrite spaces_none; [|exact L3|rewrite A3; destruct (strip_split r) as (_ & _ & _ & S); rewrite Er in S; exact S]. cbn [bind]. exists sp, p3. split; [reflexivity|]. split; [split; [exact L3|lia]|]. split; [lia|congruence].
Qed.
Lemma end_comma2 t p l r c x : sees t p l -> strip l = 44 :: r -> strip r = c :: x -> 97 <= c <= 122 ->
  exists q, check_end t p = Ok (mk_ends false false true false, q) /\ onwards t p q /\ p_pos p < p_pos q /\ at_ t q = strip r.
Proof.
  intros HS E Er Hc. unfold check_end. destruct (sees_spaces t p l HS) as (p1 & -> & [L1 H1] & A1). cbn [bind]. rewrite E in A1. cbv zeta.
  rewrite (eof_false _ _ _ _ L1 A1). rewrite (keyword_keyed _ _ L1), A1, (not_keyed 44) by lia. cbn [bind]. destruct (rd_at _ _ _ _ L1 A1) as [R _]. rewrite R. cbn [bind]. change (44 =? 44) with true. cbv iota.
  destruct (located_word t p1 [44] r L1 A1) as [L2 A2]; [repeat constructor|]. change (zlen [44]) with 1 in L2, A2.
  destruct (sees_spaces t (set_pos p1 (p_pos p1 + 1)) r) as (p3 & -> & [L3 H3] & A3). { split; [exact L2|]. cbn [p_pos set_pos]. rewrite A2. reflexivity. }
  cbn [bind p_pos set_pos] in *. rewrite Er in A3. rewrite (eof_false _ _ _ _ L3 A3). rewrite (keyword_keyed _ _ L3), A3, (not_keyed c) by lia. cbn [bind].
  rewrite spaces_none; [|exact L3|rewrite A3; destruct (strip_split r) as (_ & _ & _ & S); rewrite Er in S; exact S]. cbn [bind]. exists p3. split; [reflexivity|]. split; [split; [exact L3|lia]|]. split; [lia|congruence].
Qed.
Lemma end_semicolon t p l r : sees t p l -> strip l = 59 :: r ->
  exists q, check_end t p = Ok (mk_ends false true false false, q) /\ onwards t p q /\ p_pos p < p_pos q /\ at_ t q = strip r.
Proof.
  intros HS E. unfold check_end. destruct (sees_spaces t p l HS) as (p1 & -> & [L1 H1] & A1). cbn [bind]. rewrite E in A1. cbv zeta.
  rewrite (eof_false _ _ _ _ L1 A1). rewrite (keyword_keyed _ _ L1), A1, (not_keyed 59) by lia. cbn [bind]. destruct (rd_at _ _ _ _ L1 A1) as [R _]. rewrite R. cbn [bind]. change (59 =? 44) with false. change (59 =? 59) with true. cbv iota.
  destruct (located_word t p1 [59] r L1 A1) as [L2 A2]; [repeat constructor|]. change (zlen [59]) with 1 in L2, A2.
  destruct (sees_spaces t (set_pos p1 (p_pos p1 + 1)) r) as (p3 & -> & [L3 H3] & A3). { split; [exact L2|]. cbn [p_pos set_pos]. rewrite A2. reflexivity. }
  cbn [bind p_pos set_pos] in *. exists p3. split; [reflexivity|]. split; [split; [exact L3|lia]|]. split; [lia|exact A3].
Qed.
Lemma end_special t p l c r : sees t p l -> strip l = c :: r -> keyed (strip l) = true ->
  exists q, check_end t p = Ok (mk_ends false false false true, q) /\ onwards t p q /\ at_ t q = strip l.
Proof.
  intros HS E K. unfold check_end. destruct (sees_spaces t p l HS) as (p1 & -> & [L1 H1] & A1). cbn [bind]. cbv zeta. assert (A1' := A1). rewrite E in A1'.
  rewrite (eof_false _ _ _ _ L1 A1'). rewrite (keyword_keyed _ _ L1), A1, K. cbn [bind].
  rewrite spaces_none; [|exact L1|rewrite A1; destruct (strip_split l) as (_ & _ & _ & S); exact S]. cbn [bind]. exists p1. split; [reflexivity|]. split; [split; [exact L1|lia]|exact A1].
Qed.
Lemma end_none t p l c r : sees t p l -> strip l = c :: r -> 97 <= c <= 122 ->
  exists q, check_end t p = Ok (mk_ends false false false false, q) /\ onwards t p q /\ at_ t q = strip l.
Proof.
  intros HS E Hc. unfold check_end. destruct (sees_spaces t p l HS) as (p1 & -> & [L1 H1] & A1). cbn [bind]. cbv zeta. assert (A1' := A1). rewrite E in A1'.
  rewrite (eof_false _ _ _ _ L1 A1'). rewrite (keyword_keyed _ _ L1), A1', (not_keyed c) by lia. cbn [bind]. destruct (rd_at _ _ _ _ L1 A1') as [R _]. rewrite R. cbn [bind].
  replace (c =? 44) with false by lia. replace (c =? 59) with false by lia.
  rewrite spaces_none; [|exact L1|rewrite A1; destruct (strip_split l) as (_ & _ & _ & S); exact S]. cbn [bind]. exists p1. split; [reflexivity|]. split; [split; [exact L1|lia]|exact A1].
Qed.

(** ** Not beginning with a value *)
Definition novalue (d : dtree) (X : list Z) : Prop := match d with DValues _ _ => exists r, strip X = 44 :: r | _ => True end.
Lemma lays_gap' g s d : gap g -> bare d s -> lays d (g ++ s).
Proof. apply lays_gap. Qed.
Lemma check_lays t p d X tail : lays d X -> novalue d X -> sees t p (X ++ tail) ->
  exists e q, check_end t p = Ok (e, q) /\ onwards t p q /\ e_eof e = false /\
    ((e_comma e = true /\ e_semicolon e = false /\ p_pos p < p_pos q /\ exists X2, lays d X2 /\ strip X = 44 :: X2 /\ at_ t q = strip (X2 ++ tail)) \/
     (e = mk_ends false true false false /\ d = DEnd /\ p_pos p < p_pos q /\ at_ t q = strip tail) \/
     (e = mk_ends false false false true /\ keyed (strip (at_ t p)) = true /\ at_ t q = strip (X ++ tail))).
Proof.
  intros HL HN HS. destruct (lays_cases _ _ HL) as [(b & g & s & Hb & Hg & Hs & ->)|(b & s & Hb & Hs & ->)].
  - assert (HL2 : lays d (g ++ s)) by (apply lays_gap; assumption).
    destruct (end_comma t p _ ((g ++ s) ++ tail) HS) as (sp & q & R & O & P & A); [rewrite strip_comma by exact Hb; reflexivity|destruct (lays_head d (g ++ s) tail HL2) as (c & r & -> & _); eauto|].
    eexists _, q. split; [exact R|]. split; [exact O|]. split; [reflexivity|]. left. cbn [e_comma e_semicolon]. split; [reflexivity|]. split; [reflexivity|]. split; [exact P|]. exists (g ++ s). split; [exact HL2|]. split; [|exact A].
    pose proof (strip_comma b (g ++ s) [] Hb) as Q. rewrite !app_nil_r in Q. exact Q.
  - pose proof (strip_bare b s tail d Hb Hs) as E. destruct Hs as [|b0 k s0 rest s' Hb0 Hd Hl Hk HR|ds s0 rest s' HV HR HA|c e t0 st more sm rest s0 HC HO H1 H2 H3].
    + destruct (end_semicolon t p _ tail HS) as (q & R & O & P & A); [rewrite E; reflexivity|]. eexists _, q. split; [exact R|]. split; [exact O|]. split; [reflexivity|]. right. left. auto.
    + destruct (end_special t p _ 82 (tl (strip ((b ++ str_bytes "REWIND" ++ b0 ++ s0 ++ s') ++ tail))) HS) as (q & R & O & A); [rewrite E; reflexivity|rewrite E; reflexivity|].
      eexists _, q. split; [exact R|]. split; [exact O|]. split; [reflexivity|]. right. right. split; [reflexivity|]. split; [|exact A]. destruct HS as [_ ->]. rewrite E. reflexivity.
    + exfalso. cbn [novalue] in HN. destruct HN as (r & HN). destruct (values_head _ _ HV) as (c & x & -> & Hc). rewrite strip_blanks in HN by exact Hb. cbn [app] in HN. rewrite strip_stop in HN; [injection HN as -> _; lia|]. unfold is_spaces, is_space_tab, is_newline. lia.
    + destruct (end_special t p _ 73 (tl (strip ((b ++ str_bytes "IF" ++ c ++ st ++ sm ++ s0) ++ tail))) HS) as (q & R & O & A); [rewrite E; reflexivity|rewrite E; reflexivity|].
      eexists _, q. split; [exact R|]. split; [exact O|]. split; [reflexivity|]. right. right. split; [reflexivity|]. split; [|exact A]. destruct HS as [_ ->]. rewrite E. reflexivity.
Qed.

(** What is left after the values of a node: [d] is what was expected there. *)
Definition goes_on (t : text) (q : pos) (d : dtree) (tail : list Z) (semi : bool) : Prop :=
  if semi then d = DEnd /\ leaves t q tail else exists X, lays d X /\ sees t q (X ++ tail).
Lemma node_novalue t f p semi d X tail : lays d X -> novalue d X -> sees t p (X ++ tail) ->
  exists semi' q, node_loop (S f) t p semi = good ([], semi', q) /\ onwards t p q /\ goes_on t q d tail semi' /\ (semi' = true \/ p_pos p < p_pos q \/ keyed (strip (at_ t p)) = true).
Proof.
  intros HL HN HS. cbn [node_loop]. destruct (lays_head d X tail HL) as (c & r & E & _). rewrite (sees_eof _ _ _ _ _ HS E).
  destruct (check_lays t p d X tail HL HN HS) as (e & q & -> & O & Ee & [(Ec & Es & P & X2 & HL2 & _ & A)|[(-> & -> & P & A)|(-> & K & A)]]); cbn [bind].
  - rewrite Ec, !orb_true_r. rewrite Es. exists false, q. split; [reflexivity|]. split; [exact O|]. split; [|auto]. exists X2. split; [exact HL2|]. split; [apply O|]. rewrite A. apply strip_strip.
  - cbn [e_eof e_semicolon e_special e_comma orb]. exists true, q. split; [reflexivity|]. split; [exact O|]. split; [|auto]. split; [reflexivity|]. split; [apply O|]. right. exact A.
  - cbn [e_eof e_semicolon e_special e_comma orb]. exists false, q. split; [reflexivity|]. split; [exact O|]. split; [|auto]. exists X. split; [exact HL|]. split; [apply O|]. rewrite A. apply strip_strip.
Qed.

(** ** Values *)
Definition value_char (c : Z) : Prop := name_char c \/ c = 35 \/ c = 64 \/ c = 123 \/ c = 125.
Lemma value_char_not c : value_char c -> match_char F_DEFINITION c = false /\ is_spaces c = false.
Proof. unfold value_char, CondSpec.name_char, digit. rewrite definition_char. unfold is_comma, is_spaces, is_space_tab, is_newline, is_null. lia. Qed.
Lemma name_value_chars n : Forall CondSpec.name_char n -> Forall value_char n.
Proof. apply Forall_impl. intros c H. left. exact H. Qed.
Lemma digit_value_chars n : Forall digit n -> Forall value_char n.
Proof. apply Forall_impl. intros c H. left. left. exact H. Qed.
Lemma names_chars id ty : In (id, ty) names -> Forall value_char (str_bytes id).
Proof.
  intros H. apply name_value_chars. assert (E : forallb is_tag (str_bytes id) = true) by (cbn [names In] in H; repeat (destruct H as [H|H]; [injection H as <- <-; reflexivity|]); contradiction).
  rewrite forallb_forall in E. apply Forall_forall. intros c Hc. apply is_tag_iff. apply E. exact Hc.
Qed.
Lemma braced_chars n : is_name n -> Forall value_char (123 :: n ++ [125]).
Proof. intros [_ H]. constructor; [unfold value_char; auto|]. apply Forall_app. split; [apply name_value_chars; exact H|]. constructor; [unfold value_char; auto 6|constructor]. Qed.
Lemma writes_chars d s : writes d s -> Forall value_char s.
Proof.
  intros [id ty n nref flags count cref tag s1 s2 s3 s4 HI H1 H2 H3 H4]. repeat (apply Forall_app; split).
  - exact (names_chars id ty HI).
  - destruct H1 as [|sn n1 (_ & HD & _) _|n1 _ Hn]; [constructor|apply digit_value_chars; exact HD|apply braced_chars; exact Hn].
  - assert (HL : forall c, c = 117 \/ c = 85 \/ c = 115 \/ c = 83 -> Forall value_char [c]) by (intros c Hc; constructor; [left; unfold CondSpec.name_char; lia|constructor]).
    destruct H2 as [|c _ Hc|c _ Hc]; [constructor|apply HL; tauto|apply HL; tauto].
  - destruct H3 as [|sn n1 (_ & HD & _) _ _|n1 _ Hn]; [constructor|constructor; [unfold value_char; auto|apply digit_value_chars; exact HD]|constructor; [unfold value_char; auto|apply braced_chars; exact Hn]].
  - destruct H4 as [|n1 [_ Hn]]; [constructor|constructor; [unfold value_char; auto|apply name_value_chars; exact Hn]].
Qed.
Lemma trim_none s : Forall (fun c => is_spaces c = false) s -> str_trim s = s.
Proof.
  intros H. destruct (trim_ok s) as (b & E & HB & _). destruct b as [|c b]; [rewrite app_nil_r in E; congruence|]. exfalso. rewrite Forall_forall in H, HB. specialize (HB c (or_introl eq_refl)).
  specialize (H c). rewrite E in H. specialize (H ltac:(apply in_or_app; right; left; reflexivity)). congruence.
Qed.

(** One value and then something which is not part of it. *)
Lemma node_value t f p semi d s r : writes d s -> 3 <= zlen s <= 65 -> sees t p (s ++ r) -> (exists c x, r = c :: x /\ match_char F_DEFINITION c = true) ->
  exists q, onwards t p q /\ p_pos p < p_pos q /\ at_ t q = r /\
    node_loop (S f) t p semi = bind (check_end t q) (fun '(e, p) =>
               if e_eof e || e_semicolon e || e_special e then good ([d], e_semicolon e, p)
               else if negb (e_comma e) then fail TREE_SOFT
               else dbind (node_loop f t p (e_semicolon e)) (fun '(ds, semi, p) => good (d :: ds, semi, p))).
Proof.
  intros HW HZ HS (c0 & x & -> & Hc0). destruct (writes_head _ _ HW) as (c & y & Es & Hc). pose proof (writes_chars _ _ HW) as HF.
  assert (NS : Forall (fun c => is_spaces c = false) s) by (apply (Forall_impl _ (P := value_char)); [intros a Ha; apply value_char_not; exact Ha|exact HF]).
  assert (E : strip (s ++ c0 :: x) = s ++ c0 :: x) by (rewrite Es; cbn [app]; apply strip_stop; unfold is_spaces, is_space_tab, is_newline; lia).
  cbn [node_loop]. assert (E2 : strip (s ++ c0 :: x) = c :: y ++ c0 :: x) by (rewrite E, Es; reflexivity). rewrite (sees_eof _ _ _ _ _ HS E2).
  destruct (end_none t p _ c (y ++ c0 :: x) HS E2 Hc) as (p1 & -> & [L1 H1] & A1). cbn [bind e_eof e_semicolon e_special e_comma orb]. rewrite E in A1.
  assert (EF : eof t p1 = false) by (apply (eof_false t p1 c (y ++ c0 :: x) L1); rewrite A1, Es; reflexivity).
  destruct (until_safe t p1 L1 EF) as (n & Hn & R2 & O2). rewrite A1 in Hn. rewrite leading_stop in Hn.
  2:{ apply (Forall_impl _ (P := value_char)); [intros a Ha; destruct (value_char_not a Ha) as [-> _]; reflexivity|exact HF]. }
  2:{ rewrite Hc0. reflexivity. }
  subst n. rewrite R2. cbn [bind]. replace (p_pos p1 + zlen s - 1 <? p_pos p1) with false by lia. replace (p_pos p1 + zlen s - 1 =? p_pos p1) with false by lia. replace (64 <? p_pos p1 + zlen s - 1 - p_pos p1) with false by lia.
  unfold name_length. replace (p_pos p1 + zlen s - 1 <? p_pos p1) with false by lia. cbn [bind]. replace (p_pos p1 + zlen s - 1 - p_pos p1 + 1) with (zlen s) by lia.
  pose proof (loc_range _ _ L1) as B1. rewrite (copy_from t (p_pos p1) s (c0 :: x) B1 A1). cbn [bind]. cbv zeta. rewrite trim_none by exact NS. replace (zlen s - 1 <? 2) with false by lia. rewrite (single_ok d s HW).
  exists (set_pos p1 (p_pos p1 + zlen s)). destruct O2 as [L2 H2]. cbn [p_pos set_pos] in *. split; [split; [exact L2|cbn [p_pos set_pos]; lia]|]. split; [lia|]. split; [|reflexivity]. apply (from_app t (p_pos p1) s _ ltac:(lia) A1).
Qed.

Lemma apart_head d X : apart d X -> exists c x, X = c :: x /\ match_char F_DEFINITION c = true.
Proof.
  assert (HB : forall b r, blanks b -> exists c x, b ++ 44 :: r = c :: x /\ match_char F_DEFINITION c = true).
  { intros b r [|c b' Hc _]; cbn [app]; [exists 44, r; auto|]. eexists _, _. split; [reflexivity|]. rewrite definition_char. unfold is_comma, is_space_tab, is_newline, is_null. lia. }
  assert (HO : (exists c s', X = c :: s' /\ In c [44; 59; 32; 9; 13; 10]) -> exists c x, X = c :: x /\ match_char F_DEFINITION c = true).
  { intros (c & x & -> & Hc). exists c, x. split; [reflexivity|]. cbn [In] in Hc. rewrite definition_char. unfold is_comma, is_space_tab, is_newline, is_null. lia. }
  destruct d; cbn [apart]; auto. intros (b1 & b2 & s' & Hb & _ & ->). apply HB. exact Hb.
Qed.
Lemma apart_novalue d X : apart d X -> novalue d X.
Proof. destruct d; cbn [apart novalue]; auto. intros (b1 & b2 & s' & Hb & _ & ->). exists (b2 ++ 44 :: s'). rewrite strip_blanks by exact Hb. reflexivity. Qed.
Lemma apart_second d X X2 : apart d X -> strip X = 44 :: X2 -> novalue d X2.
Proof.
  destruct d; cbn [apart novalue]; auto. intros (b1 & b2 & s' & Hb & Hb2 & ->). rewrite strip_blanks by exact Hb. rewrite strip_stop by reflexivity. intros E. injection E as <-. exists s'. rewrite strip_blanks by exact Hb2. reflexivity.
Qed.

Lemma node_values t ds sv : values_text ds sv -> forall rest X tail, lays rest X -> apart rest X -> forall f p semi, sees t p (sv ++ X ++ tail) -> t_size t - p_pos p < Z.of_nat f ->
  exists semi' q, node_loop f t p semi = good (ds, semi', q) /\ onwards t p q /\ p_pos p < p_pos q /\ goes_on t q rest tail semi'.
Proof.
  induction 1 as [d s HW HZ|d s b1 b2 ds s' HW HZ HB1 HB2 HV IH]; intros rest X tail HL HA f p semi HS Hf; (destruct f as [|f]; [destruct HS as [L _]; apply loc_range in L; lia|]).
  - destruct (node_value t f p semi d s (X ++ tail) HW HZ HS) as (q & O & P & A & ->).
    { destruct (apart_head _ _ HA) as (c & x & -> & Hc). exists c, (x ++ tail). auto. }
    assert (HQ : sees t q (X ++ tail)) by (split; [apply O|rewrite A; reflexivity]).
    destruct (check_lays t q rest X tail HL (apart_novalue _ _ HA) HQ) as (e & q2 & -> & O2 & Ee & [(Ec & Es & P2 & X2 & HL2 & EX & A2)|[(-> & -> & P2 & A2)|(-> & K & A2)]]); cbn [bind].
    + rewrite Ee, Es, Ec. cbn [orb negb]. assert (HQ2 : sees t q2 (X2 ++ tail)) by (split; [apply O2|rewrite A2; apply strip_strip]). destruct (e_special e).
      * exists false, q2. split; [reflexivity|]. split; [exact (onwards_trans _ _ _ _ O O2)|]. split; [lia|]. exists X2. auto.
      * destruct f as [|f]; [destruct O2 as [L2 _]; apply loc_range in L2; lia|].
        destruct (node_novalue t f q2 false rest X2 tail HL2 (apart_second _ _ _ HA EX) HQ2) as (semi' & q3 & -> & O3 & G & _). unfold dbind. cbn [bind good].
        exists semi', q3. split; [reflexivity|]. split; [exact (onwards_trans _ _ _ _ O (onwards_trans _ _ _ _ O2 O3))|]. split; [destruct O3; lia|exact G].
    + cbn [e_eof e_semicolon e_special e_comma orb]. exists true, q2. split; [reflexivity|]. split; [exact (onwards_trans _ _ _ _ O O2)|]. split; [lia|]. split; [reflexivity|]. split; [apply O2|right; exact A2].
    + cbn [e_eof e_semicolon e_special e_comma orb]. exists false, q2. split; [reflexivity|]. split; [exact (onwards_trans _ _ _ _ O O2)|]. split; [destruct O2; lia|]. exists X. split; [exact HL|]. split; [apply O2|]. rewrite A2. apply strip_strip.
  - assert (EQ : (s ++ b1 ++ 44 :: b2 ++ s') ++ X ++ tail = s ++ b1 ++ 44 :: b2 ++ s' ++ X ++ tail) by (rewrite <- !app_assoc; cbn [app]; rewrite <- !app_assoc; reflexivity).
    rewrite EQ in HS. clear EQ.
    destruct (node_value t f p semi d s (b1 ++ 44 :: b2 ++ s' ++ X ++ tail) HW HZ HS) as (q & O & P & A & ->).
    { destruct HB1 as [|c b1 Hc _]; [exists 44, (b2 ++ s' ++ X ++ tail); auto|]. eexists _, _. split; [reflexivity|]. rewrite definition_char. unfold is_comma, is_space_tab, is_newline, is_null. lia. }
    assert (HQ : sees t q (b1 ++ 44 :: b2 ++ s' ++ X ++ tail)) by (split; [apply O|rewrite A; reflexivity]).
    destruct (values_head _ _ HV) as (c & y & Es & Hc).
    assert (E2 : strip (b2 ++ s' ++ X ++ tail) = s' ++ X ++ tail).
    { rewrite strip_blanks by exact HB2. rewrite Es. cbn [app]. apply strip_stop. unfold is_spaces, is_space_tab, is_newline. lia. }
    destruct (end_comma2 t q _ (b2 ++ s' ++ X ++ tail) c (y ++ X ++ tail) HQ) as (q2 & -> & O2 & P2 & A2); [rewrite strip_blanks by exact HB1; reflexivity|rewrite E2, Es; reflexivity|exact Hc|].
    cbn [bind e_eof e_semicolon e_special e_comma orb negb]. rewrite E2 in A2.
    destruct (IH rest X tail HL HA f q2 false) as (semi' & q3 & -> & O3 & P3 & G); [split; [apply O2|rewrite A2; reflexivity]|destruct O; lia|]. unfold dbind. cbn [bind good].
    exists semi', q3. split; [reflexivity|]. split; [exact (onwards_trans _ _ _ _ O (onwards_trans _ _ _ _ O2 O3))|]. split; [lia|exact G].
Qed.

Lemma node_lays t p d X tail : lays d X -> sees t p (X ++ tail) ->
  exists ds semi q, interpret_node t p = good (ds, semi, q) /\ onwards t p q /\ (semi = true \/ p_pos p < p_pos q \/ keyed (strip (at_ t p)) = true) /\
    exists d2, goes_on t q d2 tail semi /\ forall u, same d2 u -> same d (add_values ds u).
Proof.
  intros HL HS. unfold interpret_node. pose proof HS as [L _]. pose proof (loc_range _ _ L) as B.
  assert (NV : novalue d X -> exists ds semi q, node_loop (S (len (t_data t))) t p false = good (ds, semi, q) /\ onwards t p q /\ (semi = true \/ p_pos p < p_pos q \/ keyed (strip (at_ t p)) = true) /\
    exists d2, goes_on t q d2 tail semi /\ forall u, same d2 u -> same d (add_values ds u)).
  { intros HN. destruct (node_novalue t (len (t_data t)) p false d X tail HL HN HS) as (semi & q & R & O & G & P). exists [], semi, q. split; [exact R|]. split; [exact O|]. split; [exact P|]. exists d. split; [exact G|]. intros u Hu. exact Hu. }
  destruct (lays_cases _ _ HL) as [(b & g & s & Hb & Hg & Hs & E)|(b & s & Hb & Hs & E)].
  - apply NV. destruct d; cbn [novalue]; auto. rewrite E. rewrite strip_blanks by exact Hb. exists (g ++ s). reflexivity.
  - destruct Hs as [|b0 k s0 rest s' Hb0 Hd Hl Hk HR|ds s0 rest s' HV HR HA|c e t0 st more sm rest s0 HC HO H1 H2 H3]; try (apply NV; exact I).
    assert (HS2 : sees t p (s0 ++ s' ++ tail)). { destruct HS as [_ HS]. split; [exact L|]. rewrite HS, E, <- app_assoc, strip_blanks by exact Hb. rewrite <- app_assoc. reflexivity. }
    destruct (node_values t ds s0 HV rest s' tail HR HA (S (len (t_data t))) p false HS2) as (semi & q & R & O & P & G); [unfold t_size, zlen in *; lia|].
    exists ds, semi, q. split; [exact R|]. split; [exact O|]. split; [auto|]. exists rest. split; [exact G|]. intros u Hu. destruct HV; cbn [add_values same]; auto.
Qed.

(** ** The tree *)
Scheme dtree_mut := Induction for dtree Sort Prop with dbranches_mut := Induction for dbranches Sort Prop.

Lemma condition_at t p c e r : CondSpec.condition Never c e -> has_operator e -> located t p -> at_ t p = c ++ r ->
  exists cs q, CondModel.interpret t p = Ok (0, cs, q) /\ onwards t p q /\ at_ t q = r /\ means cs e.
Proof.
  intros HC HO L A. destruct (interpret_condition c e (condition_never ToRight c e HC) t p r L A) as (cs & q & R & Cd & L' & A' & P). exists cs, q. split; [exact R|]. split; [split; [exact L'|pose proof (zlen_nonneg _ c); lia]|]. split; [exact A'|].
  intros cb env An. rewrite (evaluate_code cb env e cs An Cd). destruct e; [contradiction|reflexivity|reflexivity].
Qed.
Lemma lays_no_digit d X tail : lays d X -> match X ++ tail with [] => True | c :: _ => is_number c = false end.
Proof.
  intros HL. destruct (lays_cases _ _ HL) as [(b & g & s & Hb & Hg & Hs & ->)|(b & s & Hb & Hs & ->)].
  - destruct Hb as [|c b Hc _]; cbn [app]; [reflexivity|]. unfold is_number. lia.
  - destruct Hb as [|c b Hc _]; cbn [app]; [|unfold is_number; lia]. destruct (bare_head _ _ Hs) as (c & r & -> & Hc). cbn [app]. unfold head_char in Hc. unfold is_number. lia.
Qed.
Lemma rewind_at t p b s k d X tail : blanks b -> decimal s k -> zlen s <= 12 -> k < 2^32 -> lays d X -> located t p -> at_ t p = b ++ s ++ X ++ tail ->
  exists q, interpret_rewind t p = good (k, q) /\ onwards t p q /\ at_ t q = X ++ tail.
Proof.
  intros Hb (HN & HF & ->) HZ HK HL L A. unfold interpret_rewind.
  assert (HS : stops (s ++ X ++ tail)). { destruct s as [|c s]; [congruence|]. inversion HF as [|? ? Hc _]. cbn [app stops]. unfold digit in Hc. unfold is_spaces, is_space_tab, is_newline. lia. }
  destruct (spaces_at t p b _ L A (blanks_blank b Hb) HS) as (p1 & -> & A1 & L1 & P1). cbn [bind].
  assert (EF : eof t p1 = false). { rewrite (eof_at _ _ L1), A1. destruct s; [congruence|reflexivity]. }
  rewrite EF. destruct (letters_at t p1 F_NUMBERS_ s (X ++ tail) L1 A1) as (R2 & L2 & A2).
  { apply (Forall_impl _ (P := digit)); [|exact HF]. intros c Hc. rewrite flags_num. apply is_number_iff. exact Hc. }
  { pose proof (lays_no_digit d X tail HL) as H. destruct (X ++ tail); [exact I|]. rewrite flags_num. exact H. }
  { apply (Forall_impl _ (P := digit)); [|exact HF]. intros c Hc. apply digit_line. exact Hc. }
  rewrite R2. cbn [bind]. assert (1 <= zlen s) by (destruct s as [|c s]; [congruence|rewrite zlen_cons; pose proof (zlen_nonneg _ s); lia]).
  unfold name_length. replace (p_pos p1 + zlen s - 1 <? p_pos p1) with false by lia. cbn [bind]. replace (p_pos p1 + zlen s - 1 - p_pos p1 + 1) with (zlen s) by lia. replace (12 <? zlen s) with false by lia.
  pose proof (loc_range _ _ L1) as B1. rewrite (copy_from t (p_pos p1) s (X ++ tail) B1 A1). cbn [bind]. cbv zeta. change (fold_left (fun a c => a * 10 + (c - 48)) s 0) with (dec_val s).
  destruct (dec_number s HF) as (E3 & _ & _). rewrite E3 in *. unfold LENGTH_MAX. replace (2^32 - 1 <? dec_val s) with false by lia.
  exists (set_pos p1 (p_pos p1 + zlen s)). split; [reflexivity|]. pose proof (zlen_nonneg _ b). split; [split; [exact L2|cbn [p_pos set_pos]; lia]|exact A2].
Qed.
Lemma word_yes t p w r : located t p -> at_ t p = str_bytes w ++ r -> forallb (fun c => negb (is_newline c)) (str_bytes w) = true ->
  match_word t (str_bytes w) p = Ok (true, set_pos p (p_pos p + zlen (str_bytes w))) /\ located t (set_pos p (p_pos p + zlen (str_bytes w))) /\ from t (p_pos p + zlen (str_bytes w)) = r.
Proof.
  intros L A N. split; [|apply (located_word t p (str_bytes w) r L A); apply plain_word; exact N]. rewrite (word_starts t _ p L). replace (starts (str_bytes w) (at_ t p)) with true; [reflexivity|]. symmetry. apply starts_iff. eauto.
Qed.
Lemma word_no t p w c r d x : located t p -> at_ t p = c :: r -> str_bytes w = d :: x -> c <> d -> match_word t (str_bytes w) p = Ok (false, p).
Proof. intros L A E H. rewrite (word_starts t _ p L), A, (not_word w c d r x E H). reflexivity. Qed.

Lemma dbind_good {A B : Type} (a : A) (f : A -> out B) : dbind (good a) f = f a.
Proof. reflexivity. Qed.
Section Tree.
Variable t : text.
Definition reads_tree (fuel : nat) : Prop := forall d X tail p, lays d X -> sees t p (X ++ tail) -> t_size t - p_pos p < Z.of_nat fuel ->
  exists u q, tree_loop fuel t p = good (u, q) /\ onwards t p q /\ same d u /\ leaves t q tail.
Definition reads_branches (fuel : nat) : Prop := forall m sm d X tail p, lays_branches m sm -> lays d X -> sees t p (sm ++ X ++ tail) -> t_size t - p_pos p < Z.of_nat fuel ->
  exists u q, branches_loop fuel t p = good (u, q) /\ onwards t p q /\ same_branches m u /\ sees t q (X ++ tail).

(** What follows a node: values and more rounds. *)
Lemma rest_at fuel d X tail p0 p : reads_tree fuel -> lays d X -> sees t p (X ++ tail) -> p_pos p0 <= p_pos p -> t_size t - p_pos p0 < Z.of_nat (S fuel) -> p_pos p0 < p_pos p \/ keyed (strip (at_ t p)) = false ->
  forall (node : tree -> tree) (D : dtree), (forall u, same d u -> same D (node u)) ->
  exists u q, dbind (interpret_node t p) (fun '(ds, semi, p3) =>
        if semi : bool then good (node (add_values ds TEnd), p3)
        else if p_pos p3 =? p_pos p0 then fail TREE_SOFT
        else dbind (tree_loop fuel t p3) (fun '(rest, p) => good (node (add_values ds rest), p))) = good (u, q) /\ onwards t p q /\ same D u /\ leaves t q tail.
Proof.
  intros IH HL HS HP Hf HK node D HD. destruct (node_lays t p d X tail HL HS) as (ds & semi & q & -> & O & P & d2 & G & HSame). rewrite dbind_good. destruct semi.
  - destruct G as [-> G]. exists (node (add_values ds TEnd)), q. split; [reflexivity|]. split; [exact O|]. split; [|exact G]. apply HD. apply HSame. exact I.
  - destruct G as (X2 & HL2 & HS2). destruct O as [L3 H3]. assert (HPQ : p_pos p0 < p_pos q) by (destruct P as [P|[P|P]]; [discriminate|lia|destruct HK as [HK|HK]; [lia|congruence]]).
    replace (p_pos q =? p_pos p0) with false by lia. destruct (IH d2 X2 tail q HL2 HS2 ltac:(lia)) as (u & q2 & -> & [L4 H4] & Su & LV). unfold dbind. cbn [bind good].
    exists (node (add_values ds u)), q2. split; [reflexivity|]. split; [split; [exact L4|lia]|]. split; [|exact LV]. apply HD. apply HSame. exact Su.
Qed.

Lemma tree_step fuel : reads_tree fuel -> reads_branches fuel -> reads_tree (S fuel).
Proof.
  intros IHt IHb d X tail p HL HS Hf. rewrite tree_loop_S. destruct (lays_head d X tail HL) as (c0 & r0 & EH & HC0). rewrite (sees_eof _ _ _ _ _ HS EH).
  destruct (sees_spaces t p _ HS) as (p1 & -> & [L1 H1] & A1). cbn [bind]. assert (A1' := A1). rewrite EH in A1'. rewrite (eof_false _ _ _ _ L1 A1'). destruct (rd_at _ _ _ _ L1 A1') as [-> _]. cbn [bind].
  assert (HS1 : sees t p1 (X ++ tail)) by (split; [exact L1|rewrite A1; apply strip_strip]).
  assert (PLAIN : c0 <> 59 -> c0 <> 73 -> c0 <> 82 -> c0 <> 69 ->
    exists u q, dbind (bind (match_word t (str_bytes "IF") p1) (fun '(b, p) =>
               if b : bool then
                 bind (CondModel.interpret t p) (fun '(ret, c, p) =>
                 if negb (ret =? 0) then fail ret
                 else dbind (tree_loop fuel t p) (fun '(u, p) =>
                 dbind (branches_loop fuel t p) (fun '(more, p) => good (TIf c u more, p))))
               else bind (match_word t (str_bytes "REWIND") p) (fun '(b, p) =>
               if b : bool then dbind (interpret_rewind t p) (fun '(k, p) => good (TRewind k, p))
               else good (fun rest => rest, p)))) (fun '(node, p2) =>
        dbind (interpret_node t p2) (fun '(ds, semi, p3) =>
        if semi : bool then good (node (add_values ds TEnd), p3)
        else if p_pos p3 =? p_pos p then fail TREE_SOFT
        else dbind (tree_loop fuel t p3) (fun '(rest, p) => good (node (add_values ds rest), p)))) = good (u, q) /\ onwards t p q /\ same d u /\ leaves t q tail).
  { intros N1 N2 N3 N4. rewrite (word_no t p1 "IF" c0 r0 _ _ L1 A1' eq_refl N2). cbn [bind]. rewrite (word_no t p1 "REWIND" c0 r0 _ _ L1 A1' eq_refl N3). cbn [bind]. rewrite dbind_good.
    destruct (rest_at fuel d X tail p p1 IHt HL HS1 H1 Hf) with (node := fun rest : tree => rest) (D := d) as (u & q & R & [L4 H4] & Su & LV).
    - right. rewrite A1', strip_stop; [apply not_keyed; assumption|]. destruct HC0 as [->|HC0]; [reflexivity|apply head_stop; exact HC0].
    - intros u Hu. exact Hu.
    - exists u, q. split; [exact R|]. split; [split; [exact L4|lia]|]. auto. }
  destruct (lays_cases _ _ HL) as [(b & g & s & Hb & Hg & Hs & E)|(b & s & Hb & Hs & E)].
  - assert (c0 = 44) by (rewrite E, strip_comma in EH by exact Hb; congruence). subst c0. change (44 =? 59) with false. cbv iota. apply PLAIN; discriminate.
  - pose proof (strip_bare b s tail d Hb Hs) as EB. rewrite E, EB in EH. rewrite E, EB in A1.
    destruct Hs as [|b0 k s0 rest s' Hb0 Hd Hl Hk HR|ds s0 rest s' HV HR HA|c e t0 st more sm rest s0 HC HO HT HM HR].
    + cbn [app] in EH. assert (E0 : c0 = 59) by congruence. rewrite E0. change (59 =? 59) with true. cbv iota. destruct (located_word t p1 [59] tail L1 A1) as [L2 A2]; [repeat constructor|]. change (zlen [59]) with 1 in L2, A2.
      eexists TEnd, _. split; [reflexivity|]. split; [split; [exact L2|cbn [p_pos set_pos]; lia]|]. split; [exact I|]. split; [exact L2|left; exact A2].
    + clear PLAIN. assert (E0 : c0 = 82) by (symmetry; exact (f_equal (hd 0) EH)). rewrite E0 in *. change (82 =? 59) with false. cbv iota.
      rewrite (word_no t p1 "IF" 82 r0 _ _ L1 A1' eq_refl ltac:(discriminate)). cbn [bind]. rewrite <- !app_assoc in A1.
      destruct (word_yes t p1 "REWIND" _ L1 A1 eq_refl) as (-> & L2 & A2). cbn [bind].
      destruct (rewind_at t _ b0 s0 k rest s' tail Hb0 Hd Hl Hk HR L2 A2) as (q & -> & [L3 H3] & A3). rewrite !dbind_good. cbn [p_pos set_pos] in *. change (zlen (str_bytes "REWIND")) with 6 in *.
      destruct (rest_at fuel rest s' tail p q IHt HR) with (node := TRewind k) (D := DRewind k rest) as (u & q2 & R & [L4 H4] & Su & LV); [split; [exact L3|rewrite A3; reflexivity]|lia|exact Hf|left; lia|intros u Hu; split; [reflexivity|exact Hu]|].
      exists u, q2. split; [exact R|]. split; [split; [exact L4|lia]|]. auto.
    + destruct (values_head _ _ HV) as (c & x & -> & Hc). cbn [app] in EH. assert (E0 : c0 = c) by congruence. rewrite E0 in *. replace (c =? 59) with false by lia. apply PLAIN; lia.
    + clear PLAIN. assert (E0 : c0 = 73) by (symmetry; exact (f_equal (hd 0) EH)). rewrite E0 in *. change (73 =? 59) with false. cbv iota. rewrite <- !app_assoc in A1.
      destruct (word_yes t p1 "IF" _ L1 A1 eq_refl) as (-> & L2 & A2). cbn [bind]. change (zlen (str_bytes "IF")) with 2 in *.
      destruct (condition_at t _ c e _ HC HO L2 A2) as (cs & p3 & -> & [L3 H3] & A3 & HME). cbn [bind p_pos set_pos] in *. change (negb (0 =? 0)) with false. cbv iota.
      destruct (IHt t0 st (sm ++ s0 ++ tail) p3 HT) as (u1 & p4 & -> & [L4 H4] & S4 & LV4); [split; [exact L3|rewrite A3; reflexivity]|lia|]. rewrite dbind_good.
      destruct (IHb more sm rest s0 tail p4 HM HR (leaves_sees _ _ _ LV4) ltac:(lia)) as (u2 & p5 & -> & [L5 H5] & S5 & HS5). rewrite !dbind_good.
      destruct (rest_at fuel rest s0 tail p p5 IHt HR HS5) with (node := TIf cs u1 u2) (D := DIf e t0 more rest) as (u & q2 & R & [L6 H6] & Su & LV); [lia|exact Hf|left; lia|intros u Hu; cbn [same]; auto|].
      exists u, q2. split; [exact R|]. split; [split; [exact L6|lia]|]. auto.
Qed.
Lemma branches_step fuel : reads_tree fuel -> reads_branches fuel -> reads_branches (S fuel).
Proof.
  intros IHt IHb m sm d X tail p HM HL HS Hf. rewrite branches_loop_S. destruct (sees_spaces t p _ HS) as (p1 & -> & [L1 H1] & A1). cbn [bind].
  destruct HM as [|b t0 st Hb HT|b c e t0 st more sm Hb HC HO HT HM].
  - cbn [app] in *. destruct (lays_head d X tail HL) as (c0 & r0 & EH & HC0). rewrite EH in A1. rewrite (eof_false _ _ _ _ L1 A1).
    assert (NE : c0 <> 69) by (unfold head_char in HC0; lia). rewrite (word_no t p1 "ELSIF" c0 r0 _ _ L1 A1 eq_refl NE). cbn [bind]. rewrite (word_no t p1 "ELSE" c0 r0 _ _ L1 A1 eq_refl NE). cbn [bind].
    exists BEnd, p1. split; [reflexivity|]. split; [split; [exact L1|lia]|]. split; [exact I|]. split; [exact L1|]. rewrite A1, <- EH. apply strip_strip.
  - rewrite <- !app_assoc, strip_blanks in A1 by exact Hb. cbn [app str_bytes] in A1.
    assert (A1' : at_ t p1 = str_bytes "ELSE" ++ st ++ X ++ tail) by (rewrite A1; reflexivity). rewrite (eof_false _ _ _ _ L1 A1').
    rewrite (word_starts t (str_bytes "ELSIF") p1 L1), A1'. change (starts (str_bytes "ELSIF") (str_bytes "ELSE" ++ st ++ X ++ tail)) with false. cbn [bind].
    destruct (word_yes t p1 "ELSE" _ L1 A1' eq_refl) as (-> & L2 & A2). cbn [bind]. change (zlen (str_bytes "ELSE")) with 4 in *.
    destruct (IHt t0 st (X ++ tail) (set_pos p1 (p_pos p1 + 4)) HT) as (u & q & -> & [L3 H3] & Su & LV); [split; [exact L2|cbn [p_pos set_pos]; rewrite A2; reflexivity]|cbn [p_pos set_pos]; lia|]. unfold dbind. cbn [bind good].
    exists (BElse u), q. split; [reflexivity|]. cbn [p_pos set_pos] in H3. split; [split; [exact L3|lia]|]. split; [exact Su|apply leaves_sees; exact LV].
  - rewrite <- !app_assoc, strip_blanks in A1 by exact Hb.
    assert (A1' : at_ t p1 = str_bytes "ELSIF" ++ c ++ st ++ sm ++ X ++ tail) by (rewrite A1; reflexivity). rewrite (eof_false _ _ _ _ L1 A1').
    destruct (word_yes t p1 "ELSIF" _ L1 A1' eq_refl) as (-> & L2 & A2). cbn [bind]. change (zlen (str_bytes "ELSIF")) with 5 in *.
    destruct (condition_at t _ c e _ HC HO L2 A2) as (cs & p3 & -> & [L3 H3] & A3 & HME). cbn [bind p_pos set_pos] in *. change (negb (0 =? 0)) with false. cbv iota.
    destruct (IHt t0 st (sm ++ X ++ tail) p3 HT) as (u1 & p4 & -> & [L4 H4] & S4 & LV4); [split; [exact L3|rewrite A3; reflexivity]|lia|]. rewrite dbind_good.
    destruct (IHb more sm d X tail p4 HM HL (leaves_sees _ _ _ LV4) ltac:(lia)) as (u2 & p5 & -> & [L5 H5] & S5 & HS5). unfold dbind. cbn [bind good].
    exists (BElsif cs u1 u2), p5. split; [reflexivity|]. split; [split; [exact L5|lia]|]. split; [cbn [same_branches]; auto|exact HS5].
Qed.
Lemma reads_all fuel : reads_tree fuel /\ reads_branches fuel.
Proof.
  induction fuel as [|fuel [IHt IHb]].
  - split; [intros d X tail p _ [L _] Hf|intros m sm d X tail p _ _ [L _] Hf]; apply loc_range in L; lia.
  - split; [apply tree_step; assumption|apply branches_step; assumption].
Qed.
End Tree.

Lemma inline_at t p b r : located t p -> at_ t p = b ++ r -> blank_inline b -> match r with [] => True | c :: _ => is_space_tab c = false end ->
  exists q, ignore_space_and_tab t p = Ok q /\ located t q /\ at_ t q = r.
Proof.
  intros L E B S. pose proof (loc_range _ _ L) as Hp. destruct (ignore_ok t is_space_tab p eq_refl Hp) as (q & R & P & L'). exists q. split; [exact R|]. split; [auto|].
  rewrite E, leading_stop in P by auto. rewrite P. eapply from_app; [lia|exact E].
Qed.
Lemma raw_reads d s b1 semi b2 nul : lays d s -> blank_inline b1 -> blank_inline b2 -> semi = [] \/ semi = [59] ->
  exists u, interpret_raw (mk_text (s ++ b1 ++ semi ++ b2) nul) = good u /\ same d u.
Proof.
  intros HL B1 B2 HSemi. set (t := mk_text (s ++ b1 ++ semi ++ b2) nul). unfold interpret_raw, interpret_tree.
  destruct (reads_all t (S (len (t_data t)))) as [H _]. destruct (H d s (b1 ++ semi ++ b2) pos_init HL) as (u & q & -> & _ & Su & LV).
  { split; [apply located_init|]. reflexivity. }
  { change (p_pos pos_init) with 0. unfold t_size, zlen. lia. }
  unfold dbind. cbn [bind good]. exists u.
  assert (Q : exists b b', blank_inline b /\ blank_inline b' /\ at_ t q = b ++ semi ++ b').
  { destruct LV as [_ [->| ->]]; [exists b1, b2; auto|]. assert (BB : forall b, blank_inline b -> blanks b).
    { intros b. apply Forall_impl. intros c. unfold is_space_tab. lia. }
    rewrite strip_blanks by (apply BB; exact B1). destruct HSemi as [->| ->]; cbn [app].
    - exists [], []. split; [constructor|]. split; [constructor|]. rewrite <- (app_nil_r b2), strip_blanks by (apply BB; exact B2). reflexivity.
    - exists [], b2. split; [constructor|]. split; [exact B2|reflexivity]. }
  destruct Q as (b & b' & Hb & Hb' & A). destruct LV as [L _].
  assert (Q2 : exists p1 x, ignore_space_and_tab t q = Ok p1 /\ located t p1 /\ at_ t p1 = semi ++ x /\ blank_inline x).
  { destruct HSemi as [->| ->].
    - destruct (inline_at t q (b ++ b') [] L) as (p1 & R & L1 & A1); [rewrite app_nil_r; exact A|apply Forall_app; auto|exact I|]. exists p1, []. split; [exact R|]. split; [exact L1|]. split; [exact A1|constructor].
    - destruct (inline_at t q b (59 :: b') L A Hb eq_refl) as (p1 & R & L1 & A1). exists p1, b'. auto. }
  destruct Q2 as (p1 & x & -> & L1 & A1 & Hx). cbn [bind].
  assert (Q3 : exists bo p2, match_word t (str_bytes ";") p1 = Ok (bo, p2) /\ located t p2 /\ (exists y, at_ t p2 = y /\ blank_inline y)).
  { destruct HSemi as [->| ->].
    - cbn [app] in A1. destruct x as [|c x]; [|inversion Hx as [|? ? Hc _]; subst].
      + rewrite (word_starts t _ p1 L1), A1. exists false, p1. split; [reflexivity|]. split; [exact L1|]. exists []. split; [exact A1|constructor].
      + rewrite (word_no t p1 ";" c x _ _ L1 A1 eq_refl) by (unfold is_space_tab in Hc; change (c <> 59); lia). exists false, p1. split; [reflexivity|]. split; [exact L1|]. exists (c :: x). split; [exact A1|exact Hx].
    - destruct (word_yes t p1 ";" x L1 A1 eq_refl) as (-> & L2 & A2). eexists true, _. split; [reflexivity|]. split; [exact L2|]. exists x. split; [exact A2|exact Hx]. }
  destruct Q3 as (bo & p2 & -> & L2 & y & A2 & Hy). cbn [bind].
  destruct (inline_at t p2 y [] L2) as (p3 & -> & L3 & A3); [rewrite app_nil_r; exact A2|exact Hy|exact I|]. cbn [bind]. rewrite (eof_at _ _ L3), A3. split; [reflexivity|exact Su].
Qed.
