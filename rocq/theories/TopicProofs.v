(** Proofs about topics, filters and access lists. *)
From Coq Require Import ZArith Arith List Bool Lia.
From Verif Require Import Common Utf8Model Utf8Spec Utf8Proofs TopicModel TopicSpec.
Import ListNotations.
Open Scope Z_scope.

(** * Strings *)

Lemma str_same_iff : forall a b, str_same a b = true <-> a = b.
Proof.
  induction a as [|x a IH]; destruct b as [|y b]; cbn; split; intros; try discriminate; auto.
  - apply andb_true_iff in H as [H1 H2]. apply Z.eqb_eq in H1. apply IH in H2. congruence.
  - injection H as -> ->. rewrite Z.eqb_refl. apply IH. reflexivity.
Qed.
Lemma str_same_refl : forall a, str_same a a = true.
Proof. intros. apply str_same_iff. reflexivity. Qed.
Lemma str_same_false : forall a b, str_same a b = false <-> a <> b.
Proof.
  intros. split; intros H.
  - intros E. apply str_same_iff in E. congruence.
  - destruct (str_same a b) eqn:E; auto. apply str_same_iff in E. congruence.
Qed.

Lemma cstr_id : forall s, ~ In 0 s -> cstr s = s.
Proof.
  induction s as [|c s IH]; intros H; cbn; auto.
  destruct (Z.eqb_spec c 0); [ exfalso; apply H; left; auto | ].
  rewrite IH; auto. intros Hi. apply H. right. auto.
Qed.

(** * Splitting *)
Fixpoint split (s : list Z) : list (list Z) :=
  match s with
  | [] => [[]]
  | c :: r => if c =? 47 then [] :: split r
              else match split r with [] => [[c]] | t :: ts => (c :: t) :: ts end
  end.

Lemma split_ne : forall s, split s <> [].
Proof. destruct s; cbn; [ discriminate | ]. destruct (z =? 47); [ discriminate | ]. destruct (split s); discriminate. Qed.

Lemma join_cons : forall l ls, ls <> [] -> join (l :: ls) = l ++ 47 :: join ls.
Proof. intros. destruct ls; [ congruence | reflexivity ]. Qed.

Lemma join_split : forall s, join (split s) = s.
Proof.
  induction s as [|c s IH]; cbn [split]; auto.
  destruct (Z.eqb_spec c 47).
  - subst. rewrite join_cons by apply split_ne. rewrite IH. reflexivity.
  - destruct (split s) as [|t ts] eqn:E; [ exfalso; eapply split_ne; eauto | ].
    destruct ts as [|t' ts].
    + cbn in *. congruence.
    + rewrite join_cons in * by discriminate. rewrite <- IH. reflexivity.
Qed.

Lemma split_levels : forall s, ~ In 0 s -> is_levels (split s).
Proof.
  intros s H. split; [ apply split_ne | ].
  induction s as [|c s IH]; cbn [split].
  - repeat constructor; cbn; tauto.
  - assert (Hs : ~ In 0 s) by (intros Hi; apply H; right; auto). specialize (IH Hs).
    destruct (Z.eqb_spec c 47).
    + constructor; auto. split; cbn; tauto.
    + destruct (split s) as [|t ts] eqn:E; [ exfalso; eapply split_ne; eauto | ].
      apply Forall_cons_iff in IH as [[H1 H2] H3]. constructor; auto.
      split; cbn; intros [Hc|Hc]; auto. subst. apply H. left. auto.
Qed.

Lemma split_level_app : forall l rest, ~ In 47 l ->
  split (l ++ rest) = match split rest with [] => [l] | t :: ts => (l ++ t) :: ts end.
Proof.
  induction l as [|c l IH]; intros rest H.
  - cbn. destruct (split rest) eqn:E; auto. exfalso. eapply split_ne; eauto.
  - cbn [app split]. destruct (Z.eqb_spec c 47); [ exfalso; apply H; left; auto | ].
    rewrite IH by (intros Hi; apply H; right; auto).
    destruct (split rest) eqn:E; auto.
Qed.

Lemma split_join : forall ls, is_levels ls -> split (join ls) = ls.
Proof.
  intros ls [Hne HF]. induction ls as [|l ls IH]; [ congruence | ].
  apply Forall_cons_iff in HF as [[H1 H2] HF].
  destruct ls as [|l' ls].
  - cbn [join]. rewrite <- (app_nil_r l) at 1. rewrite split_level_app by auto. cbn. rewrite app_nil_r. auto.
  - rewrite join_cons by discriminate. rewrite split_level_app by auto.
    cbn [split]. rewrite IH by (auto; discriminate). cbn. rewrite app_nil_r. reflexivity.
Qed.

(** * Tokenizer *)
Lemma cut_split : forall s,
  match cut_token s with
  | (t, None) => split s = [t] /\ s = t
  | (t, Some rest) => split s = t :: split rest /\ (length rest < length s)%nat /\ s = t ++ 47 :: rest
  end.
Proof.
  induction s as [|c s IH]; cbn [cut_token split]; auto.
  change ch_slash with 47. destruct (Z.eqb_spec c 47).
  - subst. repeat split; auto.
  - destruct (cut_token s) as [t [rest|]].
    + destruct IH as (H1 & H2 & H3). rewrite H1. repeat split; cbn; [ lia | congruence ].
    + destruct IH as [H1 H2]. rewrite H1. split; congruence.
Qed.

Lemma tokenize_loop_split : forall fuel s, (S (length s) < fuel)%nat -> ~ In 0 s -> s <> [] ->
  tokenize_loop fuel s = split s.
Proof.
  induction fuel as [|fuel IH]; intros s Hf H0 Hne; [ lia | ].
  cbn [tokenize_loop]. destruct s as [|c s]; [ congruence | ].
  pose proof (cut_split (c :: s)) as HC. destruct (cut_token (c :: s)) as [t [rest|]].
  - destruct HC as (H1 & H2 & H3). rewrite H1.
    assert (Ht : ~ In 0 t) by (intros Hi; apply H0; rewrite H3; apply in_or_app; auto).
    rewrite (cstr_id t Ht).
    destruct rest as [|c' rest].
    + destruct fuel; [ cbn in Hf; lia | ]. reflexivity.
    + f_equal. apply IH; [ lia | | discriminate ].
      intros Hi. apply H0. rewrite H3. apply in_or_app. right. right. auto.
  - destruct HC as [H1 H2]. rewrite H1, cstr_id; auto. congruence.
Qed.

Lemma tokenize_join : forall ls, is_levels ls -> join ls <> [] -> tokenize (join ls) = ls.
Proof.
  intros ls HL Hne. unfold tokenize. rewrite tokenize_loop_split; auto.
  - apply split_join. auto.
  - destruct HL as [_ HF]. clear Hne. induction ls as [|l ls IH]; [ cbn; tauto | ].
    apply Forall_cons_iff in HF as [[H1 H2] HF]. destruct ls as [|l' ls]; [ cbn; auto | ].
    rewrite join_cons by discriminate. intros Hi. apply in_app_or in Hi as [Hi|[Hi|Hi]]; auto; [ lia | ].
    apply IH; auto.
Qed.

(** * Matching *)
Lemma first_char_dollar : forall l, first_char l =? 36 = true <-> dollar l.
Proof.
  intros. unfold dollar. destruct l as [|c l]; cbn; split; intros H; try discriminate.
  - destruct H as [r H]. discriminate.
  - apply Z.eqb_eq in H. subst. eauto.
  - destruct H as [r H]. injection H as -> _. reflexivity.
Qed.
Lemma first_char_not_dollar : forall l, first_char l =? 36 = false <-> ~ dollar l.
Proof. intros. rewrite <- first_char_dollar. destruct (first_char l =? 36); split; intros; congruence. Qed.

Lemma first_char_nowild : forall l, no_wildcard l -> first_char l =? ch_hash = false /\ first_char l =? ch_plus = false.
Proof.
  intros l [H1 H2]. unfold ch_hash, ch_plus. destruct l as [|c l]; cbn; [ auto | ].
  split; apply Z.eqb_neq; intros ->; [ apply H1 | apply H2 ]; left; auto.
Qed.

(** One level against one level. *)
Definition cont (r : tmatch) (fs ts : list level) : tmatch := match fs, ts with [], [] => TMatch | _, _ => r end.

Lemma match_tokens_lit : forall l fs t ts, no_wildcard l ->
  match_tokens (l :: fs) (t :: ts) = if str_same l t then cont (match_tokens fs ts) fs ts else TMismatch.
Proof.
  intros l fs t ts H. cbn [match_tokens]. destruct (first_char_nowild l H) as [-> ->].
  destruct (str_same l t); reflexivity.
Qed.
Lemma match_tokens_plus : forall fs t ts,
  match_tokens (plus :: fs) (t :: ts) = if first_char t =? 36 then TMismatch else cont (match_tokens fs ts) fs ts.
Proof. reflexivity. Qed.
Lemma match_tokens_hash : forall t ts,
  match_tokens [hash] (t :: ts) = if first_char t =? 36 then TMismatch else TMatch.
Proof. reflexivity. Qed.

Lemma cont_spec : forall fs ts,
  (fs <> [] -> (match_tokens fs ts = TMatch <-> filter_match fs ts) /\ match_tokens fs ts <> TBug) ->
  (cont (match_tokens fs ts) fs ts = TMatch <-> filter_match fs ts) /\ cont (match_tokens fs ts) fs ts <> TBug.
Proof.
  intros fs ts H. destruct fs as [|f fs]; [ | apply H; discriminate ].
  split; [ | destruct ts; discriminate ].
  destruct ts; cbn; split; intros X; try discriminate; auto; [ apply FM_end | inversion X ].
Qed.

Lemma match_tokens_spec : forall fs ts, legal_filter fs -> fs <> [] ->
  (match_tokens fs ts = TMatch <-> filter_match fs ts) /\ match_tokens fs ts <> TBug.
Proof.
  intros fs ts HL. revert ts. induction HL as [|l fs Hn HL IH|fs HL IH|]; intros ts Hne; [ congruence | | | ].
  - destruct ts as [|t ts].
    + split; [ split; intros H; [ discriminate | inversion H ] | discriminate ].
    + rewrite match_tokens_lit by auto.
      assert (HC : (cont (match_tokens fs ts) fs ts = TMatch <-> filter_match fs ts) /\ cont (match_tokens fs ts) fs ts <> TBug).
      { apply cont_spec. auto. }
      destruct HC as [HC1 HC2].
      destruct (str_same l t) eqn:E.
      * apply str_same_iff in E. subst t. split; auto. rewrite HC1. split; intros H.
        -- constructor; auto.
        -- inversion H; subst; auto; exfalso; destruct Hn as [Hn1 Hn2]; solve [ apply Hn1; left; auto | apply Hn2; left; auto ].
      * apply str_same_false in E. split; [ | discriminate ]. split; intros H; [ discriminate | ].
        inversion H; subst; [ | | congruence ]; exfalso; destruct Hn as [Hn1 Hn2]; [ apply Hn1 | apply Hn2 ]; left; auto.
  - destruct ts as [|t ts].
    + split; [ split; intros H; [ discriminate | inversion H ] | discriminate ].
    + rewrite match_tokens_plus.
      assert (HC : (cont (match_tokens fs ts) fs ts = TMatch <-> filter_match fs ts) /\ cont (match_tokens fs ts) fs ts <> TBug).
      { apply cont_spec. auto. }
      destruct HC as [HC1 HC2].
      assert (HW : ~ no_wildcard plus) by (intros [_ Hn]; apply Hn; left; auto).
      destruct (first_char t =? 36) eqn:E.
      * apply first_char_dollar in E. split; [ | discriminate ]. split; intros H; [ discriminate | ].
        inversion H; subst; tauto.
      * apply first_char_not_dollar in E. split; auto. rewrite HC1. split; intros H.
        -- constructor; auto.
        -- inversion H; subst; auto; tauto.
  - destruct ts as [|t ts].
    + split; [ split; intros H; [ discriminate | inversion H ] | discriminate ].
    + rewrite match_tokens_hash.
      assert (HW : ~ no_wildcard hash) by (intros [Hn _]; apply Hn; left; auto).
      destruct (first_char t =? 36) eqn:E.
      * apply first_char_dollar in E. split; [ | discriminate ]. split; intros H; [ discriminate | ].
        inversion H; subst; tauto.
      * apply first_char_not_dollar in E. split; [ | discriminate ]. split; intros H; auto. constructor. auto.
Qed.

(** * Linear matcher *)
Lemma skip_level : forall t rest, ~ In 47 t ->
  skip_to_slash (t ++ rest) = skip_to_slash rest.
Proof.
  induction t as [|c t IH]; intros rest H; auto. cbn [app skip_to_slash].
  change ch_slash with 47. destruct (Z.eqb_spec c 47); [ exfalso; apply H; left; auto | ].
  apply IH. intros Hi. apply H. right. auto.
Qed.

Section Linear.
  Variables (ta fa : Z).
  Hypothesis Hta : ta <> 36.
  Notation lin := (linear_loop (Some ta) (Some fa)).

  (** What remains after a level: nothing, or a separator and more. *)
  Definition tail_of (ls : list level) : list Z := match ls with [] => [] | _ => 47 :: join ls end.

  Lemma join_tail : forall l ls, join (l :: ls) = l ++ tail_of ls.
  Proof. destruct ls; cbn; auto. rewrite app_nil_r. reflexivity. Qed.

  Lemma lin_level : forall l F T T' tp fp, no_wildcard l -> ~ In 47 l -> T = l ++ T' ->
    lin (l ++ F) T tp fp = lin F T' (tp + zlen l) (fp + zlen l).
  Proof.
    induction l as [|c l IH]; intros F T T' tp fp [H1 H2] H3 ->.
    - cbn [app]. rewrite zlen_nil, !Z.add_0_r. reflexivity.
    - cbn [app linear_loop]. change ch_hash with 35. change ch_plus with 43. change ch_slash with 47.
      destruct (Z.eqb_spec c 35); [ exfalso; apply H1; left; auto | ].
      destruct (Z.eqb_spec c 43); [ exfalso; apply H2; left; auto | ].
      destruct (Z.eqb_spec c 47); [ exfalso; apply H3; left; auto | ].
      rewrite Z.eqb_refl. cbn [negb].
      rewrite (IH F (l ++ T') T'); auto.
      + rewrite zlen_cons. f_equal; lia.
      + split; intros Hi; [ apply H1 | apply H2 ]; right; auto.
      + intros Hi. apply H3. right. auto.
  Qed.

  (** The topic level differs from the filter level. *)
  Lemma lin_differ : forall l t fs ts tp fp, no_wildcard l -> ~ In 47 l -> ~ In 47 t -> l <> t ->
    lin (l ++ tail_of fs) (t ++ tail_of ts) tp fp = LMismatch.
  Proof.
    induction l as [|c l IH]; intros t fs ts tp fp [H1 H2] H3 Ht Hd.
    - destruct t as [|d t]; [ congruence | ]. cbn [app]. destruct fs as [|f fs]; cbn [tail_of linear_loop]; auto.
      change (47 =? ch_hash) with false. change (47 =? ch_plus) with false. cbv iota.
      destruct (Z.eqb_spec 47 d); [ exfalso; apply Ht; left; auto | reflexivity ].
    - cbn [app linear_loop]. change ch_hash with 35. change ch_plus with 43. change ch_slash with 47.
      destruct (Z.eqb_spec c 35); [ exfalso; apply H1; left; auto | ].
      destruct (Z.eqb_spec c 43); [ exfalso; apply H2; left; auto | ].
      destruct (Z.eqb_spec c 47); [ exfalso; apply H3; left; auto | ].
      destruct t as [|d t].
      + cbn [app]. destruct ts; cbn [tail_of]; auto.
        destruct (Z.eqb_spec c 47); [ congruence | reflexivity ].
      + cbn [app]. destruct (Z.eqb_spec c d); [ | reflexivity ]. cbn [negb]. subst d.
        apply IH.
        * split; intros Hi; [ apply H1 | apply H2 ]; right; auto.
        * intros Hi. apply H3. right. auto.
        * intros Hi. apply Ht. right. auto.
        * congruence.
  Qed.

  Definition conv (m : tmatch) : lmatch := match m with TMatch => LMatch | _ => LMismatch end.

  (** At the end of a level on both sides. *)
  Lemma lin_tail : forall fs ts tp fp,
    (fs <> [] -> ts <> [] -> lin (join fs) (join ts) 0 0 = conv (match_tokens fs ts)) ->
    lin (tail_of fs) (tail_of ts) tp fp = conv (cont (match_tokens fs ts) fs ts).
  Proof.
    intros fs ts tp fp IH. destruct fs as [|f fs].
    - destruct ts as [|t ts]; reflexivity.
    - destruct ts as [|t ts]; [ reflexivity | ].
      cbn [tail_of linear_loop cont]. change (47 =? ch_hash) with false. change (47 =? ch_plus) with false.
      change (47 =? ch_slash) with true. change (47 =? 47) with true. cbn [negb].
      apply IH; discriminate.
  Qed.

  Lemma linear_is_tokens : forall fs ts, legal_filter fs -> Forall is_level fs -> Forall is_level ts ->
    fs <> [] -> ts <> [] -> lin (join fs) (join ts) 0 0 = conv (match_tokens fs ts).
  Proof.
    intros fs ts HL. revert ts. induction HL as [|l fs Hn HL IH|fs HL IH|]; intros ts Hf Ht Hfe Hte; [ congruence | | | ].
    - destruct ts as [|t ts]; [ congruence | ].
      apply Forall_cons_iff in Hf as [[Hl1 Hl2] Hf]. apply Forall_cons_iff in Ht as [[Ht1 Ht2] Ht].
      rewrite match_tokens_lit by auto. rewrite !join_tail.
      destruct (str_same l t) eqn:E.
      + apply str_same_iff in E. subst t.
        rewrite lin_level with (T' := tail_of ts); auto. apply lin_tail. intros. apply IH; auto.
      + apply str_same_false in E. apply lin_differ; auto.
    - destruct ts as [|t ts]; [ congruence | ].
      apply Forall_cons_iff in Hf as [_ Hf]. apply Forall_cons_iff in Ht as [[Ht1 Ht2] Ht].
      rewrite match_tokens_plus. rewrite !join_tail.
      assert (HR : (match t ++ tail_of ts with [] => Some ta | c :: _ => Some c end) = Some (match t ++ tail_of ts with [] => ta | c :: _ => c end))
        by (destruct (t ++ tail_of ts); reflexivity).
      assert (HD : (match t ++ tail_of ts with [] => ta | c :: _ => c end =? ch_dollar) = (first_char t =? 36)).
      { destruct t as [|c t]; [ | reflexivity ]. cbn [app first_char]. destruct ts; cbn [tail_of]; [ | reflexivity ].
        apply Z.eqb_neq. auto. }
      unfold plus at 1. cbn [app linear_loop].
      change (43 =? ch_hash) with false. change (43 =? ch_plus) with true. cbn [Z.eqb negb].
      rewrite HR, HD. destruct (first_char t =? 36); [ reflexivity | ].
      rewrite skip_level by auto. destruct ts as [|t' ts].
      + cbn [tail_of skip_to_slash]. change [] with (tail_of []) at 1. apply lin_tail. congruence.
      + cbn [tail_of skip_to_slash]. change (47 =? ch_slash) with true. cbv iota beta.
        change (47 :: join (t' :: ts)) with (tail_of (t' :: ts)). apply lin_tail. intros. apply IH; auto.
    - destruct ts as [|t ts]; [ congruence | ].
      apply Forall_cons_iff in Ht as [[Ht1 Ht2] Ht].
      rewrite match_tokens_hash, (join_tail t). unfold hash. change (join [[35]]) with [35]. cbn [linear_loop].
      change (35 =? ch_hash) with true. cbn [Z.eqb negb].
      destruct t as [|c t].
      + cbn [app first_char Z.eqb conv]. destruct ts; cbn [tail_of]; [ | reflexivity ].
        change ch_dollar with 36; destruct (Z.eqb_spec ta 36); [ congruence | reflexivity ].
      + cbn [app first_char]. change ch_dollar with 36. destruct (c =? 36); reflexivity.
  Qed.
End Linear.

(** * Standard *)
Lemma filter_match_std : forall fs ts, filter_match fs ts -> std_match fs ts.
Proof.
  intros fs ts H. split.
  - induction H; constructor; auto.
  - intros [H1 (t & H2 & H3)]. inversion H; subst; cbn in *.
    + discriminate.
    + injection H2 as <-. tauto.
    + injection H2 as <-. tauto.
    + destruct H0 as [Ha Hb]. destruct H1 as [H1|H1]; injection H1 as ->; [ apply Ha | apply Hb ]; left; auto.
Qed.

Lemma std_filter_match : forall fs ts, std_levels fs ts ->
  Forall (fun t => ~ dollar t) ts -> (length fs <= length ts)%nat -> filter_match fs ts.
Proof.
  intros fs ts H. induction H; intros HD HL; cbn [length] in HL; try (apply Forall_cons_iff in HD as [HD1 HD2]).
  - constructor.
  - destruct ts; [ cbn in HL; lia | ]. apply Forall_cons_iff in HD as [HD1 HD2]. constructor; auto.
  - constructor; auto. apply IHstd_levels; auto. lia.
  - constructor; auto. apply IHstd_levels; auto. lia.
Qed.

(** * Validation *)
Definition pair_ok (c1 c2 : Z) : bool := fst (filter_char_is_ok (0, c1) c2) =? 0.
Fixpoint chars_ok (c1 : Z) (s : list Z) : bool :=
  match s with [] => true | c :: r => pair_ok c1 c && chars_ok c r end.

Lemma filter_char_state : forall seq c, snd (filter_char_is_ok seq c) = (snd seq, c).
Proof.
  intros. unfold filter_char_is_ok.
  repeat match goal with |- context [if ?b then _ else _] => destruct b end; auto.
Qed.
Lemma filter_char_01 : forall seq c, fst (filter_char_is_ok seq c) = 0 \/ fst (filter_char_is_ok seq c) = 1.
Proof.
  intros. unfold filter_char_is_ok.
  repeat match goal with |- context [if ?b then _ else _] => destruct b end; auto.
Qed.
Lemma filter_char_only2 : forall a b c, fst (filter_char_is_ok (a, b) c) = fst (filter_char_is_ok (0, b) c).
Proof.
  intros. unfold filter_char_is_ok. cbn [snd].
  repeat match goal with |- context [if ?b then _ else _] => destruct b end; auto.
Qed.

Lemma cb_run_filter : forall cs a b,
  fst (cb_run filter_char_is_ok (a, b) cs) = if chars_ok b cs then 0 else 1.
Proof.
  induction cs as [|c cs IH]; intros a b; cbn [cb_run chars_ok]; auto.
  unfold pair_ok. rewrite <- (filter_char_only2 a).
  pose proof (filter_char_state (a, b) c) as HS. pose proof (filter_char_01 (a, b) c) as H01.
  destruct (filter_char_is_ok (a, b) c) as [ret st]. cbn [fst snd] in *. subst st.
  destruct H01 as [-> | ->]; cbn [Z.eqb andb]; auto.
Qed.

(** Multi-octet characters look the same octet by octet. *)
Definition plain (c : Z) : Prop := c <> 0 /\ c <> 35 /\ c <> 43 /\ c <> 47.
Lemma pair_plain : forall c1 c2 c1' c2',
  (c1 = c1' \/ plain c1 /\ plain c1') -> (c2 = c2' \/ plain c2 /\ plain c2') -> pair_ok c1 c2 = pair_ok c1' c2'.
Proof.
  intros c1 c2 c1' c2' H1 H2. unfold pair_ok, filter_char_is_ok, plain, ch_hash, ch_plus, ch_slash in *. cbn [snd].
  destruct H1 as [<- | [H1 H1']], H2 as [<- | [H2 H2']]; auto;
  repeat match goal with |- context [?x =? ?y] => is_var x; destruct (Z.eqb_spec x y); try (exfalso; lia); subst end; try reflexivity; exfalso; lia.
Qed.
Lemma pair_plain2 : forall c1 c2, plain c1 -> plain c2 -> pair_ok c1 c2 = true.
Proof.
  intros. rewrite (pair_plain c1 c2 65 65); auto; right; split; auto; unfold plain; lia.
Qed.
Lemma chars_plain : forall s c1 c1', (c1 = c1' \/ plain c1 /\ plain c1') -> chars_ok c1 s = chars_ok c1' s.
Proof. destruct s; intros; cbn [chars_ok]; auto. f_equal. apply pair_plain; auto. Qed.

Lemma encode_shape : forall c, scalar c ->
  (utf8_encode c = [c] /\ c < 128) \/
  (plain c /\ exists b bs, utf8_encode c = b :: bs /\ Forall plain (b :: bs)).
Proof.
  intros c Hc. unfold scalar in Hc. unfold utf8_encode.
  destruct (Z.ltb_spec c 128); [ left; auto | right; split; [ unfold plain; lia | ] ].
  destruct (Z.ltb_spec c 2048); [ | destruct (Z.ltb_spec c 65536) ]; eexists; eexists; (split; [ reflexivity | ]);
  repeat constructor; try lia; unfold plain; Z.div_mod_to_equations; lia.
Qed.

Lemma chars_ok_run : forall bs b c1 rest, Forall plain (b :: bs) ->
  chars_ok c1 (b :: bs ++ rest) = pair_ok c1 b && chars_ok b rest.
Proof.
  induction bs as [|b' bs IH]; intros b c1 rest HF; [ reflexivity | ].
  apply Forall_cons_iff in HF as [Hb HF]. pose proof HF as HF'. apply Forall_cons_iff in HF' as [Hb' _].
  cbn [app]. change (chars_ok c1 (b :: b' :: bs ++ rest)) with (pair_ok c1 b && chars_ok b (b' :: bs ++ rest)).
  rewrite IH by auto. rewrite (pair_plain2 b b') by auto. cbn [andb]. f_equal. apply chars_plain. auto.
Qed.

Lemma chars_ok_encode : forall cs c1, Forall scalar cs -> chars_ok c1 cs = chars_ok c1 (utf8_encode_all cs).
Proof.
  induction cs as [|c cs IH]; intros c1 HS; auto.
  apply Forall_cons_iff in HS as [Hc HS].
  unfold utf8_encode_all. cbn [flat_map]. fold (utf8_encode_all cs).
  destruct (encode_shape c Hc) as [[-> _] | (Hp & b & bs & -> & HF)].
  - cbn [app chars_ok]. f_equal. apply IH. auto.
  - cbn [app]. rewrite chars_ok_run by auto. cbn [chars_ok]. pose proof HF as HF'. apply Forall_cons_iff in HF' as [Hb _].
    f_equal.
    + apply pair_plain; auto.
    + rewrite IH by auto. apply chars_plain. auto.
Qed.

Definition pair_table (c1 c2 : Z) : bool :=
  if c1 =? 35 then false
  else if c1 =? 43 then c2 =? 47
  else if (c1 =? 0) || (c1 =? 47) then true
  else negb ((c2 =? 35) || (c2 =? 43)).
Lemma pair_ok_table : forall c1 c2, c2 <> 0 -> pair_ok c1 c2 = pair_table c1 c2.
Proof.
  intros c1 c2 H. unfold pair_ok, pair_table, filter_char_is_ok, ch_hash, ch_plus, ch_slash. cbn [snd].
  destruct (Z.eqb_spec c1 35); [ subst; cbn; destruct (c2 =? 35), (c2 =? 43); reflexivity | ].
  destruct (Z.eqb_spec c1 43).
  { subst. cbn. destruct (Z.eqb_spec c2 35); [ subst; reflexivity | ].
    destruct (Z.eqb_spec c2 43); [ subst; reflexivity | ]. cbn. destruct (c2 =? 47); reflexivity. }
  destruct (Z.eqb_spec c1 0); [ subst; cbn; destruct (c2 =? 35), (c2 =? 43); reflexivity | ].
  destruct (Z.eqb_spec c1 47); [ subst; cbn; destruct (c2 =? 35), (c2 =? 43); reflexivity | ].
  cbn. destruct (c2 =? 35), (c2 =? 43); reflexivity.
Qed.

Lemma no_wildcard_cons : forall c l, no_wildcard (c :: l) <-> c <> 35 /\ c <> 43 /\ no_wildcard l.
Proof. intros. unfold no_wildcard. cbn. intuition congruence. Qed.
Lemma no_wildcard_nil : no_wildcard [].
Proof. split; cbn; tauto. Qed.

Lemma legal_cons_mid : forall c t ts, c <> 35 -> c <> 43 -> (legal_filter ((c :: t) :: ts) <-> no_wildcard t /\ legal_filter ts).
Proof.
  intros c t ts H1 H2. split; intros H.
  - inversion H; subst; try congruence. apply no_wildcard_cons in H4. tauto.
  - destruct H. constructor; auto. apply no_wildcard_cons. tauto.
Qed.

Lemma chars_ok_legal : forall s t ts c1, ~ In 0 s -> split s = t :: ts ->
  (chars_ok c1 s = true <->
   if c1 =? 35 then s = []
   else if c1 =? 43 then t = [] /\ legal_filter ts
   else if (c1 =? 0) || (c1 =? 47) then legal_filter (t :: ts)
   else no_wildcard t /\ legal_filter ts).
Proof.
  induction s as [|c s IH]; intros t ts c1 H0 HS.
  - cbn in HS. injection HS as <- <-. cbn [chars_ok].
    pose proof no_wildcard_nil. assert (legal_filter []) by constructor. assert (legal_filter [[]]) by (constructor; auto).
    destruct (c1 =? 35), (c1 =? 43), ((c1 =? 0) || (c1 =? 47)); tauto.
  - assert (H0' : ~ In 0 s) by (intros Hi; apply H0; right; auto).
    assert (Hc0 : c <> 0) by (intros ->; apply H0; left; auto).
    destruct (split s) as [|t' ts'] eqn:ES; [ exfalso; eapply split_ne; eauto | ].
    cbn [chars_ok]. rewrite andb_true_iff, pair_ok_table by auto. rewrite (IH t' ts' c H0' eq_refl).
    cbn [split] in HS. rewrite ES in HS.
    assert (EJ : s = join (t' :: ts')) by (rewrite <- ES, join_split; auto).
    unfold pair_table.
    destruct (Z.eqb_spec c1 35).
    { split; [ intros [H _]; discriminate | intros H; discriminate ]. }
    destruct (Z.eqb_spec c1 43).
    { destruct (Z.eqb_spec c 47).
      - subst c. injection HS as <- <-. cbn [Z.eqb Pos.eqb orb]. tauto.
      - injection HS as <- <-. split; [ intros [H _]; discriminate | intros [H _]; discriminate ]. }
    destruct (Z.eqb_spec c 47).
    { subst c. injection HS as <- <-. cbn [Z.eqb Pos.eqb orb negb].
      destruct ((c1 =? 0) || (c1 =? 47)).
      - split; [ intros [_ H]; constructor; auto; apply no_wildcard_nil | ].
        intros H. split; auto. inversion H; subst; auto.
      - pose proof no_wildcard_nil. tauto. }
    injection HS as <- <-.
    destruct (Z.eqb_spec c 35).
    { subst c. cbn [Z.eqb Pos.eqb orb negb]. destruct ((c1 =? 0) || (c1 =? 47)).
      - split.
        + intros [_ ->]. cbn in ES. injection ES as <- <-. apply LF_hash.
        + intros H. split; auto. inversion H; subst.
          * exfalso. match goal with X : no_wildcard (35 :: _) |- _ => apply no_wildcard_cons in X end. lia.
          * reflexivity.
      - split; [ intros [H _]; discriminate | ]. intros [H _]. apply no_wildcard_cons in H. lia. }
    destruct (Z.eqb_spec c 43).
    { subst c. cbn [Z.eqb Pos.eqb orb negb]. destruct ((c1 =? 0) || (c1 =? 47)).
      - split.
        + intros [_ [-> H]]. apply LF_plus. auto.
        + intros H. split; auto. inversion H; subst; auto.
          exfalso. match goal with X : no_wildcard (43 :: _) |- _ => apply no_wildcard_cons in X end. lia.
      - split; [ intros [H _]; discriminate | ]. intros [H _]. apply no_wildcard_cons in H. lia. }
    destruct (Z.eqb_spec c 0); [ congruence | ]. cbn [orb negb].
    destruct ((c1 =? 0) || (c1 =? 47)).
    + rewrite legal_cons_mid by auto. tauto.
    + rewrite no_wildcard_cons. tauto.
Qed.

Definition legal_filter_string (s : list Z) : Prop := exists ls, is_levels ls /\ join ls = s /\ legal_filter ls.
Lemma chars_ok_string : forall s, ~ In 0 s -> (chars_ok 0 s = true <-> legal_filter_string s).
Proof.
  intros s H0. destruct (split s) as [|t ts] eqn:E; [ exfalso; eapply split_ne; eauto | ].
  rewrite (chars_ok_legal s t ts 0 H0 E). cbn [Z.eqb orb]. unfold legal_filter_string.
  split.
  - intros H. exists (t :: ts). rewrite <- E. split; [ apply split_levels; auto | ]. split; [ apply join_split | rewrite E; auto ].
  - intros (ls & H1 & <- & H3). rewrite split_join in E by auto. subst. auto.
Qed.

Lemma iterate_bytes : forall A (cb : A -> Z -> Z * A) st s cs tail,
  Forall scalar cs -> ~ In 0 cs -> s = utf8_encode_all cs ++ tail ->
  (tail = [] \/ (exists t, tail = 0 :: t) \/ (tail <> [] /\ utf8_get_character tail = U8Fail)) ->
  utf8_validate_and_iterate cb st s =
  Some (let '(ret, st') := cb_run cb st cs in
        if ret =? 0 then ((match utf8_get_character tail with U8Fail => 1 | _ => 0 end), st') else (ret, st')).
Proof.
  intros A cb st s cs tail H1 H2 H3 H4. unfold utf8_validate_and_iterate.
  pose proof (encode_all_len cs) as HL.
  assert (HLs : (length cs < S (length s))%nat) by (rewrite H3, app_length; lia).
  rewrite <- (iterate_prefix A cb cs tail st (S (length s)) H1 H2 HLs H4), <- H3. reflexivity.
Qed.

Lemma filter_validate_iff : forall s, bytes s -> ~ In 0 s ->
  (filter_validate s = Some 0 <-> utf8_well_formed s /\ zlen s <= 65535 /\ legal_filter_string s) /\
  (filter_validate s = Some 0 \/ filter_validate s = Some 1).
Proof.
  intros s HB HN. unfold filter_validate.
  destruct (Z.ltb_spec 65535 (zlen s)).
  { split; [ split; [ discriminate | intros (_ & H1 & _); lia ] | auto ]. }
  destruct (utf8_prefix (length s) s ltac:(auto) HB) as (cs & tail & H1 & H2 & H3 & H4).
  rewrite (iterate_bytes _ filter_char_is_ok (0, 0) s cs tail H1 H2 H3 H4).
  pose proof (cb_run_filter cs 0 0) as HR.
  destruct (cb_run filter_char_is_ok (0, 0) cs) as [ret st']. cbn [fst] in HR.
  destruct H4 as [-> | [[t ->] | [Hne HF]]].
  - rewrite app_nil_r in H3. assert (HW : utf8_well_formed s) by (exists cs; auto).
    rewrite (chars_ok_encode cs 0 H1), <- H3 in HR.
    pose proof (chars_ok_string s HN) as HC.
    destruct (chars_ok 0 s); subst ret; cbn [Z.eqb option_map fst utf8_get_character]; (split; [ | auto ]); split; intros X; try discriminate; auto.
    + repeat split; auto. apply HC. auto.
    + exfalso. destruct X as (_ & _ & X). apply HC in X. discriminate.
  - exfalso. apply HN. rewrite H3. apply in_or_app. right. left. reflexivity.
  - assert (~ utf8_well_formed s).
    { intros [cs' [HS HE]]. rewrite HE in H3.
      destruct (wf_strip _ _ _ H1 HS H3) as (cs2 & HS2 & E2).
      revert E2. apply fail_not_wf; auto. }
    rewrite ?HF. destruct (chars_ok 0 cs); subst ret; cbn [Z.eqb option_map fst]; (split; [ | auto ]);
    split; intros X; try discriminate; tauto.
Qed.

(** * Topic names *)
Lemma in_encode_all : forall x cs, x < 128 -> x <> 0 -> x = 35 \/ x = 43 -> Forall scalar cs ->
  (In x (utf8_encode_all cs) <-> In x cs).
Proof.
  intros x cs Hx H0 Hw HS. unfold utf8_encode_all. rewrite in_flat_map. split.
  - intros (c & Hc & Hi). rewrite Forall_forall in HS. specialize (HS c Hc).
    destruct (encode_shape c HS) as [[E _] | (Hp & b & bs & E & HF)]; rewrite E in Hi.
    + destruct Hi as [<-|[]]. auto.
    + rewrite Forall_forall in HF. specialize (HF x Hi). unfold plain in HF. lia.
  - intros Hi. exists x. split; auto. unfold utf8_encode. destruct (Z.ltb_spec x 128); [ left; auto | lia ].
Qed.

Lemma cb_run_name : forall cs st,
  fst (cb_run name_char_is_ok st cs) = if existsb (fun c => (c =? 35) || (c =? 43)) cs then 1 else 0.
Proof.
  induction cs as [|c cs IH]; intros st; cbn [cb_run existsb]; auto.
  unfold name_char_is_ok at 1. change ch_hash with 35. change ch_plus with 43.
  destruct ((c =? 35) || (c =? 43)); cbn [orb Z.eqb]; auto.
Qed.

Lemma existsb_wild : forall cs, existsb (fun c => (c =? 35) || (c =? 43)) cs = false <-> no_wildcard cs.
Proof.
  induction cs as [|c cs IH]; cbn [existsb].
  - split; intros; auto. apply no_wildcard_nil.
  - rewrite no_wildcard_cons, <- IH. destruct (Z.eqb_spec c 35), (Z.eqb_spec c 43); cbn [orb]; intuition congruence.
Qed.

Lemma name_iterate_iff : forall s, bytes s -> ~ In 0 s ->
  (option_map fst (utf8_validate_and_iterate name_char_is_ok (0, 0) s) = Some 0 <-> utf8_well_formed s /\ no_wildcard s) /\
  (option_map fst (utf8_validate_and_iterate name_char_is_ok (0, 0) s) = Some 0 \/
   option_map fst (utf8_validate_and_iterate name_char_is_ok (0, 0) s) = Some 1).
Proof.
  intros s HB HN.
  destruct (utf8_prefix (length s) s ltac:(auto) HB) as (cs & tail & H1 & H2 & H3 & H4).
  rewrite (iterate_bytes _ name_char_is_ok (0, 0) s cs tail H1 H2 H3 H4).
  pose proof (cb_run_name cs (0, 0)) as HR.
  destruct (cb_run name_char_is_ok (0, 0) cs) as [ret st']. cbn [fst] in HR.
  destruct H4 as [-> | [[t ->] | [Hne HF]]].
  - rewrite app_nil_r in H3. assert (HW : utf8_well_formed s) by (exists cs; auto).
    assert (HC : existsb (fun c => (c =? 35) || (c =? 43)) cs = false <-> no_wildcard s).
    { rewrite existsb_wild. unfold no_wildcard. rewrite H3, !in_encode_all by (auto; lia). tauto. }
    destruct (existsb _ cs); subst ret; cbn [Z.eqb option_map fst utf8_get_character]; (split; [ | auto ]);
    split; intros X; try discriminate; auto.
    + destruct X as [_ X]. apply HC in X. discriminate.
    + split; auto. apply HC. auto.
  - exfalso. apply HN. rewrite H3. apply in_or_app. right. left. reflexivity.
  - assert (~ utf8_well_formed s).
    { intros [cs' [HS HE]]. rewrite HE in H3.
      destruct (wf_strip _ _ _ H1 HS H3) as (cs2 & HS2 & E2).
      revert E2. apply fail_not_wf; auto. }
    rewrite ?HF. destruct (existsb _ cs); subst ret; cbn [Z.eqb option_map fst]; (split; [ | auto ]);
    split; intros X; try discriminate; tauto.
Qed.

Lemma name_validate_iff : forall s, bytes s -> ~ In 0 s ->
  (name_validate s = Some 0 <-> utf8_well_formed s /\ s <> [] /\ no_wildcard s) /\
  (name_validate s = Some 0 \/ name_validate s = Some 1) /\
  name_validate_with_end s = name_validate s.
Proof.
  intros s HB HN. destruct (name_iterate_iff s HB HN) as [H1 H2].
  destruct s as [|c s]; cbn [name_validate name_validate_with_end].
  - split; [ | auto ]. split; [ discriminate | ]. intros (_ & H & _). congruence.
  - split; [ | auto ]. rewrite H1. assert (c :: s <> []) by discriminate. tauto.
Qed.

(** * Access lists *)
Definition entry_of (r : acl_rule) : acl_entry := mk_acl (rule_filter r) (rule_default r) (rule_users r).

Definition user_str (user : option (list Z)) : list Z := match user with Some u => u | None => [] end.

(** The effective action computed. *)
Fixpoint last_user (users : list (list Z * Z)) (name : list Z) (d : Z) : Z :=
  match users with
  | [] => d
  | (u, a) :: r => last_user r name (if str_same u name then a else d)
  end.
Definition eff (r : acl_rule) (user : list Z) : Z :=
  match user with [] => rule_default r | _ => last_user (rule_users r) user (rule_default r) end.

Lemma last_user_spec : forall users name d,
  (exists u, last_such (fun x => fst x = name) users u /\ last_user users name d = snd u) \/
  (Forall (fun x => fst x <> name) users /\ last_user users name d = d).
Proof.
  induction users as [|[u a] users IH]; intros name d; cbn [last_user].
  - right. auto.
  - destruct (IH name (if str_same u name then a else d)) as [(v & (b & c & H1 & H2 & H3) & H4) | [H1 H2]].
    + left. exists v. split; auto. exists ((u, a) :: b), c. subst. auto.
    + destruct (str_same u name) eqn:E.
      * apply str_same_iff in E. left. exists (u, a). split; auto. exists [], users. auto.
      * apply str_same_false in E. right. auto.
Qed.

Lemma last_such_unique : forall A (P : A -> Prop) l x y, last_such P l x -> last_such P l y -> x = y.
Proof.
  intros A P l x y (b1 & a1 & E1 & P1 & F1) (b2 & a2 & E2 & P2 & F2). subst l.
  revert b2 E2. induction b1 as [|z b1 IH]; intros b2 E2; destruct b2 as [|z2 b2]; cbn in E2.
  - congruence.
  - injection E2 as <- E2. rewrite E2 in F1. apply Forall_app in F1 as [_ F1]. apply Forall_cons_iff in F1 as [F1 _]. tauto.
  - injection E2 as <- E2. rewrite <- E2 in F2. apply Forall_app in F2 as [_ F2]. apply Forall_cons_iff in F2 as [F2 _]. tauto.
  - injection E2 as _ E2. eapply IH; eauto.
Qed.

Lemma last_such_in : forall A (P : A -> Prop) l x, last_such P l x -> In x l /\ P x.
Proof. intros A P l x (b & a & -> & H & _). split; auto. apply in_or_app. right. left. auto. Qed.

Lemma rule_action_eff : forall r user action, rule_action r user action <-> action = eff r user.
Proof.
  intros r user action. unfold rule_action, eff. destruct user as [|c user].
  - split.
    + intros [[H _]|[_ H]]; congruence.
    + intros ->. right. auto.
  - set (name := c :: user). assert (Hn : name <> []) by discriminate.
    destruct (last_user_spec (rule_users r) name (rule_default r)) as [(v & H1 & H2) | [H1 H2]]; rewrite H2.
    + split.
      * intros [(_ & u & Hu & ->) | [[H|H] _]]; [ | congruence | ].
        -- f_equal. eapply last_such_unique; eauto.
        -- exfalso. apply last_such_in in H1 as [Hi Hp]. rewrite Forall_forall in H. apply (H v Hi Hp).
      * intros ->. left. split; auto. exists v. auto.
    + split.
      * intros [(_ & u & Hu & ->) | [_ ->]]; auto. exfalso.
        apply last_such_in in Hu as [Hi Hp]. rewrite Forall_forall in H1. apply (H1 u Hi Hp).
      * intros ->. right. auto.
Qed.

Definition grant (action requested : Z) : Z :=
  if requested =? acl_ro then (if (action =? 1) || (action =? 2) then 0 else 2)
  else (if action =? 2 then 0 else 2).

Lemma check_single_grant : forall a q, q = acl_ro \/ q = acl_rw -> acl_check_single a q = Some (grant a q).
Proof.
  intros a q H. unfold acl_check_single, grant, acl_rw, acl_ro, acl_result_allow, acl_result_deny in *.
  destruct H as [-> | ->]; cbn [Z.eqb Pos.eqb]; auto.
  destruct (a =? 1), (a =? 2); reflexivity.
Qed.

Lemma users_loop_eff : forall users name q d, q = acl_ro \/ q = acl_rw ->
  acl_users_loop users name q (Some (grant d q)) = Some (grant (last_user users name d) q).
Proof.
  induction users as [|[u a] users IH]; intros name q d H; cbn [acl_users_loop last_user]; auto.
  rewrite check_single_grant by auto. destruct (str_same u name); apply IH; auto.
Qed.

Section Acl.
  Variable mf : list (list Z) -> list (list Z) -> tmatch.
  Variable matches : list level -> Prop.
  Variable toks : list (list Z).

  Lemma acl_check_spec : forall rules q user ret, q = acl_ro \/ q = acl_rw ->
    Forall (fun r => mf (rule_filter r) toks <> TBug /\ (mf (rule_filter r) toks = TMatch <-> matches (rule_filter r))) rules ->
    exists ret',
      acl_check_loop mf (map entry_of rules) toks q user ret = Some ret' /\
      ((exists r, last_such (fun r => matches (rule_filter r)) rules r /\ ret' = grant (eff r (user_str user)) q) \/
       (Forall (fun r => ~ matches (rule_filter r)) rules /\ ret' = ret)).
  Proof.
    induction rules as [|r rules IH]; intros q user ret Hq HF; cbn [map acl_check_loop].
    - exists ret. auto.
    - apply Forall_cons_iff in HF as [[Hb Hm] HF]. cbn [entry_of acl_tokens acl_default acl_users].
      destruct (mf (rule_filter r) toks) eqn:E; [ | | congruence ].
      + assert (Hr : matches (rule_filter r)) by (apply Hm; auto).
        assert (HE : match user with
                     | Some (c :: n) => acl_users_loop (rule_users r) (c :: n) q (acl_check_single (rule_default r) q)
                     | _ => acl_check_single (rule_default r) q
                     end = Some (grant (eff r (user_str user)) q)).
        { rewrite check_single_grant by auto. destruct user as [[|c n]|]; cbn [user_str eff]; auto.
          apply users_loop_eff; auto. }
        rewrite HE. destruct (IH q user (grant (eff r (user_str user)) q) Hq HF) as (ret' & H1 & H2).
        exists ret'. split; auto. left. destruct H2 as [(r' & (b & a & -> & P1 & F1) & H3) | [H2 H3]].
        * exists r'. split; auto. exists (r :: b), a. auto.
        * exists r. split; auto. exists [], rules. auto.
      + assert (Hr : ~ matches (rule_filter r)) by (intros X; apply Hm in X; discriminate).
        destruct (IH q user ret Hq HF) as (ret' & H1 & H2).
        exists ret'. split; auto. destruct H2 as [(r' & (b & a & -> & P1 & F1) & H3) | [H2 H3]].
        * left. exists r'. split; auto. exists (r :: b), a. auto.
        * right. auto.
  Qed.
End Acl.

Lemma grant_ro : forall a, grant a acl_ro = 0 <-> may_read a.
Proof.
  intros. unfold grant, may_read, acl_ro. cbn [Z.eqb Pos.eqb].
  destruct (Z.eqb_spec a 1), (Z.eqb_spec a 2); cbn; split; intros; auto; try lia.
Qed.
Lemma grant_rw : forall a, grant a acl_rw = 0 <-> may_write a.
Proof.
  intros. unfold grant, may_write, acl_ro, acl_rw. cbn [Z.eqb Pos.eqb].
  destruct (Z.eqb_spec a 2); split; intros; auto; try lia.
Qed.
Lemma grant_02 : forall a q, grant a q = 0 \/ grant a q = 2.
Proof. intros. unfold grant. repeat match goal with |- context [if ?b then _ else _] => destruct b end; auto. Qed.

(** * Subscription requests against access list entries *)
Lemma wild_hash : ~ no_wildcard hash.
Proof. intros [H _]. apply H. left. auto. Qed.
Lemma wild_plus : ~ no_wildcard plus.
Proof. intros [_ H]. apply H. left. auto. Qed.

Lemma legal_tail : forall l ls, legal_filter (l :: ls) -> legal_filter ls.
Proof. intros l ls H. inversion H; subst; auto. constructor. Qed.
Lemma legal_head : forall l ls, legal_filter (l :: ls) -> no_wildcard l \/ l = plus \/ (l = hash /\ ls = []).
Proof. intros l ls H. inversion H; subst; auto. Qed.

Definition contA (r : tmatch) (fs ts : list level) : tmatch := match fs, ts with [], [] => TMatch | _, _ => r end.
Lemma match_acl_unfold : forall m ms s ss,
  match_tokens_acl (m :: ms) (s :: ss) =
  if first_char m =? 35 then TMatch
  else if first_char s =? 35 then TMismatch
  else if (first_char m =? 43) || (first_char s =? 43) then
    if first_char m =? 36 then TMismatch else contA (match_tokens_acl ms ss) ms ss
  else if negb (str_same m s) then TMismatch else contA (match_tokens_acl ms ss) ms ss.
Proof. intros. destruct ms, ss; reflexivity. Qed.

Lemma match_acl_spec : forall ms ss, legal_filter ms -> legal_filter ss -> ms <> [] ->
  (match_tokens_acl ms ss = TMatch <-> acl_match ms ss) /\ match_tokens_acl ms ss <> TBug.
Proof.
  induction ms as [|m ms IH]; intros ss HM HS Hne; [ congruence | ].
  destruct ss as [|s ss].
  { split; [ split; intros H; [ discriminate | inversion H ] | discriminate ]. }
  assert (HC : (contA (match_tokens_acl ms ss) ms ss = TMatch <-> acl_match ms ss) /\ contA (match_tokens_acl ms ss) ms ss <> TBug).
  { destruct ms as [|m' ms].
    - destruct ss; cbn; (split; [ | discriminate ]); split; intros X; try discriminate; auto; [ apply AM_end | inversion X ].
    - apply IH; [ eapply legal_tail; eauto | eapply legal_tail; eauto | discriminate ]. }
  destruct HC as [HC1 HC2]. rewrite match_acl_unfold.
  pose proof wild_hash. pose proof wild_plus.
  destruct (legal_head _ _ HM) as [Hm | [-> | [-> ->]]].
  - destruct (first_char_nowild m Hm) as [E1 E2]. unfold ch_hash in E1. unfold ch_plus in E2. rewrite E1, E2. cbn [orb].
    destruct (legal_head _ _ HS) as [Hs | [-> | [-> ->]]].
    + destruct (first_char_nowild s Hs) as [E3 E4]. unfold ch_hash in E3. unfold ch_plus in E4. rewrite E3, E4.
      destruct (str_same m s) eqn:E; cbn [negb].
      * apply str_same_iff in E. subst s. split; auto. rewrite HC1. split; intros X.
        -- constructor; auto.
        -- inversion X; subst; auto; tauto.
      * apply str_same_false in E. split; [ | discriminate ]. split; intros X; [ discriminate | ].
        inversion X; subst; tauto.
    + cbn [first_char plus Z.eqb Pos.eqb]. destruct (first_char m =? 36) eqn:E.
      * apply first_char_dollar in E. split; [ | discriminate ]. split; intros X; [ discriminate | ].
        inversion X; subst; tauto.
      * apply first_char_not_dollar in E. split; auto. rewrite HC1. split; intros X.
        -- apply AM_sub_plus; auto.
        -- inversion X; subst; auto; tauto.
    + cbn [first_char hash Z.eqb Pos.eqb]. split; [ | discriminate ]. split; intros X; [ discriminate | ].
      inversion X; subst; tauto.
  - cbn [first_char plus Z.eqb Pos.eqb orb].
    destruct (legal_head _ _ HS) as [Hs | [-> | [-> ->]]].
    + destruct (first_char_nowild s Hs) as [E3 E4]. unfold ch_hash in E3. rewrite E3.
      split; auto. rewrite HC1. split; intros X.
      * apply AM_plus_any; auto. intros ->. tauto.
      * inversion X; subst; auto; tauto.
    + cbn [first_char plus Z.eqb Pos.eqb]. split; auto. rewrite HC1. split; intros X.
      * apply AM_plus_any; auto. discriminate.
      * inversion X; subst; auto; tauto.
    + cbn [first_char hash Z.eqb Pos.eqb]. split; [ | discriminate ]. split; intros X; [ discriminate | ].
      inversion X; subst; tauto.
  - cbn [first_char hash Z.eqb Pos.eqb]. split; [ | discriminate ]. split; intros X; auto. constructor.
Qed.

Lemma acl_match_covers : forall ms ss, acl_match ms ss -> plus_covered ms ss ->
  forall ts, filter_match ss ts -> std_levels ms ts.
Proof.
  intros ms ss H. pose proof wild_hash as WH. pose proof wild_plus as WP.
  induction H as [|s ss|ms s ss Hs H IH|m ms ss Hn Hd H IH|l ms ss Hn H IH]; intros HP ts HT.
  - inversion HT; subst. constructor.
  - constructor.
  - inversion HT; subst; [ tauto | | ]; constructor; apply IH; auto; intros i Hi; specialize (HP (S i) Hi);
    destruct HP as [HP | (j & Hj & HP)]; auto; right;
    (destruct j as [|j]; [ cbn in HP; discriminate | exists j; split; [ lia | auto ] ]).
  - exfalso. destruct (HP O eq_refl) as [HP' | (j & Hj & HP')].
    + cbn in HP'. injection HP' as ->. tauto.
    + assert (j = O) by lia. subst. cbn in HP'. injection HP' as ->. tauto.
  - inversion HT; subst; try tauto. constructor; auto. apply IH; auto. intros i Hi. specialize (HP (S i) Hi).
    destruct HP as [HP | (j & Hj & HP)]; auto. right.
    destruct j as [|j]; [ cbn in HP; injection HP as ->; tauto | exists j; split; [ lia | auto ] ].
Qed.
