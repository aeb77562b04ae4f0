From Coq Require Import ZArith List Bool Lia.
From Verif Require Import Common CmdModel CmdSpec.
Import ListNotations.
Open Scope Z_scope.

(** ** Rules *)
Lemma text_eqb_true : forall a b, text_eqb a b = true <-> a = b.
Proof. intros. unfold text_eqb. destruct (list_eq_dec Z.eq_dec a b); split; congruence. Qed.
Lemma rule_long_ok : forall rules name r, rule_long rules name = Some r <-> named rules name r.
Proof.
  induction rules as [|q rules IH]; intros name r; cbn [rule_long].
  - split; [discriminate|]. intros (b & a & H & _). destruct b; discriminate.
  - destruct (negb (r_word q) && text_eqb (r_long q) name) eqn:E.
    + apply andb_true_iff in E as (E1 & E2). apply text_eqb_true in E2. apply negb_true_iff in E1. split.
      * intros H. injection H as <-. exists [], rules. split; [reflexivity|]. split; [exact E1|]. split; [exact E2|apply Forall_nil].
      * intros (b & a & H & W & L & F). destruct b as [|x b]; [injection H as -> _; reflexivity|]. injection H as -> _. apply Forall_cons_iff in F as ([F|F] & _); congruence.
    + rewrite IH. split; intros (b & a & H & W & L & F).
      * exists (q :: b), a. split; [rewrite H; reflexivity|]. split; [exact W|]. split; [exact L|]. apply Forall_cons; [|exact F].
        destruct (r_word q); [left; reflexivity|]. right. intros C. apply text_eqb_true in C. rewrite C in E. discriminate E.
      * destruct b as [|x b]; [|injection H as <- H; apply Forall_cons_iff in F as (_ & F); exists b, a; split; [exact H|]; split; [exact W|]; split; [exact L|exact F]].
        injection H as -> _. rewrite W in E. apply text_eqb_true in L. rewrite L in E. discriminate E.
Qed.
Lemma rule_short_ok : forall rules c r, rule_short rules c = Some r <-> lettered rules c r.
Proof.
  induction rules as [|q rules IH]; intros c r; cbn [rule_short].
  - split; [discriminate|]. intros (b & a & H & _). destruct b; discriminate.
  - destruct (negb (r_word q) && (r_short q =? c)) eqn:E.
    + apply andb_true_iff in E as (E1 & E2). apply Z.eqb_eq in E2. apply negb_true_iff in E1. split.
      * intros H. injection H as <-. exists [], rules. split; [reflexivity|]. split; [exact E1|]. split; [exact E2|apply Forall_nil].
      * intros (b & a & H & W & L & F). destruct b as [|x b]; [injection H as -> _; reflexivity|]. injection H as -> _. apply Forall_cons_iff in F as ([F|F] & _); congruence.
    + rewrite IH. split; intros (b & a & H & W & L & F).
      * exists (q :: b), a. split; [rewrite H; reflexivity|]. split; [exact W|]. split; [exact L|]. apply Forall_cons; [|exact F].
        destruct (r_word q); [left; reflexivity|]. right. intros C. apply Z.eqb_eq in C. rewrite C in E. discriminate E.
      * destruct b as [|x b]; [|injection H as <- H; apply Forall_cons_iff in F as (_ & F); exists b, a; split; [exact H|]; split; [exact W|]; split; [exact L|exact F]].
        injection H as -> _. rewrite W in E. apply Z.eqb_eq in L. rewrite L in E. discriminate E.
Qed.
Lemma rule_noflag_ok : forall rules n, rule_noflag rules n = nth_error (filter r_word rules) n.
Proof. induction rules as [|q rules IH]; intros n; [destruct n; reflexivity|]. cbn [rule_noflag filter]. destruct (r_word q); [destruct n; [reflexivity|apply IH]|apply IH]. Qed.
Lemma rule_multi_ok : forall rules r, rule_multi rules = Some r <-> exists before after, rules = before ++ r :: after /\ r_multi r = true /\ Forall (fun q => r_multi q = false) before.
Proof.
  induction rules as [|q rules IH]; intros r; cbn [rule_multi].
  - split; [discriminate|]. intros (b & a & H & _). destruct b; discriminate.
  - destruct (r_multi q) eqn:E.
    + split.
      * intros H. injection H as <-. exists [], rules. split; [reflexivity|]. split; [exact E|apply Forall_nil].
      * intros (b & a & H & W & F). destruct b as [|x b]; [injection H as -> _; reflexivity|]. injection H as -> _. apply Forall_cons_iff in F as (F & _); congruence.
    + rewrite IH. split; intros (b & a & H & W & F).
      * exists (q :: b), a. split; [rewrite H; reflexivity|]. split; [exact W|]. apply Forall_cons; [exact E|exact F].
      * destruct b as [|x b]; [injection H as -> _; congruence|]. injection H as <- H. apply Forall_cons_iff in F as (_ & F). exists b, a. split; [exact H|]. split; [exact W|exact F].
Qed.
Definition word_rule (rules : list rule) (n : nat) : option rule := match rule_noflag rules n with Some r => Some r | None => rule_multi rules end.
Lemma word_rule_ok : forall rules n r, word_rule rules n = Some r <-> wordly rules n r.
Proof.
  intros. unfold word_rule, wordly. rewrite rule_noflag_ok. destruct (nth_error (filter r_word rules) n) as [q|] eqn:E.
  - split; [intros H; left; exact H|]. intros [H|(H & _)]; [exact H|discriminate].
  - rewrite rule_multi_ok. split; [intros H; right; split; [reflexivity|exact H]|]. intros [H|(_ & H)]; [discriminate|exact H].
Qed.
Lemma word_rule_kind : forall rules n r, word_rule rules n = Some r -> r_word r || r_multi r = true.
Proof.
  intros rules n r H. unfold word_rule in H. rewrite rule_noflag_ok in H. destruct (nth_error (filter r_word rules) n) as [q|] eqn:E.
  - injection H as ->. apply nth_error_In, filter_In in E as (_ & E). rewrite E. reflexivity.
  - apply rule_multi_ok in H as (b & a & _ & H & _). rewrite H. apply orb_true_r.
Qed.

(** ** Texts *)
Lemma split_equal_some : forall p k v, split_equal p = Some (k, v) <-> p = k ++ 61 :: v /\ ~ In 61 k.
Proof.
  induction p as [|c p IH]; intros k v; cbn [split_equal].
  - split; [discriminate|]. intros (H & _). destruct k; discriminate.
  - destruct (c =? 61) eqn:E.
    + apply Z.eqb_eq in E. subst c. split.
      * intros H. injection H as <- <-. split; [reflexivity|auto].
      * intros (H & N). destruct k as [|x k]; [injection H as <-; reflexivity|]. injection H as <- _. contradiction N. left. reflexivity.
    + destruct (split_equal p) as [[k0 v0]|] eqn:S0.
      * split.
        -- intros H. injection H as <- <-. apply IH in S0 || (destruct (proj1 (IH k0 v0) eq_refl) as (-> & N)). split; [reflexivity|]. cbn [In]. intros [C|C]; [lia|auto].
        -- intros (H & N). destruct k as [|x k]; [injection H as -> _; lia|]. injection H as <- H. assert (X : p = k ++ 61 :: v /\ ~ In 61 k) by (split; [exact H|intros C; apply N; right; exact C]).
           apply IH in X. injection X as -> ->. reflexivity.
      * split; [discriminate|]. intros (H & N). destruct k as [|x k]; [injection H as -> _; lia|]. injection H as <- H.
        assert (X : p = k ++ 61 :: v /\ ~ In 61 k) by (split; [exact H|intros C; apply N; right; exact C]). apply IH in X. discriminate X.
Qed.
Lemma split_equal_none : forall p, split_equal p = None <-> ~ In 61 p.
Proof.
  induction p as [|c p IH]; cbn [split_equal In]; [split; auto|]. destruct (c =? 61) eqn:E.
  - split; [discriminate|]. intros H. contradiction H. left. lia.
  - destruct (split_equal p) as [[k v]|].
    + split; [discriminate|]. intros H. assert (~ In 61 p) as X by auto. apply IH in X. discriminate X.
    + split; [|reflexivity]. intros _ [C|C]; [lia|]. exact (proj1 IH eq_refl C).
Qed.
Lemma commas_nonnil : forall v, between_commas v <> [].
Proof. destruct v as [|c v]; cbn [between_commas]; [discriminate|]. destruct (c =? comma); [discriminate|]. destruct (between_commas v); discriminate. Qed.
Definition trim (l : list (list Z)) : list (list Z) := match last l [] with [] => removelast l | _ => l end.
Lemma trim_cons : forall x l, l <> [] -> trim (x :: l) = x :: trim l.
Proof.
  intros x l N. unfold trim. assert (last (x :: l) [] = last l []) as -> by (destruct l; [contradiction N; reflexivity|reflexivity]).
  destruct (last l []); [|reflexivity]. destruct l; [contradiction N; reflexivity|reflexivity].
Qed.
Lemma split_loop_ok : forall v piece, split_loop piece v =
  match between_commas v with s :: ss => trim ((rev piece ++ s) :: ss) | [] => [] end.
Proof.
  induction v as [|c v IH]; intros piece; cbn [split_loop between_commas].
  - rewrite app_nil_r. unfold trim. cbn [last removelast]. destruct piece as [|x piece]; [reflexivity|]. destruct (rev (x :: piece)) eqn:E; [|reflexivity].
    apply (f_equal (@length Z)) in E. rewrite rev_length in E. discriminate E.
  - fold comma. destruct (c =? comma).
    + rewrite IH. rewrite app_nil_r. pose proof (commas_nonnil v). destruct (between_commas v) as [|s ss]; [contradiction|]. cbn [rev app]. rewrite (trim_cons (rev piece) (s :: ss)) by discriminate. reflexivity.
    + rewrite IH. pose proof (commas_nonnil v). destruct (between_commas v) as [|s ss]; [contradiction|]. cbn [rev]. rewrite <- app_assoc. reflexivity.
Qed.
Lemma make_pair_ok : forall r v, make_pair r v = mk_pair r (values r v).
Proof.
  intros. unfold make_pair, values, split_comma. destruct (r_split r); [|reflexivity]. rewrite split_loop_ok. pose proof (commas_nonnil v).
  destruct (between_commas v) as [|s ss]; [contradiction|]. reflexivity.
Qed.
Lemma fits_ok : forall r (v : list Z), (1 <=? zlen v) || r_empty r = true <-> fits r v.
Proof.
  intros. unfold fits. rewrite orb_true_iff. destruct v as [|c v].
  - rewrite zlen_nil. split; [intros [H|H]; [discriminate|right; exact H]|intros [H|H]; [contradiction H; reflexivity|right; exact H]].
  - rewrite zlen_cons. pose proof (zlen_nonneg _ v). split; [intros _; left; discriminate|intros _; left; lia].
Qed.

(** ** Letters *)
Lemma shorts_flags : forall rules kl cs rs, Forall2 (fun c r => lettered rules c r /\ r_argument r = false) cs rs -> shorts rules kl cs = Some (map (fun r => mk_pair r []) rs, None).
Proof.
  intros rules kl cs rs F. induction F as [|c r cs rs (H1 & H2) F IH]; [reflexivity|]. cbn [shorts map]. apply rule_short_ok in H1. rewrite H1, H2, IH. reflexivity.
Qed.
Lemma shorts_inv : forall rules kl cs ps x, shorts rules kl cs = Some (ps, x) ->
  (x = None /\ exists rs, Forall2 (fun c r => lettered rules c r /\ r_argument r = false) cs rs /\ ps = map (fun r => mk_pair r []) rs) \/ kl = 1.
Proof.
  induction cs as [|c cs IH]; intros ps x H; cbn [shorts] in H.
  - injection H as <- <-. left. split; [reflexivity|]. exists []. split; [apply Forall2_nil|reflexivity].
  - destruct (rule_short rules c) as [r|] eqn:R; [|discriminate]. destruct (r_argument r) eqn:A.
    + destruct (kl =? 1) eqn:K; [right; lia|discriminate].
    + cbn [andb] in H. destruct (shorts rules kl cs) as [[ps0 l]|]; [|discriminate]. injection H as <- <-. destruct (IH _ _ eq_refl) as [(-> & rs & F & ->)|K]; [|right; exact K].
      left. split; [reflexivity|]. exists (r :: rs). split; [|reflexivity]. apply Forall2_cons; [split; [apply rule_short_ok; exact R|exact A]|exact F].
Qed.

(** ** One argument *)
Definition check (r : rule) (v : list Z) : bool := (1 <=? zlen v) || r_empty r.
Definition give (rules : list rule) (e : bool) (n : nat) (r : rule) (v : list Z) (rest : list (list Z)) : option (list pair) :=
  if check r v then put [make_pair r v] (parse rules e n rest) else None.
Lemma put_nil : forall x, put [] x = x.
Proof. destruct x; reflexivity. Qed.
Lemma zlen_zero : forall p : list Z, (zlen p =? 0) = match p with [] => true | _ => false end.
Proof. destruct p as [|c p]; [reflexivity|]. rewrite zlen_cons. pose proof (zlen_nonneg _ p). lia. Qed.
Lemma dashes_view : forall a,
  (exists p, a = 45 :: 45 :: p /\ dashes a = (2, p)) \/ (exists p, a = 45 :: p /\ hd 0 p <> 45 /\ dashes a = (1, p)) \/ (dashes a = (0, a) /\ (a = [] \/ (a <> [] /\ hd 0 a <> 45))).
Proof.
  intros [|c [|d p]]; unfold dashes.
  - right; right. split; [reflexivity|left; reflexivity].
  - destruct (c =? 45) eqn:E.
    + right; left. exists []. split; [f_equal; lia|]. split; [cbn [hd]; lia|reflexivity].
    + right; right. split; [reflexivity|]. right. split; [discriminate|]. cbn [hd]. lia.
  - destruct (c =? 45) eqn:E.
    + destruct (d =? 45) eqn:D.
      * left. exists p. split; [repeat f_equal; lia|reflexivity].
      * right; left. exists (d :: p). split; [f_equal; lia|]. split; [cbn [hd]; lia|reflexivity].
    + right; right. split; [reflexivity|]. right. split; [discriminate|]. cbn [hd]. lia.
Qed.
Lemma parse_word : forall rules e n a rest, e = true \/ (a <> [] /\ hd 0 a <> 45) ->
  parse rules e n (a :: rest) = match word_rule rules n with Some r => give rules e (S n) r a rest | None => None end.
Proof.
  intros rules e n a rest H. cbn [parse].
  assert ((if e then (0, a) else dashes a) = (0, a)) as ->.
  { destruct e; [reflexivity|]. destruct H as [H|(H1 & H2)]; [discriminate|]. destruct (dashes_view a) as [(p & -> & _)|[(p & -> & _)|(D & _)]]; [contradiction H2; reflexivity|contradiction H2; reflexivity|exact D]. }
  change (0 <? 0) with false. change (0 =? 2) with false. change (0 =? 1) with false. change (0 =? 0) with true. cbv iota zeta beta.
  assert (negb e && (zlen a =? 0) = false) as ->.
  { rewrite zlen_zero. destruct H as [->|(H & _)]; [reflexivity|]. destruct a; [contradiction H; reflexivity|apply andb_false_r]. }
  pose proof (word_rule_kind rules n) as K. unfold word_rule in *. unfold give, check.
  destruct (rule_noflag rules n) as [r|]; [|destruct (rule_multi rules) as [r|]; [|reflexivity]]; specialize (K r eq_refl);
    (replace (r_argument r || r_word r || r_multi r) with true by (rewrite <- orb_assoc, K; symmetry; apply orb_true_r)); rewrite K; reflexivity.
Qed.
Lemma parse_long : forall rules n p rest, parse rules false n ((45 :: 45 :: p) :: rest) =
  match split_equal p with
  | Some (k, v) =>
      match k with [] => None | _ =>
      match rule_long rules k with
      | None => None
      | Some r => if r_argument r || r_word r || r_multi r then give rules false n r v rest else None
      end end
  | None =>
      match p with [] => parse rules true n rest | _ =>
      match rule_long rules p with
      | None => None
      | Some r =>
          if r_argument r || r_word r || r_multi r then
            if r_word r || r_multi r then give rules false n r (45 :: 45 :: p) rest
            else match rest with [] => None | v :: rest => give rules false n r v rest end
          else put [mk_pair r []] (parse rules false n rest)
      end end
  end.
Proof.
  intros. cbn [parse]. replace (dashes (45 :: 45 :: p)) with (2, p) by reflexivity. change (0 <? 2) with true. change (2 =? 2) with true. change (2 =? 0) with false. cbn [negb andb]. cbv iota zeta beta.
  unfold give, check. destruct (split_equal p) as [[k v]|]; cbv iota beta.
  - rewrite zlen_zero. destruct k as [|c k]; [reflexivity|]. destruct (rule_long rules (c :: k)) as [r|]; reflexivity.
  - rewrite zlen_zero. destruct p as [|c p]; [reflexivity|]. destruct (rule_long rules (c :: p)) as [r|]; reflexivity.
Qed.
Lemma parse_short : forall rules n p rest, hd 0 p <> 45 -> parse rules false n ((45 :: p) :: rest) =
  match split_equal p with
  | Some (k, v) =>
      match k with [] => None | _ =>
      match shorts rules (zlen k) k with
      | None => None
      | Some (ps, None) => put ps (parse rules false n rest)
      | Some (ps, Some r) => if r_argument r || r_word r || r_multi r then if check r v then put (ps ++ [make_pair r v]) (parse rules false n rest) else None else None
      end end
  | None =>
      match p with [] => None | _ =>
      match shorts rules (zlen p) p with
      | None => None
      | Some (ps, None) => put ps (parse rules false n rest)
      | Some (ps, Some r) =>
          if r_argument r || r_word r || r_multi r then
            if r_word r || r_multi r then if check r (45 :: p) then put (ps ++ [make_pair r (45 :: p)]) (parse rules false n rest) else None
            else match rest with [] => None | v :: rest => if check r v then put (ps ++ [make_pair r v]) (parse rules false n rest) else None end
          else put (ps ++ [mk_pair r []]) (parse rules false n rest)
      end end
  end.
Proof.
  intros rules n p rest H. cbn [parse].
  assert (dashes (45 :: p) = (1, p)) as ->.
  { destruct p as [|d p]; [reflexivity|]. cbn [hd] in H. unfold dashes. change (45 =? 45) with true. cbv iota. replace (d =? 45) with false by lia. reflexivity. }
  change (0 <? 1) with true. change (1 =? 2) with false. change (1 =? 1) with true. change (1 =? 0) with false. cbn [negb andb]. cbv iota zeta beta.
  unfold check. destruct (split_equal p) as [[k v]|]; cbv iota beta.
  - rewrite zlen_zero. destruct k as [|c k]; [reflexivity|]. destruct (shorts rules (zlen (c :: k)) (c :: k)) as [[ps [r|]]|]; reflexivity.
  - rewrite zlen_zero. destruct p as [|c p]; [reflexivity|]. destruct (shorts rules (zlen (c :: p)) (c :: p)) as [[ps [r|]]|]; reflexivity.
Qed.
Lemma one_letter : forall rules c r, rule_short rules c = Some r ->
  shorts rules 1 [c] = if r_argument r then Some ([], Some r) else Some ([mk_pair r []], None).
Proof. intros rules c r H. cbn [shorts]. rewrite H. change (1 =? 1) with true. destruct (r_argument r); reflexivity. Qed.
Lemma letter_cases : forall rules k ps x, k <> [] -> shorts rules (zlen k) k = Some (ps, x) ->
  (x = None /\ exists rs, Forall2 (fun c r => lettered rules c r /\ r_argument r = false) k rs /\ ps = map (fun r => mk_pair r []) rs) \/
  (exists c r, k = [c] /\ lettered rules c r /\ r_argument r = true /\ x = Some r /\ ps = []).
Proof.
  intros rules k ps x N H. destruct (shorts_inv _ _ _ _ _ H) as [A|A]; [left; exact A|].
  destruct k as [|c [|d k]]; [contradiction N; reflexivity| |rewrite !zlen_cons in A; pose proof (zlen_nonneg _ k); lia].
  rewrite A in H. destruct (rule_short rules c) as [r|] eqn:R; [|cbn [shorts] in H; rewrite R in H; discriminate H]. rewrite (one_letter _ _ _ R) in H.
  destruct (r_argument r) eqn:B; injection H as <- <-.
  - right. exists c, r. split; [reflexivity|]. split; [apply rule_short_ok; exact R|]. split; [exact B|]. split; reflexivity.
  - left. split; [reflexivity|]. exists [r]. split; [|reflexivity]. apply Forall2_cons; [split; [apply rule_short_ok; exact R|exact B]|apply Forall2_nil].
Qed.
Lemma named_not_word : forall rules name r, named rules name r -> r_word r = false.
Proof. intros rules name r (b & a & _ & H & _). exact H. Qed.
Lemma lettered_not_word : forall rules c r, lettered rules c r -> r_word r = false.
Proof. intros rules c r (b & a & _ & H & _). exact H. Qed.

(** ** All arguments *)
Lemma give_inv : forall rules e n r v rest ps, give rules e n r v rest = Some ps ->
  exists qs, fits r v /\ parse rules e n rest = Some qs /\ ps = mk_pair r (values r v) :: qs.
Proof.
  intros rules e n r v rest ps H. unfold give in H. destruct (check r v) eqn:C; [|discriminate]. destruct (parse rules e n rest) as [qs|]; [|discriminate].
  injection H as <-. exists qs. split; [apply fits_ok; exact C|]. split; [reflexivity|]. rewrite make_pair_ok. reflexivity.
Qed.
Lemma put_inv : forall ps x qs, put ps x = Some qs -> exists rs, x = Some rs /\ qs = ps ++ rs.
Proof. intros ps [rs|] qs H; [|discriminate]. injection H as <-. exists rs. split; reflexivity. Qed.
Lemma parse_reads : forall len rules args e n ps, (length args <= len)%nat -> parse rules e n args = Some ps -> reads true rules e n args ps.
Proof.
  induction len as [|len IH]; intros rules args e n ps L H.
  { destruct args; [injection H as <-; apply reads_end|cbn [length] in L; lia]. }
  destruct args as [|a rest]; [injection H as <-; apply reads_end|]. cbn [length] in L.
  assert (D : (e = true \/ (a <> [] /\ hd 0 a <> 45)) \/ (e = false /\ ((exists p, a = 45 :: 45 :: p) \/ (exists p, a = 45 :: p /\ hd 0 p <> 45) \/ a = []))).
  { destruct e; [left; left; reflexivity|]. destruct (dashes_view a) as [(p & E & _)|[(p & E & N & _)|(_ & [E|E])]].
    - right. split; [reflexivity|]. left. exists p. exact E.
    - right. split; [reflexivity|]. right; left. exists p. split; assumption.
    - right. split; [reflexivity|]. right; right. exact E.
    - left; right. exact E. }
  destruct D as [D|(-> & [(p & ->)|[(p & -> & N)| -> ]])].
  - rewrite parse_word in H by exact D. destruct (word_rule rules n) as [r|] eqn:W; [|discriminate]. apply give_inv in H as (qs & F & P & ->). apply word_rule_ok in W.
    apply reads_word; [exact D|exact W|exact F|]. apply IH; [lia|exact P].
  - rewrite parse_long in H. destruct (split_equal p) as [[k v]|] eqn:E.
    + apply split_equal_some in E as (-> & NE). destruct k as [|c k]; [discriminate|]. set (kk := c :: k) in *. assert (NK : kk <> []) by discriminate. clearbody kk.
      destruct (rule_long rules kk) as [r|] eqn:R; [|discriminate]. apply rule_long_ok in R. rewrite (named_not_word _ _ _ R), orb_false_r in H.
      destruct (r_argument r || r_multi r) eqn:A; [|discriminate]. apply give_inv in H as (qs & F & P & ->).
      apply (reads_long_equal true rules n kk v rest qs r NK NE R); [apply orb_true_iff; exact A|exact F|]. apply IH; [lia|exact P].
    + apply split_equal_none in E. destruct p as [|c p].
      * apply reads_dashes. apply IH; [lia|exact H].
      * set (kk := c :: p) in *. assert (NK : kk <> []) by discriminate. clearbody kk. destruct (rule_long rules kk) as [r|] eqn:R; [|discriminate]. apply rule_long_ok in R.
        rewrite (named_not_word _ _ _ R), orb_false_r in H. cbn [orb] in H. destruct (r_multi r) eqn:M.
        -- rewrite orb_true_r in H. apply give_inv in H as (qs & F & P & ->). apply reads_long_own; [reflexivity|exact NK|exact E|exact R|exact M|]. apply IH; [lia|exact P].
        -- rewrite orb_false_r in H. destruct (r_argument r) eqn:A.
           ++ destruct rest as [|v rest]; [discriminate|]. apply give_inv in H as (qs & F & P & ->). cbn [length] in L.
              apply reads_long_value; [exact NK|exact E|exact R|exact A|exact M|exact F|]. apply IH; [lia|exact P].
           ++ apply put_inv in H as (qs & P & ->). apply reads_long; [exact NK|exact E|exact R|exact A|exact M|]. apply IH; [lia|exact P].
  - rewrite parse_short in H by exact N. destruct (split_equal p) as [[k v]|] eqn:E.
    + apply split_equal_some in E as (-> & NE). destruct k as [|c k]; [discriminate|]. set (kk := c :: k) in *. assert (NK : kk <> []) by discriminate.
      assert (HK : hd 0 kk <> 45) by exact N. clearbody kk. destruct (shorts rules (zlen kk) kk) as [[qs x]|] eqn:R; [|discriminate].
      destruct (letter_cases _ _ _ _ NK R) as [(-> & rs & F & ->)|(c0 & r & -> & LT & A & -> & ->)].
      * apply put_inv in H as (us & P & ->). apply reads_letters_ignored; [reflexivity|exact NK|exact HK|exact NE|exact F|]. apply IH; [lia|exact P].
      * rewrite A in H. cbn [orb app] in H. change (give rules false n r v rest = Some ps) in H. apply give_inv in H as (us & F & P & ->). cbn [app].
        apply reads_letter_equal; [exact HK|intros C; apply NE; left; exact C|exact LT|exact A|exact F|]. apply IH; [lia|exact P].
    + apply split_equal_none in E. destruct p as [|c p]; [discriminate|]. set (kk := c :: p) in *. assert (NK : kk <> []) by discriminate.
      clearbody kk. destruct (shorts rules (zlen kk) kk) as [[qs x]|] eqn:R; [|discriminate].
      destruct (letter_cases _ _ _ _ NK R) as [(-> & rs & F & ->)|(c0 & r & -> & LT & A & -> & ->)].
      * apply put_inv in H as (us & P & ->). apply reads_letters; [exact NK|exact N|exact E|exact F|]. apply IH; [lia|exact P].
      * rewrite A, (lettered_not_word _ _ _ LT) in H. cbn [orb app] in H. assert (NE : c0 <> equal_sign) by (intros C; apply E; left; exact C). destruct (r_multi r) eqn:M.
        -- change (give rules false n r [45; c0] rest = Some ps) in H. apply give_inv in H as (us & F & P & ->).
           apply reads_letter_own; [reflexivity|exact N|exact NE|exact LT|exact A|exact M|]. apply IH; [lia|exact P].
        -- destruct rest as [|v rest]; [discriminate|]. change (give rules false n r v rest = Some ps) in H. apply give_inv in H as (us & F & P & ->). cbn [length] in L.
           apply reads_letter_value; [exact N|exact NE|exact LT|exact A|exact M|exact F|]. apply IH; [lia|exact P].
  - discriminate H.
Qed.
Lemma give_ok : forall rules e n r v rest qs, fits r v -> parse rules e n rest = Some qs -> give rules e n r v rest = Some (mk_pair r (values r v) :: qs).
Proof. intros rules e n r v rest qs F P. unfold give, check. apply fits_ok in F. rewrite F, P, make_pair_ok. reflexivity. Qed.
Lemma values_fit : forall rules e n r v rest qs ps, fits r v -> parse rules e n rest = Some qs ->
  (if check r v then put (ps ++ [make_pair r v]) (parse rules e n rest) else None) = Some (ps ++ mk_pair r (values r v) :: qs).
Proof. intros rules e n r v rest qs ps F P. unfold check. apply fits_ok in F. rewrite F, P, make_pair_ok. cbn [put]. rewrite <- app_assoc. reflexivity. Qed.
Lemma reads_parse : forall lenient rules e n args ps, reads lenient rules e n args ps -> parse rules e n args = Some ps.
Proof.
  intros lenient rules e n args ps H. induction H as
    [e n|n args ps H IH|e n a args ps r D W F H IH|n name args ps r NK NE R A M H IH|n name v args ps r NK NE R A M F H IH|n name v args ps r NK NE R A F H IH
    |n c v args ps r N1 N2 R A M F H IH|n c v args ps r N1 N2 R A F H IH|n cs rs args ps NK HK NE F H IH|n cs v rs args ps LE NK HK NE F H IH
    |n name args ps r LE NK NE R M H IH|n c args ps r LE N1 N2 R A M H IH].
  - reflexivity.
  - unfold dash. rewrite parse_long. exact IH.
  - rewrite parse_word by exact D. apply word_rule_ok in W. rewrite W. apply give_ok; assumption.
  - unfold dash. rewrite parse_long. rewrite (proj2 (split_equal_none name) NE). destruct name as [|x name]; [contradiction NK; reflexivity|].
    rewrite (proj2 (rule_long_ok rules (x :: name) r) R), A, M, (named_not_word _ _ _ R), IH. reflexivity.
  - unfold dash. rewrite parse_long. rewrite (proj2 (split_equal_none name) NE). destruct name as [|x name]; [contradiction NK; reflexivity|].
    rewrite (proj2 (rule_long_ok rules (x :: name) r) R), A, M, (named_not_word _ _ _ R). cbn [orb]. apply give_ok; assumption.
  - unfold dash. rewrite parse_long. rewrite (proj2 (split_equal_some (name ++ equal_sign :: v) name v) (conj eq_refl NE)). destruct name as [|x name]; [contradiction NK; reflexivity|].
    rewrite (proj2 (rule_long_ok rules (x :: name) r) R), (named_not_word _ _ _ R), orb_false_r. apply orb_true_iff in A. rewrite A. apply give_ok; assumption.
  - unfold dash. rewrite parse_short by exact N1. rewrite (proj2 (split_equal_none [c])) by (intros [C|[]]; auto). change (zlen [c]) with 1.
    rewrite (one_letter _ _ _ (proj2 (rule_short_ok rules c r) R)), A. cbv iota beta. rewrite A, M, (lettered_not_word _ _ _ R). cbn [orb]. apply (values_fit rules false n r v args ps [] F IH).
  - unfold dash. rewrite parse_short by exact N1. rewrite (proj2 (split_equal_some (c :: equal_sign :: v) [c] v)) by (split; [reflexivity|intros [C|[]]; auto]). change (zlen [c]) with 1.
    rewrite (one_letter _ _ _ (proj2 (rule_short_ok rules c r) R)), A. cbv iota beta. rewrite A. cbn [orb]. apply (values_fit rules false n r v args ps [] F IH).
  - unfold dash. rewrite parse_short by exact HK. rewrite (proj2 (split_equal_none cs) NE). destruct cs as [|x cs]; [contradiction NK; reflexivity|].
    rewrite (shorts_flags _ _ _ _ F), IH. reflexivity.
  - unfold dash. rewrite parse_short by (destruct cs; [contradiction NK; reflexivity|exact HK]). rewrite (proj2 (split_equal_some (cs ++ equal_sign :: v) cs v) (conj eq_refl NE)). destruct cs as [|x cs]; [contradiction NK; reflexivity|].
    rewrite (shorts_flags _ _ _ _ F), IH. reflexivity.
  - unfold dash. rewrite parse_long. rewrite (proj2 (split_equal_none name) NE). destruct name as [|x name]; [contradiction NK; reflexivity|].
    rewrite (proj2 (rule_long_ok rules (x :: name) r) R), M, (named_not_word _ _ _ R), orb_true_r. cbn [orb]. apply give_ok; [left; discriminate|exact IH].
  - unfold dash. rewrite parse_short by exact N1. rewrite (proj2 (split_equal_none [c])) by (intros [C|[]]; auto). change (zlen [c]) with 1.
    rewrite (one_letter _ _ _ (proj2 (rule_short_ok rules c r) R)), A. cbv iota beta. rewrite A, M, (lettered_not_word _ _ _ R). cbn [orb]. apply (values_fit rules false n r [45; c] args ps []); [left; discriminate|exact IH].
Qed.
Lemma parse_iff : forall rules e n args ps, parse rules e n args = Some ps <-> reads true rules e n args ps.
Proof. intros. split; [apply (parse_reads (length args)); lia|apply reads_parse]. Qed.
Lemma cmd_parse_iff : forall rules wc args c ps, cmd_parse rules wc args = Some (c, ps) <->
  (args = [] /\ c = [] /\ ps = []) \/
  (wc = false /\ args <> [] /\ c = [] /\ reads true rules false 0 args ps) \/
  (wc = true /\ exists rest, args = c :: rest /\ reads true rules false 0 rest ps).
Proof.
  intros rules wc args c ps. destruct args as [|a rest]; cbn [cmd_parse].
  - split; [intros H; injection H as <- <-; left; repeat split|]. intros [(_ & -> & ->)|[(_ & C & _)|(_ & r & C & _)]]; [reflexivity|contradiction C; reflexivity|discriminate C].
  - destruct wc.
    + split.
      * intros H. destruct (parse rules false 0 rest) as [qs|] eqn:P; [|discriminate]. injection H as <- <-. apply parse_iff in P. right; right. split; [reflexivity|]. exists rest. split; [reflexivity|exact P].
      * intros [(C & _)|[(C & _)|(_ & r & C & P)]]; [discriminate|discriminate|]. injection C as <- <-. apply parse_iff in P. rewrite P. reflexivity.
    + split.
      * intros H. destruct (parse rules false 0 (a :: rest)) as [qs|] eqn:P; [|discriminate]. injection H as <- <-. apply parse_iff in P. right; left. split; [reflexivity|]. split; [discriminate|]. split; [reflexivity|exact P].
      * intros [(C & _)|[(_ & _ & -> & P)|(C & _)]]; [discriminate| |discriminate]. apply parse_iff in P. rewrite P. reflexivity.
Qed.

(** ** Finding *)
Lemma find_pair_ok : forall ps key i, find_pair ps key i = nth_error (filter (fun p => text_eqb (r_long (p_rule p)) key) ps) i.
Proof.
  induction ps as [|p ps IH]; intros key i; [destruct i; reflexivity|]. cbn [find_pair filter]. destruct (text_eqb (r_long (p_rule p)) key); [destruct i; [reflexivity|apply IH]|apply IH].
Qed.
(** ** Commas *)
Lemma commas_piece : forall v r, ~ In comma v -> between_commas (v ++ r) = match between_commas r with s :: ss => (v ++ s) :: ss | [] => [] end.
Proof.
  induction v as [|c v IH]; intros r N; cbn [app between_commas].
  - pose proof (commas_nonnil r). destruct (between_commas r); [contradiction|reflexivity].
  - replace (c =? comma) with false by (symmetry; apply Z.eqb_neq; intros C; apply N; left; exact C). rewrite IH by (intros C; apply N; right; exact C).
    pose proof (commas_nonnil r). destruct (between_commas r); [contradiction|reflexivity].
Qed.
Lemma commas_joined : forall vs, vs <> [] -> Forall (fun v => ~ In comma v) vs -> between_commas (joined vs) = vs.
Proof.
  induction vs as [|v vs IH]; intros N F; [contradiction N; reflexivity|]. apply Forall_cons_iff in F as (F1 & F2). unfold joined. rewrite commas_piece by exact F1.
  destruct vs as [|w vs]; [cbn [map concat between_commas]; rewrite app_nil_r; reflexivity|]. specialize (IH ltac:(discriminate) F2).
  cbn [map concat app]. change (w ++ concat (map (fun w0 => comma :: w0) vs)) with (joined (w :: vs)). cbn [between_commas]. change (comma =? comma) with true. cbv iota.
  rewrite app_nil_r, IH. reflexivity.
Qed.
Lemma split_joined : forall r vs, r_split r = true -> vs <> [] -> last vs [] <> [] -> Forall (fun v => ~ In comma v) vs -> p_values (make_pair r (joined vs)) = vs.
Proof.
  intros r vs E N L F. rewrite make_pair_ok. cbn [p_values]. unfold values. rewrite E, commas_joined by assumption. destruct (last vs []); [contradiction L; reflexivity|reflexivity].
Qed.
(** ** A rule for words by its name *)
Lemma own_name : forall rules name ps, ~ In equal_sign name -> name <> [] -> (forall r, named rules name r -> r_multi r = true) -> ~ reads false rules false 0 [dash :: dash :: name] ps.
Proof.
  intros rules name ps NE NK M H. remember [dash :: dash :: name] as args eqn:EA. remember false as e eqn:EE in H at 2. destruct H; try discriminate.
  - injection EA as <- _. apply NK. reflexivity.
  - injection EA as -> _. destruct H as [H|(_ & H)]; [rewrite H in EE; discriminate EE|apply H; reflexivity].
  - injection EA as -> _. specialize (M _ H1). congruence.
  - injection EA as E _. apply NE. rewrite <- E. apply in_or_app. right. left. reflexivity.
  - injection EA as -> _ _. apply H. reflexivity.
  - injection EA as -> _. apply H0. reflexivity.
Qed.
