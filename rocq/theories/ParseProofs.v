From Coq Require Import ZArith List Bool Lia.
From Verif Require Import Common ParseModel ParseSpec.
Import ListNotations.
Open Scope Z_scope.

(** * Reading *)
Lemma size_nonneg t : 0 <= t_size t.
Proof. unfold t_size. apply zlen_nonneg. Qed.
Lemma rd_in t i : 0 <= i < t_size t -> rd t i = Ok (nth (Z.to_nat i) (t_data t) 0).
Proof. intros H. unfold rd. replace ((0 <=? i) && (i <? t_size t)) with true by lia. reflexivity. Qed.
Lemma rd_end t i : t_nul t = true -> i = t_size t -> rd t i = Ok 0.
Proof. intros H ->. unfold rd. rewrite H. replace ((0 <=? t_size t) && (t_size t <? t_size t)) with false by lia. rewrite Z.eqb_refl. reflexivity. Qed.
Lemma from_end t i : t_size t <= i -> from t i = [].
Proof. intros H. unfold from. apply skipn_all2. unfold t_size, zlen in H. lia. Qed.
Lemma skipn_cons (l : list Z) n : (n < length l)%nat -> skipn n l = nth n l 0 :: skipn (S n) l.
Proof.
  revert n. induction l as [ | a l IH ]; intros [ | n ] H; cbn [length] in H; try lia; [ reflexivity | ].
  cbn [skipn nth]. rewrite IH by lia. reflexivity.
Qed.
Lemma from_cons t i : 0 <= i < t_size t -> from t i = nth (Z.to_nat i) (t_data t) 0 :: from t (i + 1).
Proof.
  intros H. unfold from. rewrite skipn_cons by (unfold t_size, zlen in H; lia).
  now replace (Z.to_nat (i + 1)) with (S (Z.to_nat i)) by lia.
Qed.
Lemma from_len t i : 0 <= i <= t_size t -> zlen (from t i) = t_size t - i.
Proof. intros H. unfold from, t_size, zlen in *. rewrite skipn_length. lia. Qed.
Lemma leading_len f l : 0 <= zlen (leading f l) <= zlen l.
Proof.
  induction l as [ | c l IH ]; cbn [leading]; [ rewrite zlen_nil; lia | ].
  destruct (f c); rewrite ?zlen_cons, ?zlen_nil; pose proof (zlen_nonneg _ l); lia.
Qed.
Lemma leading_end t f i : 0 <= i <= t_size t -> 0 <= i + zlen (leading f (from t i)) <= t_size t.
Proof. intros H. pose proof (leading_len f (from t i)). rewrite from_len in * by lia. lia. Qed.

(** * Lines *)
Lemma seq_S n : seq 0 (S n) = seq 0 n ++ [n].
Proof. rewrite seq_S. reflexivity. Qed.
Lemma lines_step d i : 0 <= i -> lines_before d (i + 1) = lines_before d i + (if ends_line d (Z.to_nat i) then 1 else 0).
Proof.
  intros H. unfold lines_before. replace (Z.to_nat (i + 1)) with (S (Z.to_nat i)) by lia.
  rewrite seq_S, filter_app, zlen_app. cbn [filter]. destruct (ends_line d (Z.to_nat i)); rewrite ?zlen_cons, ?zlen_nil; lia.
Qed.
Lemma begin_step d i : 0 <= i -> line_begin d (i + 1) = if ends_line d (Z.to_nat i) then i + 1 else line_begin d i.
Proof.
  intros H. unfold line_begin. replace (Z.to_nat (i + 1)) with (S (Z.to_nat i)) by lia.
  rewrite seq_S, fold_left_app. cbn [fold_left]. destruct (ends_line d (Z.to_nat i)); [ lia | reflexivity ].
Qed.
Lemma ends_plain d i : is_newline (nth i d 0) = false -> ends_line d i = false.
Proof. unfold ends_line, is_newline. destruct (nth i d 0 =? 10), (nth i d 0 =? 13); cbn; congruence. Qed.

Lemma located_step t p : located t p -> p_pos p < t_size t -> is_newline (nth (Z.to_nat (p_pos p)) (t_data t) 0) = false ->
  located t (set_pos p (p_pos p + 1)).
Proof.
  intros (H & L & B) Hlt Hn. unfold located, set_pos. cbn [p_pos p_line p_begin].
  rewrite lines_step, begin_step, ends_plain by (auto; lia). repeat split; lia.
Qed.
Lemma set_pos_same p : set_pos p (p_pos p) = p.
Proof. destruct p. reflexivity. Qed.
Lemma set_pos_twice p i j : set_pos (set_pos p i) j = set_pos p j.
Proof. reflexivity. Qed.

(** Passing octets none of which is a line end. *)
Lemma located_plain t p l r :
  located t p -> from t (p_pos p) = l ++ r -> no_newline l -> located t (set_pos p (p_pos p + zlen l)).
Proof.
  revert p. induction l as [ | c l IH ]; intros p L E N.
  - rewrite zlen_nil, Z.add_0_r, set_pos_same. exact L.
  - assert (Hlt : p_pos p < t_size t).
    { destruct (Z.lt_ge_cases (p_pos p) (t_size t)) as [ X | X ]; [ exact X | ]. rewrite from_end in E by lia. discriminate. }
    destruct L as (H & L). rewrite from_cons in E by lia. cbn [app] in E. injection E as Ec E.
    inversion N; subst. assert (L1 : located t (set_pos p (p_pos p + 1))) by (apply located_step; [ split; auto | lia | congruence ]).
    specialize (IH (set_pos p (p_pos p + 1)) L1 E H3). cbn [p_pos set_pos] in IH.
    rewrite zlen_cons. unfold set_pos in *. cbn [p_line p_begin] in *. replace (p_pos p + (1 + zlen l)) with (p_pos p + 1 + zlen l) by lia. exact IH.
Qed.

Lemma leading_split f l : l = leading f l ++ skipn (length (leading f l)) l.
Proof. induction l as [ | c l IH ]; cbn [leading]; [ reflexivity | ]. destruct (f c); cbn; [ now rewrite <- IH | reflexivity ]. Qed.
Lemma leading_all f l : Forall (fun c => f c = true) (leading f l).
Proof. induction l as [ | c l IH ]; cbn [leading]; [ constructor | ]. destruct (f c) eqn:E; [ now constructor | constructor ]. Qed.

(** * Skipping blanks *)
Lemma ignore_loop_ok t cond : cond 13 = cond 10 -> forall fuel p,
  0 <= p_pos p < t_size t -> (Z.to_nat (t_size t - p_pos p) <= fuel)%nat ->
  exists p', ignore_loop fuel t cond (nth (Z.to_nat (p_pos p)) (t_data t) 0) p = Ok p' /\
    p_pos p' = p_pos p + zlen (leading cond (from t (p_pos p))) /\ (located t p -> located t p').
Proof.
  intros Hc. induction fuel as [ | fuel IH ]; intros p Hp Hf; [ lia | ].
  cbn [ignore_loop]. rewrite from_cons by lia. cbn [leading].
  destruct (cond (nth (Z.to_nat (p_pos p)) (t_data t) 0)) eqn:Ec; cbn [andb].
  2:{ exists p. rewrite zlen_nil. split; [ reflexivity | ]. split; [ lia | auto ]. }
  replace (p_pos p <? t_size t) with true by lia.
  set (c := nth (Z.to_nat (p_pos p)) (t_data t) 0) in *.
  assert (Hn : exists next, (if p_pos p + 1 <? t_size t then rd t (p_pos p + 1) else Ok 0) = Ok next /\ next = nth (Z.to_nat (p_pos p + 1)) (t_data t) 0).
  { destruct (p_pos p + 1 <? t_size t) eqn:E.
    - rewrite rd_in by lia. eauto.
    - exists 0. split; [ reflexivity | ]. symmetry. apply nth_overflow. unfold t_size, zlen in E. lia. }
  destruct Hn as (next & Hn & Hnext). rewrite Hn. cbn [bind].
  destruct ((c =? 13) && (next =? 10)) eqn:E1.
  - (* carriage return and line feed *)
    assert (Hcr : c = 13 /\ next = 10) by (apply andb_true_iff in E1; rewrite !Z.eqb_eq in E1; exact E1). destruct Hcr as (Hcr & Hlf).
    assert (Hsz : p_pos p + 1 < t_size t).
    { destruct (Z.lt_ge_cases (p_pos p + 1) (t_size t)) as [ X | X ]; [ exact X | ].
      rewrite nth_overflow in Hnext by (unfold t_size, zlen in X; lia). lia. }
    set (p1 := set_pos _ _).
    assert (L1 : located t p -> located t p1).
    { intros (H & L & B). unfold located, p1, set_pos. cbn [p_pos p_line p_begin].
      replace (p_pos p + 1 + 1) with ((p_pos p + 1) + 1) by lia.
      rewrite !lines_step, !begin_step by lia.
      assert (X : ends_line (t_data t) (Z.to_nat (p_pos p)) = false).
      { unfold ends_line. fold c. rewrite Hcr. replace (S (Z.to_nat (p_pos p))) with (Z.to_nat (p_pos p + 1)) by lia. rewrite <- Hnext, Hlf. reflexivity. }
      assert (Y : ends_line (t_data t) (Z.to_nat (p_pos p + 1)) = true).
      { unfold ends_line. rewrite <- Hnext, Hlf. reflexivity. }
      rewrite X, Y. repeat split; lia. }
    rewrite from_cons by lia. cbn [leading]. rewrite <- Hnext, Hlf, <- Hc, <- Hcr, Ec.
    change (p_pos p1) with (p_pos p + 1 + 1). rewrite !zlen_cons.
    unfold eof. change (p_pos p1) with (p_pos p + 1 + 1).
    destruct (t_size t <=? p_pos p + 1 + 1) eqn:E2.
    + exists p1. rewrite from_end by lia. cbn [leading]. rewrite zlen_nil. split; [ reflexivity | ]. split; [ change (p_pos p1) with (p_pos p + 1 + 1); lia | exact L1 ].
    + rewrite rd_in by lia. cbn [bind].
      destruct (IH p1) as (p' & R & P & L); [ change (p_pos p1) with (p_pos p + 1 + 1); lia | change (p_pos p1) with (p_pos p + 1 + 1); lia | ].
      change (p_pos p1) with (p_pos p + 1 + 1) in R, P.
      exists p'. split; [ exact R | ]. split; [ lia | auto ].
  - set (p1 := set_pos _ _).
    assert (Hp1 : p_pos p1 = p_pos p + 1) by (unfold p1; destruct (c =? 10), (c =? 13); reflexivity).
    assert (L1 : located t p -> located t p1).
    { intros (H & L & B). unfold located. rewrite Hp1. rewrite !lines_step, !begin_step by lia.
      assert (X : ends_line (t_data t) (Z.to_nat (p_pos p)) = (c =? 10) || (c =? 13)).
      { unfold ends_line. fold c. replace (S (Z.to_nat (p_pos p))) with (Z.to_nat (p_pos p + 1)) by lia. rewrite <- Hnext.
        destruct (c =? 10), (c =? 13), (next =? 10); cbn in *; congruence. }
      rewrite X. unfold p1. destruct (c =? 10), (c =? 13); cbn [orb set_pos p_line p_begin p_pos]; repeat split; lia. }
    rewrite zlen_cons. unfold eof. rewrite Hp1.
    destruct (t_size t <=? p_pos p + 1) eqn:E2.
    + exists p1. rewrite from_end by lia. cbn [leading]. rewrite zlen_nil. split; [ reflexivity | ]. split; [ lia | exact L1 ].
    + rewrite rd_in by lia. cbn [bind].
      destruct (IH p1) as (p' & R & P & L); [ lia | lia | ]. rewrite Hp1 in R, P.
      exists p'. split; [ exact R | ]. split; [ lia | auto ].
Qed.

Lemma ignore_ok t cond p : cond 13 = cond 10 -> 0 <= p_pos p <= t_size t ->
  exists p', ignore t cond p = Ok p' /\ p_pos p' = p_pos p + zlen (leading cond (from t (p_pos p))) /\ (located t p -> located t p').
Proof.
  intros Hc Hp. unfold ignore. destruct (t_size t <=? p_pos p) eqn:E.
  - exists p. rewrite from_end by lia. cbn [leading]. rewrite zlen_nil. split; [ reflexivity | ]. split; [ lia | auto ].
  - rewrite rd_in by lia. cbn [bind]. apply ignore_loop_ok; [ exact Hc | lia | unfold t_size, zlen in *; lia ].
Qed.

(** * Words *)
Lemma word_loop_ok eq t word : forall p, 0 <= p_pos p <= t_size t ->
  exists left p', word_loop eq t word p = Ok (left, p') /\
    p' = set_pos p (p_pos p + zlen word - zlen left) /\ p_pos p' <= t_size t /\
    (left = [] <-> exists l r, from t (p_pos p) = l ++ r /\ Forall2 (fun w c => eq w c = true) word l).
Proof.
  induction word as [ | w word IH ]; intros p Hp; cbn [word_loop].
  - exists [], p. split; [ reflexivity | ]. rewrite zlen_nil. split; [ now rewrite Z.sub_0_r, Z.add_0_r, set_pos_same | ].
    split; [ lia | ]. split; [ | reflexivity ]. intros _. exists [], (from t (p_pos p)). auto.
  - destruct (p_pos p <? t_size t) eqn:E.
    + rewrite rd_in by lia. cbn [bind].
      destruct (eq w (nth (Z.to_nat (p_pos p)) (t_data t) 0)) eqn:Eq.
      * destruct (IH (set_pos p (p_pos p + 1))) as (left & p' & R & P & B & F); [ cbn [p_pos set_pos]; lia | ].
        cbn [p_pos set_pos] in *. exists left, p'. split; [ exact R | ]. split.
        { rewrite P, zlen_cons, set_pos_twice. f_equal. lia. }
        split; [ exact B | ]. rewrite F. rewrite (from_cons t (p_pos p)) by lia. split.
        -- intros (l & r & E1 & E2). exists (nth (Z.to_nat (p_pos p)) (t_data t) 0 :: l), r. rewrite E1. split; [ reflexivity | ]. constructor; auto.
        -- intros (l & r & E1 & E2). inversion E2; subst. cbn [app] in E1. injection E1 as Ea E1. eauto.
      * exists (w :: word), p. split; [ reflexivity | ]. split; [ replace (p_pos p + zlen (w :: word) - zlen (w :: word)) with (p_pos p) by lia; now rewrite set_pos_same | ].
        split; [ lia | ]. split; [ discriminate | ]. intros (l & r & E1 & E2). rewrite from_cons in E1 by lia. inversion E2; subst. cbn [app] in E1. injection E1 as Ea E1. congruence.
    + exists (w :: word), p. split; [ reflexivity | ]. split; [ replace (p_pos p + zlen (w :: word) - zlen (w :: word)) with (p_pos p) by lia; now rewrite set_pos_same | ].
      split; [ lia | ]. split; [ discriminate | ]. intros (l & r & E1 & E2). rewrite from_end in E1 by lia. inversion E2; subst. discriminate.
Qed.

Lemma match_word_with_ok eq t word p : 0 <= p_pos p <= t_size t ->
  exists b : bool, match_word_with eq t word p = Ok (b, if b then set_pos p (p_pos p + zlen word) else p) /\
    (b = true <-> exists l r, from t (p_pos p) = l ++ r /\ Forall2 (fun w c => eq w c = true) word l).
Proof.
  intros Hp. unfold match_word_with.
  destruct (word_loop_ok eq t word p Hp) as (left & p' & R & P & B & F). rewrite R. cbn [bind].
  destruct left as [ | w l ].
  - exists true. rewrite P, zlen_nil, Z.sub_0_r. split; [ reflexivity | ]. rewrite <- F. intuition.
  - exists false. rewrite P, set_pos_twice, set_pos_same. split; [ reflexivity | ]. rewrite <- F. intuition discriminate.
Qed.

Lemma Forall2_len {A B : Type} (P : A -> B -> Prop) a b : Forall2 P a b -> zlen a = zlen b.
Proof. induction 1; [ reflexivity | rewrite !zlen_cons; lia ]. Qed.

Lemma match_word_with_pos (eq : Z -> Z -> bool) t word p l r : 0 <= p_pos p <= t_size t -> from t (p_pos p) = l ++ r -> Forall2 (fun w c => eq w c = true) word l ->
  p_pos p + zlen word <= t_size t.
Proof.
  intros Hp E F. apply Forall2_len in F. rewrite F.
  assert (X : zlen (from t (p_pos p)) = zlen l + zlen r) by (rewrite E; apply zlen_app).
  rewrite from_len in X by lia. pose proof (zlen_nonneg _ r). lia.
Qed.

(** * Runs of characters *)
Lemma while_loop_ok t cond : forall fuel p, 0 <= p_pos p <= t_size t -> (Z.to_nat (t_size t - p_pos p) < fuel)%nat ->
  while_loop fuel t cond p = Ok (set_pos p (p_pos p + zlen (leading cond (from t (p_pos p))))).
Proof.
  induction fuel as [ | fuel IH ]; intros p Hp Hf; [ lia | ]. cbn [while_loop]. unfold eof.
  destruct (t_size t <=? p_pos p) eqn:E.
  - rewrite from_end by lia. cbn [leading]. now rewrite zlen_nil, Z.add_0_r, set_pos_same.
  - rewrite rd_in by lia. cbn [bind]. rewrite from_cons by lia. cbn [leading].
    destruct (cond (nth (Z.to_nat (p_pos p)) (t_data t) 0)).
    + rewrite IH by (cbn [p_pos set_pos]; lia). cbn [p_pos set_pos]. rewrite zlen_cons, set_pos_twice. do 2 f_equal. lia.
    + now rewrite zlen_nil, Z.add_0_r, set_pos_same.
Qed.
Lemma full_fuel t p : 0 <= p_pos p -> (Z.to_nat (t_size t - p_pos p) < S (length (t_data t)))%nat.
Proof. unfold t_size, zlen. lia. Qed.

Lemma match_letters_ok t p flags : 0 <= p_pos p <= t_size t ->
  match_letters t p flags = let n := zlen (leading (match_char flags) (from t (p_pos p))) in
    Ok (p_pos p, p_pos p + n - 1, set_pos p (p_pos p + n)).
Proof.
  intros Hp. unfold match_letters, match_letters_peek. rewrite while_loop_ok by (auto using full_fuel; apply full_fuel; lia).
  cbn [bind p_pos set_pos]. cbv zeta. do 3 f_equal; [ f_equal; lia | f_equal; lia ].
Qed.

Lemma until_loop_ok t stop : forall fuel p, 0 <= p_pos p < t_size t -> (Z.to_nat (t_size t - p_pos p) < fuel)%nat ->
  let n := zlen (leading (fun c => negb (stop c)) (from t (p_pos p))) in
  until_loop fuel t stop (nth (Z.to_nat (p_pos p)) (t_data t) 0) p = Ok (p_pos p + n <? t_size t, set_pos p (p_pos p + n)).
Proof.
  induction fuel as [ | fuel IH ]; intros p Hp Hf; [ lia | ]. cbv zeta. cbn [until_loop]. unfold eof.
  replace (t_size t <=? p_pos p) with false by lia. rewrite from_cons by lia. cbn [leading].
  destruct (stop (nth (Z.to_nat (p_pos p)) (t_data t) 0)) eqn:Es; cbn [negb].
  - rewrite zlen_nil, Z.add_0_r, set_pos_same. now replace (p_pos p <? t_size t) with true by lia.
  - cbn [p_pos set_pos]. destruct (t_size t <=? p_pos p + 1) eqn:E.
    + rewrite from_end by lia. cbn [leading]. rewrite zlen_cons, zlen_nil. replace (p_pos p + (1 + 0) <? t_size t) with false by lia. reflexivity.
    + rewrite rd_in by lia. cbn [bind]. pose proof (IH (set_pos p (p_pos p + 1))) as X. cbn [p_pos set_pos] in X. cbv zeta in X. rewrite X by lia.
      rewrite zlen_cons, set_pos_twice. replace (p_pos p + 1 + zlen (leading (fun c => negb (stop c)) (from t (p_pos p + 1)))) with (p_pos p + (1 + zlen (leading (fun c => negb (stop c)) (from t (p_pos p + 1))))) by lia. reflexivity.
Qed.

Lemma until_run t stop p : 0 <= p_pos p <= t_size t -> (p_pos p < t_size t \/ t_nul t = true) ->
  let n := zlen (leading (fun c => negb (stop c)) (from t (p_pos p))) in
  bind (rd t (p_pos p)) (fun c => until_loop (S (length (t_data t))) t stop c p) = Ok (p_pos p + n <? t_size t, set_pos p (p_pos p + n)).
Proof.
  intros Hp Hor n. destruct (Z.lt_ge_cases (p_pos p) (t_size t)) as [ X | X ].
  - rewrite rd_in by lia. cbn [bind]. apply until_loop_ok; [ lia | apply full_fuel; lia ].
  - destruct Hor as [ Y | Y ]; [ lia | ]. rewrite rd_end by (auto; lia). cbn [bind until_loop]. unfold eof. replace (t_size t <=? p_pos p) with true by lia.
    unfold n. rewrite from_end by lia. cbn [leading]. rewrite zlen_nil, Z.add_0_r, set_pos_same. now replace (p_pos p <? t_size t) with false by lia.
Qed.

Lemma bind_bind {A B C : Type} (r : res A) (f : A -> res B) (g : B -> res C) : bind (bind r f) g = bind r (fun a => bind (f a) g).
Proof. destruct r; reflexivity. Qed.

Lemma non_newline_ok t p : 0 <= p_pos p <= t_size t -> (p_pos p < t_size t \/ t_nul t = true) ->
  non_newline t p = let n := zlen (leading (fun c => negb (is_newline c)) (from t (p_pos p))) in
    Ok (p_pos p, p_pos p + n - 1, set_pos p (p_pos p + n)).
Proof. intros Hp Hor. unfold non_newline. rewrite <- bind_bind, until_run by assumption. reflexivity. Qed.
Lemma non_control_ok t p : 0 <= p_pos p <= t_size t -> (p_pos p < t_size t \/ t_nul t = true) ->
  non_control t p = let n := zlen (leading (fun c => negb (is_control (signed c))) (from t (p_pos p))) in
    Ok (p_pos p, p_pos p + n - 1, set_pos p (p_pos p + n)).
Proof.
  intros Hp Hor. unfold non_control. rewrite <- bind_bind.
  rewrite (until_run t (fun c => is_control (signed c))) by assumption. reflexivity.
Qed.
Lemma match_until_ok t p flags : 0 <= p_pos p <= t_size t -> (p_pos p < t_size t \/ t_nul t = true) ->
  match_until t p flags = let n := zlen (leading (fun c => negb (match_char flags c)) (from t (p_pos p))) in
    let found := (p_pos p + n <? t_size t) || (Z.testbit flags F_END && (p_pos p <? t_size t)) in
    let p' := if found then set_pos p (p_pos p + n) else p in Ok (p_pos p, p_pos p' - 1, p').
Proof. intros Hp Hor. unfold match_until. rewrite <- bind_bind, until_run by assumption. reflexivity. Qed.

(** * Comments *)
Lemma comment_loop_ok t : t_nul t = true -> forall fuel p, 0 <= p_pos p <= t_size t -> (Z.to_nat (t_size t - p_pos p) < fuel)%nat ->
  comment_loop fuel t (nth (Z.to_nat (p_pos p)) (t_data t) 0) p = Ok (set_pos p (p_pos p + zlen (leading (fun c => negb (is_newline c)) (from t (p_pos p))))).
Proof.
  intros Hnul. induction fuel as [ | fuel IH ]; intros p Hp Hf; [ lia | ]. cbn [comment_loop].
  destruct (Z.lt_ge_cases (p_pos p) (t_size t)) as [ X | X ].
  - rewrite from_cons by lia. cbn [leading]. set (c := nth (Z.to_nat (p_pos p)) (t_data t) 0).
    replace (negb (c =? 13) && negb (c =? 10)) with (negb (is_newline c)) by (unfold is_newline; destruct (c =? 13), (c =? 10); reflexivity).
    destruct (is_newline c); cbn [negb andb].
    + now rewrite zlen_nil, Z.add_0_r, set_pos_same.
    + replace (p_pos p <? t_size t) with true by lia. cbn [p_pos set_pos].
      assert (R : rd t (p_pos p + 1) = Ok (nth (Z.to_nat (p_pos p + 1)) (t_data t) 0)).
      { destruct (Z.lt_ge_cases (p_pos p + 1) (t_size t)); [ apply rd_in; lia | ].
        rewrite rd_end by (auto; lia). f_equal. symmetry. apply nth_overflow. unfold t_size, zlen in *. lia. }
      rewrite R. cbn [bind]. pose proof (IH (set_pos p (p_pos p + 1))) as Y. cbn [p_pos set_pos] in Y. rewrite Y by lia.
      rewrite zlen_cons, set_pos_twice. do 2 f_equal. lia.
  - replace (p_pos p <? t_size t) with false by lia. rewrite andb_false_r, from_end by lia. cbn [leading]. now rewrite zlen_nil, Z.add_0_r, set_pos_same.
Qed.

Lemma leading_plain f t p : located t p -> (forall c, is_newline c = true -> f c = false) -> located t (set_pos p (p_pos p + zlen (leading f (from t (p_pos p))))).
Proof.
  intros L H. apply (located_plain t p _ (skipn (length (leading f (from t (p_pos p)))) (from t (p_pos p)))); [ exact L | apply leading_split | ].
  eapply Forall_impl; [ | apply leading_all ]. cbn. intros c Hc. destruct (is_newline c) eqn:E; [ | reflexivity ]. rewrite H in Hc by assumption. discriminate.
Qed.

Lemma comment_ok t p : 0 <= p_pos p <= t_size t -> t_nul t = true ->
  exists p', comment t p = Ok p' /\
    (let j := p_pos p + zlen (leading (fun c => negb (is_newline c)) (from t (p_pos p))) in
     p_pos p' = j + zlen (leading is_spaces (from t j))) /\ (located t p -> located t p').
Proof.
  intros Hp Hnul. unfold comment. destruct (t_size t <=? p_pos p) eqn:E.
  - exists p. rewrite from_end by lia. cbn [leading]. cbv zeta. rewrite zlen_nil. rewrite from_end by lia. cbn [leading]. rewrite zlen_nil. split; [ reflexivity | ]. split; [ lia | auto ].
  - rewrite rd_in by lia. cbn [bind]. rewrite comment_loop_ok by (auto; apply full_fuel; lia). cbn [bind].
    pose proof (leading_end t (fun c => negb (is_newline c)) (p_pos p) Hp) as Hj.
    destruct (ignore_ok t is_spaces (set_pos p (p_pos p + zlen (leading (fun c => negb (is_newline c)) (from t (p_pos p)))))) as (p' & R & P & L); [ reflexivity | exact Hj | ].
    exists p'. split; [ exact R | ]. split; [ exact P | ]. intros L0. apply L. apply leading_plain; [ exact L0 | ].
    intros c Hc. now rewrite Hc.
Qed.

(** * Names *)
Lemma copy_ok t : forall n i, 0 <= i -> i + Z.of_nat n <= t_size t -> copy t i n = Ok (firstn n (from t i)).
Proof.
  induction n as [ | n IH ]; intros i Hi Hn; cbn [copy]; [ reflexivity | ].
  rewrite rd_in by lia. cbn [bind]. rewrite IH by lia. cbn [bind]. rewrite (from_cons t i) by lia. reflexivity.
Qed.
Lemma copy_leading t f i : 0 <= i <= t_size t ->
  copy t i (Z.to_nat (zlen (leading f (from t i)))) = Ok (leading f (from t i)).
Proof.
  intros Hi. pose proof (leading_end t f i Hi). pose proof (leading_len f (from t i)).
  rewrite copy_ok by lia. f_equal. unfold zlen. rewrite Nat2Z.id.
  rewrite (leading_split f (from t i)) at 2. rewrite firstn_app, firstn_all, Nat.sub_diag. apply app_nil_r.
Qed.

Definition name_char : Z -> bool := match_char MATCH_NAME.
Lemma name_char_newline c : is_newline c = true -> name_char c = false.
Proof. unfold is_newline. intros H. apply orb_true_iff in H. destruct H as [ H | H ]; apply Z.eqb_eq in H; subst; reflexivity. Qed.

(** After blanks, a name, and blanks. *)
Definition after_name (t : text) (i : Z) : Z * Z * Z :=
  let j := i + zlen (leading is_spaces (from t i)) in
  let k := j + zlen (leading name_char (from t j)) in
  (j, k, k + zlen (leading is_spaces (from t k))).

Lemma extract_name_ok t p e : 0 <= p_pos p <= t_size t -> is_newline e = false ->
  let '(j, k, m) := after_name t (p_pos p) in
  exists ret nm p', extract_name t p e = Ok (ret, nm, p') /\
    (j <= k <= m) /\ m <= t_size t /\ p_pos p <= p_pos p' <= t_size t /\ (located t p -> located t p') /\
    match nm with
    | Some name => ret = 0 /\ name = leading name_char (from t j) /\ name <> [] /\
                   from t m = e :: from t (m + 1) /\ p_pos p' = m + 1
    | None => (ret = 0 /\ (j = t_size t \/ j = k) /\ p_pos p' = j) \/
              (ret = 1 /\ j < k /\ p_pos p' = m /\ forall r, from t m <> e :: r)
    end.
Proof.
  intros Hp He. unfold after_name. unfold extract_name.
  set (j := p_pos p + zlen (leading is_spaces (from t (p_pos p)))).
  set (k := j + zlen (leading name_char (from t j))).
  set (m := k + zlen (leading is_spaces (from t k))).
  destruct (ignore_ok t is_spaces p) as (p1 & R1 & P1 & L1); [ reflexivity | lia | ]. fold j in P1.
  pose proof (leading_end t is_spaces (p_pos p) Hp) as Bj. fold j in Bj.
  pose proof (leading_end t name_char j Bj) as Bk. fold k in Bk.
  pose proof (leading_end t is_spaces k Bk) as Bm. fold m in Bm.
  assert (Mj : p_pos p <= j) by (unfold j; pose proof (leading_len is_spaces (from t (p_pos p))); lia).
  assert (Mk : j <= k) by (unfold k; pose proof (leading_len name_char (from t j)); lia).
  assert (Mm : k <= m) by (unfold m; pose proof (leading_len is_spaces (from t k)); lia).
  unfold ignore_spaces. rewrite R1. cbn [bind]. unfold eof. rewrite P1.
  destruct (t_size t <=? j) eqn:Ej.
  { exists 0, None, p1. rewrite P1. split; [ reflexivity | ]. repeat (split; [ lia || auto | ]). left. repeat split; auto; lia. }
  rewrite match_letters_ok by (rewrite P1; lia). rewrite P1. cbv zeta. cbn [bind]. fold name_char. fold k.
  set (p2 := set_pos p1 k).
  assert (L2 : located t p -> located t p2).
  { intros L. unfold p2, k. rewrite <- P1. apply leading_plain; [ auto | apply name_char_newline ]. }
  destruct (k - 1 <? j) eqn:Ek.
  { exists 0, None, p2. change (p_pos p2) with k. split; [ reflexivity | ]. repeat (split; [ lia || auto | ]). left. repeat split; auto; lia. }
  destruct (ignore_ok t is_spaces p2) as (p3 & R3 & P3 & L3); [ reflexivity | change (p_pos p2) with k; lia | ].
  change (p_pos p2) with k in P3. fold m in P3. rewrite R3. cbn [bind]. rewrite P3.
  destruct (t_size t <=? m) eqn:Em.
  { exists 1, None, p3. rewrite P3. split; [ reflexivity | ]. repeat (split; [ lia || auto | ]). right. repeat split; auto; try lia.
    intros r. rewrite from_end by lia. discriminate. }
  rewrite rd_in by lia. cbn [bind].
  destruct (nth (Z.to_nat m) (t_data t) 0 =? e) eqn:Ee; cbn [negb].
  2:{ exists 1, None, p3. rewrite P3. split; [ reflexivity | ]. repeat (split; [ lia || auto | ]). right. repeat split; auto; try lia.
      intros r. rewrite from_cons by lia. intros [= X _]. rewrite X, Z.eqb_refl in Ee. discriminate. }
  apply Z.eqb_eq in Ee.
  unfold name_length. rewrite Ek. cbn [bind].
  replace (k - 1 - j + 1) with (zlen (leading name_char (from t j))) by (unfold k; lia).
  rewrite copy_leading by lia. cbn [bind].
  exists 0, (Some (leading name_char (from t j))), (set_pos p3 (m + 1)). cbn [p_pos set_pos]. split; [ reflexivity | ].
  repeat (split; [ lia | ]). split.
  { intros L. rewrite <- P3. apply located_step; [ auto | lia | ]. rewrite P3, Ee. exact He. }
  split; [ reflexivity | ]. split; [ reflexivity | ]. split.
  { intros X. unfold k in Ek. rewrite X, zlen_nil in Ek. lia. }
  split; [ rewrite from_cons by lia; congruence | reflexivity ].
Qed.

Lemma subscript_ok cb t sub e : is_newline sub = false -> is_newline e = false -> t_nul t = true -> forall fuel level p,
  0 <= p_pos p <= t_size t ->
  match subscript_loop fuel cb t level p sub e with
  | Ok (_, _, p') => p_pos p <= p_pos p' <= t_size t /\ (located t p -> located t p')
  | Ub => False
  | Bug => True
  end.
Proof.
  intros Hs He Hnul. induction fuel as [ | fuel IH ]; intros level p Hp; cbn [subscript_loop]; [ split; [ lia | auto ] | ].
  destruct (ignore_ok t is_spaces p) as (p1 & R1 & P1 & L1); [ reflexivity | lia | ].
  unfold ignore_spaces at 1. rewrite R1. cbn [bind].
  pose proof (leading_end t is_spaces (p_pos p) Hp) as B1. pose proof (leading_len is_spaces (from t (p_pos p))) as B1'. rewrite <- P1 in B1.
  destruct (eof t p1) eqn:E1; [ split; [ lia | auto ] | ].
  rewrite match_letters_ok by lia. cbv zeta. cbn [bind]. fold name_char.
  set (n := zlen (leading name_char (from t (p_pos p1)))).
  pose proof (leading_end t name_char (p_pos p1) B1) as B2. fold n in B2. pose proof (leading_len name_char (from t (p_pos p1))) as B2'. fold n in B2'.
  set (p2 := set_pos p1 (p_pos p1 + n)).
  assert (L2 : located t p1 -> located t p2) by (intros; apply leading_plain; [ auto | apply name_char_newline ]).
  destruct (ignore_ok t is_spaces p2) as (p3 & R3 & P3 & L3); [ reflexivity | exact B2 | ].
  change (p_pos p2) with (p_pos p1 + n) in P3.
  unfold ignore_spaces at 1. rewrite R3. cbn [bind].
  pose proof (leading_end t is_spaces (p_pos p1 + n) B2) as B3. pose proof (leading_len is_spaces (from t (p_pos p1 + n))) as B3'. rewrite <- P3 in B3.
  assert (R : exists cur, rd t (p_pos p3) = Ok cur /\ (p_pos p3 < t_size t -> cur = nth (Z.to_nat (p_pos p3)) (t_data t) 0)).
  { destruct (Z.lt_ge_cases (p_pos p3) (t_size t)); [ rewrite rd_in by lia; eauto | ]. rewrite rd_end by (auto; lia). exists 0. split; [ reflexivity | lia ]. }
  destruct R as (cur & R & Hcur). rewrite R. cbn [bind].
  destruct (eof t p3 || (negb (cur =? e) && negb (cur =? sub))) eqn:E3; [ split; [ lia | auto ] | ].
  apply orb_false_iff in E3. destruct E3 as (E3 & E3'). unfold eof in E3. specialize (Hcur ltac:(lia)).
  assert (Hnl : is_newline cur = false).
  { destruct (cur =? e) eqn:X; [ apply Z.eqb_eq in X; now subst | ]. destruct (cur =? sub) eqn:Y; [ apply Z.eqb_eq in Y; now subst | discriminate ]. }
  unfold name_length. destruct (p_pos p1 + n - 1 <? p_pos p1) eqn:En; cbn [bind]; [ exact I | ].
  replace (p_pos p1 + n - 1 - p_pos p1 + 1) with n by lia. unfold n at 1. rewrite copy_leading by lia. cbn [bind].
  set (p4 := set_pos p3 (p_pos p3 + 1)).
  assert (L4 : located t p -> located t p4).
  { intros L. apply located_step; [ auto | lia | ]. now rewrite <- Hcur. }
  destruct (negb (cb (level + 1) (leading name_char (from t (p_pos p1))) =? 0)); [ split; [ cbn [p_pos set_pos p4]; lia | auto ] | ].
  destruct (cur =? sub); [ | split; [ cbn [p_pos set_pos p4]; lia | auto ] ].
  assert (B4 : 0 <= p_pos p4 <= t_size t) by (cbn [p_pos set_pos p4]; lia).
  specialize (IH (level + 1) p4 B4). destruct (subscript_loop fuel cb t (level + 1) p4 sub e) as [ [ [ret names] p5 ] | | ]; cbn [bind]; auto.
  destruct IH as (B5 & L5). change (p_pos p4) with (p_pos p3 + 1) in B5.
  destruct (negb (ret =? 0)); [ split; [ lia | auto ] | ].
  destruct (ignore_ok t is_spaces p5) as (p6 & R6 & P6 & L6); [ reflexivity | lia | ].
  assert (B5' : 0 <= p_pos p5 <= t_size t) by lia.
  pose proof (leading_end t is_spaces (p_pos p5) B5') as B6. pose proof (leading_len is_spaces (from t (p_pos p5))) as B6'. rewrite <- P6 in B6.
  unfold ignore_spaces. rewrite R6. cbn [bind].
  destruct (eof t p6) eqn:E6; [ split; [ lia | auto ] | ]. unfold eof in E6.
  rewrite rd_in by lia. cbn [bind].
  destruct (nth (Z.to_nat (p_pos p6)) (t_data t) 0 =? e) eqn:Ee; cbn [negb]; [ | split; [ lia | auto ] ].
  split; [ cbn [p_pos set_pos]; lia | ]. intros L. apply located_step; [ auto | lia | ]. apply Z.eqb_eq in Ee. now rewrite Ee.
Qed.

(** * All operations *)

Lemma word_exec eq t w p : (forall a b, a <> 0 -> eq a b = true -> is_newline a = false -> is_newline b = false) -> no_newline w -> ~ In 0 w -> located t p ->
  exists p', drop (match_word_with eq t w p) = Ok p' /\ p_pos p <= p_pos p' /\ located t p'.
Proof.
  intros Heq Hw H0 L. pose proof L as (Hp & _). destruct (match_word_with_ok eq t w p Hp) as (b & R & F). rewrite R. cbn [drop bind].
  eexists. split; [ reflexivity | ]. destruct b; [ | split; [ lia | exact L ] ].
  destruct F as (F & _). destruct (F eq_refl) as (l & r & E & F2). cbn [p_pos set_pos]. pose proof (zlen_nonneg _ w). split; [ lia | ].
  rewrite (Forall2_len _ _ _ F2). apply (located_plain t p l r L E).
  clear -F2 Hw H0 Heq. induction F2; [ constructor | ]. inversion Hw; subst. cbn [In] in H0. constructor; [ eapply Heq; eauto | apply IHF2; auto ].
Qed.

Lemma exec_ok t p o : t_nul t = true -> located t p -> counts o ->
  (exists p', exec t p o = Ok p' /\ p_pos p <= p_pos p' /\ located t p') \/ (exec t p o = Bug /\ may_abort o = true).
Proof.
  intros Hnul L Hc. pose proof L as (Hp & _).
  destruct o as [ | | | | w | w | | f | f | | | e | cb s e ]; cbn [exec counts may_abort] in *.
  - left. destruct (ignore_ok t is_space_tab p eq_refl Hp) as (p' & R & P & L'). exists p'. split; [ exact R | ].
    pose proof (leading_len is_space_tab (from t (p_pos p))). split; [ lia | auto ].
  - left. destruct (ignore_ok t is_spaces p eq_refl Hp) as (p' & R & P & L'). exists p'. split; [ exact R | ].
    pose proof (leading_len is_spaces (from t (p_pos p))). split; [ lia | auto ].
  - left. destruct (ignore_ok t is_control p eq_refl Hp) as (p' & R & P & L'). exists p'. split; [ exact R | ].
    pose proof (leading_len is_control (from t (p_pos p))). split; [ lia | auto ].
  - left. destruct (comment_ok t p Hp Hnul) as (p' & R & P & L'). exists p'. split; [ exact R | ]. cbv zeta in P.
    pose proof (leading_len (fun c => negb (is_newline c)) (from t (p_pos p))).
    pose proof (leading_len is_spaces (from t (p_pos p + zlen (leading (fun c => negb (is_newline c)) (from t (p_pos p)))))).
    split; [ lia | auto ].
  - destruct Hc as (Hc & H0). left. apply word_exec; auto. intros a b _ X Y. apply Z.eqb_eq in X. congruence.
  - destruct Hc as (Hc & H0). left. apply word_exec; auto. intros a b Ha X Y. apply orb_true_iff in X. destruct X as [ X | X ]; apply Z.eqb_eq in X; [ congruence | ].
    unfold is_newline. destruct (b =? 13) eqn:E1; [ apply Z.eqb_eq in E1; subst b; cbv in X; congruence | ].
    destruct (b =? 10) eqn:E2; [ apply Z.eqb_eq in E2; subst b; cbv in X; congruence | reflexivity ].
  - left. unfold match_letters_simple. rewrite while_loop_ok by (auto; apply full_fuel; lia). cbn [bind drop]. eexists. split; [ reflexivity | ].
    cbn [p_pos set_pos]. pose proof (leading_len is_letter (from t (p_pos p))). split; [ lia | ].
    apply leading_plain; [ exact L | ]. intros c Hn. unfold is_newline in Hn. apply orb_true_iff in Hn. destruct Hn as [ X | X ]; apply Z.eqb_eq in X; subst; reflexivity.
  - left. rewrite match_letters_ok by lia. cbv zeta. cbn [drop bind]. eexists. split; [ reflexivity | ].
    cbn [p_pos set_pos]. pose proof (leading_len (match_char f) (from t (p_pos p))). split; [ lia | ].
    apply leading_plain; [ exact L | ]. destruct Hc as (H1 & H2). intros c Hn. unfold match_char. rewrite H1, H2.
    unfold is_newline in Hn. apply orb_true_iff in Hn. destruct Hn as [ X | X ]; apply Z.eqb_eq in X; subst c; cbn; rewrite !andb_false_r; reflexivity.
  - left. rewrite match_until_ok by auto. cbv zeta. cbn [drop bind]. eexists. split; [ reflexivity | ].
    pose proof (leading_len (fun c => negb (match_char f c)) (from t (p_pos p))).
    destruct (_ || _); [ | split; [ lia | exact L ] ]. cbn [p_pos set_pos]. split; [ lia | ].
    apply leading_plain; [ exact L | ]. intros c Hn. apply negb_false_iff. unfold match_char.
    unfold is_newline in Hn. apply orb_true_iff in Hn. destruct Hn as [ X | X ]; apply Z.eqb_eq in X; subst c; destruct Hc as [ Hc | Hc ]; rewrite Hc; cbn; rewrite ?orb_true_r; reflexivity.
  - left. rewrite non_newline_ok by auto. cbv zeta. cbn [drop bind]. eexists. split; [ reflexivity | ].
    pose proof (leading_len (fun c => negb (is_newline c)) (from t (p_pos p))). cbn [p_pos set_pos]. split; [ lia | ].
    apply leading_plain; [ exact L | ]. intros c Hn. now rewrite Hn.
  - left. rewrite non_control_ok by auto. cbv zeta. cbn [drop bind]. eexists. split; [ reflexivity | ].
    pose proof (leading_len (fun c => negb (is_control (signed c))) (from t (p_pos p))). cbn [p_pos set_pos]. split; [ lia | ].
    apply leading_plain; [ exact L | ]. intros c Hn. unfold is_newline in Hn. apply orb_true_iff in Hn. destruct Hn as [ X | X ]; apply Z.eqb_eq in X; subst; reflexivity.
  - left. pose proof (extract_name_ok t p e Hp Hc) as X. destruct (after_name t (p_pos p)) as [[j k] m].
    destruct X as (ret & nm & p' & R & _ & _ & B & L' & _). rewrite R. cbn [drop bind]. exists p'. split; [ reflexivity | ]. split; [ lia | auto ].
  - destruct Hc as (Hs & He). unfold extract_name_with_subscript.
    pose proof (subscript_ok cb t s e Hs He Hnul (S (length (t_data t))) (-1) p Hp) as X.
    destruct (subscript_loop _ cb t (-1) p s e) as [ [ [ret names] p' ] | | ]; cbn [drop bind].
    + left. exists p'. split; [ reflexivity | ]. destruct X. split; [ lia | auto ].
    + contradiction.
    + right. auto.
Qed.

Lemma exec_all_ok t : t_nul t = true -> forall os p, located t p -> Forall counts os ->
  match exec_all t p os with
  | Ok p' => p_pos p <= p_pos p' /\ located t p'
  | Ub => False
  | Bug => exists o, In o os /\ may_abort o = true
  end.
Proof.
  intros Hnul. induction os as [ | o os IH ]; intros p L Hc; cbn [exec_all].
  - split; [ lia | exact L ].
  - inversion Hc; subst. destruct (exec_ok t p o Hnul L H1) as [ (p1 & -> & M & L1) | (-> & M) ]; cbn [bind].
    + specialize (IH p1 L1 H2). destruct (exec_all t p1 os) as [ p' | | ]; [ | contradiction | ].
      * destruct IH. split; [ lia | auto ].
      * destruct IH as (o' & I' & M'). exists o'. split; [ right; exact I' | exact M' ].
    + exists o. split; [ left; reflexivity | exact M ].
Qed.

Lemma located_init t : located t pos_init.
Proof. unfold located, pos_init. cbn [p_pos p_line p_begin]. pose proof (size_nonneg t). split; [ lia | ]. split; reflexivity. Qed.

(** * Strings *)
Lemma split_loop_ok chr max : forall s element done, 0 <= max -> zlen done <= max ->
  match split_loop s chr max element done with
  | Some ls => exists e r, ls = done ++ (element ++ e) :: r /\ s = join chr (e :: r) /\ ~ In chr e /\ Forall (fun l => ~ In chr l) r /\ zlen ls <= max
  | None => max < zlen done + 1 + zlen (filter (Z.eqb chr) s)
  end.
Proof.
  induction s as [ | c s IH ]; intros element done Hm Hd; cbn [split_loop].
  - destruct (zlen done =? max) eqn:E; [ cbn [filter]; rewrite zlen_nil; lia | ].
    exists [], []. rewrite app_nil_r. split; [ reflexivity | ]. split; [ reflexivity | ]. split; [ auto | ]. split; [ constructor | ].
    rewrite zlen_app, zlen_cons, zlen_nil. lia.
  - destruct (zlen done =? max) eqn:E; [ pose proof (zlen_nonneg _ (filter (Z.eqb chr) (c :: s))); lia | ].
    cbn [filter]. destruct (c =? chr) eqn:Ec.
    + apply Z.eqb_eq in Ec. subst c. rewrite Z.eqb_refl.
      specialize (IH [] (done ++ [element]) Hm). rewrite zlen_app, zlen_cons, zlen_nil in IH.
      specialize (IH ltac:(lia)). destruct (split_loop s chr max [] (done ++ [element])) as [ ls | ].
      * destruct IH as (e & r & -> & -> & He & Hr & Hl). exists [], (e :: r). rewrite app_nil_r, <- app_assoc. cbn [app].
        split; [ reflexivity | ]. split; [ reflexivity | ]. split; [ auto | ]. split; [ constructor; assumption | ].
        rewrite <- app_assoc in Hl. exact Hl.
      * rewrite zlen_cons. lia.
    + replace (chr =? c) with false by (rewrite Z.eqb_sym; auto).
      specialize (IH (element ++ [c]) done Hm Hd). destruct (split_loop s chr max (element ++ [c]) done) as [ ls | ]; [ | exact IH ].
      destruct IH as (e & r & -> & -> & He & Hr & Hl). exists (c :: e), r. rewrite <- app_assoc. cbn [app].
      split; [ reflexivity | ]. split; [ destruct r; reflexivity | ]. split; [ | split; [ assumption | ] ].
      * intros [ X | X ]; [ subst; rewrite Z.eqb_refl in Ec; discriminate | contradiction ].
      * rewrite <- app_assoc in Hl. exact Hl.
Qed.

Lemma str_split_ok s chr max : 0 <= max ->
  match str_split s chr max with
  | Some ls => (s = [] /\ ls = []) \/ (s <> [] /\ s = join chr ls /\ ls <> [] /\ Forall (fun l => ~ In chr l) ls /\ zlen ls <= max)
  | None => s <> [] /\ max < 1 + zlen (filter (Z.eqb chr) s)
  end.
Proof.
  intros Hm. unfold str_split. destruct s as [ | c s ]; [ auto | ].
  pose proof (split_loop_ok chr max (c :: s) [] [] Hm ltac:(rewrite zlen_nil; lia)) as X.
  destruct (split_loop (c :: s) chr max [] []) as [ ls | ].
  - right. split; [ discriminate | ]. destruct X as (e & r & -> & E & He & Hr & Hl). cbn [app] in *.
    split; [ exact E | ]. split; [ discriminate | ]. split; [ constructor; assumption | exact Hl ].
  - split; [ discriminate | ]. rewrite zlen_nil in X. exact X.
Qed.

Lemma extract_until_ok s e : e <> 0 ->
  match str_extract_until s e with
  | Some m => exists r, s = m ++ e :: r /\ ~ In e m
  | None => ~ In e s
  end.
Proof.
  intros He. induction s as [ | c s IH ]; cbn [str_extract_until].
  - replace (e =? 0) with false by lia. auto.
  - destruct (c =? e) eqn:E.
    + exists s. split; [ cbn [app]; f_equal; lia | auto ].
    + destruct (str_extract_until s e) as [ m | ].
      * destruct IH as (r & -> & N). exists r. split; [ reflexivity | ]. intros [ X | X ]; [ lia | contradiction ].
      * intros [ X | X ]; [ lia | contradiction ].
Qed.

(** Removing line ends in place. *)
Lemma skip_ok s : forall fuel i skip, (i + skip <= length s)%nat -> (length s - (i + skip) <= fuel)%nat ->
  let skip' := skip_newlines fuel s i skip in
  (skip <= skip')%nat /\ (i + skip' <= length s)%nat /\
  filter (fun c => negb (is_newline c)) (skipn (i + skip) s) = filter (fun c => negb (is_newline c)) (skipn (i + skip') s) /\
  ((i + skip' < length s)%nat -> is_newline (nth (i + skip') s 0) = false).
Proof.
  induction fuel as [ | fuel IH ]; intros i skip Hi Hf; cbv zeta; cbn [skip_newlines].
  - repeat split; auto; lia.
  - destruct (Nat.ltb (skip + i) (length s)) eqn:E; cbn [andb].
    2:{ apply Nat.ltb_ge in E. repeat split; auto; lia. }
    apply Nat.ltb_lt in E. destruct (is_newline (nth (i + skip) s 0)) eqn:En.
    + pose proof (IH i (S skip) ltac:(lia) ltac:(lia)) as X. cbv zeta in X. destruct X as (A & B & C & D).
      split; [ lia | ]. split; [ exact B | ]. split; [ | exact D ].
      rewrite (skipn_cons s (i + skip)) by lia. cbn [filter]. rewrite En. cbn [negb].
      rewrite <- C. do 2 f_equal. lia.
    + repeat split; auto; lia.
Qed.

Lemma skipn_plus (s : list Z) i k : skipn (i + k) s = skipn k (skipn i s).
Proof. revert s. induction i as [ | i IH ]; intros s; [ reflexivity | ]. destruct s; cbn [skipn Nat.add]; [ now rewrite skipn_nil | apply IH ]. Qed.
Lemma nth_skipn (s : list Z) i k : nth (i + k) s 0 = nth k (skipn i s) 0.
Proof. revert s. induction i as [ | i IH ]; intros s; [ reflexivity | ]. destruct s; cbn [skipn Nat.add nth]; [ now destruct k | apply IH ]. Qed.

Lemma strip_loop_ok s0 : forall fuel s i skip,
  length s = length s0 -> (i + skip <= length s0)%nat -> (length s0 - i < fuel)%nat -> skipn i s = skipn i s0 ->
  firstn i s ++ filter (fun c => negb (is_newline c)) (skipn (i + skip) s0) = filter (fun c => negb (is_newline c)) s0 ->
  strip_loop fuel s i skip = filter (fun c => negb (is_newline c)) s0.
Proof.
  induction fuel as [ | fuel IH ]; intros s i skip Hl Hi Hf Ht He; [ lia | ]. cbn [strip_loop].
  destruct (Nat.ltb i (length s)) eqn:E.
  2:{ apply Nat.ltb_ge in E. rewrite skipn_all2 in He by lia. cbn [filter] in He. rewrite app_nil_r, firstn_all2 in He by lia. exact He. }
  apply Nat.ltb_lt in E.
  pose proof (skip_ok s (length s) i skip ltac:(lia) ltac:(lia)) as X. cbv zeta in *.
  set (skip' := skip_newlines (length s) s i skip) in *. destruct X as (A & B & C & D).
  assert (T : forall k, skipn (i + k) s = skipn (i + k) s0) by (intros k; now rewrite !skipn_plus, Ht).
  rewrite !T in C. rewrite C in He.
  destruct (Nat.leb (length s) (skip' + i)) eqn:F.
  - apply Nat.leb_le in F. rewrite skipn_all2 in He by lia. cbn [filter] in He. now rewrite app_nil_r in He.
  - apply Nat.leb_gt in F. specialize (D ltac:(lia)).
    assert (Lf : length (firstn i s) = i) by (rewrite firstn_length; lia).
    assert (N : nth (i + skip') s 0 = nth (i + skip') s0 0) by (now rewrite !nth_skipn, Ht).
    apply IH.
    + rewrite app_length. cbn [length]. rewrite Lf, skipn_length. lia.
    + lia.
    + lia.
    + rewrite skipn_app, Lf, (skipn_all2 (firstn i s)) by lia. replace (S i - i)%nat with 1%nat by lia. cbn [app skipn].
      rewrite (skipn_cons s i), (skipn_cons s0 i) in Ht by lia. now injection Ht.
    + rewrite firstn_app, Lf, (firstn_all2 (firstn i s)) by lia. replace (S i - i)%nat with 1%nat by lia. cbn [firstn].
      rewrite <- app_assoc. cbn [app]. rewrite <- He. f_equal.
      rewrite (skipn_cons s0 (i + skip')) by lia. cbn [filter]. rewrite <- N, D. cbn [negb]. do 2 f_equal.
Qed.

Lemma strip_ok s : strip_newlines s = filter (fun c => negb (is_newline c)) s.
Proof. unfold strip_newlines. apply strip_loop_ok; auto; lia. Qed.

Lemma trim_loop_ok r : exists b, r = b ++ trim_loop r /\ Forall (fun c => is_spaces c = true) b /\
  match trim_loop r with [] => True | c :: _ => is_spaces c = false end.
Proof.
  induction r as [ | c r IH ]; cbn [trim_loop]; [ exists []; auto | ].
  destruct (is_spaces c) eqn:E.
  - destruct IH as (b & E1 & F & N). exists (c :: b). cbn [app]. rewrite <- E1. auto.
  - exists []. cbn [app]. auto.
Qed.
Lemma trim_ok s : exists b, s = str_trim s ++ b /\ Forall (fun c => is_spaces c = true) b /\
  (str_trim s = [] \/ exists s' c, str_trim s = s' ++ [c] /\ is_spaces c = false).
Proof.
  unfold str_trim. destruct (trim_loop_ok (rev s)) as (b & E & F & N). exists (rev b). split; [ | split ].
  - rewrite <- rev_app_distr, <- E. now rewrite rev_involutive.
  - apply Forall_rev. exact F.
  - destruct (trim_loop (rev s)) as [ | c r ]; [ auto | ]. right. exists (rev r), c. auto.
Qed.

(** * Error messages *)
Lemma line_begin_bound d i : 0 <= i -> 0 <= line_begin d i <= i.
Proof.
  intros H. replace i with (Z.of_nat (Z.to_nat i)) by lia. induction (Z.to_nat i) as [ | n IH ]; [ cbn; lia | ].
  replace (Z.of_nat (S n)) with (Z.of_nat n + 1) by lia. rewrite begin_step by lia. destruct (ends_line d _); lia.
Qed.

Lemma location_ok t p : t_nul t = true -> located t p -> t_size t < 2^32 ->
  let line := leading (fun c => negb (is_newline c)) (from t (line_begin (t_data t) (p_pos p))) in
  let shown := match line with [] => [32] | _ => firstn (Z.to_nat 128) line end in
  let col := Z.min (p_pos p - line_begin (t_data t) (p_pos p)) (zlen shown - 1) in
  location_message t p = Ok (mk_location (1 + lines_before (t_data t) (p_pos p)) (col + 1) (map (fun c => if c =? 9 then 32 else c) shown) (zlen shown =? 128) col).
Proof.
  intros Hnul (Hp & Hline & Hb) Hs. cbv zeta. unfold location_message.
  pose proof (line_begin_bound (t_data t) (p_pos p) ltac:(lia)) as B.
  rewrite non_newline_ok by (rewrite ?Hb; cbn [p_pos set_pos]; auto; lia). cbn [p_pos set_pos]. cbv zeta. cbn [bind].
  rewrite Hb, Hline. set (b := line_begin (t_data t) (p_pos p)) in *.
  set (line := leading (fun c => negb (is_newline c)) (from t b)).
  replace (u32 (p_pos p - b)) with (p_pos p - b) by (unfold u32; rewrite Z.mod_small; lia).
  assert (Hc : copy t b (Z.to_nat (zlen line)) = Ok line) by (apply copy_leading; lia).
  pose proof (leading_len (fun c => negb (is_newline c)) (from t b)) as Ll. fold line in Ll.
  destruct line as [ | c line' ] eqn:El.
  - rewrite zlen_nil. replace (b <=? b + 0 - 1) with false by lia. cbn [bind]. rewrite zlen_cons, zlen_nil.
    replace (if 1 + 0 - 1 <? p_pos p - b then 1 + 0 - 1 else p_pos p - b) with (Z.min (p_pos p - b) (1 + 0 - 1)) by (destruct (1 + 0 - 1 <? p_pos p - b) eqn:E; lia). reflexivity.
  - rewrite <- El in *. assert (0 < zlen line) by (rewrite El, zlen_cons; pose proof (zlen_nonneg _ line'); lia).
    replace (b <=? b + zlen line - 1) with true by lia.
    unfold str_extract. replace (b + zlen line - 1 - b + 1) with (zlen line) by lia. replace (zlen line =? 0) with false by lia.
    rewrite Hc. cbn [bind].
    set (shown := firstn (Z.to_nat 128) line).
    replace (if zlen shown - 1 <? p_pos p - b then zlen shown - 1 else p_pos p - b) with (Z.min (p_pos p - b) (zlen shown - 1)) by (destruct (zlen shown - 1 <? p_pos p - b) eqn:E; lia). reflexivity.
Qed.

(** * Names, by the shape of the text *)
Lemma leading_app f l c r : Forall (fun x => f x = true) l -> f c = false -> leading f (l ++ c :: r) = l.
Proof. induction l as [ | a l IH ]; cbn [app leading]; intros H Hc; [ now rewrite Hc | ]. inversion H; subst. rewrite H2, IH by auto. reflexivity. Qed.
Lemma from_app t i l r : 0 <= i -> from t i = l ++ r -> from t (i + zlen l) = r.
Proof.
  intros Hi E. unfold from in *. replace (Z.to_nat (i + zlen l)) with (Z.to_nat i + length l)%nat by (unfold zlen; lia).
  rewrite skipn_plus, E, skipn_app, skipn_all, Nat.sub_diag. reflexivity.
Qed.
Lemma name_not_space c : name_char c = true -> is_spaces c = false.
Proof.
  intros H. unfold is_spaces, is_space_tab, is_newline.
  destruct (c =? 32) eqn:E1; [ apply Z.eqb_eq in E1; subst; discriminate | ].
  destruct (c =? 9) eqn:E2; [ apply Z.eqb_eq in E2; subst; discriminate | ].
  destruct (c =? 13) eqn:E3; [ apply Z.eqb_eq in E3; subst; discriminate | ].
  destruct (c =? 10) eqn:E4; [ apply Z.eqb_eq in E4; subst; discriminate | ]. reflexivity.
Qed.
Lemma spaces_not_name c : is_spaces c = true -> name_char c = false.
Proof. intros H. destruct (name_char c) eqn:E; [ | reflexivity ]. apply name_not_space in E. congruence. Qed.
Lemma spaces_newline c : is_spaces c = false -> is_newline c = false.
Proof. unfold is_spaces. intros H. apply orb_false_iff in H. tauto. Qed.


Lemma name_complete t p e b1 nm b2 rest :
  0 <= p_pos p <= t_size t -> is_spaces e = false -> name_char e = false ->
  from t (p_pos p) = b1 ++ nm ++ b2 ++ e :: rest ->
  Forall (fun c => is_spaces c = true) b1 -> Forall (fun c => name_char c = true) nm -> nm <> [] -> Forall (fun c => is_spaces c = true) b2 ->
  exists p', extract_name t p e = Ok (0, Some nm, p') /\ p_pos p' = p_pos p + zlen b1 + zlen nm + zlen b2 + 1 /\ (located t p -> located t p').
Proof.
  intros Hp He1 He2 E F1 F2 Hn F3.
  assert (N2 : exists c r, b2 ++ e :: rest = c :: r /\ name_char c = false).
  { destruct b2 as [ | c b2 ]; cbn [app]; [ eauto | ]. inversion F3; subst. eauto using spaces_not_name. }
  destruct N2 as (c2 & r2 & N2 & C2).
  assert (A : after_name t (p_pos p) = (p_pos p + zlen b1, p_pos p + zlen b1 + zlen nm, p_pos p + zlen b1 + zlen nm + zlen b2)).
  { unfold after_name.
    assert (X1 : leading is_spaces (from t (p_pos p)) = b1).
    { rewrite E. destruct nm as [ | n nm' ]; [ congruence | ]. cbn [app]. apply leading_app; auto. apply name_not_space. now inversion F2. }
    rewrite X1. pose proof (from_app t (p_pos p) b1 _ ltac:(lia) E) as E1. rewrite E1.
    assert (X2 : leading name_char (nm ++ b2 ++ e :: rest) = nm) by (rewrite N2; apply leading_app; auto).
    rewrite X2. pose proof (zlen_nonneg _ b1). pose proof (from_app t (p_pos p + zlen b1) nm _ ltac:(lia) E1) as E2. rewrite E2.
    rewrite leading_app by auto. reflexivity. }
  pose proof (extract_name_ok t p e Hp (spaces_newline e He1)) as X. rewrite A in X.
  destruct X as (ret & o & p' & R & Hj & Hm & _ & L & C).
  pose proof (zlen_nonneg _ b1). pose proof (from_app t (p_pos p) b1 _ ltac:(lia) E) as E1.
  pose proof (from_app t (p_pos p + zlen b1) nm _ ltac:(lia) E1) as E2.
  pose proof (zlen_nonneg _ nm). pose proof (from_app t (p_pos p + zlen b1 + zlen nm) b2 _ ltac:(lia) E2) as E3.
  destruct o as [ name | ].
  - destruct C as (-> & -> & _ & _ & P). exists p'. rewrite R, E1.
    assert (X2 : leading name_char (nm ++ b2 ++ e :: rest) = nm) by (rewrite N2; apply leading_app; auto). rewrite X2.
    split; [ reflexivity | ]. split; [ lia | exact L ].
  - exfalso. destruct C as [ (_ & [ C | C ] & _) | (_ & _ & _ & C) ].
    + assert (Z : zlen nm <> 0) by (destruct nm; [ congruence | rewrite zlen_cons; pose proof (zlen_nonneg _ nm); lia ]). lia.
    + assert (Z : zlen nm <> 0) by (destruct nm; [ congruence | rewrite zlen_cons; pose proof (zlen_nonneg _ nm); lia ]). lia.
    + exact (C rest E3).
Qed.

Lemma name_sound t p e ret nm p' : 0 <= p_pos p <= t_size t -> is_newline e = false -> extract_name t p e = Ok (ret, Some nm, p') ->
  ret = 0 /\ exists b1 b2 rest, from t (p_pos p) = b1 ++ nm ++ b2 ++ e :: rest /\ nm <> [] /\ Forall (fun c => name_char c = true) nm /\
    Forall (fun c => is_spaces c = true) b1 /\ Forall (fun c => is_spaces c = true) b2 /\ from t (p_pos p') = rest.
Proof.
  intros Hp He R. pose proof (extract_name_ok t p e Hp He) as X. unfold after_name in X.
  set (j := p_pos p + zlen (leading is_spaces (from t (p_pos p)))) in *.
  set (k := j + zlen (leading name_char (from t j))) in *.
  set (m := k + zlen (leading is_spaces (from t k))) in *.
  destruct X as (ret' & o & p2 & R' & Hj & Hm & _ & _ & C). rewrite R in R'. injection R' as <- <- <-.
  destruct C as (-> & Hnm & Hne & E & P). split; [ reflexivity | ].
  assert (Bj : 0 <= j) by (unfold j; pose proof (leading_len is_spaces (from t (p_pos p))); lia).
  pose proof (leading_split is_spaces (from t (p_pos p))) as S1. pose proof (from_app t (p_pos p) _ _ ltac:(lia) S1) as T1. fold j in T1.
  pose proof (leading_split name_char (from t j)) as S2. pose proof (from_app t j _ _ ltac:(lia) S2) as T2. fold k in T2.
  pose proof (leading_split is_spaces (from t k)) as S3. pose proof (from_app t k _ _ ltac:(lia) S3) as T3. fold m in T3.
  exists (leading is_spaces (from t (p_pos p))), (leading is_spaces (from t k)), (from t (m + 1)).
  rewrite <- T1 in S1. rewrite <- T2 in S2. rewrite <- T3 in S3. rewrite <- E, <- S3, Hnm, <- S2, <- S1.
  split; [ reflexivity | ]. split; [ congruence | ]. split; [ apply leading_all | ]. split; [ apply leading_all | ]. split; [ apply leading_all | ]. now rewrite P.
Qed.

(** Passing [l] means being after it. *)
Lemma word_exact t w p : 0 <= p_pos p <= t_size t ->
  (exists r, from t (p_pos p) = w ++ r) /\ match_word t w p = Ok (true, set_pos p (p_pos p + zlen w)) \/
  (forall r, from t (p_pos p) <> w ++ r) /\ match_word t w p = Ok (false, p).
Proof.
  intros Hp. destruct (match_word_with_ok Z.eqb t w p Hp) as (b & R & F). unfold match_word. rewrite R.
  assert (Q : forall l, Forall2 (fun w c => (w =? c) = true) w l -> w = l).
  { clear. intros l H. induction H; [ reflexivity | ]. apply Z.eqb_eq in H. congruence. }
  assert (Q' : Forall2 (fun w c => (w =? c) = true) w w) by (clear; induction w; constructor; [ apply Z.eqb_refl | auto ]).
  destruct b.
  - left. split; [ | reflexivity ]. destruct F as (F & _). destruct (F eq_refl) as (l & r & E & F2). apply Q in F2. subst l. eauto.
  - right. split; [ | reflexivity ]. intros r E. destruct F as (_ & F). discriminate F. eauto.
Qed.

Lemma case_eq w c : w <> 0 -> (w =? c) || (w =? other_case c) = (lower w =? lower c).
Proof.
  intros Hw. unfold other_case, lower.
  destruct ((97 <=? c) && (c <=? 122)) eqn:E1, ((65 <=? c) && (c <=? 90)) eqn:E2, ((65 <=? w) && (w <=? 90)) eqn:E3; lia.
Qed.
Lemma word_case_exact t w p : 0 <= p_pos p <= t_size t -> ~ In 0 w ->
  (exists l r, from t (p_pos p) = l ++ r /\ map lower l = map lower w) /\ match_word_case t w p = Ok (true, set_pos p (p_pos p + zlen w)) \/
  (forall l r, map lower l = map lower w -> from t (p_pos p) <> l ++ r) /\ match_word_case t w p = Ok (false, p).
Proof.
  intros Hp H0. destruct (match_word_with_ok (fun w c => (w =? c) || (w =? other_case c)) t w p Hp) as (b & R & F). unfold match_word_case. rewrite R.
  assert (Q : forall l, Forall2 (fun w c => (w =? c) || (w =? other_case c) = true) w l -> map lower l = map lower w).
  { clear -H0. intros l H. induction H; [ reflexivity | ]. cbn [In] in H0. cbn [map]. rewrite case_eq in H by auto. apply Z.eqb_eq in H. rewrite IHForall2 by auto. congruence. }
  assert (Q' : forall l, map lower l = map lower w -> Forall2 (fun w c => (w =? c) || (w =? other_case c) = true) w l).
  { clear -H0. induction w as [ | a w IH ]; intros [ | c l ] H; try discriminate; constructor; cbn [map In] in *.
    - rewrite case_eq by auto. injection H as H _. lia.
    - apply IH; [ auto | congruence ]. }
  destruct b.
  - left. split; [ | reflexivity ]. destruct F as (F & _). destruct (F eq_refl) as (l & r & E & F2). eauto.
  - right. split; [ | reflexivity ]. intros l r Hl E. destruct F as (_ & F). discriminate F. eauto.
Qed.

Lemma name_octet_eq c : name_char c = name_octet c.
Proof.
  unfold name_char, match_char. repeat match goal with |- context[Z.testbit MATCH_NAME ?f] => let v := eval vm_compute in (Z.testbit MATCH_NAME f) in change (Z.testbit MATCH_NAME f) with v end.
  cbn [andb orb]. unfold name_octet, is_letter, is_number, is_dash. rewrite ?orb_false_r. reflexivity.
Qed.
Lemma name_octets l : Forall (fun c => name_char c = true) l <-> Forall (fun c => name_octet c = true) l.
Proof. split; apply Forall_impl; intros c; now rewrite name_octet_eq. Qed.
