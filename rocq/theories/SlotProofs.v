From Coq Require Import ZArith List Bool Lia.
From Verif Require Import Common SlotModel SlotSpec.
Import ListNotations.
Open Scope Z_scope.

Lemma wrote_app : forall a b, wrote (a ++ b) = wrote a ++ wrote b.
Proof. induction a as [ | [] ]; intro b; cbn [app wrote]; auto. rewrite IHa. reflexivity. Qed.
Lemma done_any_app : forall a b, done_any (a ++ b) = done_any a ++ done_any b.
Proof. induction a as [ | [] ]; intro b; cbn [app done_any]; auto. rewrite IHa. reflexivity. Qed.
Lemma deleted_app : forall a b, deleted (a ++ b) = deleted a ++ deleted b.
Proof. induction a as [ | [] ]; intro b; cbn [app deleted]; auto. rewrite IHa. reflexivity. Qed.
Lemma done_by_app : forall r a b, done_by r (a ++ b) = done_by r a ++ done_by r b.
Proof. induction a as [ | [] ]; intro b; cbn [app done_by]; auto. rewrite IHa. destruct (_ =? _); reflexivity. Qed.
Lemma seen_app : forall r a b, seen r (a ++ b) <-> seen r a \/ seen r b.
Proof.
  intros r a b. unfold seen. split.
  - intros (m & H). apply in_app_or in H as [H | H]; eauto.
  - intros [ (m & H) | (m & H) ]; exists m; apply in_or_app; auto.
Qed.

Lemma reader_index_in : forall rs zs self i, self <> 0 -> ~ In 0 rs -> NoDup rs -> (i < length rs)%nat -> nth i rs 0 = self ->
  reader_index (rs ++ zs) self = Some (i, rs ++ zs).
Proof.
  induction rs as [ | r rs IH ]; cbn [length app]; intros zs self i H0 Z N L E; [ lia | ].
  cbn [reader_index]. apply NoDup_cons_iff in N as [N1 N2].
  assert (r <> 0) by (intro; subst; apply Z; left; reflexivity).
  destruct i as [ | i ]; cbn [nth] in E.
  - subst. rewrite Z.eqb_refl. reflexivity.
  - assert (r <> self) by (intro; subst; apply N1; apply nth_In; lia).
    replace (r =? self) with false by lia. replace (r =? 0) with false by lia.
    assert (~ In 0 rs) by (intro; apply Z; right; auto).
    rewrite (IH zs self i); auto. lia.
Qed.
Lemma reader_index_new : forall rs zs self, self <> 0 -> ~ In 0 rs -> ~ In self rs ->
  reader_index (rs ++ zs) self =
  match reader_index zs self with Some (i, z) => Some ((length rs + i)%nat, rs ++ z) | None => None end.
Proof.
  induction rs as [ | r rs IH ]; cbn [length app plus]; intros zs self H0 Z N.
  - destruct (reader_index zs self) as [ [i z] | ]; reflexivity.
  - cbn [reader_index].
    assert (r <> 0) by (intro; subst; apply Z; left; reflexivity).
    assert (r <> self) by (intro; subst; apply N; left; reflexivity).
    replace (r =? self) with false by lia. replace (r =? 0) with false by lia.
    assert (~ In 0 rs) by (intro; apply Z; right; auto). assert (~ In self rs) by (intro; apply N; right; auto).
    rewrite IH; auto.
    destruct (reader_index zs self) as [ [i z] | ]; reflexivity.
Qed.

Lemma set_flag_length : forall l i, length (set_flag l i) = length l.
Proof. induction l as [ | b l IH ]; intros [ | i ]; cbn [set_flag length]; auto. Qed.
Lemma set_flag_same : forall l i, (i < length l)%nat -> nth i (set_flag l i) false = true.
Proof. induction l as [ | b l IH ]; intros [ | i ] L; cbn [length set_flag nth] in *; try lia; auto. apply IH. lia. Qed.
Lemma set_flag_other : forall l i j, i <> j -> nth j (set_flag l i) false = nth j l false.
Proof.
  induction l as [ | b l IH ]; intros [ | i ] [ | j ] N; cbn [set_flag nth]; auto; try congruence.
Qed.
Lemma all_flags : forall l, zlen l <= zlen (filter (fun b : bool => b) l) -> forall i, (i < length l)%nat -> nth i l false = true.
Proof.
  assert (LE : forall l, zlen (filter (fun b : bool => b) l) <= zlen l).
  { induction l as [ | [] l IH ]; cbn [filter]; rewrite ?zlen_cons; [ unfold zlen; cbn; lia | lia | lia ]. }
  induction l as [ | b l IH ]; cbn [length]; intros H i L; [ lia | ]. specialize (LE l).
  destruct b; cbn [filter] in H; rewrite !zlen_cons in H; [ | lia ].
  destruct i; cbn [nth]; [ reflexivity | ]. apply IH; lia.
Qed.

Lemma NoDup_snoc : forall (l : list Z) x, NoDup l -> ~ In x l -> NoDup (l ++ [x]).
Proof.
  intros l x. induction l as [ | y l IH ]; cbn [app]; intros N I; [ repeat constructor; auto | ].
  apply NoDup_cons_iff in N as [N1 N2]. constructor.
  - rewrite in_app_iff. intros [ J | [ J | [] ] ]; [ auto | ]. subst. apply I. left. reflexivity.
  - apply IH; auto. intro. apply I. right. auto.
Qed.

Section Slot.
  Variable n : nat.
  Hypothesis Hn : (0 < n)%nat.

  Definition part (s : slot) (i : nat) : list Z :=
    match sl_entry s with Some m => if nth i (sl_has_read s) false then [m] else [] | None => [] end.

  (** What must have been the case when an event happened. *)
  Definition event_ok (before : list event) (x : event) : Prop :=
    match x with
    | Wrote m => wrote before = [] \/
        exists rs, length rs = n /\ NoDup rs /\ forall r, In r rs -> seen r before /\ done_by r before = wrote before
    | Given r m => wrote before = done_by r before ++ [m]
    | Done r m => wrote before = done_by r before ++ [m]
    | Deleted m => wrote before = deleted before ++ [m] /\
        exists rs, length rs = n /\ NoDup rs /\ forall r, In r rs -> done_by r before = wrote before
    end.
  Definition good (ev : list event) : Prop := forall a x b, ev = a ++ x :: b -> event_ok a x.
  Lemma good_nil : good [].
  Proof. intros [ | ] x b E; discriminate. Qed.
  Lemma good_snoc : forall ev x, good ev -> event_ok ev x -> good (ev ++ [x]).
  Proof.
    intros ev x G E a y b H. destruct (exists_last (l := y :: b)) as (b' & z & Hb); [ discriminate | ].
    rewrite Hb in H. rewrite app_assoc in H. apply app_inj_tail in H as [H ->].
    destruct b' as [ | y' b' ].
    - cbn [app] in Hb. injection Hb as -> _. rewrite app_nil_r in H. subst. exact E.
    - cbn [app] in Hb. injection Hb as -> _. apply (G a y' b'). exact H.
  Qed.

  Definition inv (s : slot) (ev : list event) : Prop :=
    exists rs, (length rs <= n)%nat /\ NoDup rs /\ ~ In 0 rs /\ sl_readers s = rs ++ repeat 0 (n - length rs) /\
      length (sl_has_read s) = n /\ wrote ev = deleted ev ++ held s /\
      (forall i, (i < length rs)%nat -> done_by (nth i rs 0) ev = deleted ev ++ part s i) /\
      (sl_entry s <> None -> forall i, (length rs <= i)%nat -> nth i (sl_has_read s) false = false) /\
      (deleted ev <> [] -> length rs = n /\ forall r, In r rs -> seen r ev) /\
      (forall r, ~ In r rs -> done_by r ev = [] /\ ~ seen r ev) /\
      (forall i, (i < length rs)%nat -> sl_entry s <> None -> nth i (sl_has_read s) false = true -> seen (nth i rs 0) ev) /\
      sl_written s = u64 (zlen (wrote ev)) /\ sl_deleted s = u64 (zlen (deleted ev)) /\ good ev.

  Lemma inv_init : inv (reader_count_set slot_new n) [].
  Proof.
    exists []. cbn [length reader_count_set slot_new sl_entry sl_readers sl_has_read sl_deleted sl_written].
    split; [ lia | ]. split; [ constructor | ]. split; [ intros [] | ]. split; [ cbn [app]; f_equal; lia | ].
    split; [ apply repeat_length | ]. split; [ reflexivity | ]. split; [ intros; lia | ]. split; [ intro J; destruct (J eq_refl) | ].
    split; [ intro J; destruct (J eq_refl) | ]. split; [ intros r _; split; [ reflexivity | intros (m & []) ] | ].
    split; [ intros i _ J; destruct (J eq_refl) | ]. split; [ reflexivity | ]. split; [ reflexivity | apply good_nil ].
  Qed.

  Lemma u64_succ : forall x, u64 (u64 x + 1) = u64 (x + 1).
  Proof. intro x. unfold u64. rewrite Zplus_mod_idemp_l. reflexivity. Qed.

  Lemma write_inv : forall s ev m, inv s ev -> sl_entry s = None -> inv (write_and_reset s m) (ev ++ [Wrote m]).
  Proof.
    intros s ev m (rs & L & N & Z0 & R & F & W & D & E & K & O & Sn & SW & SD & G) En.
    unfold held in W. rewrite En, app_nil_r in W.
    assert (NF : forall i, nth i (map (fun _ : bool => false) (sl_has_read s)) false = false).
    { intro i. destruct (nth_in_or_default i (map (fun _ : bool => false) (sl_has_read s)) false) as [ I | -> ]; [ | reflexivity ].
      apply in_map_iff in I as (x & I & _). auto. }
    exists rs. unfold write_and_reset. cbn [sl_entry sl_readers sl_has_read sl_deleted sl_written].
    split; [ exact L | ]. split; [ exact N | ]. split; [ exact Z0 | ]. split; [ exact R | ].
    split; [ rewrite map_length; exact F | ].
    rewrite wrote_app, deleted_app. cbn [wrote deleted]. rewrite app_nil_r. unfold held. cbn [sl_entry].
    split; [ rewrite W; reflexivity | ].
    split.
    { intros i Hi. rewrite done_by_app. cbn [done_by]. rewrite app_nil_r, D by exact Hi. unfold part. rewrite En.
      cbn [sl_entry sl_has_read]. rewrite NF. reflexivity. }
    split; [ intros _ i _; apply NF | ].
    split; [ intro J; destruct (K J) as [K1 K2]; split; [ exact K1 | intros r Hr; apply seen_app; auto ] | ].
    split.
    { intros r Hr. rewrite done_by_app. cbn [done_by]. rewrite app_nil_r. split; [ apply O; exact Hr | ].
      rewrite seen_app. intros [ J | (x & J) ]; [ eapply O; eauto | ]. destruct J as [J | []]; discriminate. }
    split; [ intros i _ _ J; rewrite NF in J; discriminate | ].
    split; [ rewrite SW, u64_succ; f_equal; rewrite zlen_app; unfold zlen at 3; cbn; lia | ].
    split; [ exact SD | ].
    apply good_snoc; [ exact G | ]. cbn [event_ok]. destruct (list_eq_dec Z.eq_dec (deleted ev) []) as [ J | J ].
    - left. congruence.
    - right. destruct (K J) as [K1 K2]. exists rs. split; [ exact K1 | ]. split; [ exact N | ].
      intros r Hr. split; [ auto | ]. apply In_nth with (d := 0) in Hr as (i & Hi & <-).
      rewrite (D i Hi). unfold part. rewrite En, app_nil_r. congruence.
  Qed.

  (** Registration of the reader. *)
  Definition with_readers (s : slot) (rs : list Z) : slot :=
    mk_slot (sl_entry s) rs (sl_has_read s) (sl_deleted s) (sl_written s).
  Lemma register : forall s ev self m, inv s ev -> self <> 0 -> sl_entry s = Some m ->
    (reader_index (sl_readers s) self = None /\ exists rs, length rs = n /\ NoDup rs /\ ~ In 0 rs /\ ~ In self rs /\ sl_readers s = rs) \/
    exists i rs, reader_index (sl_readers s) self = Some (i, rs) /\ zlen rs = Z.of_nat n /\ nth i rs 0 = self /\
      (i < n)%nat /\ inv (with_readers s rs) ev.
  Proof.
    intros s ev self m (rs & L & N & Z0 & R & F & W & D & E & K & O & Sn & SW & SD & G) H0 En.
    destruct (in_dec Z.eq_dec self rs) as [ I | I ].
    - right. apply In_nth with (d := 0) in I as (i & Hi & Hs). exists i, (sl_readers s).
      split; [ rewrite R; apply reader_index_in; auto | ].
      split; [ rewrite R; unfold zlen; rewrite app_length, repeat_length; lia | ].
      split; [ rewrite R, app_nth1 by lia; exact Hs | ]. split; [ lia | ].
      exists rs. unfold with_readers. cbn [sl_entry sl_readers sl_has_read sl_deleted sl_written]. repeat (split; [ eauto; fail | ]). exact G.
    - destruct (n - length rs)%nat as [ | k ] eqn:Ek.
      + left. split; [ rewrite R, reader_index_new by auto; reflexivity | ]. exists rs. cbn [repeat] in R.
        rewrite app_nil_r in R. split; [ lia | ]. auto.
      + right. exists (length rs), ((rs ++ [self]) ++ repeat 0 k).
        split.
        { rewrite R, reader_index_new by auto. cbn [repeat reader_index]. replace (0 =? self) with false by lia.
          rewrite Z.eqb_refl. rewrite Nat.add_0_r, <- app_assoc. reflexivity. }
        split; [ unfold zlen; rewrite !app_length, repeat_length; cbn [length]; lia | ].
        split; [ rewrite <- app_assoc, app_nth2, Nat.sub_diag by lia; reflexivity | ]. split; [ lia | ].
        assert (D0 : deleted ev = []).
        { destruct (list_eq_dec Z.eq_dec (deleted ev) []) as [ J | J ]; [ exact J | ]. exfalso. apply K in J. lia. }
        assert (FE : nth (length rs) (sl_has_read s) false = false) by (apply E; [ congruence | lia ]).
        exists (rs ++ [self]). unfold with_readers. cbn [sl_entry sl_readers sl_has_read sl_deleted sl_written].
        rewrite app_length. cbn [length].
        split; [ lia | ].
        split; [ apply NoDup_snoc; auto | ].
        split; [ rewrite in_app_iff; intros [ J | [ J | [] ] ]; congruence | ].
        split; [ do 2 f_equal; lia | ]. split; [ exact F | ]. split; [ exact W | ].
        split.
        { intros i Hi. unfold part. cbn [sl_entry sl_has_read]. destruct (Nat.eq_dec i (length rs)) as [ -> | NE ].
          - rewrite app_nth2, Nat.sub_diag by lia. cbn [nth]. rewrite FE, En, D0. apply (O self I).
          - rewrite app_nth1 by lia. apply D. lia. }
        split; [ intros J i Hi; apply E; [ exact J | lia ] | ].
        split; [ intro J; congruence | ].
        split; [ intros r Hr; apply O; intro J; apply Hr; apply in_or_app; auto | ].
        split.
        { intros i Hi J1 J2. destruct (Nat.eq_dec i (length rs)) as [ -> | NE ]; [ congruence | ].
          rewrite app_nth1 by lia. apply Sn; auto. lia. }
        auto.
  Qed.

  Lemma nth_nodup_inj : forall (l : list Z) i j, NoDup l -> (i < length l)%nat -> (j < length l)%nat -> nth i l 0 = nth j l 0 -> i = j.
  Proof. intros l i j H. exact (proj1 (NoDup_nth l 0) H i j). Qed.

  (** The entry is given to the reader. *)
  Lemma give_inv : forall s ev self m i, inv s ev -> self <> 0 -> sl_entry s = Some m -> (i < n)%nat -> nth i (sl_readers s) 0 = self ->
    nth i (sl_has_read s) false = false -> inv s (ev ++ [Given self m]).
  Proof.
    intros s ev self m i (rs & L & N & Z0 & R & F & W & D & E & K & O & Sn & SW & SD & G) H0 En Hi Hs Hf.
    assert (Li : (i < length rs)%nat).
    { destruct (Nat.lt_ge_cases i (length rs)) as [ J | J ]; [ exact J | ]. exfalso. rewrite R, app_nth2, nth_repeat in Hs by lia. congruence. }
    assert (Hr : nth i rs 0 = self) by (rewrite R, app_nth1 in Hs by lia; exact Hs).
    exists rs. rewrite wrote_app, deleted_app. cbn [wrote deleted]. rewrite !app_nil_r.
    split; [ exact L | ]. split; [ exact N | ]. split; [ exact Z0 | ]. split; [ exact R | ]. split; [ exact F | ]. split; [ exact W | ].
    split; [ intros j Hj; rewrite done_by_app; cbn [done_by]; rewrite app_nil_r; auto | ].
    split; [ exact E | ].
    split; [ intro J; destruct (K J) as [K1 K2]; split; [ exact K1 | intros r Hr'; apply seen_app; auto ] | ].
    split.
    { intros r Hr'. rewrite done_by_app. cbn [done_by]. rewrite app_nil_r. split; [ apply O; exact Hr' | ].
      rewrite seen_app. intros [ J | (x & J) ]; [ eapply O; eauto | ]. destruct J as [J | []]. injection J as -> ->.
      apply Hr'. rewrite <- Hr. apply nth_In. exact Li. }
    split; [ intros j Hj J1 J2; apply seen_app; left; apply Sn; auto | ].
    split; [ exact SW | ]. split; [ exact SD | ].
    apply good_snoc; [ exact G | ]. cbn [event_ok]. rewrite <- Hr, (D i Li). unfold part. rewrite En, Hf, app_nil_r, W.
    unfold held. rewrite En. reflexivity.
  Qed.

  Lemma seen_in : forall ev r m, In (Given r m) ev -> seen r ev.
  Proof. intros ev r m H. exists m. exact H. Qed.

  (** The reader is done with it. *)
  Definition flagged (s : slot) (i : nat) : slot :=
    mk_slot (sl_entry s) (sl_readers s) (set_flag (sl_has_read s) i) (sl_deleted s) (sl_written s).
  Lemma done_inv : forall s ev self m i, inv s ev -> self <> 0 -> sl_entry s = Some m -> (i < n)%nat -> nth i (sl_readers s) 0 = self ->
    nth i (sl_has_read s) false = false -> seen self ev -> inv (flagged s i) (ev ++ [Done self m]).
  Proof.
    intros s ev self m i (rs & L & N & Z0 & R & F & W & D & E & K & O & Sn & SW & SD & G) H0 En Hi Hs Hf SE.
    assert (Li : (i < length rs)%nat).
    { destruct (Nat.lt_ge_cases i (length rs)) as [ J | J ]; [ exact J | ]. exfalso. rewrite R, app_nth2, nth_repeat in Hs by lia. congruence. }
    assert (Hr : nth i rs 0 = self) by (rewrite R, app_nth1 in Hs by lia; exact Hs).
    exists rs. unfold flagged. cbn [sl_entry sl_readers sl_has_read sl_deleted sl_written].
    rewrite wrote_app, deleted_app. cbn [wrote deleted]. rewrite !app_nil_r.
    split; [ exact L | ]. split; [ exact N | ]. split; [ exact Z0 | ]. split; [ exact R | ].
    split; [ rewrite set_flag_length; exact F | ]. split; [ exact W | ].
    split.
    { intros j Hj. rewrite done_by_app. cbn [done_by]. unfold part. cbn [sl_entry sl_has_read]. rewrite En.
      destruct (Nat.eq_dec j i) as [ -> | NE ].
      - rewrite Hr, Z.eqb_refl. rewrite set_flag_same by lia. rewrite <- Hr, (D i Li). unfold part. rewrite En, Hf, app_nil_r. reflexivity.
      - rewrite set_flag_other by auto. replace (self =? nth j rs 0) with false.
        + rewrite app_nil_r, (D j Hj). unfold part. rewrite En. reflexivity.
        + symmetry. apply Z.eqb_neq. rewrite <- Hr. intro J. apply NE. symmetry. eapply nth_nodup_inj; eauto. }
    split; [ intros J j Hj; rewrite set_flag_other by lia; auto | ].
    split; [ intro J; destruct (K J) as [K1 K2]; split; [ exact K1 | intros r Hr'; apply seen_app; auto ] | ].
    split.
    { intros r Hr'. rewrite done_by_app. cbn [done_by]. replace (self =? r) with false.
      - rewrite app_nil_r. split; [ apply O; exact Hr' | ]. rewrite seen_app.
        intros [ J | (x & J) ]; [ eapply O; eauto | ]. destruct J as [J | []]; discriminate.
      - symmetry. apply Z.eqb_neq. intro J. apply Hr'. rewrite <- J, <- Hr. apply nth_In. exact Li. }
    split.
    { intros j Hj J1 J2. apply seen_app. left. destruct (Nat.eq_dec j i) as [ -> | NE ]; [ rewrite Hr; exact SE | ].
      rewrite set_flag_other in J2 by auto. apply Sn; auto. }
    split; [ exact SW | ]. split; [ exact SD | ].
    apply good_snoc; [ exact G | ]. cbn [event_ok]. rewrite <- Hr, (D i Li). unfold part. rewrite En, Hf, app_nil_r, W.
    unfold held. rewrite En. reflexivity.
  Qed.

  (** All are done, the entry is removed. *)
  Lemma delete_inv : forall s ev m, inv s ev -> sl_entry s = Some m -> (forall i, (i < n)%nat -> nth i (sl_has_read s) false = true) ->
    inv (mk_slot None (sl_readers s) (sl_has_read s) (u64 (sl_deleted s + 1)) (sl_written s)) (ev ++ [Deleted m]).
  Proof.
    intros s ev m (rs & L & N & Z0 & R & F & W & D & E & K & O & Sn & SW & SD & G) En All.
    assert (Ln : length rs = n).
    { destruct (Nat.eq_dec (length rs) n) as [ J | J ]; [ exact J | ]. exfalso.
      assert (X : nth (length rs) (sl_has_read s) false = false) by (apply E; [ congruence | lia ]). rewrite All in X by lia. discriminate. }
    assert (DD : forall r, In r rs -> done_by r ev = deleted ev ++ [m] /\ seen r ev).
    { intros r Hr. apply In_nth with (d := 0) in Hr as (i & Hi & <-). split; [ rewrite (D i Hi); unfold part; rewrite En, All by lia; reflexivity | ].
      apply Sn; [ exact Hi | congruence | apply All; lia ]. }
    exists rs. cbn [sl_entry sl_readers sl_has_read sl_deleted sl_written].
    rewrite wrote_app, deleted_app. cbn [wrote deleted]. rewrite !app_nil_r.
    unfold held in W. rewrite En in W.
    split; [ exact L | ]. split; [ exact N | ]. split; [ exact Z0 | ]. split; [ exact R | ].
    split; [ exact F | ]. split; [ rewrite W; unfold held; cbn [sl_entry]; rewrite ?app_nil_r; reflexivity | ].
    split.
    { intros i Hi. rewrite done_by_app. cbn [done_by]. unfold part. cbn [sl_entry]. rewrite !app_nil_r. apply DD. apply nth_In. exact Hi. }
    split; [ congruence | ].
    split; [ intros _; split; [ exact Ln | intros r Hr; apply seen_app; left; apply DD; exact Hr ] | ].
    split.
    { intros r Hr. rewrite done_by_app. cbn [done_by]. rewrite app_nil_r. split; [ apply O; exact Hr | ].
      rewrite seen_app. intros [ J | (x & J) ]; [ eapply O; eauto | ]. destruct J as [J | []]; discriminate. }
    split; [ congruence | ]. split; [ exact SW | ].
    split; [ rewrite SD, u64_succ; f_equal; rewrite zlen_app; unfold zlen at 3; cbn; lia | ].
    apply good_snoc; [ exact G | ]. cbn [event_ok]. split; [ exact W | ]. exists rs. split; [ exact Ln | ]. split; [ exact N | ].
    intros r Hr. rewrite W. apply DD. exact Hr.
  Qed.

  Lemma step_inv : forall s ev o, inv s ev -> reader_ok o ->
    (step s o = Bug /\ exists self c a rs, o = OpRead self c a /\ length rs = n /\ NoDup rs /\ ~ In 0 rs /\ ~ In self rs /\ sl_readers s = rs) \/
    exists s' e, step s o = Ok (s', e) /\ inv s' (ev ++ e).
  Proof.
    intros s ev [ self clone_ok [ret keep] | m store ] H RO; cbn [step reader_ok] in *.
    - unfold slot_read. destruct (sl_entry s) as [ m | ] eqn:En.
      2: { right. exists s, []. rewrite app_nil_r. auto. }
      assert (Rn : sl_readers s <> []).
      { destruct H as (rs & L & _ & _ & R & _). intro J. rewrite R in J. apply app_eq_nil in J as [J1 J2]. rewrite J1 in J2. cbn [length] in J2.
        destruct n; [ lia | discriminate ]. }
      destruct (register s ev self m H RO En) as [ (RI & rs & K1 & K2 & K3 & K3' & K4) | (i & rs & RI & LR & NI & Li & I1) ].
      { left. destruct (sl_readers s) as [ | r0 rr ] eqn:Er; [ congruence | ]. rewrite RI. split; [ reflexivity | ].
        exists self, clone_ok, (mk_answer ret keep), rs. auto 8. }
      right. destruct (sl_readers s) as [ | r0 rr ] eqn:Er; [ congruence | ]. rewrite RI. clear Er Rn.
      unfold with_readers in I1. rewrite En in I1. set (s1 := mk_slot (Some m) rs (sl_has_read s) (sl_deleted s) (sl_written s)) in *.
      destruct (nth i (sl_has_read s) false) eqn:Hf.
      { exists s1, []. rewrite app_nil_r. auto. }
      destruct clone_ok; cbn [negb]; [ | exists s1, []; rewrite app_nil_r; auto ].
      cbn [an_ret an_keep].
      assert (IG : inv s1 (ev ++ [Given self m])) by (eapply give_inv; eauto).
      destruct (negb (ret =? 0) || keep); [ exists s1, [Given self m]; auto | ].
      assert (ID : inv (flagged s1 i) ((ev ++ [Given self m]) ++ [Done self m])).
      { eapply done_inv; eauto. apply seen_app. right. exists m. left. reflexivity. }
      unfold flagged, s1 in ID. cbn [sl_entry sl_readers sl_has_read sl_deleted sl_written] in ID.
      destruct (zlen rs <=? zlen (filter (fun b : bool => b) (set_flag (sl_has_read s) i))) eqn:Ec.
      + eexists _, _. split; [ reflexivity | ]. cbn [app].
        replace (ev ++ [Given self m; Done self m; Deleted m]) with (((ev ++ [Given self m]) ++ [Done self m]) ++ [Deleted m]) by (rewrite <- !app_assoc; reflexivity).
        assert (FL : length (sl_has_read s) = n) by (destruct H as (? & _ & _ & _ & _ & FL & _); exact FL).
        apply (delete_inv _ _ m ID); [ reflexivity | ]. cbn [sl_has_read]. intros j Hj. apply all_flags; rewrite ?set_flag_length; [ | lia ].
        unfold zlen at 1. rewrite set_flag_length. lia.
      + eexists _, _. split; [ reflexivity | ]. cbn [app].
        replace (ev ++ [Given self m; Done self m]) with ((ev ++ [Given self m]) ++ [Done self m]) by (rewrite <- !app_assoc; reflexivity).
        exact ID.
    - unfold slot_write. destruct (sl_entry s) eqn:En.
      + right. exists s, []. rewrite app_nil_r. auto.
      + destruct store; right.
        * eexists _, _. split; [ reflexivity | ]. apply write_inv; auto.
        * exists s, []. rewrite app_nil_r. auto.
  Qed.

  Lemma run_inv : forall ops s ev s' e, inv s ev -> Forall reader_ok ops -> run s ops = Ok (s', e) -> inv s' (ev ++ e).
  Proof.
    induction ops as [ | o ops IH ]; intros s ev s' e H F; cbn [run].
    - intros [= <- <-]. rewrite app_nil_r. exact H.
    - apply Forall_cons_iff in F as [F1 F2].
      destruct (step_inv s ev o H F1) as [ [ -> _ ] | (s1 & e1 & -> & H1) ]; [ discriminate | ].
      destruct (run s1 ops) as [ [s2 e2] | | ] eqn:E; try discriminate. intros [= <- <-]. rewrite app_assoc. eapply IH; eauto.
  Qed.

  (** With at most [n] readers nothing aborts. *)
  Definition readers_in (allowed : list Z) (o : op) : Prop := match o with OpRead self _ _ => In self allowed | _ => True end.
  Lemma step_readers : forall s o s' e allowed, step s o = Ok (s', e) -> readers_in allowed o ->
    (forall r, In r (sl_readers s) -> r = 0 \/ In r allowed) -> (forall r, In r (sl_readers s') -> r = 0 \/ In r allowed).
  Proof.
    intros s [ self c a | m store ] s' e allowed; cbn [step readers_in].
    - unfold slot_read. destruct (sl_entry s) as [ m | ]; [ | intros [= <- _]; auto ].
      destruct (sl_readers s) as [ | r0 rr ] eqn:Er.
      + destruct (negb c); [ intros [= <- _] _ _ r [] | ]. destruct (_ || _); [ intros [= <- _] _ _ r [] | ].
        change (zlen (@nil Z) <=? 0) with true. cbv iota. intros [= <- _] _ _ r [].
      + destruct (reader_index (r0 :: rr) self) as [ [i rs] | ] eqn:RI; [ | discriminate ].
        intros H A B. assert (X : forall r, In r rs -> r = 0 \/ In r allowed).
        { clear -RI A B. revert i rs RI. set (l := r0 :: rr) in *. clearbody l. induction l as [ | x l IH ]; cbn [reader_index]; intros i rs RI; [ discriminate | ].
          destruct (x =? self); [ injection RI as <- <-; exact B | ].
          destruct (x =? 0); [ injection RI as <- <-; intros r [ <- | J ]; [ auto | apply B; right; exact J ] | ].
          destruct (reader_index l self) as [ [j rs'] | ]; [ | discriminate ]. injection RI as <- <-.
          intros r [ <- | J ]; [ apply B; left; reflexivity | ]. eapply IH; eauto. intros r' J'. apply B. right. exact J'. }
        destruct (nth i (sl_has_read s) false); [ injection H as <- _; exact X | ].
        destruct (negb c); [ injection H as <- _; exact X | ]. destruct (_ || _); [ injection H as <- _; exact X | ].
        destruct (_ <=? _); injection H as <- _; exact X.
    - unfold slot_write. destruct (sl_entry s); [ intros [= <- _]; auto | ]. destruct store; intros [= <- _]; auto.
  Qed.
  Lemma run_ok : forall allowed ops s ev, (length allowed <= n)%nat -> ~ In 0 allowed ->
    inv s ev -> (forall r, In r (sl_readers s) -> r = 0 \/ In r allowed) -> Forall (readers_in allowed) ops ->
    exists s' e, run s ops = Ok (s', e).
  Proof.
    intros allowed ops. induction ops as [ | o ops IH ]; intros s ev LA Z0 H B F; cbn [run]; [ eauto | ].
    apply Forall_cons_iff in F as [F1 F2].
    assert (RO : reader_ok o) by (destruct o; cbn in *; [ congruence | exact I ]).
    destruct (step_inv s ev o H RO) as [ [ _ (self & c & a & rs & -> & K1 & K2 & K3 & K3' & K4) ] | (s1 & e1 & E1 & H1) ].
    - exfalso. cbn [readers_in] in F1.
      assert (X : incl (self :: rs) allowed).
      { intros r [ <- | J ]; [ exact F1 | ]. destruct (B r) as [ -> | ]; [ congruence | contradiction | assumption ]. }
      apply NoDup_incl_length in X; [ cbn [length] in X; lia | ]. constructor; auto.
    - rewrite E1. destruct (IH s1 (ev ++ e1) LA Z0 H1 (step_readers _ _ _ _ _ E1 F1 B) F2) as (s2 & e2 & ->). eauto.
  Qed.
End Slot.

(** A reader which is not done with the entry is given it. *)
Lemma read_gives : forall n s ev self m a s' e, (0 < n)%nat -> inv n s ev -> self <> 0 -> sl_entry s = Some m ->
  done_by self ev <> wrote ev -> step s (OpRead self true a) = Ok (s', e) -> In (Given self m) e.
Proof.
  intros n s ev self m a s' e Hn H H0 En ND. cbn [step]. unfold slot_read. rewrite En.
  destruct (register n Hn s ev self m H H0 En) as [ (RI & _) | (i & rs & RI & LR & NI & Li & I1) ].
  - destruct (sl_readers s) as [ | r0 rr ] eqn:Er.
    + exfalso. destruct H as (rs & L & _ & _ & R & _). rewrite Er in R. symmetry in R. apply app_eq_nil in R as [J1 J2].
      rewrite J1 in J2. cbn [length] in J2. destruct n; [ lia | discriminate ].
    + rewrite RI. discriminate.
  - destruct (sl_readers s) as [ | r0 rr ] eqn:Er; [ discriminate | ]. rewrite RI.
    destruct (nth i (sl_has_read s) false) eqn:Hf.
    + exfalso. apply ND. destruct I1 as (rs1 & L & N & Z0 & R & F & W & D & E & _). unfold with_readers in *. cbn [sl_entry sl_readers sl_has_read] in *.
      assert (Li1 : (i < length rs1)%nat).
      { destruct (Nat.lt_ge_cases i (length rs1)) as [ J | J ]; [ exact J | ]. exfalso. rewrite E in Hf by (congruence || lia). discriminate. }
      assert (NI1 : nth i rs1 0 = self) by (rewrite R, app_nth1 in NI by lia; exact NI).
      rewrite <- NI1, (D i Li1), W. unfold part, held. cbn [sl_entry sl_has_read]. rewrite En, Hf. reflexivity.
    + cbn [negb]. destruct (_ || _); [ intros [= _ <-]; left; reflexivity | ].
      destruct (_ <=? _); intros [= _ <-]; left; reflexivity.
Qed.

(** Without a reader count any reader takes the entry. *)
Definition inv0 (s : slot) (ev : list event) : Prop :=
  sl_readers s = [] /\ wrote ev = done_any ev ++ held s /\ deleted ev = done_any ev /\
  sl_written s = u64 (zlen (wrote ev)) /\ sl_deleted s = u64 (zlen (deleted ev)).
Lemma step_inv0 : forall s ev o, inv0 s ev -> exists s' e, step s o = Ok (s', e) /\ inv0 s' (ev ++ e).
Proof.
  intros s ev [ self c [ret keep] | m store ] H; pose proof H as (R & W & D & SW & SD); cbn [step].
  - unfold slot_read. destruct (sl_entry s) as [ m | ] eqn:En; [ | exists s, []; rewrite app_nil_r; auto ].
    rewrite R. unfold held in W. rewrite En in W.
    assert (X : forall h, inv0 (mk_slot (Some m) [] h (sl_deleted s) (sl_written s)) ev).
    { intro h. unfold inv0, held. cbn [sl_entry sl_readers sl_deleted sl_written]. auto. }
    destruct c; cbn [negb]; [ | eexists _, []; split; [ reflexivity | rewrite app_nil_r; apply X ] ].
    cbn [an_ret an_keep]. destruct (_ || _).
    + eexists _, _. split; [ reflexivity | ]. unfold inv0, held. cbn [sl_entry sl_readers sl_deleted sl_written app].
      rewrite wrote_app, done_any_app, deleted_app. cbn [wrote done_any deleted]. rewrite !app_nil_r. auto.
    + change (zlen (@nil Z) <=? 0) with true. cbv iota. eexists _, _. split; [ reflexivity | ]. unfold inv0, held. cbn [sl_entry sl_readers sl_deleted sl_written app].
      rewrite wrote_app, done_any_app, deleted_app. cbn [wrote done_any deleted]. rewrite !app_nil_r.
      split; [ reflexivity | ]. split; [ exact W | ]. split; [ rewrite D; reflexivity | ]. split; [ exact SW | ].
      rewrite SD, u64_succ, zlen_app. f_equal.
  - unfold slot_write. destruct (sl_entry s) eqn:En; [ exists s, []; rewrite app_nil_r; auto | ].
    destruct store; [ | exists s, []; rewrite app_nil_r; auto ].
    eexists _, _. split; [ reflexivity | ]. unfold inv0, write_and_reset, held in *. cbn [sl_entry sl_readers sl_deleted sl_written] in *.
    rewrite En, app_nil_r in W. rewrite wrote_app, done_any_app, deleted_app. cbn [wrote done_any deleted]. rewrite !app_nil_r.
    split; [ exact R | ]. split; [ rewrite W; reflexivity | ]. split; [ exact D | ]. split; [ | exact SD ].
    rewrite SW, u64_succ, zlen_app. f_equal.
Qed.
Lemma run_inv0 : forall ops s ev, inv0 s ev -> exists s' e, run s ops = Ok (s', e) /\ inv0 s' (ev ++ e).
Proof.
  induction ops as [ | o ops IH ]; intros s ev H; cbn [run].
  - exists s, []. rewrite app_nil_r. auto.
  - destruct (step_inv0 s ev o H) as (s1 & e1 & -> & H1). destruct (IH s1 _ H1) as (s2 & e2 & -> & H2).
    eexists _, _. split; [ reflexivity | ]. rewrite app_assoc. exact H2.
Qed.

(** The count of a slot. *)
Fixpoint picked (rs : list Z) (fl : list bool) : list Z :=
  match rs, fl with r :: rs, b :: fl => (if b then [r] else []) ++ picked rs fl | _, _ => [] end.
Lemma picked_in : forall rs fl r, In r (picked rs fl) <-> exists i, (i < length rs)%nat /\ (i < length fl)%nat /\ nth i rs 0 = r /\ nth i fl false = true.
Proof.
  induction rs as [ | x rs IH ]; intros [ | b fl ] r; cbn [picked length].
  - split; [ intros [] | intros (i & L & _); lia ].
  - split; [ intros [] | intros (i & L & _); lia ].
  - split; [ intros [] | intros (i & _ & L & _); lia ].
  - rewrite in_app_iff, IH. split.
    + intros [ H | (i & H1 & H2 & H3 & H4) ].
      * exists O. destruct b; [ | destruct H ]. destruct H as [ <- | [] ]. cbn. repeat split; lia.
      * exists (S i). cbn [nth]. repeat split; auto; lia.
    + intros ([ | i ] & H1 & H2 & H3 & H4); cbn [nth] in *.
      * left. subst. left. reflexivity.
      * right. exists i. repeat split; auto; lia.
Qed.
Lemma picked_nodup : forall rs fl, NoDup rs -> NoDup (picked rs fl).
Proof.
  induction rs as [ | x rs IH ]; intros [ | b fl ] N; cbn [picked]; try constructor.
  inversion N as [ | ? ? H1 H2 ]; subst. destruct b; cbn [app]; [ | auto ]. constructor; [ | auto ].
  intro J. apply picked_in in J as (i & L & _ & E & _). apply H1. rewrite <- E. apply nth_In. exact L.
Qed.
Lemma picked_len : forall rs fl, (length rs <= length fl)%nat -> (forall i, (length rs <= i)%nat -> nth i fl false = false) ->
  zlen (picked rs fl) + zlen (filter negb fl) = zlen fl.
Proof.
  induction rs as [ | x rs IH ]; intros fl L H; cbn [picked].
  - rewrite zlen_nil. clear L. assert (A : filter negb fl = fl); [ | rewrite A; lia ].
    induction fl as [ | b fl IH ]; [ reflexivity | ]. cbn [filter]. specialize (H O (Nat.le_refl _)) as H0. cbn [nth] in H0. subst b. cbn [negb].
    f_equal. apply IH. intros i _. exact (H (S i) (Nat.le_0_l _)).
  - destruct fl as [ | b fl ]; cbn [length] in L; [ lia | ]. cbn [filter].
    assert (J : zlen (picked rs fl) + zlen (filter negb fl) = zlen fl).
    { apply IH; [ lia | ]. intros i Li. apply (H (S i)). cbn [length]. lia. }
    destruct b; cbn [negb app]; rewrite ?zlen_cons; lia.
Qed.
Lemma count_inv : forall n s ev, (0 < n)%nat -> inv n s ev ->
  (wrote ev = deleted ev -> slot_count s = 0) /\
  (forall m, wrote ev = deleted ev ++ [m] ->
     exists finished, NoDup finished /\ (forall r, In r finished <-> done_by r ev = wrote ev) /\
       slot_count s = 1 + Z.of_nat n - zlen finished).
Proof.
  intros n s ev Hn (rs & L & N & Z0 & R & F & W & D & E & K & O & _). split.
  - intro H. rewrite H in W. unfold slot_count. unfold held in W. destruct (sl_entry s); [ | reflexivity ].
    apply (f_equal (@length Z)) in W. rewrite app_length in W. cbn [length] in W. lia.
  - intros m H. assert (Hh : held s = [m]) by (apply (app_inv_head (deleted ev)); congruence).
    unfold held in Hh. destruct (sl_entry s) as [ m' | ] eqn:En; [ | discriminate ]. injection Hh as ->.
    exists (picked rs (sl_has_read s)). split; [ apply picked_nodup; exact N | ]. split.
    + intro r. rewrite picked_in. split.
      * intros (i & H1 & H2 & <- & H4). rewrite (D i H1), H. unfold part. rewrite En, H4. reflexivity.
      * intro J. destruct (in_dec Z.eq_dec r rs) as [ I | I ].
        -- apply In_nth with (d := 0) in I as (i & Hi & <-). exists i. split; [ exact Hi | ]. split; [ lia | ]. split; [ reflexivity | ].
           rewrite (D i Hi), H in J. apply app_inv_head in J. unfold part in J. rewrite En in J.
           destruct (nth i (sl_has_read s) false); [ reflexivity | discriminate ].
        -- exfalso. rewrite (proj1 (O r I)), H in J. apply (f_equal (@length Z)) in J. rewrite app_length in J. cbn [length] in J. lia.
    + unfold slot_count. rewrite En.
      assert (J : zlen (picked rs (sl_has_read s)) + zlen (filter negb (sl_has_read s)) = zlen (sl_has_read s)).
      { apply picked_len; [ lia | ]. apply E. congruence. }
      unfold zlen in *. lia.
Qed.
Lemma count_set_keeps : forall s n self a, (0 < n)%nat -> self <> 0 ->
  held (reader_count_set s n) = held s /\ get_stats (reader_count_set s n) = get_stats s /\
  forall m, held s = [m] -> slot_count (reader_count_set s n) = 1 + Z.of_nat n /\
    exists s' e, step (reader_count_set s n) (OpRead self true a) = Ok (s', e) /\ In (Given self m) e.
Proof.
  intros s n self a Hn H0. split; [ reflexivity | ]. split; [ reflexivity | ]. intros m Hh.
  unfold held in Hh. destruct (sl_entry s) as [ m' | ] eqn:En; [ | discriminate ]. injection Hh as ->.
  assert (Fl : filter negb (repeat false n) = repeat false n) by (clear; induction n; cbn; congruence).
  split.
  - unfold slot_count, reader_count_set. cbn [sl_entry sl_has_read]. rewrite En, Fl. unfold zlen. rewrite repeat_length. lia.
  - destruct n as [ | n ]; [ lia | ]. cbn [step]. unfold slot_read, reader_count_set. cbn [sl_entry sl_readers sl_has_read repeat]. rewrite En.
    cbn [reader_index]. replace (0 =? self) with false by lia. cbn [Z.eqb nth negb].
    destruct (_ || _); [ eexists _, _; split; [ reflexivity | left; reflexivity ] | ].
    destruct (_ <=? _); eexists _, _; (split; [ reflexivity | left; reflexivity ]).
Qed.
