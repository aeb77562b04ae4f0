(** The linked entries implement the list. *)
From Coq Require Import ZArith List Bool Lia.
From Verif Require Import Common FifoModel FifoSpec.
Import ListNotations.
Open Scope Z_scope.

(** * Flags *)
Lemma has_bit : forall a n, 0 <= n -> has a (2 ^ n) = Z.testbit a n.
Proof.
  intros a n Hn. unfold has. destruct (Z.testbit a n) eqn:E.
  - apply negb_true_iff, Z.eqb_neq. intros H.
    assert (X : Z.testbit (Z.land a (2 ^ n)) n = false) by (rewrite H; apply Z.bits_0).
    rewrite Z.land_spec, E, Z.pow2_bits_true in X by auto. discriminate.
  - apply negb_false_iff, Z.eqb_eq. apply Z.bits_inj'. intros m Hm.
    rewrite Z.land_spec, Z.bits_0, Z.pow2_bits_eqb by auto.
    destruct (Z.eqb_spec n m); subst; rewrite ?E; auto. apply andb_false_r.
Qed.
Lemma has_error : forall a, has a fl_callback_err = says_error a.
Proof. intros. exact (has_bit a 1 ltac:(lia)). Qed.
Lemma has_global : forall a, has a fl_global_err = says_global_error a.
Proof. intros. exact (has_bit a 0 ltac:(lia)). Qed.
Lemma has_stop : forall a, has a fl_stop = says_stop a.
Proof. intros. exact (has_bit a 3 ltac:(lia)). Qed.
Lemma has_give : forall a, has a fl_give = says_give a.
Proof. intros. exact (has_bit a 4 ltac:(lia)). Qed.
Lemma has_free : forall a, has a fl_free = says_free a.
Proof. intros. exact (has_bit a 5 ltac:(lia)). Qed.
Lemma has_replace : forall a, has a fl_replace = says_replace a.
Proof. intros. exact (has_bit a 6 ltac:(lia)). Qed.
Lemma has_lor : forall a f g, has a (Z.lor f g) = has a f || has a g.
Proof.
  intros. unfold has. rewrite Z.land_lor_distr_r.
  destruct (Z.eqb_spec (Z.land a f) 0) as [E1|E1], (Z.eqb_spec (Z.land a g) 0) as [E2|E2]; rewrite ?E1, ?E2; cbn [negb orb]; auto.
  - apply negb_true_iff, Z.eqb_neq. intros H. apply Z.lor_eq_0_iff in H. tauto.
  - apply negb_true_iff, Z.eqb_neq. intros H. apply Z.lor_eq_0_iff in H. tauto.
  - apply negb_true_iff, Z.eqb_neq. intros H. apply Z.lor_eq_0_iff in H. tauto.
Qed.
Lemma land_lnot_clear : forall a n, 0 <= n -> Z.land a (Z.lnot (2 ^ n)) = Z.clearbit a n.
Proof. intros. rewrite Z.clearbit_spec', Z.ldiff_land. reflexivity. Qed.
Lemma clear_stop : forall a, Z.land a (Z.lnot fl_stop) = Z.clearbit a 3.
Proof. intros. exact (land_lnot_clear a 3 ltac:(lia)). Qed.
Lemma clear_free : forall a, Z.land a (Z.lnot fl_free) = Z.clearbit a 5.
Proof. intros. exact (land_lnot_clear a 5 ltac:(lia)). Qed.
Lemma known_flags_clear : forall a, has_other (Z.clearbit a 5) 59 = negb (known_read_flags a).
Proof.
  intros. unfold has_other, known_read_flags. f_equal. f_equal.
  apply Z.bits_inj'. intros m Hm. rewrite !Z.land_spec. destruct (Z.eq_dec m 5) as [->|Hne].
  - rewrite Z.lnot_spec by lia. change (Z.testbit 59 5) with true. rewrite !andb_false_r. reflexivity.
  - rewrite Z.clearbit_neq by auto. reflexivity.
Qed.

(** * Chains of entries *)
Definition ent (i : item) (nx : Z) : entry := mkE (i_data i) (i_size i) (i_order i) nx.
Notation chain := (list (Z * item)).

Fixpoint lseg (h : heap) (p : Z) (c : chain) (q : Z) : Prop :=
  match c with
  | [] => p = q
  | (a, i) :: r => p = a /\ 0 < a /\ exists nx, h a = Some (ent i nx) /\ lseg h nx r q
  end.

Definition headaddr (c : chain) : Z := match c with [] => 0 | (a, _) :: _ => a end.
Definition lastaddr (c : chain) : Z := match rev c with [] => 0 | (a, _) :: _ => a end.
Definition addrs (c : chain) : list Z := map fst c.
Definition items (c : chain) : list item := map snd c.

Lemma lastaddr_snoc : forall c a i, lastaddr (c ++ [(a, i)]) = a.
Proof. intros. unfold lastaddr. rewrite rev_app_distr. reflexivity. Qed.
Lemma lastaddr_app : forall c c', c' <> [] -> lastaddr (c ++ c') = lastaddr c'.
Proof.
  intros c c' H. destruct (exists_last H) as (c2 & [a i] & ->). rewrite app_assoc, !lastaddr_snoc. reflexivity.
Qed.
Lemma lastaddr_in : forall c, c <> [] -> In (lastaddr c) (addrs c).
Proof.
  intros c H. destruct (exists_last H) as (c2 & [a i] & ->). rewrite lastaddr_snoc.
  unfold addrs. rewrite map_app. apply in_or_app. right. left. reflexivity.
Qed.

Lemma lseg_app : forall h c1 c2 p q, lseg h p (c1 ++ c2) q <-> exists m, lseg h p c1 m /\ lseg h m c2 q.
Proof.
  induction c1 as [|[a i] c1 IH]; intros c2 p q; cbn [app lseg].
  - split; [ intros H; exists p; auto | intros (m & -> & H); auto ].
  - split.
    + intros (-> & Ha & nx & H1 & H2). apply IH in H2 as (m & H2 & H3). exists m. split; eauto.
    + intros (m & (-> & Ha & nx & H1 & H2) & H3). split; auto. split; auto. exists nx. split; auto. apply IH. eauto.
Qed.
Lemma lseg_head : forall h p c, lseg h p c 0 -> p = headaddr c.
Proof. intros h p [|[a i] c]; cbn; tauto. Qed.
Lemma lseg_frame : forall h h' c p q, (forall a, In a (addrs c) -> h' a = h a) -> lseg h p c q -> lseg h' p c q.
Proof.
  induction c as [|[a i] c IH]; intros p q HF; cbn [lseg]; auto.
  intros (-> & Ha & nx & H1 & H2). split; auto. split; auto. exists nx. split.
  - rewrite HF; auto. left. reflexivity.
  - apply IH; auto. intros x Hx. apply HF. right. auto.
Qed.
Lemma lseg_pos : forall h c p q a, lseg h p c q -> In a (addrs c) -> 0 < a /\ h a <> None.
Proof.
  induction c as [|[b i] c IH]; intros p q a H Hi; [ destruct Hi | ].
  destruct H as (-> & Hb & nx & H1 & H2). destruct Hi as [<-|Hi].
  - split; auto. cbn. congruence.
  - eapply IH; eauto.
Qed.

Lemma upd_same : forall h a v, upd h a v a = v.
Proof. intros. unfold upd. rewrite Z.eqb_refl. reflexivity. Qed.
Lemma upd_other : forall h a v x, x <> a -> upd h a v x = h x.
Proof. intros. unfold upd. destruct (Z.eqb_spec x a); congruence. Qed.

Lemma addrs_app : forall a b, addrs (a ++ b) = addrs a ++ addrs b.
Proof. intros. apply map_app. Qed.
Lemma items_app : forall a b, items (a ++ b) = items a ++ items b.
Proof. intros. apply map_app. Qed.

(** Changing the pointer of the last entry of a segment. *)
Lemma lseg_relink : forall h c a i p q q', NoDup (addrs (c ++ [(a, i)])) ->
  lseg h p (c ++ [(a, i)]) q -> lseg (upd h a (Some (ent i q'))) p (c ++ [(a, i)]) q'.
Proof.
  intros h c a i p q q' HN H. apply lseg_app in H as (m & H1 & H2).
  rewrite addrs_app in HN. apply NoDup_remove_2 in HN. rewrite app_nil_r in HN.
  apply lseg_app. exists m. split.
  - eapply lseg_frame; [ | exact H1 ]. intros x Hx. apply upd_other. intros ->. auto.
  - cbn [lseg] in *. destruct H2 as (-> & Ha & nx & H2 & H3). split; auto. split; auto.
    exists q'. split; auto. apply upd_same.
Qed.

(** A buffer holding the chain [c], with nothing else in memory than [c] and the
    entries at the addresses [extra]. *)
Record holds (b : fifo) (c : chain) (extra : list Z) : Prop := mkHolds {
  hd_seg : lseg (f_heap b) (f_first b) c 0;
  hd_last : f_last b = lastaddr c;
  hd_nodup : NoDup (addrs c);
  hd_fresh : forall a, f_heap b a <> None -> a < f_fresh b;
  hd_dom : forall a, f_heap b a <> None -> In a (addrs c) \/ In a extra;
  hd_disj : forall a, In a extra -> ~ In a (addrs c);
  hd_pos : 0 < f_fresh b
}.

Definition rep (b : fifo) (l : list item) : Prop :=
  exists c, items c = l /\ holds b c [] /\ f_count b = zlen l.

Lemma holds_head : forall b c x, holds b c x -> f_first b = headaddr c.
Proof. intros b c x H. eapply lseg_head. apply (hd_seg _ _ _ H). Qed.

Lemma holds_at : forall b pre a i r x, holds b (pre ++ (a, i) :: r) x ->
  0 < a /\ f_heap b a = Some (ent i (headaddr r)).
Proof.
  intros b pre a i r x H. pose proof (hd_seg _ _ _ H) as HS.
  apply lseg_app in HS as (m & _ & -> & Ha & nx & H1 & H2). split; auto.
  rewrite H1. f_equal. f_equal. apply lseg_head in H2. auto.
Qed.

Lemma headaddr_cases : forall b pre r x, holds b (pre ++ r) x -> headaddr r = 0 -> r = [].
Proof.
  intros b pre [|[a i] r] x H E; auto. cbn in E. apply holds_at in H. lia.
Qed.

Lemma nd_app : forall (l l' : list Z), NoDup (l ++ l') <-> NoDup l /\ NoDup l' /\ (forall x, In x l -> ~ In x l').
Proof.
  induction l as [|a l IH]; intros l'; cbn [app].
  - split; [ intros H; split; [ constructor | split; auto ] | intros (_ & H & _); auto ].
  - rewrite !NoDup_cons_iff, IH. rewrite in_app_iff. split.
    + intros (H1 & H2 & H3 & H4). repeat split; auto. intros x [<-|Hx]; auto.
    + intros ((H1 & H2) & H3 & H4). repeat split; auto.
      * intros [Hi|Hi]; [ auto | ]. apply (H4 a); auto. left. auto.
      * intros x Hx. apply H4. right. auto.
Qed.

(** Taking an entry out. *)
Lemma unlink_ok : forall b pre a i r x, holds b (pre ++ (a, i) :: r) x ->
  exists b', unlink b a (lastaddr pre) (headaddr r) = Some b' /\ holds b' (pre ++ r) x /\
             f_count b' = f_count b /\ f_fresh b' = f_fresh b.
Proof.
  intros b pre a i r x H. unfold unlink.
  destruct (holds_at _ _ _ _ _ _ H) as [Ha Hat].
  pose proof (hd_seg _ _ _ H) as HS. pose proof (hd_nodup _ _ _ H) as HN. pose proof (hd_last _ _ _ H) as HL.
  apply lseg_app in HS as (m & HS1 & HS2). cbn [lseg] in HS2. destruct HS2 as (-> & _ & nx & HX & HS2).
  rewrite HX in Hat. assert (nx = headaddr r) by (unfold ent in Hat; congruence). subst nx. clear Hat.
  rewrite addrs_app in HN. cbn [addrs map fst] in HN. pose proof (NoDup_remove_1 _ _ _ HN) as HN1.
  pose proof (NoDup_remove_2 _ _ _ HN) as HN2. fold (addrs r) in *.
  assert (HNr : ~ In a (addrs r)) by (intros Hi; apply HN2, in_or_app; auto).
  assert (HNp : ~ In a (addrs pre)) by (intros Hi; apply HN2, in_or_app; auto).
  assert (HLast : (if a =? f_last b then lastaddr pre else f_last b) = lastaddr (pre ++ r)).
  { rewrite HL. rewrite lastaddr_app by discriminate. destruct r as [|[a2 i2] r].
    - cbn. rewrite Z.eqb_refl, app_nil_r. reflexivity.
    - change ((a, i) :: (a2, i2) :: r) with ([(a, i)] ++ (a2, i2) :: r).
      rewrite !lastaddr_app by discriminate.
      destruct (Z.eqb_spec a (lastaddr ((a2, i2) :: r))) as [E|E]; auto.
      exfalso. apply HNr. rewrite E. apply lastaddr_in. discriminate. }
  assert (HDom : forall y, In y (addrs (pre ++ (a, i) :: r)) \/ In y x -> y <> a -> In y (addrs (pre ++ r)) \/ In y x).
  { intros y [Hy|Hy] Hne; auto. left. rewrite addrs_app in *. apply in_app_or in Hy as [Hy|[Hy|Hy]]; apply in_or_app; auto.
    cbn in Hy. congruence. }
  assert (HDis : forall y, In y x -> ~ In y (addrs (pre ++ r))).
  { intros y Hy Hd. apply (hd_disj _ _ _ H y Hy). rewrite addrs_app in *. apply in_app_or in Hd as [Hd|Hd]; apply in_or_app; auto.
    right. right. auto. }
  assert (HC : pre = [] \/ pre <> []) by (destruct pre; [ left | right ]; congruence). destruct HC as [Epre|Hpne].
  - subst pre. change (lastaddr []) with 0 in *. cbn [Z.eqb]. eexists. split; [ reflexivity | ]. split; [ | auto ].
    cbn [lseg] in HS1.
    constructor; cbn [f_first f_last f_heap f_fresh app] in *; auto.
    + rewrite HS1. rewrite Z.eqb_refl. eapply lseg_frame; [ | exact HS2 ]. intros y Hy. apply upd_other. intros ->. auto.
    + intros y Hy. unfold upd in Hy. destruct (y =? a); [ congruence | ]. apply (hd_fresh _ _ _ H). auto.
    + intros y Hy. unfold upd in Hy. destruct (Z.eqb_spec y a); [ congruence | ]. apply HDom; auto. apply (hd_dom _ _ _ H). auto.
    + apply (hd_pos _ _ _ H).
  - destruct (exists_last Hpne) as (pre' & [p ip] & ->).
    rewrite lastaddr_snoc in *.
    assert (Hpp : 0 < p /\ f_heap b p <> None).
    { eapply lseg_pos; [ exact HS1 | ]. rewrite addrs_app. apply in_or_app. right. left. reflexivity. }
    destruct (Z.eqb_spec p 0); [ lia | ].
    pose proof HS1 as HS1'. apply lseg_app in HS1' as (m2 & _ & HS1'). cbn [lseg] in HS1'.
    destruct HS1' as (_ & _ & nx2 & HP & _). rewrite HP.
    cbn [ent e_data e_size e_order].
    assert (Hpa : p <> a). { intros ->. apply HNp. rewrite addrs_app. apply in_or_app. right. left. reflexivity. }
    assert (Hfa : (if a =? f_first b then headaddr r else f_first b) = f_first b).
    { destruct (Z.eqb_spec a (f_first b)) as [E|E]; auto. exfalso.
      destruct pre' as [|[q iq] pre']; cbn [app lseg] in HS1; destruct HS1 as (HF & _); apply HNp; rewrite E, HF; left; reflexivity. }
    rewrite Hfa, HLast. eexists. split; [ reflexivity | ]. split; [ | auto ].
    constructor; cbn [f_first f_last f_heap f_fresh]; auto.
    + apply lseg_app. exists (headaddr r). split.
      * eapply lseg_frame; [ | eapply lseg_relink; [ | exact HS1 ] ].
        -- intros y Hy. apply upd_other. intros ->. auto.
        -- apply nd_app in HN1. apply HN1.
      * eapply lseg_frame; [ | exact HS2 ]. intros y Hy. rewrite upd_other by (intros ->; auto).
        apply upd_other. intros ->.
        apply nd_app in HN1 as (_ & _ & HN1). apply (HN1 p); auto. rewrite addrs_app. apply in_or_app. right. left. reflexivity.
    + rewrite addrs_app. auto.
    + intros y Hy. unfold upd in Hy. destruct (y =? a); [ congruence | ].
      destruct (Z.eqb_spec y p); [ subst; apply (hd_fresh _ _ _ H); apply Hpp | apply (hd_fresh _ _ _ H); auto ].
    + intros y Hy. unfold upd in Hy. destruct (Z.eqb_spec y a); [ congruence | ]. apply HDom; auto.
      apply (hd_dom _ _ _ H). destruct (Z.eqb_spec y p); [ subst; apply Hpp | auto ].
    + apply (hd_pos _ _ _ H).
Qed.

Ltac conj := repeat match goal with |- _ /\ _ => split end; auto.
Ltac oklia := rewrite ?zlen_nil, ?zlen_cons, ?app_nil_r; repeat first [ reflexivity | lia | f_equal ].

Lemma u32_small : forall x, 0 <= x < 4294967296 -> u32 x = x.
Proof. intros. unfold u32. apply Z.mod_small. lia. Qed.

Lemma decref_dropped : forall d, decref_ev d = dropped d.
Proof. reflexivity. Qed.

Lemma zlen_items : forall c : chain, zlen (items c) = zlen c.
Proof. intros. unfold items. apply zlen_map. Qed.

(** * Search *)
Lemma search_loop_ok : forall S (cb : S -> Z -> Z -> S * Z) todo fuel st b pre cleared ev,
  holds b (pre ++ todo) [] -> (length todo < fuel)%nat ->
  0 <= cleared -> cleared + zlen todo < 4294967296 ->
  match l_search cb st (items todo) with
  | Ok (st', ret, l', ev') =>
      exists b' c', search_loop fuel cb st b (headaddr todo) (lastaddr pre) cleared ev
                    = Ok (st', ret, b', cleared + (zlen todo - zlen l'), ev ++ ev') /\
        holds b' (pre ++ c') [] /\ items c' = l' /\ f_count b' = f_count b /\ f_fresh b' = f_fresh b /\ zlen l' <= zlen todo
  | Bug => search_loop fuel cb st b (headaddr todo) (lastaddr pre) cleared ev = Bug
  | _ => False
  end.
Proof.
  induction todo as [|[a i] todo IH]; intros fuel st b pre cleared ev H Hf Hc1 Hc2.
  - destruct fuel; [ cbn in Hf; lia | ]. cbn [items map l_search headaddr search_loop Z.eqb].
    exists b, []. split; [ oklia | ]. rewrite !zlen_nil. conj; lia.
  - destruct fuel as [|fuel]; [ cbn in Hf; lia | ].
    destruct (holds_at _ _ _ _ _ _ H) as [Ha Hat].
    cbn [items map snd l_search headaddr search_loop]. fold (items todo).
    destruct (Z.eqb_spec a 0); [ lia | ]. rewrite Hat. cbn [ent e_data e_size e_next].
    destruct (cb st (i_data i) (i_size i)) as [st' act].
    rewrite !has_error, !has_give, !has_stop, !has_free. change (decref_ev (i_data i)) with (dropped (i_data i)).
    rewrite zlen_cons in Hc2. pose proof (zlen_nonneg _ todo) as HZ.
    assert (Hsh : pre ++ (a, i) :: todo = (pre ++ [(a, i)]) ++ todo) by (rewrite <- app_assoc; reflexivity).
    destruct (act =? 0).
    { pose proof H as H'. rewrite Hsh in H'. specialize (IH fuel st' b (pre ++ [(a, i)]) cleared (ev ++ [Called (i_data i) (i_size i)]) H').
      cbn [length] in Hf. specialize (IH ltac:(lia) Hc1 ltac:(lia)). rewrite lastaddr_snoc in IH.
      destruct (l_search cb st' (items todo)) as [[[[st'' ret] l'] ev'] | | | ]; cbn [bind]; try tauto.
      destruct IH as (b' & c' & E & H1 & H2 & H3 & H4 & H5). exists b', ((a, i) :: c').
      rewrite E. rewrite !zlen_cons. rewrite <- app_assoc. cbn [app].
      split; [ oklia | ].
      rewrite <- app_assoc in H1. cbn [app] in H1. conj; [ cbn; unfold items in H2; rewrite H2; reflexivity | lia ]. }
    destruct (says_error act).
    { exists b, ((a, i) :: todo). cbn [items map snd]. fold (items todo). rewrite !zlen_cons, zlen_items.
      split; [ oklia | ]. conj; lia. }
    destruct (says_give act).
    { destruct (unlink_ok _ _ _ _ _ _ H) as (b1 & E1 & H1 & HC1 & HC2). rewrite E1.
      rewrite u32_small by lia. destruct (Z.eqb_spec (cleared + 1) 0); [ lia | ].
      destruct (says_stop act).
      - exists b1, todo. rewrite zlen_cons, zlen_items. rewrite <- app_assoc. cbn [app].
        split; [ oklia | ]. conj; lia.
      - cbn [length] in Hf.
        specialize (IH fuel st' b1 pre (cleared + 1) ((ev ++ [Called (i_data i) (i_size i)]) ++ (if says_free act then dropped (i_data i) else []))
                       H1 ltac:(lia) ltac:(lia) ltac:(lia)).
        destruct (l_search cb st' (items todo)) as [[[[st'' ret] l'] ev'] | | | ]; cbn [bind]; try tauto.
        destruct IH as (b' & c' & E & G1 & G2 & G3 & G4 & G5). exists b', c'.
        rewrite E. rewrite zlen_cons. rewrite <- !app_assoc. cbn [app].
        split; [ oklia | ]. conj; [ congruence | congruence | lia ]. }
    destruct (says_stop act); auto.
    exists b, ((a, i) :: todo). cbn [items map snd]. fold (items todo). rewrite !zlen_cons, zlen_items.
    split; [ oklia | ]. conj; lia.
Qed.

Lemma length_sub_ok : forall a b, 0 <= b <= a -> a < 4294967296 -> length_sub_bug a b = Ok (a - b).
Proof.
  intros a b H1 H2. unfold length_sub_bug. rewrite u32_small by lia.
  destruct (Z.ltb_spec a (a - b)); [ lia | reflexivity ].
Qed.

Lemma holds_count : forall b c x n, holds b c x -> holds (mkF (f_first b) (f_last b) n (f_heap b) (f_fresh b)) c x.
Proof. intros b c x n H. destruct H. constructor; auto. Qed.

Lemma fifo_search_ok : forall S (cb : S -> Z -> Z -> S * Z) st b l fuel,
  rep b l -> (length l < fuel)%nat -> zlen l < 4294967296 ->
  match l_search cb st l with
  | Ok (st', ret, l', ev) => exists b', fifo_search fuel cb st b = Ok (st', ret, b', ev) /\ rep b' l'
  | Bug => fifo_search fuel cb st b = Bug
  | _ => False
  end.
Proof.
  intros S cb st b l fuel (c & <- & H & HC) Hf HZ. unfold fifo_search. rewrite HC, zlen_items in *.
  destruct (Z.eqb_spec (zlen c) 0) as [E|E].
  - assert (c = []) by (apply zlen_0; auto). subst. cbn. exists b. split; auto. exists []. auto.
  - assert (Hl : (length c < fuel)%nat) by (unfold items in Hf; rewrite map_length in Hf; auto).
    pose proof (search_loop_ok S cb c fuel st b [] 0 [] H Hl ltac:(lia) ltac:(lia)) as HS.
    rewrite <- (holds_head _ _ _ H) in HS. change (lastaddr []) with 0 in HS.
    destruct (l_search cb st (items c)) as [[[[st'' ret] l'] ev'] | | | ]; auto.
    + destruct HS as (b' & c' & E1 & H1 & H2 & H3 & H4 & H5). rewrite E1. cbn [bind].
      pose proof (zlen_nonneg _ l'). rewrite length_sub_ok by lia. cbn [bind]. cbn [app].
      eexists. split; [ reflexivity | ]. exists c'. split; auto. split; [ apply holds_count; auto | ]. cbn. lia.
    + rewrite HS. reflexivity.
Qed.

(** * Reading *)
Lemma read_loop_ok : forall S (cb : S -> Z -> Z -> S * Z) todo fuel st b pre ret ev,
  holds b (pre ++ todo) [] -> (length todo < fuel)%nat ->
  read_loop fuel cb st (f_heap b) (headaddr todo) ret ev =
  bind (l_read cb st (items todo) ret) (fun '(st', ret', ev') => Ok (st', ret', ev ++ ev')).
Proof.
  induction todo as [|[a i] todo IH]; intros fuel st b pre ret ev H Hf.
  - destruct fuel; [ cbn in Hf; lia | ]. cbn. rewrite app_nil_r. reflexivity.
  - destruct fuel as [|fuel]; [ cbn in Hf; lia | ].
    destruct (holds_at _ _ _ _ _ _ H) as [Ha Hat].
    cbn [items map snd l_read headaddr read_loop]. fold (items todo).
    destruct (Z.eqb_spec a 0); [ lia | ]. rewrite Hat. cbn [ent e_data e_size e_next].
    destruct (cb st (i_data i) (i_size i)) as [st' r].
    rewrite has_lor, has_give, has_free, has_stop, has_global, clear_stop.
    assert (Hsh : holds b ((pre ++ [(a, i)]) ++ todo) []) by (rewrite <- app_assoc; auto).
    cbn [length] in Hf.
    assert (HI : forall ret' ev0, read_loop fuel cb st' (f_heap b) (headaddr todo) ret' ev0 =
      bind (l_read cb st' (items todo) ret') (fun '(st'', ret'', ev') => Ok (st'', ret'', ev0 ++ ev'))).
    { intros. apply (IH fuel st' b (pre ++ [(a, i)])); auto. lia. }
    assert (HK : forall ret', bind (l_read cb st' (items todo) ret') (fun '(st'', ret'', ev') => Ok (st'', ret'', (ev ++ [Called (i_data i) (i_size i)]) ++ ev')) =
      bind (bind (l_read cb st' (items todo) ret') (fun '(st'', ret'', ev0) => Ok (st'', ret'', Called (i_data i) (i_size i) :: ev0)))
           (fun '(st'', ret'', ev') => Ok (st'', ret'', ev ++ ev'))).
    { intros. destruct (l_read cb st' (items todo) ret') as [[[st'' ret''] ev''] | | | ]; cbn [bind]; auto.
      rewrite <- app_assoc. reflexivity. }
    destruct (r =? 0); [ rewrite HI, HK; reflexivity | ].
    destruct (says_stop r); [ reflexivity | ].
    destruct (says_give r || says_free r); [ reflexivity | ].
    destruct (says_global_error r); [ reflexivity | ].
    change (has_other r 59) with (negb (known_read_flags r)).
    destruct (negb (known_read_flags r)); [ reflexivity | ].
    rewrite HI, HK. reflexivity.
Qed.

Lemma fifo_read_ok : forall S (cb : S -> Z -> Z -> S * Z) st b l fuel,
  rep b l -> (length l < fuel)%nat -> fifo_read fuel cb st b = l_read cb st l 0.
Proof.
  intros S cb st b l fuel (c & <- & H & HC) Hf. unfold fifo_read. rewrite HC, zlen_items in *.
  destruct (Z.eqb_spec (zlen c) 0) as [E|E].
  - assert (c = []) by (apply zlen_0; auto). subst. reflexivity.
  - assert (Hl : (length c < fuel)%nat) by (unfold items in Hf; rewrite map_length in Hf; auto).
    rewrite (holds_head _ _ _ H), (read_loop_ok S cb c fuel st b [] 0 [] H Hl).
    destruct (l_read cb st (items c) 0) as [[[st'' ret''] ev''] | | | ]; reflexivity.
Qed.

Lemma read_minimum_loop_ok : forall S (cb : S -> Z -> Z -> S * Z) todo fuel st b pre minimum processed ev,
  holds b (pre ++ todo) [] -> (length todo < fuel)%nat ->
  read_minimum_loop fuel cb st (f_heap b) (headaddr todo) minimum processed ev =
  bind (l_read_minimum cb st (items todo) minimum (500 - processed)) (fun '(st', ret', ev') => Ok (st', ret', ev ++ ev')).
Proof.
  induction todo as [|[a i] todo IH]; intros fuel st b pre minimum processed ev H Hf.
  - destruct fuel; [ cbn in Hf; lia | ]. cbn. rewrite app_nil_r. reflexivity.
  - destruct fuel as [|fuel]; [ cbn in Hf; lia | ].
    destruct (holds_at _ _ _ _ _ _ H) as [Ha Hat].
    cbn [items map snd l_read_minimum headaddr read_minimum_loop]. fold (items todo).
    destruct (Z.eqb_spec a 0); [ lia | ]. rewrite Hat. cbn [ent e_data e_size e_next e_order].
    assert (Hsh : holds b ((pre ++ [(a, i)]) ++ todo) []) by (rewrite <- app_assoc; auto).
    cbn [length] in Hf.
    rewrite Z.ltb_antisym. destruct (i_order i <=? minimum); cbn [negb].
    { apply (IH fuel st b (pre ++ [(a, i)])); auto. lia. }
    destruct (cb st (i_data i) (i_size i)) as [st' r].
    rewrite has_lor, has_give, has_free, has_stop, clear_stop.
    replace (500 - processed =? 1) with (processed + 1 =? 500) by (destruct (Z.eqb_spec (processed + 1) 500), (Z.eqb_spec (500 - processed) 1); lia).
    destruct (processed + 1 =? 500); [ reflexivity | ].
    destruct (r =? 0).
    { rewrite (IH fuel st' b (pre ++ [(a, i)])); auto; [ | lia ].
      replace (500 - (processed + 1)) with (500 - processed - 1) by lia.
      destruct (l_read_minimum cb st' (items todo) minimum (500 - processed - 1)) as [[[st'' ret''] ev''] | | | ]; cbn [bind]; auto.
      rewrite <- app_assoc. reflexivity. }
    destruct (says_stop r); [ reflexivity | ].
    destruct (says_give r || says_free r); reflexivity.
Qed.

Lemma fifo_read_minimum_ok : forall S (cb : S -> Z -> Z -> S * Z) st b l minimum fuel,
  rep b l -> (length l < fuel)%nat -> fifo_read_minimum fuel cb st b minimum = l_read_minimum cb st l minimum 500.
Proof.
  intros S cb st b l minimum fuel (c & <- & H & HC) Hf. unfold fifo_read_minimum. rewrite HC, zlen_items in *.
  destruct (Z.eqb_spec (zlen c) 0) as [E|E].
  - assert (c = []) by (apply zlen_0; auto). subst. reflexivity.
  - assert (Hl : (length c < fuel)%nat) by (unfold items in Hf; rewrite map_length in Hf; auto).
    rewrite (holds_head _ _ _ H), (read_minimum_loop_ok S cb c fuel st b [] minimum 0 [] H Hl).
    change (500 - 0) with 500.
    destruct (l_read_minimum cb st (items c) minimum 500) as [[[st'' ret''] ev''] | | | ]; reflexivity.
Qed.

(** * Clearing *)
Lemma clear_loop_ok : forall S (cb : S -> Z -> Z -> S * Z * Z) todo fuel st h p freed ev,
  lseg h p todo 0 -> NoDup (addrs todo) -> (forall a, h a <> None -> In a (addrs todo)) -> (length todo < fuel)%nat ->
  0 <= freed -> freed + zlen todo < 4294967296 ->
  match l_clear cb st (items todo) with
  | Ok (st', ev') => exists h', clear_loop fuel cb st h p freed ev = Ok (st', h', freed + zlen todo, ev ++ ev') /\ (forall a, h' a = None)
  | Bug => clear_loop fuel cb st h p freed ev = Bug
  | _ => False
  end.
Proof.
  induction todo as [|[a i] todo IH]; intros fuel st h p freed ev H HN HD Hf H1 H2.
  - destruct fuel; [ cbn in Hf; lia | ]. cbn [lseg] in H. subst p. cbn [items map l_clear clear_loop Z.eqb]. exists h. rewrite app_nil_r, zlen_nil, Z.add_0_r.
    split; auto. intros a. destruct (h a) eqn:E; auto. exfalso. apply (HD a). congruence.
  - destruct fuel as [|fuel]; [ cbn in Hf; lia | ].
    destruct H as (-> & Ha & nx & Hat & H).
    cbn [items map snd l_clear clear_loop]. fold (items todo).
    destruct (Z.eqb_spec a 0); [ lia | ]. rewrite Hat. cbn [ent e_data e_size e_next].
    destruct (cb st (i_data i) (i_size i)) as [[st' d] ret].
    destruct (ret =? 0); cbn [negb]; auto.
    rewrite zlen_cons in H2. pose proof (zlen_nonneg _ todo). rewrite u32_small by lia.
    cbn [addrs map fst] in HN. apply NoDup_cons_iff in HN as [HN1 HN2]. fold (addrs todo) in *.
    assert (HS : lseg (upd h a None) nx todo 0).
    { eapply lseg_frame; [ | exact H ]. intros y Hy. apply upd_other. intros ->. auto. }
    assert (HD' : forall y, upd h a None y <> None -> In y (addrs todo)).
    { intros y Hy. unfold upd in Hy. destruct (Z.eqb_spec y a); [ congruence | ]. destruct (HD y Hy) as [E|E]; auto. cbn in E. congruence. }
    cbn [length] in Hf.
    specialize (IH fuel st' (upd h a None) nx (freed + 1) (ev ++ [Called (i_data i) (i_size i)] ++ decref_ev d) HS HN2 HD' ltac:(lia) ltac:(lia) ltac:(lia)).
    destruct (l_clear cb st' (items todo)) as [[st'' ev''] | | | ]; cbn [bind]; auto.
    destruct IH as (h' & E & HE). exists h'. rewrite E. split; auto. rewrite zlen_cons, <- !app_assoc.
    change (decref_ev d) with (dropped d). cbn [app]. oklia.
Qed.

Lemma fifo_clear_ok : forall S (cb : S -> Z -> Z -> S * Z * Z) st b l fuel,
  rep b l -> (length l < fuel)%nat -> zlen l < 4294967296 ->
  match l_clear cb st l with
  | Ok (st', ev) => exists b', fifo_clear_with_callback fuel cb st b = Ok (st', b', ev) /\ rep b' []
  | Bug => fifo_clear_with_callback fuel cb st b = Bug
  | _ => False
  end.
Proof.
  intros S cb st b l fuel (c & <- & H & HC) Hf HZ. unfold fifo_clear_with_callback. rewrite zlen_items in *.
  assert (Hl : (length c < fuel)%nat) by (unfold items in Hf; rewrite map_length in Hf; auto).
  assert (HD : forall a, f_heap b a <> None -> In a (addrs c)).
  { intros a Ha. destruct (hd_dom _ _ _ H a Ha) as [|[]]; auto. }
  pose proof (clear_loop_ok S cb c fuel st (f_heap b) (f_first b) 0 [] (hd_seg _ _ _ H) (hd_nodup _ _ _ H) HD Hl ltac:(lia) ltac:(lia)) as HS.
  destruct (l_clear cb st (items c)) as [[st'' ev''] | | | ]; auto.
  - destruct HS as (h' & E & HE). rewrite E. cbn [bind app]. rewrite HC, Z.add_0_l, Z.eqb_refl.
    eexists. split; [ reflexivity | ]. exists []. split; auto. split; auto.
    constructor; cbn; auto; try (intros a Ha; exfalso; apply Ha; apply HE); [ constructor | apply (hd_pos _ _ _ H) ].
  - rewrite HS. reflexivity.
Qed.

(** * Draining *)
Lemma forward_loop_ok : forall S (cb : S -> Z -> Z -> S * Z) todo fuel st h n fresh last p processed ev,
  lseg h p todo 0 -> NoDup (addrs todo) -> (forall a, h a <> None -> In a (addrs todo)) -> (forall a, h a <> None -> a < fresh) -> 0 < fresh ->
  (todo <> [] -> last = lastaddr todo) -> (length todo < fuel)%nat ->
  0 <= processed -> processed + zlen todo < 4294967296 ->
  match l_drain cb st (items todo) with
  | Ok (st', ret, l', ev') =>
      exists b' c', forward_loop fuel cb st (mkF 0 0 n h fresh) last p processed 0 ev
                    = Ok (st', ret, b', processed + (zlen todo - zlen l'), ev ++ ev') /\
        holds b' c' [] /\ items c' = l' /\ f_count b' = n /\ zlen l' <= zlen todo
  | Bug => forward_loop fuel cb st (mkF 0 0 n h fresh) last p processed 0 ev = Bug
  | _ => False
  end.
Proof.
  induction todo as [|[a i] todo IH]; intros fuel st h n fresh last p processed ev H HN HD HFr HP HL Hf H1 H2.
  - destruct fuel; [ cbn in Hf; lia | ]. cbn [lseg] in H. subst p. cbn [items map l_drain forward_loop Z.eqb].
    exists (mkF 0 0 n h fresh), []. rewrite app_nil_r. split; [ oklia | ].
    split; [ | rewrite !zlen_nil; conj; lia ].
    constructor; cbn; auto; try solve [ intros y Hy; left; exact (HD y Hy) | constructor ].
  - destruct fuel as [|fuel]; [ cbn in Hf; lia | ].
    destruct H as (-> & Ha & nx & Hat & H).
    cbn [items map snd l_drain forward_loop f_heap f_first f_last f_count f_fresh]. fold (items todo).
    destruct (Z.eqb_spec a 0); [ lia | ]. rewrite Hat. cbn [ent e_data e_size e_next].
    destruct (cb st (i_data i) (i_size i)) as [st' r].
    rewrite zlen_cons in H2. pose proof (zlen_nonneg _ todo). rewrite u32_small by lia.
    destruct (Z.eqb_spec (processed + 1) 0); [ lia | ].
    cbn [addrs map fst] in HN. apply NoDup_cons_iff in HN as [HN1 HN2]. fold (addrs todo) in *.
    assert (HS : lseg (upd h a None) nx todo 0).
    { eapply lseg_frame; [ | exact H ]. intros y Hy. apply upd_other. intros ->. auto. }
    assert (HD' : forall y, upd h a None y <> None -> In y (addrs todo)).
    { intros y Hy. unfold upd in Hy. destruct (Z.eqb_spec y a); [ congruence | ]. destruct (HD y Hy) as [E|E]; auto. cbn in E. congruence. }
    assert (HFr' : forall y, upd h a None y <> None -> y < fresh).
    { intros y Hy. unfold upd in Hy. destruct (Z.eqb_spec y a); [ congruence | ]. auto. }
    assert (HL' : todo <> [] -> last = lastaddr todo).
    { intros Hne. rewrite HL by discriminate. change ((a, i) :: todo) with ([(a, i)] ++ todo). apply lastaddr_app. auto. }
    cbn [length] in Hf.
    assert (HI := fun ev0 => IH fuel st' (upd h a None) n fresh last nx (processed + 1) ev0 HS HN2 HD' HFr' HP HL' ltac:(lia) ltac:(lia) ltac:(lia)).
    clear IH.
    assert (HZero : r = 0 -> says_give r = false /\ says_stop r = false /\ says_error r = false /\ says_global_error r = false
                    /\ known_read_flags r = true /\ says_free r = false) by (intros ->; repeat split).
    destruct (Z.eqb_spec r 0) as [Er|Er].
    { destruct (HZero Er) as (-> & -> & -> & -> & -> & ->). cbn [orb negb].
      specialize (HI (ev ++ [Called (i_data i) (i_size i)])).
      destruct (l_drain cb st' (items todo)) as [[[[st'' ret''] l''] ev''] | | | ]; cbn [bind]; auto.
      destruct HI as (b' & c' & E & G1 & G2 & G3 & G4). exists b', c'. rewrite E, zlen_cons, <- app_assoc. cbn [app].
      split; [ oklia | ]. conj; lia. }
    clear HZero.
    change (decref_ev (i_data i)) with (dropped (i_data i)). rewrite has_free, clear_free, !has_lor, has_give, has_stop, has_error, has_global, clear_stop, known_flags_clear.
    assert (EB : forall k, k <> 5 -> bit (Z.clearbit r 5) k = bit r k) by (intros; unfold bit; apply Z.clearbit_neq; auto).
    unfold says_give, says_stop, says_error, says_global_error. rewrite !EB by lia.
    destruct (bit r 4); auto.
    destruct (bit r 3 || bit r 1 || bit r 0) eqn:EO.
    { assert (HX : exists b' c', (if nx =? 0
          then Ok (st', Z.clearbit (Z.clearbit r 5) 3, mkF 0 0 n (upd h a None) fresh, processed + 1, (ev ++ [Called (i_data i) (i_size i)]) ++ (if says_free r then dropped (i_data i) else []))
          else match set_next h last 0 with
               | Some h0 => Ok (st', Z.clearbit (Z.clearbit r 5) 3, mkF nx last n (upd h0 a None) fresh, processed + 1, (ev ++ [Called (i_data i) (i_size i)]) ++ (if says_free r then dropped (i_data i) else []))
               | None => Ub
               end) = Ok (st', Z.clearbit (Z.clearbit r 5) 3, b', processed + (zlen ((a, i) :: todo) - zlen (items todo)), ev ++ (Called (i_data i) (i_size i) :: (if says_free r then dropped (i_data i) else []))) /\
          holds b' c' [] /\ items c' = items todo /\ f_count b' = n /\ zlen (items todo) <= zlen ((a, i) :: todo)).
      { rewrite zlen_cons, zlen_items. rewrite <- app_assoc. cbn [app].
        destruct (Z.eqb_spec nx 0) as [En|En].
        - assert (todo = []) by (destruct todo as [|[a2 i2] todo]; auto; cbn [lseg] in H; lia). subst todo.
          eexists. exists []. split; [ oklia | ]. split; [ | rewrite !zlen_nil; conj; lia ].
          constructor; cbn; auto; try solve [ intros y Hy; left; exact (HD' y Hy) | constructor ].
        - assert (Hne : todo <> []) by (intros ->; cbn [lseg] in H; lia).
          specialize (HL' Hne). subst last. destruct (exists_last Hne) as (c2 & [la li] & ->).
          rewrite lastaddr_snoc. pose proof H as Hx. apply lseg_app in Hx as (m & _ & Hx). cbn [lseg] in Hx. destruct Hx as (-> & Hla & nx2 & Hx & <-).
          unfold set_next. rewrite Hx. cbn [ent e_data e_size e_order].
          assert (Hala : la <> a) by (intros ->; apply HN1; rewrite addrs_app; apply in_or_app; right; left; reflexivity).
          eexists. exists (c2 ++ [(la, li)]). split; [ oklia | ].
          split; [ | conj; lia ].
          constructor; cbn [f_heap f_first f_last f_fresh]; auto.
          + eapply lseg_frame; [ | exact H ]. intros y Hy. rewrite upd_other by (intros ->; auto).
            unfold upd. destruct (Z.eqb_spec y la); [ subst; rewrite Hx; reflexivity | reflexivity ].
          + rewrite lastaddr_snoc. reflexivity.
          + intros y Hy. unfold upd in Hy. destruct (Z.eqb_spec y a); [ congruence | ]. destruct (Z.eqb_spec y la); [ subst; apply HFr; congruence | auto ].
          + intros y Hy. unfold upd in Hy. destruct (Z.eqb_spec y a); [ congruence | ].
            assert (Hy' : h y <> None) by (destruct (Z.eqb_spec y la); [ subst; congruence | auto ]).
            destruct (HD y Hy') as [E|E]; [ cbn in E; congruence | auto ]. }
      exact HX. }
    destruct (negb (known_read_flags r)); auto.
    apply orb_false_iff in EO as [EO EO3]. apply orb_false_iff in EO as [EO1 EO2]. rewrite EO2, EO3.
    specialize (HI ((ev ++ [Called (i_data i) (i_size i)]) ++ (if says_free r then dropped (i_data i) else []))).
    destruct (l_drain cb st' (items todo)) as [[[[st'' ret''] l''] ev''] | | | ]; cbn [bind]; auto.
    destruct HI as (b' & c' & E & G1 & G2 & G3 & G4). exists b', c'. rewrite E, zlen_cons, <- !app_assoc. cbn [app].
    split; [ oklia | ]. conj; lia.
Qed.

Lemma fifo_drain_ok : forall S (cb : S -> Z -> Z -> S * Z) st b l fuel,
  rep b l -> (length l < fuel)%nat -> zlen l < 4294967296 ->
  match l_drain cb st l with
  | Ok (st', ret, l', ev) => exists b', fifo_read_clear_forward_all fuel cb st b = Ok (st', ret, b', ev) /\ rep b' l'
  | Bug => fifo_read_clear_forward_all fuel cb st b = Bug
  | _ => False
  end.
Proof.
  intros S cb st b l fuel (c & <- & H & HC) Hf HZ. unfold fifo_read_clear_forward_all. rewrite HC, zlen_items in *.
  destruct (Z.eqb_spec (zlen c) 0) as [E|E].
  - assert (c = []) by (apply zlen_0; auto). subst. cbn. exists b. split; auto. exists []. auto.
  - assert (Hl : (length c < fuel)%nat) by (unfold items in Hf; rewrite map_length in Hf; auto).
    assert (HD : forall a, f_heap b a <> None -> In a (addrs c)).
    { intros a Ha. destruct (hd_dom _ _ _ H a Ha) as [|[]]; auto. }
    pose proof (forward_loop_ok S cb c fuel st (f_heap b) (zlen c) (f_fresh b) (f_last b) (f_first b) 0 [] (hd_seg _ _ _ H) (hd_nodup _ _ _ H) HD
                (hd_fresh _ _ _ H) (hd_pos _ _ _ H) (fun _ => hd_last _ _ _ H) Hl ltac:(lia) ltac:(lia)) as HS.
    destruct (l_drain cb st (items c)) as [[[[st'' ret] l'] ev'] | | | ]; auto.
    + destruct HS as (b' & c' & E1 & H1 & H2 & H3 & H4). rewrite E1. cbn [bind].
      pose proof (zlen_nonneg _ l'). rewrite H3, length_sub_ok by lia. cbn [bind app].
      eexists. split; [ reflexivity | ]. exists c'. split; auto. split; [ apply holds_count; auto | ]. cbn. lia.
    + rewrite HS. reflexivity.
Qed.

(** * Write answers *)
Lemma land_pow2 : forall r n, 0 <= n -> Z.land r (2 ^ n) = if Z.testbit r n then 2 ^ n else 0.
Proof.
  intros r n Hn. apply Z.bits_inj'. intros m Hm. rewrite Z.land_spec, Z.pow2_bits_eqb by auto.
  destruct (Z.eqb_spec n m) as [->|Hne]; [ rewrite andb_true_r | rewrite andb_false_r ].
  - destruct (Z.testbit r m); [ rewrite Z.pow2_bits_true; auto | rewrite Z.bits_0; auto ].
  - destruct (Z.testbit r n); [ rewrite Z.pow2_bits_false; auto | rewrite Z.bits_0; auto ].
Qed.
Lemma has_other_false : forall r f, has_other r f = false -> r = Z.land r f.
Proof.
  intros r f H. unfold has_other in H. apply negb_false_iff, Z.eqb_eq in H.
  apply Z.bits_inj'. intros m Hm. rewrite Z.land_spec.
  assert (X : Z.testbit (Z.land r (Z.lnot f)) m = false) by (rewrite H; apply Z.bits_0).
  rewrite Z.land_spec, Z.lnot_spec in X by auto. destruct (Z.testbit r m), (Z.testbit f m); auto.
Qed.
Lemma has_other_true : forall r f, r = Z.land r f -> has_other r f = false.
Proof.
  intros r f H. unfold has_other. apply negb_false_iff, Z.eqb_eq. rewrite H, <- Z.land_assoc, Z.land_lnot_diag. apply Z.land_0_r.
Qed.
Lemma multiples_of_1024 : forall r, has_other r 7168 = false -> In r [0; 1024; 2048; 3072; 4096; 5120; 6144; 7168].
Proof.
  intros r H. apply has_other_false in H. rewrite H.
  change 7168 with (Z.lor (2 ^ 10) (Z.lor (2 ^ 11) (2 ^ 12))) at 1. rewrite !Z.land_lor_distr_r, !land_pow2 by lia.
  destruct (Z.testbit r 10), (Z.testbit r 11), (Z.testbit r 12); cbn; tauto.
Qed.
Lemma has_other_mono : forall r f g, Z.land f g = f -> has_other r g = true -> has_other r f = true.
Proof.
  intros r f g HS H. destruct (has_other r f) eqn:E; auto. apply has_other_false in E.
  rewrite has_other_true in H; [ discriminate | ]. rewrite E, <- Z.land_assoc, HS. reflexivity.
Qed.

Lemma write_check_ok : forall r, write_return_check r =
  match write_verdict r with
  | WError => Ok (1, false, false, false)
  | WDrop g => Ok (0, false, g, true)
  | WAppend g => Ok (0, false, g, false)
  | WOrdered g => Ok (0, true, g, false)
  | WBug => Bug
  end.
Proof.
  intros r. destruct (has_other r 7168) eqn:E.
  - assert (HV : r <> 1 -> write_verdict r = WBug).
    { intros H1. unfold write_verdict.
      repeat match goal with |- context [r =? ?k] => destruct (Z.eqb_spec r k); [ exfalso; subst r; first [ discriminate E | apply H1; reflexivity ] | ] end.
      reflexivity. }
    destruct (Z.eqb_spec r 1) as [->|H1]; [ reflexivity | ]. rewrite (HV H1).
    unfold write_return_check. destruct (Z.eqb_spec r 0) as [->|H0]; [ discriminate E | ].
    cbv zeta. change (Z.lor (Z.lor fl_again fl_ordered) fl_drop) with 7168. change (Z.lor fl_drop fl_again) with 3072. rewrite E, !andb_true_r.
    destruct (has r fl_ordered); auto. destruct (has r fl_again); auto.
    destruct (has r fl_global_err) eqn:EG.
    + destruct (has_other r fl_global_err) eqn:EO; auto. exfalso.
      apply has_other_false in EO. change fl_global_err with (2 ^ 0) in EO. rewrite land_pow2 in EO by lia.
      destruct (Z.testbit r 0); cbn in EO; lia.
    + rewrite (has_other_mono r 3072 7168 eq_refl E). destruct (has r fl_drop); auto.
  - apply multiples_of_1024 in E. cbn [In] in E.
    decompose [or] E; try contradiction; subst r; reflexivity.
Qed.

(** * Putting an entry in *)
Lemma insert_ok : forall b c1 c2 i h' n fr, holds b (c1 ++ c2) [] -> fr = f_fresh b ->
  h' fr = Some (ent i (headaddr c2)) ->
  (forall c p ip, c1 = c ++ [(p, ip)] -> h' p = Some (ent ip fr)) ->
  (forall y, y <> fr -> c1 = [] \/ y <> lastaddr c1 -> h' y = f_heap b y) ->
  holds (mkF (headaddr (c1 ++ (fr, i) :: c2)) (lastaddr (c1 ++ (fr, i) :: c2)) n h' (fr + 1)) (c1 ++ (fr, i) :: c2) [].
Proof.
  intros b c1 c2 i h' n fr H -> Hn Hl Ho. set (fr := f_fresh b) in *.
  pose proof (hd_seg _ _ _ H) as HS. pose proof (hd_nodup _ _ _ H) as HN. pose proof (hd_pos _ _ _ H) as HP. fold fr in HP.
  assert (HFr : forall y, In y (addrs (c1 ++ c2)) -> y <> fr).
  { intros y Hy ->. destruct (lseg_pos _ _ _ _ _ HS Hy) as [_ Hx]. apply (hd_fresh _ _ _ H) in Hx. unfold fr in Hx. lia. }
  rewrite addrs_app in HN, HFr. pose proof HN as HN'. apply nd_app in HN' as (N1 & N2 & N3).
  apply lseg_app in HS as (m & HS1 & HS2). pose proof (lseg_head _ _ _ HS2) as Hm. subst m.
  assert (HL2 : lseg h' (headaddr c2) c2 0).
  { eapply lseg_frame; [ | exact HS2 ]. intros y Hy. apply Ho.
    - apply HFr, in_or_app; auto.
    - assert (E : c1 = [] \/ c1 <> []) by (destruct c1; [ left | right ]; congruence). destruct E as [E|E]; auto.
      right. intros ->. apply (N3 _ (lastaddr_in _ E) Hy). }
  constructor; cbn [f_heap f_first f_last f_fresh].
  - apply lseg_app. exists fr. split.
    + assert (E : c1 = [] \/ c1 <> []) by (destruct c1; [ left | right ]; congruence). destruct E as [->|E]; [ reflexivity | ].
      destruct (exists_last E) as (c & [p ip] & ->).
      apply lseg_app in HS1 as (m & HS1 & HS3). cbn [lseg] in HS3. destruct HS3 as (-> & Hp & nx & HX & HNX).
      rewrite lastaddr_snoc in Ho. rewrite addrs_app in N1. apply NoDup_remove_2 in N1. rewrite app_nil_r in N1.
      apply lseg_app. exists p. split.
      * replace (headaddr ((c ++ [(p, ip)]) ++ (fr, i) :: c2)) with (f_first b).
        2: { rewrite (holds_head _ _ _ H). destruct c as [|[]]; reflexivity. }
        eapply lseg_frame; [ | exact HS1 ]. intros y Hy. apply Ho.
        -- apply HFr. rewrite addrs_app. apply in_or_app. left. apply in_or_app. auto.
        -- right. intros ->. auto.
      * cbn [lseg]. split; auto. split; auto. exists fr. split; auto. apply (Hl c). reflexivity.
    + cbn [lseg]. split; auto. split; [ lia | ]. exists (headaddr c2). auto.
  - reflexivity.
  - rewrite addrs_app. cbn [addrs map fst]. fold (addrs c2). apply nd_app. split; auto. split.
    + constructor; auto. intros Hi. apply (HFr fr); auto. apply in_or_app. auto.
    + intros y Hy [Hi|Hi]; [ | apply (N3 y); auto ]. apply (HFr y); auto. apply in_or_app. auto.
  - intros y Hy. destruct (Z.eq_dec y fr) as [->|Hne]; [ lia | ].
    assert (E : c1 = [] \/ c1 <> []) by (destruct c1; [ left | right ]; congruence).
    assert (HX : (c1 = [] \/ y <> lastaddr c1) \/ In y (addrs (c1 ++ c2))).
    { destruct E as [E|E]; auto. destruct (Z.eq_dec y (lastaddr c1)) as [->|E2]; auto. right. rewrite addrs_app. apply in_or_app. left. apply lastaddr_in. auto. }
    destruct HX as [HX|HX].
    + rewrite Ho in Hy by auto. apply (hd_fresh _ _ _ H) in Hy. unfold fr. lia.
    + destruct (lseg_pos _ _ _ _ _ (hd_seg _ _ _ H) HX) as [_ Hx]. apply (hd_fresh _ _ _ H) in Hx. unfold fr. lia.
  - intros y Hy. left. rewrite addrs_app. cbn [addrs map fst]. fold (addrs c2). apply in_or_app.
    destruct (Z.eq_dec y fr) as [->|Hne]; [ right; left; reflexivity | ].
    assert (E : c1 = [] \/ c1 <> []) by (destruct c1; [ left | right ]; congruence).
    assert (HX : (c1 = [] \/ y <> lastaddr c1) \/ In y (addrs c1)).
    { destruct E as [E|E]; auto. destruct (Z.eq_dec y (lastaddr c1)) as [->|E2]; auto. right. apply lastaddr_in. auto. }
    destruct HX as [HX|HX]; auto.
    rewrite Ho in Hy by auto. destruct (hd_dom _ _ _ H y Hy) as [Hi|[]]. rewrite addrs_app in Hi. apply in_app_or in Hi as [Hi|Hi]; auto.
    right. right. auto.
  - intros y [].
  - lia.
Qed.

Lemma order_walk_ok : forall todo fuel h pre p order x,
  lseg h p todo 0 -> (length todo < fuel)%nat -> order = i_order x ->
  exists d1 d2, todo = d1 ++ d2 /\ order_walk fuel h p (lastaddr pre) order = Ok (headaddr d2, lastaddr (pre ++ d1)) /\
    insert_order x (items todo) = items d1 ++ x :: items d2.
Proof.
  induction todo as [|[a i] todo IH]; intros fuel h pre p order x H Hf ->.
  - destruct fuel; [ cbn in Hf; lia | ]. cbn [lseg] in H. subst p. exists [], []. cbn. rewrite app_nil_r. auto.
  - destruct fuel as [|fuel]; [ cbn in Hf; lia | ].
    destruct H as (-> & Ha & nx & Hat & H). cbn [order_walk]. destruct (Z.eqb_spec a 0); [ lia | ].
    rewrite Hat. cbn [ent e_order e_next items map snd insert_order]. fold (items todo).
    destruct (i_order i <? i_order x).
    + cbn [length] in Hf. destruct (IH fuel h (pre ++ [(a, i)]) nx (i_order x) x H ltac:(lia) eq_refl) as (d1 & d2 & E1 & E2 & E3).
      rewrite lastaddr_snoc, <- app_assoc in E2. exists ((a, i) :: d1), d2. rewrite E2, E3, E1. auto.
    + exists [], ((a, i) :: todo). rewrite app_nil_r. auto.
Qed.

Lemma headaddr_app : forall c1 c2, headaddr (c1 ++ c2) = if match c1 with [] => true | _ => false end then headaddr c2 else headaddr c1.
Proof. intros [|[a i] c1] c2; reflexivity. Qed.

Lemma nonempty_or : forall A (l : list A), l = [] \/ l <> [].
Proof. destruct l; [ left | right ]; congruence. Qed.

Lemma holds_last_entry : forall b c, holds b c [] -> c <> [] -> exists c0 p ip nx, c = c0 ++ [(p, ip)] /\ f_last b = p /\ 0 < p /\ f_heap b p = Some (ent ip nx) /\ p <> f_fresh b.
Proof.
  intros b c H Hne. destruct (exists_last Hne) as (c0 & [p ip] & ->). exists c0, p, ip.
  destruct (holds_at b c0 p ip [] _ H) as [Hp HX]. exists (headaddr []). split; auto. split; [ rewrite (hd_last _ _ _ H); apply lastaddr_snoc | ].
  split; auto. split; auto. assert (Hx : f_heap b p <> None) by congruence. apply (hd_fresh _ _ _ H) in Hx. lia.
Qed.

Lemma update_pointers_ok : forall b c i ordered fuel, holds b c [] -> (length c < fuel)%nat ->
  let fr := f_fresh b in
  exists b' c', update_pointers fuel (mkF (f_first b) (f_last b) (f_count b) (upd (f_heap b) fr (Some (ent i 0))) (fr + 1)) fr (i_order i) ordered = Ok b' /\
    holds b' c' [] /\ f_count b' = f_count b /\
    items c' = if ordered then place_ordered i (items c) else items c ++ [i].
Proof.
  intros b c i ordered fuel H Hf fr. set (h1 := upd (f_heap b) fr (Some (ent i 0))).
  pose proof (hd_pos _ _ _ H) as HPos. fold fr in HPos.
  assert (Hfr : h1 fr = Some (ent i 0)) by apply upd_same.
  assert (HD : forall y, In y (addrs c) -> y <> fr).
  { intros y Hy ->. destruct (lseg_pos _ _ _ _ _ (hd_seg _ _ _ H) Hy) as [_ Hx]. apply (hd_fresh _ _ _ H) in Hx. unfold fr in Hx. lia. }
  (* putting it at the end *)
  assert (HEnd : c <> [] -> exists b', link_end (mkF (f_first b) (f_last b) (f_count b) h1 (fr + 1)) fr = Ok b' /\ holds b' (c ++ [(fr, i)]) [] /\ f_count b' = f_count b).
  { intros Hne. destruct (holds_last_entry _ _ H Hne) as (c0 & p & ip & nx & -> & HL & Hp & HX & Hpf). fold fr in Hpf.
    unfold link_end. cbn [f_heap f_last f_first f_count f_fresh]. rewrite HL. unfold set_next at 1. unfold h1 at 1. rewrite upd_other, HX by auto.
    unfold set_next. rewrite upd_other, Hfr by auto. cbn [ent e_data e_size e_order]. eexists. split; [ reflexivity | ]. split; [ | reflexivity ].
    assert (H' : holds b ((c0 ++ [(p, ip)]) ++ []) []) by (rewrite app_nil_r; auto).
    match goal with |- holds (mkF _ _ ?n ?h _) _ _ => pose proof (insert_ok b (c0 ++ [(p, ip)]) [] i h n fr H' eq_refl) as HI end.
    rewrite (lastaddr_snoc (c0 ++ [(p, ip)]) fr i) in HI.
    replace (headaddr ((c0 ++ [(p, ip)]) ++ [(fr, i)])) with (f_first b) in HI.
    2: { rewrite (holds_head _ _ _ H). destruct c0 as [|[]]; reflexivity. }
    apply HI.
    - rewrite upd_same. reflexivity.
    - intros c2 p2 ip2 E. apply app_inj_tail in E as [<- E]. injection E as <- <-. rewrite upd_other by auto. apply upd_same.
    - rewrite lastaddr_snoc. intros y Hy [E|E]; [ destruct c0; discriminate | ].
      rewrite upd_other by auto. rewrite upd_other by auto. apply upd_other. auto. }
  (* putting it before the last *)
  assert (HMid : forall c1 c2, c = c1 ++ c2 -> c2 <> [] ->
    exists b', (if negb (lastaddr c1 =? 0)
       then match set_next h1 (lastaddr c1) fr with
            | None => Ub
            | Some h => match set_next h fr (headaddr c2) with
                        | None => Ub
                        | Some h' => Ok (mkF (f_first b) (f_last b) (f_count b) h' (fr + 1))
                        end
            end
       else match set_next h1 fr (f_first b) with
            | None => Ub
            | Some h => Ok (mkF fr (f_last b) (f_count b) h (fr + 1))
            end) = Ok b' /\ holds b' (c1 ++ (fr, i) :: c2) [] /\ f_count b' = f_count b).
  { intros c1 c2 E Hne. rewrite E in H.
    assert (HLL : f_last b = lastaddr (c1 ++ (fr, i) :: c2)).
    { rewrite (hd_last _ _ _ H). change ((fr, i) :: c2) with ([(fr, i)] ++ c2). rewrite !lastaddr_app; auto. intros X; apply app_eq_nil in X; tauto. }
    destruct (nonempty_or _ c1) as [->|Hne1].
    - change (lastaddr []) with 0. cbn [Z.eqb negb]. unfold set_next. rewrite Hfr. cbn [ent e_data e_size e_order].
      eexists. split; [ reflexivity | ]. split; [ | reflexivity ].
      match goal with |- holds (mkF _ _ ?n ?h _) _ _ => pose proof (insert_ok b [] c2 i h n fr H eq_refl) as HI end.
      rewrite HLL. apply HI.
      + rewrite upd_same. rewrite (holds_head _ _ _ H). reflexivity.
      + intros cc p2 ip2 E2. destruct cc; discriminate.
      + intros y Hy _. rewrite upd_other by auto. apply upd_other. auto.
    - destruct (exists_last Hne1) as (c0 & [p ip] & ->). rewrite lastaddr_snoc.
      assert (Hin : In p (addrs c)) by (rewrite E, !addrs_app; apply in_or_app; left; apply in_or_app; right; left; reflexivity).
      pose proof H as H2. rewrite <- app_assoc in H2. cbn [app] in H2. apply holds_at in H2 as [Hp HX].
      destruct (Z.eqb_spec p 0); [ lia | ]. cbn [negb].
      unfold set_next at 1. unfold h1 at 1. rewrite upd_other, HX by auto.
      unfold set_next. rewrite upd_other, Hfr by (apply not_eq_sym; auto). cbn [ent e_data e_size e_order]. eexists. split; [ reflexivity | ]. split; [ | reflexivity ].
      match goal with |- holds (mkF _ _ ?n ?h _) _ _ => pose proof (insert_ok b (c0 ++ [(p, ip)]) c2 i h n fr H eq_refl) as HI end.
      rewrite HLL. replace (headaddr ((c0 ++ [(p, ip)]) ++ (fr, i) :: c2)) with (f_first b) in HI.
      2: { rewrite (holds_head _ _ _ H). destruct c0 as [|[]]; reflexivity. }
      apply HI.
      + rewrite upd_same. reflexivity.
      + intros cc p2 ip2 E2. apply app_inj_tail in E2 as [<- E2]. injection E2 as <- <-. rewrite upd_other by auto. apply upd_same.
      + rewrite lastaddr_snoc. intros y Hy [E2|E2]; [ destruct c0; discriminate | ].
        rewrite upd_other by auto. rewrite upd_other by auto. apply upd_other. auto. }
  unfold update_pointers. cbn [f_heap f_last f_first f_count f_fresh]. fold h1.
  destruct (nonempty_or _ c) as [->|Hne].
  - rewrite (holds_head _ _ _ H). cbn [headaddr Z.eqb]. unfold set_next. rewrite Hfr. cbn [ent e_data e_size e_order].
    eexists. exists [(fr, i)]. split; [ reflexivity | ]. split; [ | split; [ reflexivity | destruct ordered; reflexivity ] ].
    match goal with |- holds (mkF _ _ ?n ?h _) _ _ => pose proof (insert_ok b [] [] i h n fr H eq_refl) as HI end. apply HI.
    + rewrite upd_same. reflexivity.
    + intros cc p2 ip2 E2. destruct cc; discriminate.
    + intros y Hy _. rewrite upd_other by auto. apply upd_other. auto.
  - assert (HF0 : f_first b <> 0).
    { rewrite (holds_head _ _ _ H). intros E. apply Hne. apply (headaddr_cases b [] c [] H E). }
    destruct (Z.eqb_spec (f_first b) 0); [ tauto | ].
    destruct ordered.
    + destruct (holds_last_entry _ _ H Hne) as (c0 & p & ip & nx & Ec & HL & Hp & HX & Hpf). fold fr in Hpf.
      rewrite HL. unfold h1 at 1. rewrite upd_other, HX by auto. cbn [ent e_order].
      assert (HPl : place_ordered i (items c) = if i_order ip <? i_order i then items c ++ [i] else insert_order i (items c)).
      { unfold place_ordered. rewrite Ec, items_app. cbn [items map snd]. rewrite rev_app_distr. reflexivity. }
      rewrite HPl. destruct (i_order ip <? i_order i) eqn:EO.
      { rewrite <- HL. destruct (HEnd Hne) as (b' & E1 & E2 & E3). exists b', (c ++ [(fr, i)]). rewrite items_app. auto. }
      assert (HW : lseg h1 (f_first b) c 0).
      { eapply lseg_frame; [ | apply (hd_seg _ _ _ H) ]. intros y Hy. apply upd_other. auto. }
      destruct (order_walk_ok c fuel h1 [] (f_first b) (i_order i) i HW Hf eq_refl) as (d1 & d2 & E1 & E2 & E3).
      change (lastaddr []) with 0 in E2. rewrite E2. cbn [bind app]. rewrite E3.
      destruct (nonempty_or _ d2) as [->|Hd].
      * rewrite app_nil_r in E1. subst d1. cbn [headaddr Z.eqb]. rewrite <- HL. destruct (HEnd Hne) as (b' & F1 & F2 & F3). exists b', (c ++ [(fr, i)]).
        rewrite items_app. auto.
      * destruct (Z.eqb_spec (headaddr d2) 0) as [E0|E0]; [ exfalso; apply Hd; rewrite E1 in H; apply (headaddr_cases b d1 d2 [] H E0) | ].
        destruct (HMid d1 d2 E1 Hd) as (b' & F1 & F2 & F3). rewrite <- HL. exists b', (d1 ++ (fr, i) :: d2).
        rewrite items_app. auto.
    + destruct (HEnd Hne) as (b' & E1 & E2 & E3). exists b', (c ++ [(fr, i)]). rewrite items_app. auto.
Qed.

Lemma holds_fresh : forall b c, holds b c [] -> holds (mkF (f_first b) (f_last b) (f_count b) (f_heap b) (f_fresh b + 1)) c [].
Proof.
  intros b c H. destruct H. constructor; cbn; auto; [ | lia ]. intros a Ha. apply hd_fresh0 in Ha. lia.
Qed.

Lemma write_round_ok : forall fuel allow a b l, rep b l -> (length l < fuel)%nat -> zlen l + 1 < 4294967296 ->
  let x := mkI (w_data a) (w_size a) (w_order a) in
  match write_verdict (w_ret a) with
  | WError => exists b', write_round fuel allow a b = Ok (1, false, b', []) /\ rep b' l
  | WDrop g => exists b', write_round fuel allow a b = Ok (0, g, b', []) /\ rep b' l
  | WAppend g => if w_data a =? 0 then write_round fuel allow a b = Bug
                 else exists b', write_round fuel allow a b = Ok (0, g, b', [Incref (w_data a)]) /\ rep b' (l ++ [x])
  | WOrdered g => if w_data a =? 0 then write_round fuel allow a b = Bug
                  else exists b', write_round fuel allow a b = Ok (0, g, b', [Incref (w_data a)]) /\
                                  rep b' (if allow then place_ordered x l else l ++ [x])
  | WBug => write_round fuel allow a b = Bug
  end.
Proof.
  intros fuel allow a b l (c & <- & H & HC) Hf HZ x. unfold write_round. rewrite write_check_ok.
  assert (HK : rep (mkF (f_first b) (f_last b) (f_count b) (f_heap b) (f_fresh b + 1)) (items c)).
  { exists c. split; auto. split; [ apply holds_fresh; auto | auto ]. }
  assert (Hl : (length c < fuel)%nat) by (unfold items in Hf; rewrite map_length in Hf; auto).
  pose proof (zlen_nonneg _ (items c)).
  assert (HU : forall ordered, exists b2, update_pointers fuel (mkF (f_first b) (f_last b) (f_count b)
      (upd (f_heap b) (f_fresh b) (Some (mkE (w_data a) (w_size a) (w_order a) 0))) (f_fresh b + 1)) (f_fresh b) (w_order a) ordered = Ok b2 /\
      length_inc_err (f_count b2) = (zlen (items c) + 1, false) /\
      rep (mkF (f_first b2) (f_last b2) (zlen (items c) + 1) (f_heap b2) (f_fresh b2)) (if ordered then place_ordered x (items c) else items c ++ [x])).
  { intros ordered. destruct (update_pointers_ok b c x ordered fuel H Hl) as (b2 & c2 & E & H2 & HC2 & HI).
    exists b2. split; [ exact E | ]. rewrite HC2, HC. split.
    - unfold length_inc_err. rewrite u32_small by lia. f_equal. apply Z.eqb_neq. lia.
    - exists c2. split; auto. split; [ apply holds_count; auto | ]. cbn [f_count].
      destruct ordered; [ | rewrite zlen_app; cbn; auto ].
      assert (HLen : forall y, zlen (insert_order x y) = zlen y + 1).
      { induction y as [|z y IH]; [ reflexivity | ]. cbn [insert_order]. destruct (i_order z <? i_order x); rewrite !zlen_cons in *; lia. }
      unfold place_ordered. destruct (rev (items c)) as [|z zs] eqn:ER; [ | destruct (i_order z <? i_order x); [ rewrite zlen_app; reflexivity | rewrite HLen; reflexivity ] ].
      apply (f_equal (@rev item)) in ER. rewrite rev_involutive in ER. rewrite ER. reflexivity. }
  destruct (write_verdict (w_ret a)) as [|g|g|g|]; cbn [bind Z.eqb negb orb andb].
  - eauto.
  - eauto.
  - destruct (w_data a =? 0); auto. destruct (HU false) as (b2 & E1 & E2 & E3). rewrite E1. cbn [bind]. rewrite E2. eauto.
  - destruct (w_data a =? 0); auto. destruct (HU allow) as (b2 & E1 & E2 & E3). rewrite E1. cbn [bind]. rewrite E2. eauto.
  - auto.
Qed.

Lemma place_ordered_len : forall x l, zlen (place_ordered x l) = zlen l + 1.
Proof.
  intros x l.
  assert (HLen : forall y, zlen (insert_order x y) = zlen y + 1).
  { induction y as [|z y IH]; [ reflexivity | ]. cbn [insert_order]. destruct (i_order z <? i_order x); rewrite !zlen_cons in *; lia. }
  unfold place_ordered. destruct (rev l) as [|z zs] eqn:ER; [ | destruct (i_order z <? i_order x); [ rewrite zlen_app; reflexivity | apply HLen ] ].
  apply (f_equal (@rev item)) in ER. rewrite rev_involutive in ER. rewrite ER. reflexivity.
Qed.

Lemma zlen_length : forall A (l : list A), zlen l = Z.of_nat (length l).
Proof. reflexivity. Qed.

Lemma fifo_write_ok : forall script fuel b l, rep b l -> (length l + length script < fuel)%nat -> zlen l + zlen script < 4294967296 ->
  match l_write script l with
  | Ok (ret, l', ev) => exists b', fifo_write fuel script b = Ok (ret, b', ev) /\ rep b' l'
  | Bug => fifo_write fuel script b = Bug
  | Ub => False
  | Loop => fifo_write fuel script b = Loop
  end.
Proof.
  induction script as [|a script IH]; intros fuel b l H Hf HZ; [ reflexivity | ].
  rewrite zlen_cons in HZ. pose proof (zlen_nonneg _ script). cbn [length] in Hf.
  pose proof (write_round_ok fuel true a b l H ltac:(lia) ltac:(lia)) as HR. cbn zeta in HR.
  cbn [l_write fifo_write]. 
  assert (HN : forall (g : bool) l' b1 (ev : list event), rep b1 l' -> zlen l' <= zlen l + 1 ->
    match (if g then bind (l_write script l') (fun '(ret, l'', ev') => Ok (ret, l'', ev ++ ev')) else Ok (0, l', ev)) with
    | Ok (ret, l'', ev') => exists b', (if g then bind (fifo_write fuel script b1) (fun '(ret', b'', ev') => Ok (ret', b'', ev ++ ev')) else Ok (0, b1, ev)) = Ok (ret, b', ev') /\ rep b' l''
    | Bug => (if g then bind (fifo_write fuel script b1) (fun '(ret', b'', ev') => Ok (ret', b'', ev ++ ev')) else Ok (0, b1, ev)) = Bug
    | Ub => False
    | Loop => (if g then bind (fifo_write fuel script b1) (fun '(ret', b'', ev') => Ok (ret', b'', ev ++ ev')) else Ok (0, b1, ev)) = Loop
    end).
  { intros g l' b1 ev H1 HL. destruct g; [ | eauto ]. assert (Hlen : (length l' <= length l + 1)%nat) by (unfold zlen in HL; lia).
    specialize (IH fuel b1 l' H1 ltac:(lia) ltac:(lia)).
    destruct (l_write script l') as [[[ret l''] ev'] | | | ]; cbn [bind]; auto.
    - destruct IH as (b' & -> & HB). cbn [bind]. eauto.
    - rewrite IH. reflexivity.
    - rewrite IH. reflexivity. }
  destruct (write_verdict (w_ret a)) as [|g|g|g|].
  - destruct HR as (b' & -> & HB). cbn [bind]. eauto.
  - destruct HR as (b' & -> & HB). cbn [bind]. apply HN; auto. lia.
  - destruct (w_data a =? 0); [ rewrite HR; reflexivity | ]. destruct HR as (b' & -> & HB). cbn [bind]. apply HN; auto. rewrite zlen_app. cbn. lia.
  - destruct (w_data a =? 0); [ rewrite HR; reflexivity | ]. destruct HR as (b' & -> & HB). cbn [bind]. apply HN; auto. rewrite place_ordered_len. lia.
  - rewrite HR. reflexivity.
Qed.

Lemma call_again_ok : forall script fuel b l, rep b l -> (length l + length script < fuel)%nat -> zlen l + zlen script < 4294967296 ->
  match l_append script l with
  | Ok (ret, l', ev) => exists b', call_again fuel script b = Ok (ret, b', ev) /\ rep b' l'
  | Bug => call_again fuel script b = Bug
  | Ub => False
  | Loop => call_again fuel script b = Loop
  end.
Proof.
  induction script as [|a script IH]; intros fuel b l H Hf HZ; [ reflexivity | ].
  rewrite zlen_cons in HZ. pose proof (zlen_nonneg _ script). cbn [length] in Hf.
  pose proof (write_round_ok fuel false a b l H ltac:(lia) ltac:(lia)) as HR. cbn zeta in HR.
  cbn [l_append call_again]. 
  assert (HN : forall (g : bool) l' b1 (ev : list event), rep b1 l' -> zlen l' <= zlen l + 1 ->
    match (if g then bind (l_append script l') (fun '(ret, l'', ev') => Ok (ret, l'', ev ++ ev')) else Ok (0, l', ev)) with
    | Ok (ret, l'', ev') => exists b', (if g && (0 =? 0) then bind (call_again fuel script b1) (fun '(ret', b'', ev') => Ok (ret', b'', ev ++ ev')) else Ok (0, b1, ev)) = Ok (ret, b', ev') /\ rep b' l''
    | Bug => (if g && (0 =? 0) then bind (call_again fuel script b1) (fun '(ret', b'', ev') => Ok (ret', b'', ev ++ ev')) else Ok (0, b1, ev)) = Bug
    | Ub => False
    | Loop => (if g && (0 =? 0) then bind (call_again fuel script b1) (fun '(ret', b'', ev') => Ok (ret', b'', ev ++ ev')) else Ok (0, b1, ev)) = Loop
    end).
  { intros g l' b1 ev H1 HL. destruct g; cbn [andb Z.eqb]; [ | eauto ]. assert (Hlen : (length l' <= length l + 1)%nat) by (unfold zlen in HL; lia).
    specialize (IH fuel b1 l' H1 ltac:(lia) ltac:(lia)).
    destruct (l_append script l') as [[[ret l''] ev'] | | | ]; cbn [bind]; auto.
    - destruct IH as (b' & -> & HB). cbn [bind]. eauto.
    - rewrite IH. reflexivity.
    - rewrite IH. reflexivity. }
  destruct (write_verdict (w_ret a)) as [|g|g|g|].
  - destruct HR as (b' & -> & HB). cbn [bind andb]. eauto.
  - destruct HR as (b' & -> & HB). cbn [bind]. apply HN; auto. lia.
  - destruct (w_data a =? 0); [ rewrite HR; reflexivity | ]. destruct HR as (b' & -> & HB). cbn [bind]. apply HN; auto. rewrite zlen_app. cbn. lia.
  - destruct (w_data a =? 0); [ rewrite HR; reflexivity | ]. destruct HR as (b' & -> & HB). cbn [bind]. apply HN; auto. rewrite zlen_app. cbn. lia.
  - rewrite HR. reflexivity.
Qed.

(** * Search and replace *)
Lemma replace_item_ok : forall b pre a i y todo, holds b (pre ++ (a, i) :: todo) [] ->
  holds (mkF (f_first b) (f_last b) (f_count b) (upd (f_heap b) a (Some (ent y (headaddr todo)))) (f_fresh b)) (pre ++ (a, y) :: todo) [].
Proof.
  intros b pre a i y todo H. destruct (holds_at _ _ _ _ _ _ H) as [Ha Hat].
  assert (HA : addrs (pre ++ (a, y) :: todo) = addrs (pre ++ (a, i) :: todo)) by (rewrite !addrs_app; reflexivity).
  pose proof (hd_nodup _ _ _ H) as HN. rewrite addrs_app in HN. cbn [addrs map fst] in HN. fold (addrs todo) in HN.
  pose proof (NoDup_remove_2 _ _ _ HN) as HN2.
  constructor; cbn [f_heap f_first f_last f_fresh].
  - pose proof (hd_seg _ _ _ H) as HS. apply lseg_app in HS as (m & H1 & H2). cbn [lseg] in H2. destruct H2 as (-> & _ & nx & H2 & H3).
    apply lseg_app. exists a. split.
    + eapply lseg_frame; [ | exact H1 ]. intros z Hz. apply upd_other. intros ->. apply HN2, in_or_app. auto.
    + cbn [lseg]. split; auto. split; auto. exists (headaddr todo). split; [ apply upd_same | ].
      rewrite <- (lseg_head _ _ _ H3). eapply lseg_frame; [ | exact H3 ]. intros z Hz. apply upd_other. intros ->. apply HN2, in_or_app. auto.
  - rewrite (hd_last _ _ _ H). rewrite !lastaddr_app by discriminate. destruct (nonempty_or _ todo) as [->|Hne]; [ reflexivity | ].
    change ((a, i) :: todo) with ([(a, i)] ++ todo). change ((a, y) :: todo) with ([(a, y)] ++ todo). rewrite !lastaddr_app; auto.
  - rewrite HA. apply (hd_nodup _ _ _ H).
  - intros z Hz. unfold upd in Hz. destruct (Z.eqb_spec z a); [ subst; apply (hd_fresh _ _ _ H); congruence | apply (hd_fresh _ _ _ H); auto ].
  - intros z Hz. rewrite HA. unfold upd in Hz. destruct (Z.eqb_spec z a); [ subst; apply (hd_dom _ _ _ H); congruence | apply (hd_dom _ _ _ H); auto ].
  - intros z [].
  - apply (hd_pos _ _ _ H).
Qed.

Definition gives_after_keep (l : list Z) : Prop :=
  forall between b after, l = between ++ b :: after -> says_give b = true -> In 0 between.

Lemma gak_tail : forall a l, gives_after_keep (a :: l) -> a <> 0 -> gives_after_keep l /\ says_give a = false.
Proof.
  intros a l H Ha. split.
  - intros between b after -> HG. destruct (H (a :: between) b after eq_refl HG) as [E|E]; [ congruence | auto ].
  - destruct (says_give a) eqn:E; auto. destruct (H [] a l eq_refl E).
Qed.
Lemma ngar_tail : forall a l, no_give_after_replace (a :: l) -> no_give_after_replace l /\ (says_replace a = true -> gives_after_keep l).
Proof.
  intros a l H. split.
  - intros before x between b after -> H1 H2. apply (H (a :: before) x between b after); auto.
  - intros HR between b after -> HG. apply (H [] a between b after); auto.
Qed.

Lemma replace_loop_ok : forall S (cb : S -> Z -> Z -> Z -> S * wanswer) todo fuel st b pre prev ev,
  holds b (pre ++ todo) [] -> f_count b = zlen (pre ++ todo) -> f_count b + 1 < 4294967296 -> (length todo < fuel)%nat ->
  no_give_after_replace (answers cb st (items todo)) ->
  prev = lastaddr pre \/ gives_after_keep (answers cb st (items todo)) ->
  match l_replace cb st (items todo) with
  | Ok (st', ret, l', ev') =>
      exists b' c', replace_loop fuel cb st b (headaddr todo) prev ev = Ok (st', ret, b', ev ++ ev') /\
        holds b' (pre ++ c') [] /\ items c' = l' /\ f_count b' = zlen (pre ++ c') /\ zlen c' <= zlen todo
  | Bug => replace_loop fuel cb st b (headaddr todo) prev ev = Bug
  | _ => False
  end.
Proof.
  induction todo as [|[a i] todo IH]; intros fuel st b pre prev ev H HC HZ Hf HG HP.
  - destruct fuel; [ cbn in Hf; lia | ]. cbn [items map l_replace headaddr replace_loop Z.eqb].
    exists b, []. rewrite !app_nil_r. rewrite app_nil_r in H. rewrite app_nil_r in HC. conj; lia.
  - destruct fuel as [|fuel]; [ cbn in Hf; lia | ].
    destruct (holds_at _ _ _ _ _ _ H) as [Ha Hat].
    cbn [items map snd l_replace headaddr replace_loop answers] in *. fold (items todo) in *.
    destruct (Z.eqb_spec a 0); [ lia | ]. rewrite Hat. cbn [ent e_data e_size e_next e_order].
    destruct (cb st (i_data i) (i_size i) (i_order i)) as [st' w].
    rewrite has_lor, !has_error, !has_give, !has_stop, !has_free, !has_replace.
    apply ngar_tail in HG as [HG1 HG2].
    rewrite zlen_app, zlen_cons in HC. pose proof (zlen_nonneg _ todo) as HZt. pose proof (zlen_nonneg _ pre) as HZp.
    assert (Hsh : forall z, pre ++ (a, z) :: todo = (pre ++ [(a, z)]) ++ todo) by (intros; rewrite <- app_assoc; reflexivity).
    cbn [length] in Hf.
    destruct (Z.eqb_spec (w_ret w) 0) as [E0|E0].
    { pose proof H as H'. rewrite Hsh in H'.
      specialize (IH fuel st' b (pre ++ [(a, i)]) a (ev ++ [Called (i_data i) (i_size i)]) H').
      rewrite !zlen_app, zlen_cons, zlen_nil in IH.
      specialize (IH ltac:(lia) ltac:(lia) ltac:(lia) HG1 (or_introl (eq_sym (lastaddr_snoc pre a i)))).
      destruct (l_replace cb st' (items todo)) as [[[[st'' ret] l'] ev'] | | | ]; cbn [bind]; auto.
      destruct IH as (b' & c' & E & H1 & H2 & H3 & H4). exists b', ((a, i) :: c').
      rewrite <- app_assoc in H1, H3. cbn [app] in H1, H3. rewrite E, <- app_assoc. cbn [app].
      split; [ reflexivity | ]. split; [ exact H1 | ]. split; [ rewrite <- H2; reflexivity | ]. split; [ exact H3 | ].
      rewrite !zlen_cons. lia. }
    destruct (says_error (w_ret w)).
    { exists b, ((a, i) :: todo). conj; [ rewrite zlen_app, zlen_cons; lia | lia ]. }
    assert (HPc : prev = lastaddr pre \/ (gives_after_keep (answers cb st' (items todo)) /\ says_give (w_ret w) = false)).
    { destruct HP as [HP|HP]; auto. right. apply gak_tail; auto. }
    destruct (says_give (w_ret w)) eqn:EG; rewrite ?orb_true_r, ?orb_false_r; cbn [andb].
    { destruct HPc as [->|[_ HPc]]; [ | discriminate ].
      destruct (says_replace (w_ret w)); auto.
      destruct (unlink_ok _ _ _ _ _ _ H) as (b1 & E1 & H1 & HC1 & HC2). rewrite E1, HC1, HC.
      destruct (Z.eqb_spec (zlen pre + (1 + zlen todo)) 0); [ lia | ].
      change (decref_ev (if says_free (w_ret w) then i_data i else 0)) with (dropped (if says_free (w_ret w) then i_data i else 0)).
      set (b2 := mkF (f_first b1) (f_last b1) (zlen pre + (1 + zlen todo) - 1) (f_heap b1) (f_fresh b1)).
      assert (H2 : holds b2 (pre ++ todo) []) by (apply holds_count; auto).
      assert (HC3 : f_count b2 = zlen (pre ++ todo)) by (rewrite zlen_app; unfold b2; cbn [f_count]; lia).
      destruct (says_stop (w_ret w)).
      - exists b2, todo. rewrite <- app_assoc. cbn [app]. conj. rewrite zlen_cons. lia.
      - specialize (IH fuel st' b2 pre (lastaddr pre) ((ev ++ [Called (i_data i) (i_size i)]) ++ dropped (if says_free (w_ret w) then i_data i else 0)) H2 HC3).
        specialize (IH ltac:(unfold b2; cbn [f_count]; lia) ltac:(lia) HG1 (or_introl eq_refl)).
        destruct (l_replace cb st' (items todo)) as [[[[st'' ret] l'] ev'] | | | ]; cbn [bind]; auto.
        destruct IH as (b' & c' & E & G1 & G2 & G3 & G4). exists b', c'. rewrite E, <- !app_assoc. cbn [app]. conj. rewrite zlen_cons. lia. }
    destruct (says_replace (w_ret w)) eqn:ER.
    { destruct ((if says_free (w_ret w) then i_data i else 0) =? w_data w); auto.
      assert (HInc : snd (length_inc_err (f_count b)) = false).
      { unfold length_inc_err. rewrite u32_small by lia. apply Z.eqb_neq. lia. }
      rewrite HInc.
      change (decref_ev (if says_free (w_ret w) then i_data i else 0)) with (dropped (if says_free (w_ret w) then i_data i else 0)).
      change (incref_ev (w_data w)) with (taken (w_data w)).
      set (y := mkI (w_data w) (w_size w) (w_order w)).
      pose proof (replace_item_ok b pre a i y todo H) as H2.
      change (mkE (w_data w) (w_size w) (w_order w) (headaddr todo)) with (ent y (headaddr todo)).
      set (b2 := mkF (f_first b) (f_last b) (f_count b) (upd (f_heap b) a (Some (ent y (headaddr todo)))) (f_fresh b)) in *.
      set (ev1 := dropped (if says_free (w_ret w) then i_data i else 0) ++ taken (w_data w)).
      destruct (says_stop (w_ret w)).
      - exists b2, ((a, y) :: todo). rewrite <- app_assoc. cbn [app]. conj; [ rewrite zlen_app, zlen_cons; unfold b2; cbn [f_count]; lia | rewrite !zlen_cons; lia ].
      - rewrite Hsh in H2.
        specialize (IH fuel st' b2 (pre ++ [(a, y)]) prev ((ev ++ [Called (i_data i) (i_size i)]) ++ ev1) H2).
        rewrite !zlen_app, zlen_cons, zlen_nil in IH.
        specialize (IH ltac:(unfold b2; cbn [f_count]; lia) ltac:(unfold b2; cbn [f_count]; lia) ltac:(lia) HG1 (or_intror (HG2 eq_refl))).
        destruct (l_replace cb st' (items todo)) as [[[[st'' ret] l'] ev'] | | | ]; cbn [bind]; auto.
        destruct IH as (b' & c' & E & G1 & G2 & G3 & G4). exists b', ((a, y) :: c').
        rewrite <- app_assoc in G1, G3. cbn [app] in G1, G3. rewrite E, <- !app_assoc. cbn [app].
        split; [ reflexivity | ]. split; [ exact G1 | ]. split; [ rewrite <- G2; reflexivity | ]. split; [ exact G3 | ].
        rewrite !zlen_cons. lia. }
    destruct (says_stop (w_ret w)); auto.
    exists b, ((a, i) :: todo). conj; [ rewrite zlen_app, zlen_cons; lia | lia ].
Qed.

Lemma search_and_replace_ok : forall S (cb : S -> Z -> Z -> Z -> S * wanswer) st again script fuel b l,
  rep b l -> (length l + length script < fuel)%nat -> zlen l + zlen script + 1 < 4294967296 ->
  no_give_after_replace (answers cb st l) ->
  match l_search_and_replace cb st again script l with
  | Ok (ret, l', ev) => exists b', fifo_search_and_replace fuel cb st again script b = Ok (ret, b', ev) /\ rep b' l'
  | Bug => fifo_search_and_replace fuel cb st again script b = Bug
  | Ub => False
  | Loop => fifo_search_and_replace fuel cb st again script b = Loop
  end.
Proof.
  intros S cb st again script fuel b l (c & <- & H & HC) Hf HZ HG. rewrite zlen_items in HC, HZ.
  unfold fifo_search_and_replace, l_search_and_replace.
  assert (Hl : (length c + length script < fuel)%nat) by (unfold items in Hf; rewrite map_length in Hf; auto).
  pose proof (zlen_nonneg _ script).
  pose proof (replace_loop_ok S cb c fuel st b [] 0 [] H HC ltac:(lia) ltac:(lia) HG (or_introl eq_refl)) as HR.
  rewrite <- (holds_head _ _ _ H) in HR.
  destruct (l_replace cb st (items c)) as [[[[st'' ret] l'] ev'] | | | ]; cbn [bind]; try contradiction.
  - destruct HR as (b' & c' & E & H1 & H2 & H3 & H4). rewrite E. cbn [bind app] in *.
    assert (HB : rep b' l') by (exists c'; split; auto; split; auto; rewrite <- H2, zlen_items; auto).
    destruct ((ret =? 0) && again); [ | eauto ].
    assert (HL : (length l' <= length c)%nat).
    { rewrite <- H2. unfold items. rewrite map_length. unfold zlen in H4. lia. }
    pose proof (call_again_ok script fuel b' l' HB ltac:(lia)) as HA.
    rewrite <- H2 in HA at 1. rewrite zlen_items in HA. specialize (HA ltac:(lia)).
    destruct (l_append script l') as [[[ret2 l2] ev2] | | | ]; cbn [bind]; auto.
    + destruct HA as (b2 & E2 & HB2). rewrite E2. cbn [bind]. eauto.
    + rewrite HA. reflexivity.
    + rewrite HA. reflexivity.
  - rewrite HR. reflexivity.
Qed.

(** * Merging *)
Lemma fifo_merge_ok : forall t s l1 l2, rep t l1 -> rep s l2 -> (forall a, f_heap t a = None \/ f_heap s a = None) ->
  zlen l1 < 4294967296 -> zlen l2 < 4294967296 ->
  if 4294967296 <=? zlen l1 + zlen l2
  then fifo_merge t s = Ok (1, t, s)
  else exists t' s', fifo_merge t s = Ok (0, t', s') /\ rep t' (l1 ++ l2) /\ rep s' [].
Proof.
  intros t s l1 l2 (c1 & <- & H1 & HC1) (c2 & <- & H2 & HC2) HD HZ1 HZ2. unfold fifo_merge. rewrite HC1, HC2, !zlen_items in *.
  pose proof (zlen_nonneg _ c1). pose proof (zlen_nonneg _ c2).
  destruct (Z.leb_spec 4294967296 (zlen c1 + zlen c2)) as [HO|HO].
  - destruct (Z.eqb_spec (zlen c2) 0); [ lia | ].
    assert (E : u32 (zlen c1 + zlen c2) = zlen c1 + zlen c2 - 4294967296).
    { unfold u32. symmetry. apply Z.mod_unique with 1; lia. }
    rewrite E. destruct (Z.ltb_spec (zlen c1 + zlen c2 - 4294967296) (zlen c1)); [ reflexivity | lia ].
  - destruct (Z.eqb_spec (zlen c2) 0) as [E|E].
    { apply zlen_0 in E. subst c2. exists t, s. cbn [items map] in *. rewrite app_nil_r. split; auto. split; [ exists c1; rewrite zlen_items; auto | ].
      exists []. auto. }
    rewrite u32_small by lia. destruct (Z.ltb_spec (zlen c1 + zlen c2) (zlen c1)); [ lia | ].
    assert (Hne : c2 <> []) by (intros ->; auto).
    assert (HE : rep (mkF 0 0 0 (fun _ => None) (f_fresh s)) []).
    { exists []. split; auto. split; auto. constructor; cbn; auto; try congruence; [ constructor | apply (hd_pos _ _ _ H2) ]. }
    assert (HJ1 : forall a, f_heap t a <> None -> join (f_heap t) (f_heap s) a = f_heap t a).
    { intros a Ha. unfold join. destruct (f_heap t a); congruence. }
    assert (HJ2 : forall a, f_heap s a <> None -> join (f_heap t) (f_heap s) a = f_heap s a).
    { intros a Ha. unfold join. destruct (HD a) as [->|E2]; congruence. }
    assert (HS1 : lseg (join (f_heap t) (f_heap s)) (f_first t) c1 0).
    { eapply lseg_frame; [ | apply (hd_seg _ _ _ H1) ]. intros y Hy. apply HJ1. eapply lseg_pos; [ apply (hd_seg _ _ _ H1) | auto ]. }
    assert (HS2 : lseg (join (f_heap t) (f_heap s)) (f_first s) c2 0).
    { eapply lseg_frame; [ | apply (hd_seg _ _ _ H2) ]. intros y Hy. apply HJ2. eapply lseg_pos; [ apply (hd_seg _ _ _ H2) | auto ]. }
    assert (HND : NoDup (addrs (c1 ++ c2))).
    { rewrite addrs_app. apply nd_app. split; [ apply (hd_nodup _ _ _ H1) | ]. split; [ apply (hd_nodup _ _ _ H2) | ].
      intros x Hx1 Hx2. destruct (lseg_pos _ _ _ _ _ (hd_seg _ _ _ H1) Hx1) as [_ G1]. destruct (lseg_pos _ _ _ _ _ (hd_seg _ _ _ H2) Hx2) as [_ G2].
      destruct (HD x); congruence. }
    assert (HFr : forall a, join (f_heap t) (f_heap s) a <> None -> a < Z.max (f_fresh t) (f_fresh s) /\ In a (addrs (c1 ++ c2))).
    { intros a Ha. rewrite addrs_app. unfold join in Ha. destruct (f_heap t a) eqn:Et.
      - assert (G : f_heap t a <> None) by congruence. split; [ apply (hd_fresh _ _ _ H1) in G; lia | ].
        destruct (hd_dom _ _ _ H1 a G) as [|[]]. apply in_or_app. auto.
      - split; [ apply (hd_fresh _ _ _ H2) in Ha; lia | ].
        destruct (hd_dom _ _ _ H2 a Ha) as [|[]]. apply in_or_app. auto. }
    pose proof (hd_pos _ _ _ H1).
    destruct (nonempty_or _ c1) as [->|Hne1].
    + rewrite (hd_last _ _ _ H1). change (lastaddr []) with 0. cbn [Z.eqb negb]. do 2 eexists. split; [ reflexivity | ]. split; auto.
      exists c2. split; auto. rewrite zlen_nil, Z.add_0_l. split; [ | cbn [items map app f_count]; rewrite zlen_items; reflexivity ].
      constructor; cbn [f_heap f_first f_last f_fresh]; auto; try lia.
      all: try solve [ apply (hd_last _ _ _ H2) | apply (hd_nodup _ _ _ H2) | intros a Ha; apply HFr in Ha; cbn [app] in Ha; tauto ].
    + destruct (holds_last_entry _ _ H1 Hne1) as (c0 & p & ip & nx & -> & HL & Hp & HX & _). rewrite HL.
      destruct (Z.eqb_spec p 0); [ lia | ]. cbn [negb]. unfold set_next. rewrite HJ1, HX by congruence. cbn [ent e_data e_size e_order].
      do 2 eexists. split; [ reflexivity | ]. split; auto.
      exists ((c0 ++ [(p, ip)]) ++ c2). split; [ apply items_app | ]. split; [ | cbn [f_count]; rewrite !zlen_app, !zlen_items, !zlen_app; lia ].
      pose proof HND as HND'. rewrite addrs_app in HND'. apply nd_app in HND' as (N1 & N2 & N3).
      constructor; cbn [f_heap f_first f_last f_fresh]; auto; try lia.
      * apply lseg_app. exists (f_first s). split.
        -- apply (lseg_relink _ c0 p ip (f_first t) 0 (f_first s)); auto.
        -- eapply lseg_frame; [ | exact HS2 ]. intros y Hy. apply upd_other. intros ->. apply (N3 p); auto.
           rewrite addrs_app. apply in_or_app. right. left. reflexivity.
      * rewrite (hd_last _ _ _ H2). symmetry. apply lastaddr_app. auto.
      * intros a Ha. apply HFr. unfold upd in Ha. destruct (Z.eqb_spec a p); [ subst; rewrite HJ1; congruence | auto ].
      * intros a Ha. left. apply HFr. unfold upd in Ha. destruct (Z.eqb_spec a p); [ subst; rewrite HJ1; congruence | auto ].
Qed.

(** * Histories *)
Lemma thinned_refl : forall A (l : list A), thinned l l.
Proof. induction l; [ apply th_nil | apply th_keep; auto ]. Qed.
Lemma thinned_nil : forall A (l : list A), thinned l [].
Proof. induction l; [ apply th_nil | apply th_skip; auto ]. Qed.
Lemma thinned_len : forall A (l l' : list A), thinned l l' -> (length l' <= length l)%nat.
Proof. induction 1; cbn; lia. Qed.

Lemma handed_app : forall a b, handed (a ++ b) = handed a ++ handed b.
Proof. intros. unfold handed. apply flat_map_app. Qed.
Lemma handed_dropped : forall d, handed (dropped d) = [].
Proof. intros. unfold dropped. destruct (d =? 0); reflexivity. Qed.
Lemma handed_free : forall (f : bool) d, handed (if f then dropped d else []) = [].
Proof. intros [] d; [ apply handed_dropped | reflexivity ]. Qed.
Lemma referenced_app : forall a b, referenced (a ++ b) = referenced a ++ referenced b.
Proof. intros. unfold referenced. apply flat_map_app. Qed.
Lemma referenced_free : forall (f : bool) d, referenced (if f then dropped d else []) = [].
Proof. intros [] d; [ | reflexivity ]. unfold dropped. destruct (d =? 0); reflexivity. Qed.

Lemma handed_called : forall d z e, handed (Called d z :: e) = (d, z) :: handed e.
Proof. reflexivity. Qed.
Lemma shown_cons : forall x l, shown (x :: l) = (i_data x, i_size x) :: shown l.
Proof. reflexivity. Qed.
Lemma handed_nil : handed [] = [].
Proof. reflexivity. Qed.
Ltac hand := rewrite ?handed_called, ?shown_cons, ?handed_app, ?handed_free, ?handed_dropped, ?handed_nil; cbn [app].

Lemma l_search_shape : forall S (cb : S -> Z -> Z -> S * Z) l st st' ret l' ev, l_search cb st l = Ok (st', ret, l', ev) ->
  exists p s k, l = p ++ s /\ handed ev = shown p /\ l' = k ++ s /\ thinned p k.
Proof.
  induction l as [|x l IH]; intros st st' ret l' ev H; cbn [l_search] in H.
  - injection H as <- <- <- <-. exists [], [], []. repeat split; auto. apply th_nil.
  - destruct (cb st (i_data x) (i_size x)) as [st1 a].
    destruct (a =? 0).
    { destruct (l_search cb st1 l) as [[[[st2 ret2] l2] ev2] | | | ] eqn:E; try discriminate. cbn [bind] in H. injection H as <- <- <- <-.
      destruct (IH _ _ _ _ _ E) as (p & s & k & -> & H1 & -> & H2). exists (x :: p), s, (x :: k).
      repeat split; [ | apply th_keep; auto ]. hand. rewrite H1. reflexivity. }
    destruct (says_error a).
    { injection H as <- <- <- <-. exists [x], l, [x]. repeat split. apply thinned_refl. }
    destruct (says_give a).
    { destruct (says_stop a).
      - injection H as <- <- <- <-. exists [x], l, []. repeat split; [ | apply thinned_nil ]. hand. reflexivity.
      - destruct (l_search cb st1 l) as [[[[st2 ret2] l2] ev2] | | | ] eqn:E; try discriminate. cbn [bind] in H. injection H as <- <- <- <-.
        destruct (IH _ _ _ _ _ E) as (p & s & k & -> & H1 & -> & H2). exists (x :: p), s, k.
        repeat split; [ | apply th_skip; auto ]. cbn [app]. hand. rewrite H1. reflexivity. }
    destruct (says_stop a); try discriminate.
    injection H as <- <- <- <-. exists [x], l, [x]. repeat split. apply thinned_refl.
Qed.

Lemma l_drain_shape : forall S (cb : S -> Z -> Z -> S * Z) l st st' ret l' ev, l_drain cb st l = Ok (st', ret, l', ev) ->
  exists p, l = p ++ l' /\ handed ev = shown p /\ referenced ev = [].
Proof.
  induction l as [|x l IH]; intros st st' ret l' ev H; cbn [l_drain] in H.
  - injection H as <- <- <- <-. exists []. auto.
  - destruct (cb st (i_data x) (i_size x)) as [st1 a].
    destruct (says_give a); [ discriminate | ].
    destruct (says_stop a || says_error a || says_global_error a).
    { injection H as <- <- <- <-. exists [x]. repeat split; hand; auto. apply (referenced_free (says_free a) (i_data x)). }
    destruct (negb (known_read_flags a)); [ discriminate | ].
    destruct (l_drain cb st1 l) as [[[[st2 ret2] l2] ev2] | | | ] eqn:E; try discriminate. cbn [bind] in H. injection H as <- <- <- <-.
    destruct (IH _ _ _ _ _ E) as (p & -> & H1 & H2). exists (x :: p). repeat split.
    + cbn [app]. hand. rewrite H1. reflexivity.
    + change (referenced ((if says_free a then dropped (i_data x) else []) ++ ev2) = []).
      rewrite referenced_app, referenced_free, H2. reflexivity.
Qed.

Lemma l_read_shape : forall S (cb : S -> Z -> Z -> S * Z) l st ret st' ret' ev, l_read cb st l ret = Ok (st', ret', ev) ->
  exists p s, l = p ++ s /\ handed ev = shown p.
Proof.
  induction l as [|x l IH]; intros st ret st' ret' ev H; cbn [l_read] in H.
  - injection H as <- <- <-. exists [], []. auto.
  - destruct (cb st (i_data x) (i_size x)) as [st1 a].
    assert (HM : forall r, bind (l_read cb st1 l r) (fun '(st'', ret'', ev) => Ok (st'', ret'', Called (i_data x) (i_size x) :: ev)) = Ok (st', ret', ev) ->
      exists p s, x :: l = p ++ s /\ handed ev = shown p).
    { intros r HB. destruct (l_read cb st1 l r) as [[[st2 ret2] ev2] | | | ] eqn:E; try discriminate. cbn [bind] in HB. injection HB as <- <- <-.
      destruct (IH _ _ _ _ _ E) as (p & s & -> & H1). exists (x :: p), s. split; auto. hand. rewrite H1. reflexivity. }
    assert (HO : exists p s, x :: l = p ++ s /\ [(i_data x, i_size x)] = shown p) by (exists [x], l; auto).
    destruct (a =? 0); [ eauto | ]. destruct (says_stop a); [ injection H as <- <- <-; auto | ].
    destruct (says_give a || says_free a); [ discriminate | ]. destruct (says_global_error a); [ injection H as <- <- <-; auto | ].
    destruct (negb (known_read_flags a)); [ discriminate | ]. eauto.
Qed.

Lemma l_clear_shape : forall S (cb : S -> Z -> Z -> S * Z * Z) l st st' ev, l_clear cb st l = Ok (st', ev) -> handed ev = shown l.
Proof.
  induction l as [|x l IH]; intros st st' ev H; cbn [l_clear] in H.
  - injection H as <- <-. reflexivity.
  - destruct (cb st (i_data x) (i_size x)) as [[st1 d] ret]. destruct (ret =? 0); [ | discriminate ].
    destruct (l_clear cb st1 l) as [[st2 ev2] | | | ] eqn:E; try discriminate. cbn [bind] in H. injection H as <- <-.
    hand. rewrite (IH _ _ _ E). reflexivity.
Qed.

Lemma l_write_len : forall script l ret l' ev, l_write script l = Ok (ret, l', ev) -> (length l' <= length l + length script)%nat.
Proof.
  induction script as [|w script IH]; intros l ret l' ev H; cbn [l_write] in H; [ discriminate | ].
  assert (HN : forall (g : bool) l1 (e : list event), (length l1 <= length l + 1)%nat ->
    (if g then bind (l_write script l1) (fun '(ret, l'', ev') => Ok (ret, l'', e ++ ev')) else Ok (0, l1, e)) = Ok (ret, l', ev) ->
    (length l' <= length l + length (w :: script))%nat).
  { intros g l1 e HL HB. cbn [length]. destruct g; [ | injection HB as <- <- <-; lia ].
    destruct (l_write script l1) as [[[r2 l2] e2] | | | ] eqn:E; try discriminate. cbn [bind] in HB. injection HB as <- <- <-.
    apply IH in E. lia. }
  pose proof (place_ordered_len (mkI (w_data w) (w_size w) (w_order w)) l) as HP. unfold zlen in HP.
  destruct (write_verdict (w_ret w)) as [|g|g|g|]; try discriminate.
  - injection H as <- <- <-. lia.
  - eapply HN; [ | exact H ]. lia.
  - destruct (w_data w =? 0); [ discriminate | ]. eapply HN; [ | exact H ]. rewrite app_length. cbn. lia.
  - destruct (w_data w =? 0); [ discriminate | ]. eapply HN; [ | exact H ]. lia.
Qed.

Lemma l_append_len : forall script l ret l' ev, l_append script l = Ok (ret, l', ev) -> (length l' <= length l + length script)%nat.
Proof.
  induction script as [|w script IH]; intros l ret l' ev H; cbn [l_append] in H; [ discriminate | ].
  assert (HN : forall (g : bool) l1 (e : list event), (length l1 <= length l + 1)%nat ->
    (if g then bind (l_append script l1) (fun '(ret, l'', ev') => Ok (ret, l'', e ++ ev')) else Ok (0, l1, e)) = Ok (ret, l', ev) ->
    (length l' <= length l + length (w :: script))%nat).
  { intros g l1 e HL HB. cbn [length]. destruct g; [ | injection HB as <- <- <-; lia ].
    destruct (l_append script l1) as [[[r2 l2] e2] | | | ] eqn:E; try discriminate. cbn [bind] in HB. injection HB as <- <- <-.
    apply IH in E. lia. }
  destruct (write_verdict (w_ret w)) as [|g|g|g|]; try discriminate.
  - injection H as <- <- <-. lia.
  - eapply HN; [ | exact H ]. lia.
  - destruct (w_data w =? 0); [ discriminate | ]. eapply HN; [ | exact H ]. rewrite app_length. cbn. lia.
  - destruct (w_data w =? 0); [ discriminate | ]. eapply HN; [ | exact H ]. rewrite app_length. cbn. lia.
Qed.

Lemma l_replace_len : forall S (cb : S -> Z -> Z -> Z -> S * wanswer) l st st' ret l' ev, l_replace cb st l = Ok (st', ret, l', ev) ->
  (length l' <= length l)%nat.
Proof.
  induction l as [|x l IH]; intros st st' ret l' ev H; cbn [l_replace] in H.
  - injection H as <- <- <- <-. auto.
  - destruct (cb st (i_data x) (i_size x) (i_order x)) as [st1 w].
    assert (HM : forall y (e : list event), (length y <= 1)%nat -> bind (l_replace cb st1 l) (fun '(st'', ret, l', ev') => Ok (st'', ret, y ++ l', e ++ ev')) = Ok (st', ret, l', ev) ->
      (length l' <= length (x :: l))%nat).
    { intros y e HY HB. destruct (l_replace cb st1 l) as [[[[st2 ret2] l2] ev2] | | | ] eqn:E; try discriminate. cbn [bind] in HB. injection HB as <- <- <- <-.
      apply IH in E. rewrite app_length. cbn [length]. lia. }
    destruct (w_ret w =? 0); [ eapply HM; [ | exact H ]; auto | ].
    destruct (says_error (w_ret w)); [ injection H as <- <- <- <-; auto | ].
    destruct (says_give (w_ret w) && says_replace (w_ret w)); [ discriminate | ].
    destruct (says_give (w_ret w)).
    { destruct (says_stop (w_ret w)); [ injection H as <- <- <- <-; cbn; lia | ]. eapply HM; [ | exact H ]. cbn. lia. }
    destruct (says_replace (w_ret w)).
    { destruct (_ =? w_data w); [ discriminate | ].
      destruct (says_stop (w_ret w)); [ injection H as <- <- <- <-; cbn; lia | ]. eapply HM; [ | exact H ]. cbn. lia. }
    destruct (says_stop (w_ret w)); [ injection H as <- <- <- <-; auto | discriminate ].
Qed.

Lemma l_step_len : forall S (u : use S) st l st' l' o, l_step u st l = Ok (st', l', o) -> (length l' <= length l + writes u)%nat.
Proof.
  intros S u st l st' l' o H. destruct u as [script|cb|cb|cb m|cb|cb|cb again script]; cbn [l_step writes] in *.
  - destruct (l_write script l) as [[[r l2] ev] | | | ] eqn:E; try discriminate. cbn in H. injection H as <- <- <-. apply l_write_len in E. lia.
  - destruct (l_search cb st l) as [[[[s r] l2] ev] | | | ] eqn:E; try discriminate. cbn in H. injection H as <- <- <-.
    apply l_search_shape in E as (p & q & k & -> & _ & -> & HT). apply thinned_len in HT. rewrite !app_length. lia.
  - destruct (l_read cb st l 0) as [[[s r] ev] | | | ] eqn:E; try discriminate. cbn in H. injection H as <- <- <-. lia.
  - destruct (l_read_minimum cb st l m 500) as [[[s r] ev] | | | ] eqn:E; try discriminate. cbn in H. injection H as <- <- <-. lia.
  - destruct (l_drain cb st l) as [[[[s r] l2] ev] | | | ] eqn:E; try discriminate. cbn in H. injection H as <- <- <-.
    apply l_drain_shape in E as (p & -> & _). rewrite app_length. lia.
  - destruct (l_clear cb st l) as [[s ev] | | | ] eqn:E; try discriminate. cbn in H. injection H as <- <- <-. cbn. lia.
  - unfold l_search_and_replace in H. destruct (l_replace cb st l) as [[[[s r] l2] ev] | | | ] eqn:E; try discriminate. cbn [bind] in H.
    apply l_replace_len in E. destruct ((r =? 0) && again).
    + destruct (l_append script l2) as [[[r3 l3] ev3] | | | ] eqn:E2; try discriminate. cbn in H. injection H as <- <- <-. apply l_append_len in E2. lia.
    + cbn in H. injection H as <- <- <-. lia.
Qed.

Lemma use_step_ok : forall S (u : use S) fuel st b l,
  rep b l -> (length l + writes u < fuel)%nat -> zlen l + Z.of_nat (writes u) + 1 < 4294967296 ->
  match u with UReplace cb _ _ => no_give_after_replace (answers cb st l) | _ => True end ->
  match l_step u st l with
  | Ok (st', l', o) => exists b', use_step fuel u st b = Ok (st', b', o) /\ rep b' l'
  | Bug => use_step fuel u st b = Bug
  | Ub => False
  | Loop => use_step fuel u st b = Loop
  end.
Proof.
  intros S u fuel st b l HR Hf HZ HG. destruct u as [script|cb|cb|cb m|cb|cb|cb again script]; cbn [l_step use_step writes] in *.
  - pose proof (fifo_write_ok script fuel b l HR Hf ltac:(unfold zlen in *; lia)) as X.
    destruct (l_write script l) as [[[r l2] ev] | | | ]; cbn [bind]; try contradiction; try (rewrite X; reflexivity).
    destruct X as (b' & -> & HB). cbn [bind]. eauto.
  - pose proof (fifo_search_ok S cb st b l fuel HR ltac:(lia) ltac:(lia)) as X.
    destruct (l_search cb st l) as [[[[s r] l2] ev] | | | ]; cbn [bind]; try contradiction; try (rewrite X; reflexivity).
    destruct X as (b' & -> & HB). cbn [bind]. eauto.
  - rewrite (fifo_read_ok S cb st b l fuel HR ltac:(lia)).
    assert (HNU : forall x st0 r0, l_read cb st0 x r0 <> Ub).
    { induction x as [|x0 x IHx]; intros st0 r0; cbn [l_read]; [ discriminate | ]. destruct (cb st0 (i_data x0) (i_size x0)) as [st1 a].
      assert (HB : forall r, bind (l_read cb st1 x r) (fun '(st'', ret'', ev) => Ok (st'', ret'', Called (i_data x0) (i_size x0) :: ev)) <> Ub).
      { intros r. specialize (IHx st1 r). destruct (l_read cb st1 x r) as [[[? ?] ?] | | | ]; cbn [bind]; congruence. }
      repeat match goal with |- (if ?c then _ else _) <> _ => destruct c end; auto; discriminate. }
    specialize (HNU l st 0).
    destruct (l_read cb st l 0) as [[[s r] ev] | | | ]; cbn [bind]; try congruence; eauto.
  - rewrite (fifo_read_minimum_ok S cb st b l m fuel HR ltac:(lia)).
    assert (HNU : forall x st0 n, l_read_minimum cb st0 x m n <> Ub).
    { induction x as [|x0 x IHx]; intros st0 n; cbn [l_read_minimum]; [ discriminate | ]. destruct (i_order x0 <=? m); auto.
      destruct (cb st0 (i_data x0) (i_size x0)) as [st1 a].
      assert (HB : bind (l_read_minimum cb st1 x m (n - 1)) (fun '(st'', ret'', ev) => Ok (st'', ret'', Called (i_data x0) (i_size x0) :: ev)) <> Ub).
      { specialize (IHx st1 (n - 1)). destruct (l_read_minimum cb st1 x m (n - 1)) as [[[? ?] ?] | | | ]; cbn [bind]; congruence. }
      repeat match goal with |- (if ?c then _ else _) <> _ => destruct c end; auto; discriminate. }
    specialize (HNU l st 500).
    destruct (l_read_minimum cb st l m 500) as [[[s r] ev] | | | ]; cbn [bind]; try congruence; eauto.
  - pose proof (fifo_drain_ok S cb st b l fuel HR ltac:(lia) ltac:(lia)) as X.
    destruct (l_drain cb st l) as [[[[s r] l2] ev] | | | ]; cbn [bind]; try contradiction; try (rewrite X; reflexivity).
    destruct X as (b' & -> & HB). cbn [bind]. eauto.
  - pose proof (fifo_clear_ok S cb st b l fuel HR ltac:(lia) ltac:(lia)) as X.
    destruct (l_clear cb st l) as [[s ev] | | | ]; cbn [bind]; try contradiction; try (rewrite X; reflexivity).
    destruct X as (b' & -> & HB). cbn [bind]. eauto.
  - pose proof (search_and_replace_ok S cb st again script fuel b l HR Hf HZ HG) as X.
    destruct (l_search_and_replace cb st again script l) as [[[r l2] ev] | | | ]; cbn [bind]; try contradiction; try (rewrite X; reflexivity).
    destruct X as (b' & -> & HB). cbn [bind]. eauto.
Qed.

Lemma use_run_ok : forall S (us : list (use S)) fuel st b l,
  rep b l -> (length l + all_writes us < fuel)%nat -> zlen l + Z.of_nat (all_writes us) + 1 < 4294967296 ->
  replaces_ok us st l ->
  match l_run us st l with
  | Ok (st', l', os) => exists b', use_run fuel us st b = Ok (st', b', os) /\ rep b' l' /\ (length l' <= length l + all_writes us)%nat
  | Bug => use_run fuel us st b = Bug
  | Ub => False
  | Loop => use_run fuel us st b = Loop
  end.
Proof.
  induction us as [|u us IH]; intros fuel st b l HR Hf HZ HG; cbn [l_run use_run].
  - exists b. split; auto. split; auto. lia.
  - cbn [all_writes fold_right replaces_ok] in *. fold (all_writes us) in *. destruct HG as [HG1 HG2].
    pose proof (use_step_ok S u fuel st b l HR ltac:(lia) ltac:(lia) HG1) as X.
    destruct (l_step u st l) as [[[st1 l1] o] | | | ] eqn:E; cbn [bind]; try contradiction; try (rewrite X; reflexivity).
    destruct X as (b1 & -> & HB). cbn [bind]. specialize (HG2 st1 l1 o eq_refl). apply l_step_len in E.
    specialize (IH fuel st1 b1 l1 HB ltac:(lia) ltac:(unfold zlen in *; lia) HG2).
    destruct (l_run us st1 l1) as [[[st2 l2] os] | | | ]; cbn [bind]; try contradiction; try (rewrite IH; reflexivity).
    destruct IH as (b2 & -> & HB2 & HL). cbn [bind]. exists b2. split; auto. split; auto. lia.
Qed.

Lemma rep_contains : forall fuel b l, rep b l -> (length l < fuel)%nat -> contains fuel b l.
Proof.
  intros fuel b l (c & <- & H & HC) Hf. split; auto. clear HC.
  pose proof (hd_seg _ _ _ H) as HS. unfold items in Hf. rewrite map_length in Hf. clear H.
  revert fuel Hf HS. generalize (f_first b). generalize (f_heap b). clear b.
  induction c as [|[a i] c IH]; intros h p fuel Hf HS.
  - destruct fuel; [ cbn in Hf; lia | ]. cbn [lseg] in HS. subst. reflexivity.
  - destruct fuel as [|fuel]; [ cbn in Hf; lia | ]. destruct HS as (-> & Ha & nx & Hat & HS).
    cbn [walk]. destruct (Z.eqb_spec a 0); [ lia | ]. rewrite Hat. cbn [ent e_data e_size e_order e_next length] in *.
    rewrite (IH h nx fuel) by (auto; lia). cbn. destruct i. reflexivity.
Qed.

Lemma rep_init : rep (fifo_init (fun _ => None) 1) [].
Proof.
  exists []. split; auto. split; auto. constructor; cbn; auto; try congruence; [ constructor | lia ].
Qed.

Lemma history_ok : forall S (us : list (use S)) fuel st,
  (all_writes us < fuel)%nat -> Z.of_nat (all_writes us) + 1 < 4294967296 -> replaces_ok us st [] ->
  match l_run us st [] with
  | Ok (st', l', os) => exists b', use_run fuel us st (fifo_init (fun _ => None) 1) = Ok (st', b', os) /\ contains fuel b' l'
  | Bug => use_run fuel us st (fifo_init (fun _ => None) 1) = Bug
  | Ub => False
  | Loop => use_run fuel us st (fifo_init (fun _ => None) 1) = Loop
  end.
Proof.
  intros S us fuel st Hf HZ HG. pose proof (use_run_ok S us fuel st _ [] rep_init Hf HZ HG) as X.
  destruct (l_run us st []) as [[[st' l'] os] | | | ]; auto. destruct X as (b' & E & HB & HL). exists b'. split; auto.
  apply rep_contains; auto. cbn in HL. lia.
Qed.

(** * Exactly once *)
Lemma l_write_flow : forall script l ret l' ev, (forall w g, In w script -> write_verdict (w_ret w) <> WOrdered g) ->
  l_write script l = Ok (ret, l', ev) -> exists x, l' = l ++ x /\ map i_data x = referenced ev /\ handed ev = [].
Proof.
  induction script as [|w script IH]; intros l ret l' ev HW H; cbn [l_write] in H; [ discriminate | ].
  assert (HW' : forall w g, In w script -> write_verdict (w_ret w) <> WOrdered g) by (intros; apply HW; right; auto).
  assert (HN : forall (g : bool) y (e : list event), map i_data y = referenced e -> handed e = [] ->
    (if g then bind (l_write script (l ++ y)) (fun '(ret, l'', ev') => Ok (ret, l'', e ++ ev')) else Ok (0, l ++ y, e)) = Ok (ret, l', ev) ->
    exists x, l' = l ++ x /\ map i_data x = referenced ev /\ handed ev = []).
  { intros g y e HL HL2 HB. destruct g; [ | injection HB as <- <- <-; eauto ].
    destruct (l_write script (l ++ y)) as [[[r2 l2] e2] | | | ] eqn:E; try discriminate. cbn [bind] in HB. injection HB as <- <- <-.
    apply IH in E as (x & -> & H1 & H2); auto. exists (y ++ x). rewrite <- app_assoc, map_app, referenced_app, handed_app, HL, HL2, H1, H2. auto. }
  specialize (HW w) as HWw. destruct (write_verdict (w_ret w)) as [|g|g|g|]; try discriminate.
  - injection H as <- <- <-. exists []. rewrite app_nil_r. auto.
  - apply (HN g [] []); auto. rewrite app_nil_r. auto.
  - destruct (w_data w =? 0); [ discriminate | ]. eapply (HN g [_]); [ | | exact H ]; reflexivity.
  - exfalso. apply (HWw g); auto. left. auto.
Qed.

Lemma shown_data : forall l, map fst (shown l) = map i_data l.
Proof. intros. unfold shown. rewrite map_map. reflexivity. Qed.

Lemma flow_run : forall S (us : list (use S)) st l st' l' os, (forall u, In u us -> write_or_drain u) ->
  l_run us st l = Ok (st', l', os) ->
  map fst (handed (events os)) ++ map i_data l' = map i_data l ++ referenced (events os).
Proof.
  induction us as [|u us IH]; intros st l st' l' os HU H; cbn [l_run] in H.
  - injection H as <- <- <-. cbn. rewrite app_nil_r. reflexivity.
  - destruct (l_step u st l) as [[[st1 l1] o] | | | ] eqn:E; try discriminate. cbn [bind] in H.
    destruct (l_run us st1 l1) as [[[st2 l2] os2] | | | ] eqn:E2; try discriminate. cbn [bind] in H. injection H as <- <- <-.
    apply IH in E2; [ | intros; apply HU; right; auto ].
    unfold events in *. cbn [flat_map]. rewrite handed_app, referenced_app, map_app, <- app_assoc, E2.
    specialize (HU u (or_introl eq_refl)). destruct u as [script|cb|cb|cb m|cb|cb|cb again script]; cbn [write_or_drain] in HU; try contradiction; cbn [l_step] in E.
    + destruct (l_write script l) as [[[r l3] ev] | | | ] eqn:EW; try discriminate. cbn in E. injection E as <- <- <-.
      apply l_write_flow in EW as (x & -> & H1 & H2); auto. cbn [snd]. rewrite H2, <- H1, map_app, <- !app_assoc. reflexivity.
    + destruct (l_drain cb st l) as [[[[s r] l3] ev] | | | ] eqn:ED; try discriminate. cbn in E. injection E as <- <- <-.
      apply l_drain_shape in ED as (p & -> & H1 & H2). cbn [snd]. rewrite H1, H2, shown_data, map_app, <- !app_assoc. reflexivity.
Qed.

(** * Sortedness *)
Lemma sorted_tail : forall x l, sorted (x :: l) -> sorted l.
Proof. intros x l H. inversion H; subst; [ apply sorted_nil | auto ]. Qed.
Lemma sorted_bound : forall l x, sorted (x :: l) -> forall y, In y l -> i_order x <= i_order y.
Proof.
  induction l as [|z l IH]; intros x H y Hy; [ destruct Hy | ]. inversion H; subst. destruct Hy as [<-|Hy]; auto.
  specialize (IH _ H4 _ Hy). lia.
Qed.
Lemma sorted_intro : forall x l, sorted l -> (forall y, In y l -> i_order x <= i_order y) -> sorted (x :: l).
Proof.
  intros x [|y l] H HB; [ apply sorted_one | ]. apply sorted_cons; auto. apply HB. left. auto.
Qed.
Lemma thinned_in : forall A (l l' : list A), thinned l l' -> forall y, In y l' -> In y l.
Proof. induction 1; intros y Hy; [ auto | destruct Hy; [ left | right ]; auto | right; auto ]. Qed.
Lemma thinned_sorted : forall l l', thinned l l' -> sorted l -> sorted l'.
Proof.
  induction 1 as [|x l l' H IH|x l l' H IH]; intros HS; auto.
  - apply sorted_intro; [ apply IH; eapply sorted_tail; eauto | ]. intros y Hy.
    eapply sorted_bound; [ exact HS | ]. eapply thinned_in; eauto.
  - apply IH. eapply sorted_tail; eauto.
Qed.
Lemma thinned_app : forall A (a a' b : list A), thinned a a' -> thinned (a ++ b) (a' ++ b).
Proof. induction 1; cbn [app]; [ apply thinned_refl | apply th_keep; auto | apply th_skip; auto ]. Qed.
Lemma thinned_suffix : forall A (a b : list A), thinned (a ++ b) b.
Proof. induction a; intros; cbn [app]; [ apply thinned_refl | apply th_skip; auto ]. Qed.

Lemma insert_order_split : forall x l, exists a b, l = a ++ b /\ insert_order x l = a ++ x :: b /\
  (forall y, In y a -> i_order y < i_order x) /\ (forall y r, b = y :: r -> i_order x <= i_order y).
Proof.
  induction l as [|z l IH]; [ exists [], []; repeat split; auto; [ intros y [] | discriminate ] | ].
  cbn [insert_order]. destruct (Z.ltb_spec (i_order z) (i_order x)).
  - destruct IH as (a & b & -> & -> & H1 & H2). exists (z :: a), b. repeat split; auto. intros y [<-|Hy]; auto.
  - exists [], (z :: l). repeat split; auto; [ intros y [] | ]. intros y r E. injection E as <- <-. auto.
Qed.

Lemma sorted_app_inv : forall a b, sorted (a ++ b) -> sorted b /\ forall x y, In x a -> In y b -> i_order x <= i_order y.
Proof.
  induction a as [|z a IH]; intros b H; cbn [app] in H; [ split; auto; intros x y [] | ].
  destruct (IH b (sorted_tail _ _ H)) as [H1 H2]. split; auto. intros x y [<-|Hx] Hy; auto.
  eapply sorted_bound; [ exact H | ]. apply in_or_app. auto.
Qed.

Lemma place_ordered_split : forall x l, sorted l -> exists a b, l = a ++ b /\ place_ordered x l = a ++ x :: b /\
  (forall y, In y a -> i_order y < i_order x) /\ (forall y, In y b -> i_order x <= i_order y).
Proof.
  intros x l HS. unfold place_ordered. destruct (rev l) as [|z zs] eqn:ER.
  - apply (f_equal (@rev item)) in ER. rewrite rev_involutive in ER. subst. exists [], []. repeat split; auto; intros y [].
  - apply (f_equal (@rev item)) in ER. rewrite rev_involutive in ER. cbn [rev] in ER. subst l.
    destruct (Z.ltb_spec (i_order z) (i_order x)) as [HO|HO].
    + exists (rev zs ++ [z]), []. rewrite app_nil_r. repeat split; auto; [ | intros y [] ].
      intros y Hy. apply sorted_app_inv in HS as [_ HS]. apply in_app_or in Hy as [Hy|[<-|[]]]; auto.
      specialize (HS y z Hy (or_introl eq_refl)). lia.
    + destruct (insert_order_split x (rev zs ++ [z])) as (a & b & E1 & E2 & H1 & H2). exists a, b. repeat split; auto.
      intros y Hy. rewrite E1 in HS. apply sorted_app_inv in HS as [HS _]. destruct b as [|y0 b]; [ destruct Hy | ].
      specialize (H2 y0 b eq_refl). destruct Hy as [<-|Hy]; auto. pose proof (sorted_bound _ _ HS _ Hy). lia.
Qed.

Lemma sorted_app : forall a b, sorted a -> sorted b -> (forall x y, In x a -> In y b -> i_order x <= i_order y) -> sorted (a ++ b).
Proof.
  induction a as [|z a IH]; intros b Ha Hb H; auto. cbn [app]. apply sorted_intro.
  - apply IH; auto; [ eapply sorted_tail; eauto | ]. intros; apply H; auto. right; auto.
  - intros y Hy. apply in_app_or in Hy as [Hy|Hy]; [ eapply sorted_bound; eauto | ]. apply H; auto. left. auto.
Qed.
Lemma sorted_app_left : forall a b, sorted (a ++ b) -> sorted a.
Proof.
  induction a as [|z a IH]; intros b H; [ apply sorted_nil | ]. cbn [app] in H. apply sorted_intro; [ eapply IH, sorted_tail, H | ].
  intros y Hy. eapply sorted_bound; [ exact H | ]. apply in_or_app. auto.
Qed.

Lemma place_ordered_sorted : forall x l, sorted l -> sorted (place_ordered x l).
Proof.
  intros x l HS. destruct (place_ordered_split x l HS) as (a & b & -> & -> & H1 & H2).
  pose proof (sorted_app_inv _ _ HS) as [HB HAB].
  apply sorted_app; [ eapply sorted_app_left; eauto | apply sorted_intro; auto | ].
  intros y z Hy [<-|Hz]; auto. specialize (H1 _ Hy). lia.
Qed.

Lemma l_write_sorted : forall script l ret l' ev, (forall w, In w script -> write_verdict (w_ret w) <> WAppend true /\ write_verdict (w_ret w) <> WAppend false) ->
  sorted l -> l_write script l = Ok (ret, l', ev) -> sorted l'.
Proof.
  induction script as [|w script IH]; intros l ret l' ev HW HS H; cbn [l_write] in H; [ discriminate | ].
  assert (HN : forall (g : bool) l1 (e : list event), sorted l1 ->
    (if g then bind (l_write script l1) (fun '(ret, l'', ev') => Ok (ret, l'', e ++ ev')) else Ok (0, l1, e)) = Ok (ret, l', ev) ->
    sorted l').
  { intros g l1 e HL HB. destruct g; [ | injection HB as <- <- <-; auto ].
    destruct (l_write script l1) as [[[r2 l2] e2] | | | ] eqn:E; try discriminate. cbn [bind] in HB. injection HB as <- <- <-.
    eapply IH; [ | exact HL | exact E ]. intros; apply HW; right; auto. }
  specialize (HW w (or_introl eq_refl)) as [HW1 HW2]. destruct (write_verdict (w_ret w)) as [|g|g|g|]; try discriminate.
  - injection H as <- <- <-. auto.
  - eapply HN; [ | exact H ]. auto.
  - destruct g; congruence.
  - destruct (w_data w =? 0); [ discriminate | ]. eapply HN; [ | exact H ]. apply place_ordered_sorted. auto.
Qed.

Lemma sorted_step : forall S (u : use S) st l st' l' o, keeps_order u -> sorted l -> l_step u st l = Ok (st', l', o) -> sorted l'.
Proof.
  intros S u st l st' l' o HK HS H. destruct u as [script|cb|cb|cb m|cb|cb|cb again script]; cbn [l_step keeps_order] in *.
  - destruct (l_write script l) as [[[r l2] ev] | | | ] eqn:E; try discriminate. cbn in H. injection H as <- <- <-. eapply l_write_sorted; eauto.
  - destruct (l_search cb st l) as [[[[s r] l2] ev] | | | ] eqn:E; try discriminate. cbn in H. injection H as <- <- <-.
    apply l_search_shape in E as (p & q & k & -> & _ & -> & HT). eapply thinned_sorted; [ | exact HS ]. apply thinned_app. auto.
  - destruct (l_read cb st l 0) as [[[s r] ev] | | | ] eqn:E; try discriminate. cbn in H. injection H as <- <- <-. auto.
  - destruct (l_read_minimum cb st l m 500) as [[[s r] ev] | | | ] eqn:E; try discriminate. cbn in H. injection H as <- <- <-. auto.
  - destruct (l_drain cb st l) as [[[[s r] l2] ev] | | | ] eqn:E; try discriminate. cbn in H. injection H as <- <- <-.
    apply l_drain_shape in E as (p & -> & _). eapply thinned_sorted; [ | exact HS ]. apply thinned_suffix.
  - destruct (l_clear cb st l) as [[s ev] | | | ] eqn:E; try discriminate. cbn in H. injection H as <- <- <-. apply sorted_nil.
  - contradiction.
Qed.
Lemma sorted_run : forall S (us : list (use S)) st l st' l' os, (forall u, In u us -> keeps_order u) -> sorted l -> l_run us st l = Ok (st', l', os) -> sorted l'.
Proof.
  induction us as [|u us IH]; intros st l st' l' os HU HS H; cbn [l_run] in H.
  - injection H as <- <- <-. auto.
  - destruct (l_step u st l) as [[[st1 l1] o] | | | ] eqn:E; try discriminate. cbn [bind] in H.
    destruct (l_run us st1 l1) as [[[st2 l2] os2] | | | ] eqn:E2; try discriminate. cbn [bind] in H. injection H as <- <- <-.
    eapply IH; [ | | exact E2 ]; [ intros; apply HU; right; auto | ].
    eapply sorted_step; [ apply HU; left; reflexivity | exact HS | exact E ].
Qed.

Lemma replaces_ok_none : forall S (us : list (use S)), (forall u, In u us -> match u with UReplace _ _ _ => False | _ => True end) ->
  forall st l, replaces_ok us st l.
Proof.
  induction us as [|u us IH]; intros H st l; cbn [replaces_ok]; auto. split.
  - specialize (H u (or_introl eq_refl)). destruct u; auto; contradiction.
  - intros. apply IH. intros; apply H; right; auto.
Qed.
