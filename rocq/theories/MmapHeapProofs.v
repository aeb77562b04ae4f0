(** Proofs about the allocator, continued: whole heaps and histories. *)
From Coq Require Import ZArith List Bool Lia.
From Verif Require Import Common MmapModel MmapSpec MmapProofs.
Import ListNotations.
Open Scope Z_scope.
Local Opaque Z.pow.

Lemma u64_small : forall x, 0 <= x < 18446744073709551616 -> u64 x = x.
Proof. intros. unfold u64. change (2 ^ 64) with 18446744073709551616. apply Z.mod_small. assumption. Qed.

Lemma chain_app : forall m H a b pos, chain m H pos (a ++ b) -> chain m H (chain_end pos a) b.
Proof.
  induction a as [|l a IH]; intros b pos HC; [ exact HC | ]. cbn [app chain chain_end] in *. apply IH. tauto.
Qed.
Lemma chain_end_app : forall a b pos, chain_end pos (a ++ b) = chain_end (chain_end pos a) b.
Proof. induction a as [|l a IH]; intros; [ reflexivity | ]. cbn [app chain_end]. apply IH. Qed.
Lemma used_c_app : forall a b pos, used_c pos (a ++ b) = used_c pos a ++ used_c (chain_end pos a) b.
Proof. induction a as [|l a IH]; intros; [ reflexivity | ]. cbn [app used_c chain_end]. rewrite IH, app_assoc. reflexivity. Qed.

(** Zero memory is an empty index. *)
Lemma zero_index : forall m H pos, chain m H pos [] -> pos + INDEX <= H -> index_ok m H pos [] /\ chain m H (pos + INDEX) [].
Proof.
  intros m H pos (H1 & H2 & H3) HB. split.
  - unfold index_ok. split; [ assumption | ]. split; [ lia | ]. split; [ unfold zlen; cbn; lia | ]. split; [ | split; [ exact I | cbn; lia ] ].
    intros j Hj. unfold used, size_of. rewrite !H3 by lia. rewrite Z.bits_0. destruct (Z.to_nat j); auto.
  - cbn [chain]. unfold INDEX in *. split; [ lia | ]. split; [ lia | ]. intros a Ha. apply H3. lia.
Qed.
Lemma chain_grow : forall m H ls pos, chain m H pos ls -> Forall (fun l => zlen l = 64) ls -> chain_end pos ls + INDEX <= H ->
  chain m H pos (ls ++ [[]]).
Proof.
  induction ls as [|l ls IH]; intros pos HC HF HB.
  - cbn [app chain chain_end] in *. destruct (zero_index m H pos HC HB) as [Z1 Z2].
    split; [ exact Z1 | ]. split; [ congruence | ]. cbn [total fold_right]. rewrite Z.add_0_r. exact Z2.
  - cbn [app chain chain_end] in *. apply Forall_cons_iff in HF. destruct HF as [HF1 HF].
    destruct HC as (H1 & H2 & H3). split; [ assumption | ]. split; [ auto | ]. apply IH; auto.
Qed.

Definition full (ls : list (list slot)) : Prop := Forall (fun l => zlen l = 64) ls.

Lemma alloc_loop_ok : forall ls fuel m H req pos prev,
  chain m H pos ls -> H < 2 ^ 63 -> 16 <= req <= 2 ^ 63 -> req mod 16 = 0 -> H - pos <= 520 * Z.of_nat fuel ->
  match alloc_loop fuel m H req pos prev with
  | (LFail, prev') => exists ls1 ls2, ls = ls1 ++ ls2 /\ full ls1 /\ prev' = chain_end pos ls1
  | (LBug, _) => False
  | (LStuck, _) => False
  | (LEnd, prev') => prev' = prev \/ exists ls1 ls2, ls = ls1 ++ ls2 /\ full ls1 /\ prev' = chain_end pos ls1
  | (LDone m' p, prev') => exists ls1 l ls2,
      (ls = ls1 ++ l :: ls2 \/ (ls = ls1 /\ l = [] /\ ls2 = [] /\ prev' + INDEX <= H)) /\ full ls1 /\ prev' = chain_end pos ls1 /\ placed m H prev' l req m' p
  end.
Proof.
  assert (P63 : 2 ^ 63 = 9223372036854775808) by reflexivity.
  induction ls as [|l ls IH]; intros fuel m H req pos prev HC HH HQ HM HF.
  - pose proof HC as (C1 & C2 & C3).
    destruct fuel as [|fuel]; cbn [alloc_loop]; destruct (Z.ltb_spec pos H); try lia; try (left; reflexivity).
    rewrite u64_small by (unfold INDEX in *; lia).
    destruct (Z.ltb_spec H (pos + INDEX)).
    { exists [], []. repeat split. constructor. }
    destruct (zero_index m H pos HC H1) as [Z1 Z2].
    pose proof (alloc_slots_ok [] 64 [] [] m H pos req 0 0 0 0 Z1 HH HQ HM eq_refl (or_introl (conj eq_refl (conj eq_refl eq_refl)))) as A.
    cbn [app] in A. change (zlen (@nil slot)) with 0 in A. change (total []) with 0 in A. rewrite Z.add_0_r in A.
    destruct (alloc_slots 64 0 m H pos req (pos + INDEX) 0 0 0 0) as [| |m' p|pos'].
    + exists [], []. repeat split. constructor.
    + exact A.
    + exists [], [], []. split; [ right; repeat split; assumption | ]. split; [ constructor | ]. split; [ reflexivity | exact A ].
    + destruct A as [_ A]. discriminate A.
  - pose proof HC as (C1 & C2 & C3). pose proof C1 as (I1 & I2 & I3 & I4 & I5 & I6).
    pose proof (total_nonneg _ (blocks_sizes _ _ _ I5)) as T.
    destruct fuel as [|fuel]; cbn [alloc_loop]; destruct (Z.ltb_spec pos H); try (unfold INDEX in *; lia).
    rewrite u64_small by (unfold INDEX in *; lia).
    destruct (Z.ltb_spec H (pos + INDEX)); [ lia | ].
    pose proof (alloc_slots_ok l 64 [] [] m H pos req 0 0 0 0 C1 HH HQ HM eq_refl (or_introl (conj eq_refl (conj eq_refl eq_refl)))) as A.
    cbn [app] in A. change (zlen (@nil slot)) with 0 in A. change (total []) with 0 in A. rewrite Z.add_0_r in A.
    destruct (alloc_slots 64 0 m H pos req (pos + INDEX) 0 0 0 0) as [| |m' p|pos'].
    + exists [], (l :: ls). repeat split. constructor.
    + exact A.
    + exists [], l, ls. split; [ left; reflexivity | ]. split; [ constructor | ]. split; [ reflexivity | exact A ].
    + destruct A as [-> A].
      specialize (IH fuel m H req (pos + INDEX + total l) pos C3 HH HQ HM). specialize (IH ltac:(unfold INDEX in *; lia)).
      destruct (alloc_loop fuel m H req (pos + INDEX + total l) pos) as [e prev']. destruct e.
      * destruct IH as (ls1 & ls2 & -> & F & ->). exists (l :: ls1), ls2. repeat split. constructor; assumption.
      * exact IH.
      * exact IH.
      * right. destruct IH as [->|(ls1 & ls2 & -> & F & ->)].
        -- exists [], (l :: ls). repeat split. constructor.
        -- exists (l :: ls1), ls2. repeat split. constructor; assumption.
      * destruct IH as (ls1 & l' & ls2 & E & F & -> & P). exists (l :: ls1), l', ls2.
        split; [ destruct E as [->|(-> & -> & -> & E)]; [ left; reflexivity | right; repeat split; exact E ] | ].
        split; [ constructor; assumption | ]. split; [ reflexivity | exact P ].
Qed.

Lemma used_outside : forall m H ls1 l ls2 pos h s, chain m H pos (ls1 ++ l :: ls2) -> In (h, s) (used_c pos (ls1 ++ l :: ls2)) ->
  h + s <= chain_end pos ls1 \/ chain_end pos ls1 + INDEX <= h.
Proof.
  intros m H ls1 l ls2 pos h s HC HU. rewrite used_c_app in HU. apply in_app_or in HU.
  pose proof (chain_app _ _ _ _ _ HC) as HC2. destruct HU as [HU|HU].
  - left. revert pos HC HC2 HU. induction ls1 as [|l0 ls1 IH]; intros pos HC HC2 HU; [ destruct HU | ].
    cbn [used_c chain_end app chain] in *. destruct HC as (C1 & C2 & C3). apply in_app_or in HU. destruct HU as [HU|HU].
    + destruct C1 as (_ & _ & _ & _ & B & _). apply used_l_range in HU; [ | eapply blocks_sizes; eauto ].
      assert (M : pos + INDEX + total l0 <= chain_end (pos + INDEX + total l0) ls1).
      { clear -C3. revert C3. generalize (pos + INDEX + total l0). induction ls1 as [|l1 ls1 IH]; intros q C3; [ cbn; lia | ].
        cbn [app chain chain_end] in *. destruct C3 as (D1 & _ & D3). apply IH in D3. destruct D1 as (_ & _ & _ & _ & B & _).
        pose proof (total_nonneg _ (blocks_sizes _ _ _ B)). unfold INDEX in *. lia. }
      lia.
    + apply IH; auto.
  - right. apply (used_c_range _ _ _ _ _ _ HC2 HU).
Qed.

(** A heap as the client sees it: the chain and where the last search began. *)
Definition at_index (ls : list (list slot)) (prev : Z) : Prop :=
  exists ls1 ls2, ls = ls1 ++ ls2 /\ full ls1 /\ prev = chain_end 0 ls1.

Lemma placed_total : forall m H ix l req m' p, placed m H ix l req m' p -> 16 <= req -> index_ok m H ix l ->
  exists S l', req <= S /\ ix + INDEX <= p /\ index_ok m' H ix l' /\ zlen l <= zlen l' /\
    (forall a, ~ (ix <= a < ix + INDEX) -> a <> p + S - 8 -> m' a = m a) /\ p + S <= ix + INDEX + total l' /\
    (total l' = total l \/ (zlen l < 64 /\ total l' = total l + S /\ p = ix + INDEX + total l)) /\
    (forall x, In x (used_l (ix + INDEX) l') <-> In x (used_l (ix + INDEX) l) \/ x = (p, S)) /\
    (forall s, ~ In (p, s) (used_l (ix + INDEX) l)).
Proof.
  intros m H ix l req m' p (l1 & mid & l2 & S & k & -> & HF & -> & HS & HC & HI & HA) HQ I0.
  destruct I0 as (_ & _ & _ & _ & B & _). pose proof (blocks_sizes _ _ _ B) as SZ.
  assert (SZ1 : sizes_ok l1) by (unfold sizes_ok in *; rewrite !Forall_app in SZ; tauto).
  assert (SZ2 : sizes_ok mid) by (unfold sizes_ok in *; rewrite !Forall_app in SZ; tauto).
  assert (SZ3 : sizes_ok l2) by (unfold sizes_ok in *; rewrite !Forall_app in SZ; tauto).
  pose proof (total_nonneg _ SZ1). pose proof (total_nonneg _ SZ2). pose proof (total_nonneg _ SZ3).
  exists S, (l1 ++ taken S k ++ l2). split; [ assumption | ]. split; [ lia | ]. split; [ assumption | ]. split; [ | split; [ assumption | split; [ | split; [ | split ] ] ] ].
  - unfold zlen. rewrite !app_length, taken_len. destruct HC as [(-> & -> & -> & _)|[_ HC]]; cbn [length]; lia.
  - rewrite !total_app, taken_total. lia.
  - rewrite !total_app, taken_total. destruct HC as [(-> & -> & -> & HC)|[HC _]]; [ right | left; lia ].
    change (total []) with 0. split; [ exact HC | ]. split; lia.
  - intros x. rewrite !used_l_app, taken_total, (used_freeish mid), taken_used by (auto; lia).
    cbn [app]. rewrite !in_app_iff.
    destruct HC as [(-> & -> & -> & HC)|[HC _]].
    + cbn [used_l app In]. intuition auto.
    + rewrite HC. cbn [In]. intuition auto.
  - intros s HU. rewrite !used_l_app, (used_freeish mid) in HU by auto. cbn [app] in HU. apply in_app_or in HU. destruct HU as [HU|HU].
    + apply used_l_range in HU; auto. lia.
    + apply used_l_range in HU; auto. destruct HC as [(-> & -> & -> & HC)|[HC _]]; [ | lia ]. change (total []) with 0 in *. lia.
Qed.

Lemma place_chain : forall m H ls1 l ls2 pos req m' p,
  chain m H pos (ls1 ++ l :: ls2) -> placed m H (chain_end pos ls1) l req m' p -> 16 <= req ->
  exists S l', req <= S /\ zlen l <= zlen l' /\ chain m' H pos (ls1 ++ l' :: ls2) /\
    (forall x, In x (used_c pos (ls1 ++ l' :: ls2)) <-> In x (used_c pos (ls1 ++ l :: ls2)) \/ x = (p, S)) /\
    (forall s, ~ In (p, s) (used_c pos (ls1 ++ l :: ls2))) /\
    (forall h s a, In (h, s) (used_c pos (ls1 ++ l :: ls2)) -> h <= a < h + s -> m' a = m a) /\
    (forall a, a < pos -> m' a = m a).
Proof.
  intros m H ls1 l ls2 pos req m' p HC HP HQ. pose proof (chain_app _ _ _ _ _ HC) as HC2.
  pose proof HC2 as (C1 & C2 & C3).
  destruct (placed_total _ _ _ _ _ _ _ HP HQ C1) as (S & l' & P1 & P2 & P3 & P4 & P5 & P5b & P6 & P7 & P8).
  set (ix := chain_end pos ls1) in *.
  assert (T : 0 <= total l) by (destruct C1 as (_ & _ & _ & _ & B & _); apply (total_nonneg _ (blocks_sizes _ _ _ B))).
  assert (E2 : ls2 = [] \/ total l' = total l).
  { destruct P6 as [P6|(P6 & _)]; [ right; exact P6 | left ]. destruct ls2; [ reflexivity | ]. specialize (C2 ltac:(discriminate)). lia. }
  assert (N : chain m' H ix (l' :: ls2)).
  { cbn [chain]. split; [ exact P3 | ]. split.
    - intros X. specialize (C2 X). destruct P3 as (_ & _ & P3 & _). lia.
    - destruct P6 as [P6|(P6 & P6b & P6c)].
      + rewrite P6. eapply chain_ext; [ exact C3 | ]. intros a Ha. apply P5; lia.
      + destruct ls2 as [|]; [ | specialize (C2 ltac:(discriminate)); lia ]. cbn [chain] in C3 |- *. destruct C3 as (D1 & D2 & D3).
        destruct P3 as (I1 & I2 & _ & _ & B & I6). pose proof (total_mod _ _ _ B) as TM. clear -D1 I1 I2 I6 TM P5 D3 P6b P6c T P1 HQ.
        unfold INDEX in *. split; [ lia | ]. split; [ lia | ]. intros a Ha. rewrite P5 by lia. apply D3. lia. }
  assert (M : forall a, a < ix -> m' a = m a) by (intros a Ha; apply P5; unfold INDEX in *; lia).
  assert (HE : pos <= ix).
  { subst ix. clear -HC. revert pos HC. induction ls1 as [|l1 ls1 IH]; intros q C3; [ cbn; lia | ].
        cbn [app chain chain_end] in *. destruct C3 as (D1 & _ & D3). apply IH in D3. destruct D1 as (_ & _ & _ & _ & B & _).
        pose proof (total_nonneg _ (blocks_sizes _ _ _ B)). unfold INDEX in *. lia. }
  assert (N0 : chain m' H pos (ls1 ++ l' :: ls2)).
  { subst ix. clear -HC M N. revert pos HC M N. induction ls1 as [|l0 ls1 IH]; intros pos HC M N; [ exact N | ].
    cbn [app chain chain_end] in *. destruct HC as (D1 & D2 & D3).
    assert (L : pos + INDEX + total l0 <= chain_end (pos + INDEX + total l0) ls1).
    { clear -D3. revert D3. generalize (pos + INDEX + total l0). induction ls1 as [|l1 ls1 IH]; intros q C3; [ cbn; lia | ].
        cbn [app chain chain_end] in *. destruct C3 as (D1 & _ & D3). apply IH in D3. destruct D1 as (_ & _ & _ & _ & B & _).
        pose proof (total_nonneg _ (blocks_sizes _ _ _ B)). unfold INDEX in *. lia. }
    split; [ | split ].
    - eapply index_ext; [ exact D1 | ]. intros a Ha. apply M. lia.
    - intros _. apply D2. destruct ls1; discriminate.
    - apply IH; auto. }
  assert (UX : forall x, In x (used_c pos (ls1 ++ l' :: ls2)) <-> In x (used_c pos (ls1 ++ l :: ls2)) \/ x = (p, S)).
  { intros x. rewrite !used_c_app. fold ix. cbn [used_c]. rewrite !in_app_iff, P7.
    destruct E2 as [ -> | -> ]; [ cbn [used_c In] | ]; tauto. }
  assert (UN : forall s, ~ In (p, s) (used_c pos (ls1 ++ l :: ls2))).
  { intros s HU. pose proof (used_outside _ _ _ _ _ _ _ _ HC HU) as UO. fold ix in UO.
    rewrite used_c_app in HU. fold ix in HU. apply in_app_or in HU. destruct HU as [HU|HU].
    - assert (HU' : In (p, s) (used_c pos (ls1 ++ l :: ls2))) by (rewrite used_c_app; apply in_or_app; left; exact HU).
      pose proof (used_c_range _ _ _ _ _ _ HC HU') as R.
      destruct UO as [UO|UO]; [ unfold INDEX in *; lia | ].
      assert (X : p + s <= ix).
      { clear -HU HC. subst ix. revert pos HC HU. induction ls1 as [|l0 ls1 IH]; intros pos HC HU; [ destruct HU | ].
        cbn [app chain chain_end used_c] in *. destruct HC as (D1 & D2 & D3). apply in_app_or in HU. destruct HU as [HU|HU]; [ | apply IH; auto ].
        destruct D1 as (_ & _ & _ & _ & B & _). apply used_l_range in HU; [ | eapply blocks_sizes; eauto ].
        assert (L : pos + INDEX + total l0 <= chain_end (pos + INDEX + total l0) ls1).
        { clear -D3. revert D3. generalize (pos + INDEX + total l0). induction ls1 as [|l1 ls1 IH]; intros q C3; [ cbn; lia | ].
          cbn [app chain chain_end] in *. destruct C3 as (D1 & _ & D3). apply IH in D3. destruct D1 as (_ & _ & _ & _ & B & _).
          pose proof (total_nonneg _ (blocks_sizes _ _ _ B)). unfold INDEX in *. lia. }
        lia. }
      unfold INDEX in *. lia.
    - cbn [used_c] in HU. apply in_app_or in HU. destruct HU as [HU|HU]; [ exact (P8 s HU) | ].
      pose proof (used_c_range _ _ _ _ _ _ C3 HU) as R. destruct E2 as [->|E2]; [ destruct HU | ]. unfold INDEX in *. lia. }
  exists S, l'. split; [ assumption | ]. split; [ assumption | ]. split; [ assumption | ]. split; [ assumption | ]. split; [ assumption | ].
  split.
  - intros h s a HU Ha. apply P5.
    + pose proof (used_outside _ _ _ _ _ _ _ _ HC HU) as UO. fold ix in UO. lia.
    + assert (X : (h, s) = (p, S) \/ apart (h, s) (p, S)).
      { apply (used_c_apart _ _ _ _ _ _ N0); apply UX; auto. }
      destruct X as [X|X]; [ inversion X; subst; destruct (UN _ HU) | ]. unfold apart in X. cbn [fst snd] in X. lia.
  - intros a Ha. apply M. lia.
Qed.

(** Freeing. *)
Lemma free_slots_ok : forall l2 n l1 m H ix h,
  index_ok m H ix (l1 ++ l2) -> H < 2 ^ 63 -> Z.of_nat n = 64 - zlen l1 ->
  let pos := ix + INDEX + total l1 in
  match free_slots n (zlen l1) m H ix h pos with
  | FBug => (forall s, ~ In (h, s) (used_l pos l2)) /\ pos <= h <= pos + total l2
  | FNext pos' => pos' = pos + total l2 /\ (forall s, ~ In (h, s) (used_l pos l2))
  | FDone m' => exists a s b, l2 = a ++ (true, s) :: b /\ 0 < s /\ h = pos + total a /\ m' = clear_used m ix (zlen (l1 ++ a))
  end.
Proof.
  assert (P63 : 2 ^ 63 = 9223372036854775808) by reflexivity.
  induction l2 as [|[u s] l2 IH]; intros n l1 m H ix h HI HH Hn pos.
  - rewrite app_nil_r in HI. pose proof HI as (I1 & I2 & I3 & I4 & I5 & I6). pose proof (total_nonneg _ (blocks_sizes _ _ _ I5)) as T.
    assert (Z : forall n' j, Z.of_nat n' = 64 - j -> zlen l1 <= j ->
      free_slots n' j m H ix h pos = if (h =? pos) && negb (Nat.eqb n' 0) then FBug else FNext pos).
    { induction n' as [|n' IHn]; intros j Hj Hl; cbn [free_slots]; [ rewrite Bool.andb_false_r; reflexivity | ].
      pose proof (zlen_nonneg _ l1). assert (R : used m ix j = false /\ size_of m ix j = 0).
      { destruct (I4 j) as [R1 R2]; [ lia | ]. unfold zlen in *. rewrite nth_overflow in R1, R2 by lia. auto. }
      destruct R as [R1 R2]. rewrite R1, R2. change (0 =? 0) with true. cbn [andb negb].
      destruct (Z.eqb_spec h pos) as [->|E]; [ reflexivity | ]. cbn [andb].
      rewrite Z.add_0_r, u64_small by (subst pos; unfold INDEX in *; lia).
      destruct (Z.ltb_spec H pos); [ subst pos; lia | ].
      rewrite IHn by lia. reflexivity. }
    rewrite Z by lia. change (total []) with 0. destruct ((h =? pos) && negb (Nat.eqb n 0)) eqn:E.
    + split; [ intros s HU; exact HU | ]. lia.
    + split; [ lia | ]. intros s HU. exact HU.
  - pose proof HI as (I1 & I2 & I3 & I4 & I5 & I6).
    destruct n as [|n].
    { rewrite zlen_app, zlen_cons in I3. pose proof (zlen_nonneg _ l2). lia. }
    cbn [free_slots]. destruct (rep_nth _ _ _ _ _ I4) as [R1 R2]; [ lia | ]. cbn [fst snd] in R1, R2. rewrite R1, R2.
    pose proof I5 as B. apply blocks_app in B. destruct B as [B1 [B2 B3]]. cbn [snd] in B3.
    pose proof (total_nonneg _ (blocks_sizes _ _ _ B1)) as T1. pose proof (total_nonneg _ (blocks_sizes _ _ _ B3)) as T3.
    rewrite total_app, total_cons in I6. cbn [snd] in I6. rewrite total_cons. cbn [snd].
    assert (S0 : 0 <= s) by (destruct B2 as [[X _]|[X _]]; cbn [snd] in X; lia).
    assert (STEP : h <> pos \/ s = 0 -> (s = 0 -> u = true) ->
      match free_slots n (zlen l1 + 1) m H ix h (pos + s) with
      | FBug => (forall z, ~ In (h, z) (used_l pos ((u, s) :: l2))) /\ pos <= h <= pos + (s + total l2)
      | FNext pos' => pos' = pos + (s + total l2) /\ (forall z, ~ In (h, z) (used_l pos ((u, s) :: l2)))
      | FDone m' => exists a s0 b, (u, s) :: l2 = a ++ (true, s0) :: b /\ 0 < s0 /\ h = pos + total a /\ m' = clear_used m ix (zlen (l1 ++ a))
      end).
    { intros HN HU. specialize (IH n (l1 ++ [(u, s)]) m H ix h). rewrite <- app_assoc in IH. cbn [app] in IH.
      specialize (IH HI HH). rewrite zlen_app, zlen_cons, zlen_nil in IH. specialize (IH ltac:(lia)).
      rewrite total_app, total_cons in IH. change (total []) with 0 in IH. cbn [snd] in IH.
      replace (ix + INDEX + (total l1 + (s + 0))) with (pos + s) in IH by (subst pos; lia).
      replace (zlen l1 + (1 + 0)) with (zlen l1 + 1) in IH by lia. cbv zeta in IH.
      assert (NI : forall z, ~ In (h, z) (used_l (pos + s) l2) -> ~ In (h, z) (used_l pos ((u, s) :: l2))).
      { intros z Hz HX. cbn [used_l] in HX. apply in_app_or in HX. destruct HX as [HX|HX]; [ | auto ].
        destruct u, (Z.eqb_spec s 0); cbn in HX; try tauto. destruct HX as [HX|[]]. inversion HX; subst. destruct HN; lia. }
      destruct (free_slots n (zlen l1 + 1) m H ix h (pos + s)) as [|m'|pos'].
      - destruct IH as [IH1 IH2]. split; [ auto | lia ].
      - destruct IH as (a & s0 & b & -> & E1 & -> & ->). exists ((u, s) :: a), s0, b. split; [ reflexivity | ]. split; [ assumption | ].
        split; [ rewrite total_cons; cbn [snd]; lia | ]. rewrite <- app_assoc. reflexivity.
      - destruct IH as [-> IH2]. split; [ lia | auto ]. }
    destruct (Z.eqb_spec s 0) as [->|Es].
    + assert (u = true) by (destruct B2 as [[_ B2]|[B2 _]]; cbn [fst snd] in B2; [ exact B2 | lia ]).
      destruct u; [ | discriminate ]. cbn [andb]. rewrite Z.add_0_r in STEP. apply STEP; auto.
    + cbn [andb]. destruct (Z.eqb_spec h pos) as [->|Eh].
      * destruct u; cbn [negb].
        -- exists [], s, l2. rewrite app_nil_r. change (total []) with 0. repeat split; lia.
        -- split; [ | lia ]. intros z HX. cbn [used_l andb app] in HX. apply used_l_range in HX; [ lia | eapply blocks_sizes; eauto ].
      * rewrite u64_small by (subst pos; unfold INDEX in *; lia). destruct (Z.ltb_spec H (pos + s)); [ subst pos; lia | ].
        apply STEP; [ auto | intros; contradiction ].
Qed.

Lemma free_loop_ok : forall fuel ls m H h pos, chain m H pos ls -> H < 2 ^ 63 -> H - pos <= 520 * Z.of_nat fuel ->
  match free_loop fuel m H h pos with
  | Stuck => False
  | Bug => forall s, ~ In (h, s) (used_c pos ls)
  | Ok m' => exists ls1 l1 s l2 ls2, ls = ls1 ++ (l1 ++ (true, s) :: l2) :: ls2 /\ 0 < s /\
      h = chain_end pos ls1 + INDEX + total l1 /\ m' = clear_used m (chain_end pos ls1) (zlen l1)
  end.
Proof.
  assert (P63 : 2 ^ 63 = 9223372036854775808) by reflexivity.
  induction fuel as [|fuel IH]; intros ls m H h pos HC HH HF; pose proof (chain_end_le _ _ _ _ HC) as CE; cbn [free_loop].
  - destruct (Z.ltb_spec pos H); [ lia | ]. intros s HU. apply (used_c_range _ _ _ _ _ _ HC) in HU. unfold INDEX in *. lia.
  - destruct (Z.ltb_spec pos H).
    2:{ intros s HU. apply (used_c_range _ _ _ _ _ _ HC) in HU. unfold INDEX in *. lia. }
    rewrite u64_small by (unfold INDEX in *; lia).
    destruct (Z.ltb_spec H (pos + INDEX)).
    { intros s HU. apply (used_c_range _ _ _ _ _ _ HC) in HU. lia. }
    destruct ls as [|l ls].
    + destruct (zero_index _ _ _ HC H1) as [Z1 Z2].
      pose proof (free_slots_ok [] 64 [] m H pos h Z1 HH eq_refl) as A. cbv zeta in A. change (total []) with 0 in A. rewrite Z.add_0_r in A.
      change (zlen (@nil slot)) with 0 in A. rewrite Z.add_0_r in A.
      destruct (free_slots 64 0 m H pos h (pos + INDEX)) as [|m'|pos'].
      * intros s HU. destruct HU.
      * destruct A as ([|? ?] & s & b & A & _); discriminate A.
      * destruct A as [-> _]. specialize (IH [] m H h (pos + INDEX) Z2 HH ltac:(unfold INDEX; lia)).
        destruct (free_loop fuel m H h (pos + INDEX)) as [m'| |]; auto.
        destruct IH as ([|? ?] & l1 & s & l2 & ls2 & A & _); discriminate A.
    + pose proof HC as (C1 & C2 & C3). pose proof C1 as (I1 & I2 & I3 & I4 & I5 & I6).
      pose proof (total_nonneg _ (blocks_sizes _ _ _ I5)) as T.
      pose proof (free_slots_ok l 64 [] m H pos h C1 HH eq_refl) as A. cbv zeta in A. change (total []) with 0 in A. rewrite Z.add_0_r in A.
      change (zlen (@nil slot)) with 0 in A.
      destruct (free_slots 64 0 m H pos h (pos + INDEX)) as [|m'|pos'].
      * destruct A as [A1 A2]. intros s HU. cbn [used_c] in HU. apply in_app_or in HU. destruct HU as [HU|HU]; [ exact (A1 s HU) | ].
        apply (used_c_range _ _ _ _ _ _ C3) in HU. unfold INDEX in *. lia.
      * destruct A as (a & s & b & -> & A1 & -> & ->). exists [], a, s, b, ls. repeat split. assumption.
      * destruct A as [-> A]. specialize (IH ls m H h (pos + INDEX + total l) C3 HH ltac:(unfold INDEX in *; lia)).
        destruct (free_loop fuel m H h (pos + INDEX + total l)) as [m'| |].
        -- destruct IH as (ls1 & l1 & s & l2 & ls2 & -> & E1 & -> & ->). exists (l :: ls1), l1, s, l2, ls2. repeat split. assumption.
        -- intros s HU. cbn [used_c] in HU. apply in_app_or in HU. destruct HU as [HU|HU]; [ exact (A s HU) | exact (IH s HU) ].
        -- exact IH.
Qed.

Lemma prefix_end : forall m H ls1 r pos, chain m H pos (ls1 ++ r) -> pos <= chain_end pos ls1.
Proof.
  induction ls1 as [|l1 ls1 IH]; intros r q C3; [ cbn; lia | ].
  cbn [app chain chain_end] in *. destruct C3 as (D1 & _ & D3). apply IH in D3. destruct D1 as (_ & _ & _ & _ & B & _).
  pose proof (total_nonneg _ (blocks_sizes _ _ _ B)). unfold INDEX in *. lia.
Qed.
Lemma prefix_chain : forall m m' H ls1 r r' pos, chain m H pos (ls1 ++ r) -> r <> [] -> chain m' H (chain_end pos ls1) r' ->
  (forall a, a < chain_end pos ls1 -> m' a = m a) -> chain m' H pos (ls1 ++ r').
Proof.
  induction ls1 as [|l0 ls1 IH]; intros r r' pos HC HR N M; [ exact N | ].
  cbn [app chain chain_end] in *. destruct HC as (D1 & D2 & D3). pose proof (prefix_end _ _ _ _ _ D3) as L.
  split; [ | split ].
  - eapply index_ext; [ exact D1 | ]. intros a Ha. apply M. lia.
  - intros X. apply D2. destruct ls1; [ exact HR | discriminate ].
  - eapply IH; eauto.
Qed.
Lemma prefix_used : forall m H ls1 r pos h s, chain m H pos (ls1 ++ r) -> In (h, s) (used_c pos ls1) -> 0 < s /\ h + s <= chain_end pos ls1.
Proof.
  induction ls1 as [|l0 ls1 IH]; intros r pos h s HC HU; [ destruct HU | ].
  cbn [app chain chain_end used_c] in *. destruct HC as (D1 & D2 & D3). apply in_app_or in HU. destruct HU as [HU|HU]; [ | eapply IH; eauto ].
  destruct D1 as (_ & _ & _ & _ & B & _). apply used_l_range in HU; [ | eapply blocks_sizes; eauto ].
  pose proof (prefix_end _ _ _ _ _ D3). lia.
Qed.

Lemma clear_chain : forall m H ls1 l1 s l2 ls2 pos,
  chain m H pos (ls1 ++ (l1 ++ (true, s) :: l2) :: ls2) -> 0 < s ->
  let ix := chain_end pos ls1 in
  let m' := clear_used m ix (zlen l1) in
  let h := ix + INDEX + total l1 in
  chain m' H pos (ls1 ++ (l1 ++ (false, s) :: l2) :: ls2) /\
  (forall x, In x (used_c pos (ls1 ++ (l1 ++ (false, s) :: l2) :: ls2)) <-> In x (used_c pos (ls1 ++ (l1 ++ (true, s) :: l2) :: ls2)) /\ fst x <> h) /\
  (forall a, a <> ix -> m' a = m a).
Proof.
  intros m H ls1 l1 s l2 ls2 pos HC HS ix m' h.
  assert (M : forall a, a <> ix -> m' a = m a) by (intros a Ha; unfold m', clear_used; apply upd_other; exact Ha).
  pose proof (chain_app _ _ _ _ _ HC) as HC2. fold ix in HC2. destruct HC2 as (C1 & C2 & C3). pose proof C1 as (I1 & I2 & I3 & I4 & I5 & I6).
  assert (ET : total (l1 ++ (false, s) :: l2) = total (l1 ++ (true, s) :: l2)) by (rewrite !total_app, !total_cons; reflexivity).
  assert (EL : zlen (l1 ++ (false, s) :: l2) = zlen (l1 ++ (true, s) :: l2)) by (rewrite !zlen_app, !zlen_cons; reflexivity).
  assert (TT : 0 <= total (l1 ++ (true, s) :: l2)) by (apply (total_nonneg _ (blocks_sizes _ _ _ I5))).
  pose proof I5 as B. apply blocks_app in B. destruct B as [B1 [B2 B3]]. cbn [snd] in B3.
  pose proof (zlen_nonneg _ l1) as Z1.
  assert (ZL : zlen l1 < 64) by (rewrite zlen_app, zlen_cons in I3; pose proof (zlen_nonneg _ l2); lia).
  split; [ | split; [ | exact M ] ].
  - eapply prefix_chain; [ exact HC | discriminate | | intros a Ha; apply M; subst ix; lia ].
    cbn [chain]. fold ix. rewrite ET. split; [ | split; [ intros X; exact (eq_trans EL (C2 X)) | ] ].
    + unfold index_ok. rewrite ET. split; [ assumption | ]. split; [ assumption | ]. split; [ eapply Z.le_trans; [ | exact I3 ]; apply Z.eq_le_incl; exact EL | ].
      split; [ | split; [ | assumption ] ].
      * intros j Hj. destruct (I4 j Hj) as [R1 R2]. unfold used, size_of in *. unfold m', clear_used.
        rewrite upd_same, Z.ldiff_spec, Z.pow2_bits_eqb by lia. rewrite upd_other by lia. rewrite R1, R2.
        unfold zlen in *. destruct (Z.ltb_spec j (Z.of_nat (length l1))).
        -- rewrite !app_nth1 by lia. destruct (Z.eqb_spec (Z.of_nat (length l1)) j); [ lia | ]. rewrite Bool.andb_true_r. auto.
        -- rewrite !app_nth2 by lia. destruct (Z.eqb_spec (Z.of_nat (length l1)) j) as [E|E].
           ++ subst j. rewrite Nat2Z.id, Nat.sub_diag. cbn. auto.
           ++ destruct (Z.to_nat j - length l1)%nat eqn:E2; [ lia | ]. cbn [nth]. rewrite Bool.andb_true_r. auto.
      * assert (X : blocks_ok m (ix + INDEX) (l1 ++ (false, s) :: l2)).
        { apply blocks_app. split; [ exact B1 | ]. cbn [blocks_ok snd]. split; [ | exact B3 ].
          destruct B2 as [[B2 _]|B2]; [ cbn [snd] in B2; lia | right; exact B2 ]. }
        eapply blocks_ext; [ exact X | ]. intros a Ha. apply M. unfold INDEX in *. lia.
    + eapply chain_ext; [ exact C3 | ]. intros a Ha. apply M. unfold INDEX in *. lia.
  - intros x. rewrite !used_c_app. fold ix. cbn [used_c]. rewrite ET, !used_l_app. cbn [used_l andb app].
    destruct (Z.eqb_spec s 0); [ lia | ]. cbn [negb app]. fold h. rewrite !in_app_iff. cbn [In].
    destruct x as [h' s']. cbn [fst].
    split.
    + intros [X|[[X|X]|X]].
      * split; [ tauto | ]. apply (prefix_used _ _ _ _ _ _ _ HC) in X. fold ix in X. pose proof (total_nonneg _ (blocks_sizes _ _ _ B1)). subst h. unfold INDEX in *. lia.
      * split; [ tauto | ]. apply used_l_range in X; [ | eapply blocks_sizes; eauto ]. fold h in X. lia.
      * split; [ tauto | ]. apply used_l_range in X; [ | eapply blocks_sizes; eauto ]. fold h in X. lia.
      * split; [ tauto | ]. apply (used_c_range _ _ _ _ _ _ C3) in X. rewrite total_app, total_cons in X. cbn [snd] in X.
        pose proof (total_nonneg _ (blocks_sizes _ _ _ B3)). subst h. unfold INDEX in *. lia.
    + intros [[X|[[X|[X|X]]|X]] Y]; try tauto. inversion X; subst. destruct (Y eq_refl).
Qed.

(** Writing to allocated memory leaves indexes and sentinels alone. *)
Lemma put_blocks : forall m l pos h s a v, blocks_ok m pos l -> In (h, s) (used_l pos l) -> h <= a < h + s - 8 -> blocks_ok (upd m a v) pos l.
Proof.
  induction l as [|[u z] l IH]; intros pos h s a v HB HU Ha; [ destruct HU | ]. cbn [blocks_ok snd used_l] in *. destruct HB as [B1 B2].
  apply in_app_or in HU. destruct HU as [HU|HU].
  - destruct u, (Z.eqb_spec z 0); cbn in HU; try tauto. destruct HU as [HU|[]]. inversion HU; subst.
    split.
    + destruct B1 as [B1|(X & Y & Z)]; [ left; exact B1 | right ]. cbn [fst snd] in *. rewrite upd_other by lia. auto.
    + eapply blocks_ext; [ exact B2 | ]. intros b Hb. apply upd_other. lia.
  - pose proof HU as R. apply used_l_range in R; [ | eapply blocks_sizes; eauto ]. split.
    + destruct B1 as [B1|(X & Y & Z)]; [ left; exact B1 | right ]. cbn [fst snd] in *. rewrite upd_other by lia. auto.
    + eapply IH; eauto.
Qed.
Lemma put_chain : forall m H ls pos h s a v, chain m H pos ls -> In (h, s) (used_c pos ls) -> h <= a < h + s - 8 -> chain (upd m a v) H pos ls.
Proof.
  induction ls as [|l ls IH]; intros pos h s a v HC HU Ha; [ destruct HU | ]. cbn [chain used_c] in *. destruct HC as (C1 & C2 & C3).
  pose proof C1 as (I1 & I2 & I3 & I4 & I5 & I6). apply in_app_or in HU. destruct HU as [HU|HU].
  - pose proof HU as R. apply used_l_range in R; [ | eapply blocks_sizes; eauto ]. split; [ | split; [ exact C2 | ] ].
    + unfold index_ok. repeat (split; [ assumption | ]). split; [ | split; [ | assumption ] ].
      * eapply rep_ext; [ exact I4 | ]. intros b Hb. apply upd_other. unfold INDEX in *. lia.
      * eapply put_blocks; eauto.
    + eapply chain_ext; [ exact C3 | ]. intros b Hb. apply upd_other. lia.
  - pose proof HU as R. apply (used_c_range _ _ _ _ _ _ C3) in R. split; [ | split; [ exact C2 | ] ].
    + eapply index_ext; [ exact C1 | ]. intros b Hb. apply upd_other. unfold INDEX in *. lia.
    + eapply IH; eauto.
Qed.

(** Looking for used blocks. *)
Lemma any_used_ok : forall l2 n l1 m H ix, index_ok m H ix (l1 ++ l2) -> Z.of_nat n = 64 - zlen l1 ->
  any_used n (zlen l1) m ix = true <-> used_l (ix + INDEX + total l1) l2 <> [].
Proof.
  induction l2 as [|[u s] l2 IH]; intros n l1 m H ix HI Hn; pose proof HI as (I1 & I2 & I3 & I4 & I5 & I6).
  - rewrite app_nil_r in I4.
    assert (Z : forall n' j, Z.of_nat n' = 64 - j -> zlen l1 <= j -> any_used n' j m ix = false).
    { induction n' as [|n' IHn]; intros j Hj Hl; cbn [any_used]; [ reflexivity | ]. pose proof (zlen_nonneg _ l1).
      destruct (I4 j) as [R1 R2]; [ lia | ]. unfold zlen in *. rewrite nth_overflow in R1 by lia. rewrite R1. cbn [fst andb orb]. apply IHn; lia. }
    rewrite Z by lia. cbn. split; [ discriminate | congruence ].
  - destruct n as [|n].
    { rewrite zlen_app, zlen_cons in I3. pose proof (zlen_nonneg _ l2). lia. }
    cbn [any_used]. destruct (rep_nth _ _ _ _ _ I4) as [R1 R2]; [ lia | ]. rewrite R1, R2. cbn [fst snd].
    specialize (IH n (l1 ++ [(u, s)]) m H ix). rewrite <- app_assoc in IH. cbn [app] in IH. specialize (IH HI).
    rewrite zlen_app, zlen_cons, zlen_nil, total_app, total_cons in IH. specialize (IH ltac:(lia)).
    change (total []) with 0 in IH. cbn [snd] in IH.
    replace (ix + INDEX + (total l1 + (s + 0))) with (ix + INDEX + total l1 + s) in IH by lia.
    replace (zlen l1 + (1 + 0)) with (zlen l1 + 1) in IH by lia.
    cbn [used_l]. destruct (u && negb (s =? 0)); cbn [orb app]; [ | exact IH ]. split; [ discriminate | reflexivity ].
Qed.
Lemma skip_slots_ok : forall l2 n l1 m H ix, index_ok m H ix (l1 ++ l2) -> H < 2 ^ 63 -> Z.of_nat n = 64 - zlen l1 ->
  skip_slots n (zlen l1) m H ix (ix + INDEX + total l1) = Some (ix + INDEX + total (l1 ++ l2)).
Proof.
  assert (P63 : 2 ^ 63 = 9223372036854775808) by reflexivity.
  induction l2 as [|[u s] l2 IH]; intros n l1 m H ix HI HH Hn; pose proof HI as (I1 & I2 & I3 & I4 & I5 & I6).
  - rewrite app_nil_r in *. pose proof (total_nonneg _ (blocks_sizes _ _ _ I5)) as T.
    assert (Z : forall n' j, Z.of_nat n' = 64 - j -> zlen l1 <= j -> skip_slots n' j m H ix (ix + INDEX + total l1) = Some (ix + INDEX + total l1)).
    { induction n' as [|n' IHn]; intros j Hj Hl; cbn [skip_slots]; [ reflexivity | ]. pose proof (zlen_nonneg _ l1).
      destruct (I4 j) as [R1 R2]; [ lia | ]. unfold zlen in *. rewrite nth_overflow in R2 by lia. rewrite R2. cbn [snd].
      rewrite Z.add_0_r, u64_small by (unfold INDEX in *; lia). destruct (Z.ltb_spec H (ix + INDEX + total l1)); [ lia | ]. apply IHn; lia. }
    apply Z; lia.
  - destruct n as [|n].
    { rewrite zlen_app, zlen_cons in I3. pose proof (zlen_nonneg _ l2). lia. }
    cbn [skip_slots]. destruct (rep_nth _ _ _ _ _ I4) as [R1 R2]; [ lia | ]. rewrite R2. cbn [snd].
    pose proof I5 as B. apply blocks_app in B. destruct B as [B1 [B2 B3]].
    pose proof (total_nonneg _ (blocks_sizes _ _ _ B1)). pose proof (total_nonneg _ (blocks_sizes _ _ _ B3)).
    assert (S0 : 0 <= s) by (destruct B2 as [[X _]|[X _]]; cbn [snd] in X; lia).
    rewrite total_app, total_cons in I6. cbn [snd] in *.
    rewrite u64_small by (unfold INDEX in *; lia). destruct (Z.ltb_spec H (ix + INDEX + total l1 + s)); [ lia | ].
    specialize (IH n (l1 ++ [(u, s)]) m H ix). rewrite <- app_assoc in IH. cbn [app] in IH. specialize (IH HI HH).
    rewrite (zlen_app _ l1 [(u, s)]), zlen_cons, zlen_nil in IH. specialize (IH ltac:(lia)).
    replace (zlen l1 + (1 + 0)) with (zlen l1 + 1) in IH by lia.
    rewrite (total_app l1 [(u, s)]), total_cons in IH. change (total []) with 0 in IH. cbn [snd] in IH.
    replace (ix + INDEX + (total l1 + (s + 0))) with (ix + INDEX + total l1 + s) in IH by lia. exact IH.
Qed.
Lemma empty_loop_ok : forall fuel ls m H pos, chain m H pos ls -> H < 2 ^ 63 -> H - pos <= 520 * Z.of_nat fuel ->
  exists b, empty_loop fuel m H pos = Ok b /\ (b = true <-> used_c pos ls = []).
Proof.
  assert (P63 : 2 ^ 63 = 9223372036854775808) by reflexivity.
  assert (NIL : forall m H pos ls, chain m H pos ls -> H < pos + INDEX -> used_c pos ls = []).
  { intros m H pos ls HC HB. destruct (used_c pos ls) as [|[h s] r] eqn:E; [ reflexivity | ].
    assert (HU : In (h, s) (used_c pos ls)) by (rewrite E; left; reflexivity).
    pose proof (used_c_range _ _ _ _ _ _ HC HU). pose proof (chain_end_le _ _ _ _ HC). lia. }
  induction fuel as [|fuel IH]; intros ls m H pos HC HH HF; pose proof (chain_end_le _ _ _ _ HC) as CE; cbn [empty_loop].
  - destruct (Z.ltb_spec pos H); [ lia | ]. exists true. split; [ reflexivity | ]. rewrite (NIL _ _ _ _ HC) by (unfold INDEX; lia). tauto.
  - destruct (Z.ltb_spec pos H).
    2:{ exists true. split; [ reflexivity | ]. rewrite (NIL _ _ _ _ HC) by (unfold INDEX; lia). tauto. }
    rewrite u64_small by (unfold INDEX in *; lia).
    destruct (Z.ltb_spec H (pos + INDEX)).
    { exists true. split; [ reflexivity | ]. rewrite (NIL _ _ _ _ HC) by lia. tauto. }
    destruct ls as [|l ls].
    + destruct (zero_index _ _ _ HC H1) as [Z1 Z2].
      replace (m pos) with 0 by (symmetry; destruct HC as (_ & _ & HC); apply HC; lia). change (0 =? 0) with true. cbn [negb andb].
      pose proof (skip_slots_ok [] 64 [] m H pos Z1 HH eq_refl) as A. cbn [app] in A. change (total []) with 0 in A. change (zlen (@nil slot)) with 0 in A.
      rewrite Z.add_0_r in A. rewrite A. change (used_c pos []) with (used_c (pos + INDEX) []). apply IH; auto. unfold INDEX; lia.
    + pose proof HC as (C1 & C2 & C3). pose proof C1 as (I1 & I2 & I3 & I4 & I5 & I6).
      pose proof (total_nonneg _ (blocks_sizes _ _ _ I5)) as T.
      pose proof (any_used_ok l 64 [] m H pos C1 eq_refl) as A. change (total []) with 0 in A. change (zlen (@nil slot)) with 0 in A. rewrite Z.add_0_r in A.
      pose proof (skip_slots_ok l 64 [] m H pos C1 HH eq_refl) as A2. cbn [app] in A2. change (total []) with 0 in A2. change (zlen (@nil slot)) with 0 in A2.
      rewrite Z.add_0_r in A2. rewrite A2. cbn [used_c].
      assert (E : negb (m pos =? 0) && any_used 64 0 m pos = any_used 64 0 m pos).
      { destruct (Z.eqb_spec (m pos) 0) as [E|E]; [ | reflexivity ]. cbn [negb andb]. symmetry.
        assert (X : forall n j, any_used n j m pos = false); [ | apply X ].
        induction n as [|n IHn]; intros j; [ reflexivity | ]. cbn [any_used]. unfold used. rewrite E, Z.bits_0. cbn [andb orb]. apply IHn. }
      rewrite E. destruct (any_used 64 0 m pos) eqn:EA.
      * exists false. split; [ reflexivity | ]. split; [ discriminate | ]. intros X. apply app_eq_nil in X. destruct X as [X _]. destruct (proj1 A eq_refl X).
      * destruct (used_l (pos + INDEX) l) as [|x r]; [ | exfalso; assert (false = true) by (apply A; discriminate); discriminate ].
        cbn [app]. apply IH; auto. unfold INDEX in *. lia.
Qed.

(** The heap holds exactly the live allocations. *)
Definition live_rep (m : mem) (us : list (Z * Z)) (live : list block) : Prop :=
  (forall b, In b live -> exists s, In (b_at b, s) us /\ b_bytes b + 8 < s /\ 0 < b_bytes b /\
     forall i x, 0 <= i -> 8 * i < b_bytes b -> b_words b i = Some x -> m (b_at b + 8 * i) = x) /\
  (forall h s, In (h, s) us -> is_live live h) /\
  NoDup (map b_at live).
Definition heap_rep (s : mmap) (live : list block) : Prop :=
  exists ls, chain (m_heap s) (m_size s) 0 ls /\ at_index ls (m_prev_pos s) /\ INDEX <= m_size s < 2 ^ 63 /\
    live_rep (m_heap s) (used_c 0 ls) live.

Lemma rounds_ok : forall H, 0 <= H -> H - 0 <= 520 * Z.of_nat (rounds H).
Proof. intros H HH. unfold rounds, INDEX. rewrite Z2Nat.id by lia. lia. Qed.

Lemma heap_rep_init : forall n, 0 <= n < 2 ^ 62 -> heap_rep (mmap_init n) [].
Proof.
  intros n Hn. change (2 ^ 62) with 4611686018427387904 in Hn.
  assert (E : init_size n = n + 528 + (4096 - (n + 528) mod 4096)).
  { unfold init_size, INDEX. rewrite (u64_small (n + 520 + 8)) by lia. rewrite u64_small by lia. replace (n + 520 + 8) with (n + 528) by lia. reflexivity. }
  exists []. cbn [mmap_init m_heap m_size m_prev_pos]. change (2 ^ 63) with 9223372036854775808. unfold INDEX. split; [ | split; [ | split ] ].
  - cbn [chain]. split; [ lia | ]. split; [ reflexivity | reflexivity ].
  - exists [], []. repeat split. constructor.
  - lia.
  - split; [ intros b [] | ]. split; [ intros h s [] | constructor ].
Qed.

Lemma same_block : forall live b b', NoDup (map b_at live) -> In b live -> In b' live -> b_at b = b_at b' -> b = b'.
Proof.
  induction live as [|c live IH]; intros b b' N HB HB' E; [ destruct HB | ]. inversion N as [|? ? N1 N2]; subst.
  destruct HB as [->|HB], HB' as [->|HB']; auto.
  - exfalso. apply N1. rewrite E. apply in_map. exact HB'.
  - exfalso. apply N1. rewrite <- E. apply in_map. exact HB.
Qed.

Lemma used_bound : forall m H ls h s, chain m H 0 ls -> In (h, s) (used_c 0 ls) -> 520 <= h /\ 0 < s /\ h + s <= H.
Proof.
  intros m H ls h s HC HU. pose proof (used_c_range _ _ _ _ _ _ HC HU). pose proof (chain_end_le _ _ _ _ HC). unfold INDEX in *. lia.
Qed.
Lemma used_aligned : forall m H ls pos h s, chain m H pos ls -> In (h, s) (used_c pos ls) -> h mod 8 = 0.
Proof.
  induction ls as [|l ls IH]; intros pos h s HC HU; [ destruct HU | ]. cbn [chain used_c] in *. destruct HC as (C1 & C2 & C3).
  apply in_app_or in HU. destruct HU as [HU|HU]; [ | eapply IH; eauto ].
  destruct C1 as (I1 & _ & _ & _ & B & _). assert (P : (pos + INDEX) mod 8 = 0) by (unfold INDEX; lia). clear -P B HU.
  revert P B HU. generalize (pos + INDEX). induction l as [|[u z] l IHl]; intros q P B HU; [ destruct HU | ].
  cbn [used_l blocks_ok snd] in *. destruct B as [B1 B2]. apply in_app_or in HU. destruct HU as [HU|HU].
  - destruct u, (Z.eqb_spec z 0); cbn in HU; try tauto. destruct HU as [HU|[]]. inversion HU; subst. exact P.
  - apply (IHl (q + z)); auto. destruct B1 as [[B1 _]|(_ & B1 & _)]; cbn [snd] in B1; lia.
Qed.

(** Allocation keeps the representation. *)
Lemma placed_heap : forall s live ls1 l ls2 req m' p n,
  chain (m_heap s) (m_size s) 0 (ls1 ++ l :: ls2) -> full ls1 -> INDEX <= m_size s < 2 ^ 63 ->
  live_rep (m_heap s) (used_c 0 (ls1 ++ l :: ls2)) live ->
  placed (m_heap s) (m_size s) (chain_end 0 ls1) l req m' p -> 16 <= req -> 0 < n -> n + 8 < req ->
  right (m_size s) live (Alloc n) (Handle (Some p)) /\
  forall pf c, heap_rep (mk_mmap m' (m_size s) pf (chain_end 0 ls1) c) (mk_block p n (fun _ => None) :: live).
Proof.
  intros s live ls1 l ls2 req m' p n HC HF HH (L1 & L2 & L3) HP HQ Hn0 Hn.
  destruct (place_chain _ _ _ _ _ _ _ _ _ HC HP HQ) as (S & l' & P1 & P2 & P3 & P4 & P5 & P6 & _).
  assert (PU : In (p, S) (used_c 0 (ls1 ++ l' :: ls2))) by (apply P4; auto).
  pose proof (used_bound _ _ _ _ _ P3 PU) as PB. split.
  - cbn [right]. split; [ lia | ]. split; [ lia | ]. split; [ exact (used_aligned _ _ _ _ _ _ P3 PU) | ].
    intros b Hb. destruct (L1 b Hb) as (s' & B1 & B2 & B3 & _).
    destruct (used_c_apart _ _ _ _ (b_at b, s') (p, S) P3) as [X|X]; [ apply P4; auto | exact PU | | ].
    + inversion X; subst. destruct (P5 _ B1).
    + unfold apart in X. cbn [fst snd] in X. lia.
  - intros pf c. exists (ls1 ++ l' :: ls2). cbn [m_heap m_size m_prev_pos]. split; [ exact P3 | ]. split; [ exists ls1, (l' :: ls2); auto | ].
    split; [ exact HH | ]. split; [ | split ].
    + intros b [<-|Hb].
      * exists S. cbn [b_at b_bytes b_words]. split; [ exact PU | ]. split; [ lia | ]. split; [ assumption | ]. intros; discriminate.
      * destruct (L1 b Hb) as (s' & B1 & B2 & B3 & B4). exists s'. split; [ apply P4; auto | ]. split; [ assumption | ]. split; [ assumption | ].
        intros i x Hi1 Hi2 Hx. rewrite (P6 _ _ _ B1) by lia. apply B4; auto.
    + intros h s' HU. apply P4 in HU. destruct HU as [HU|HU].
      * destruct (L2 _ _ HU) as (b & Hb & <-). exists b. split; [ right; exact Hb | reflexivity ].
      * inversion HU; subst. eexists. split; [ left; reflexivity | reflexivity ].
    + cbn [map b_at]. constructor; [ | exact L3 ]. intros X. apply in_map_iff in X. destruct X as (b & E & Hb).
      destruct (L1 b Hb) as (s' & B1 & _). rewrite E in B1. exact (P5 _ B1).
Qed.

Lemma allocate_ok : forall s live n, heap_rep s live -> 0 < n < 2 ^ 64 - 8 ->
  exists s' r, mmap_allocate s n = Ok (s', r) /\ m_size s' = m_size s /\ right (m_size s) live (Alloc n) (Handle r) /\
    heap_rep s' (after live (Alloc n) (Handle r)).
Proof.
  assert (P63 : 2 ^ 63 = 9223372036854775808) by reflexivity.
  assert (P64 : 2 ^ 64 = 18446744073709551616) by reflexivity.
  intros s live n (ls & HC & HA & HH & HL) Hn. unfold mmap_allocate.
  destruct (Z.eqb_spec n 0); [ lia | ]. cbv zeta.
  rewrite (u64_small (n + 8)) by lia. set (req := n + 8) in *.
  assert (FAIL : forall prev c, at_index ls prev ->
    exists s' r, Ok (mk_mmap (m_heap s) (m_size s) req prev c, @None Z) = Ok (s', r) /\ m_size s' = m_size s /\ right (m_size s) live (Alloc n) (Handle r) /\
      heap_rep s' (after live (Alloc n) (Handle r))).
  { intros prev c X. eexists _, None. split; [ reflexivity | ]. split; [ reflexivity | ]. split; [ exact Logic.I | ]. exists ls. auto. }
  destruct (negb (m_prev_fail s =? 0) && (m_prev_fail s <=? req)); [ apply FAIL; exact HA | ].
  rewrite (u64_small (m_size s - INDEX)) by (unfold INDEX in *; lia).
  destruct (Z.ltb_spec (m_size s - INDEX) req) as [_|HR]; [ apply FAIL; exact HA | ].
  unfold CHUNK. rewrite u64_small by (unfold INDEX in *; lia).
  set (padded := req - req mod 16 + 16).
  assert (Q1 : 16 <= padded <= 2 ^ 63) by (subst padded; unfold INDEX in *; lia).
  assert (Q2 : padded mod 16 = 0) by (subst padded; lia).
  assert (Q3 : n + 8 < padded) by (subst padded; lia).
  clearbody padded.
  assert (DONE : forall ls1 l ls2 m' p prev c,
    (ls = ls1 ++ l :: ls2 \/ (ls = ls1 /\ l = [] /\ ls2 = [] /\ prev + INDEX <= m_size s)) -> full ls1 -> prev = chain_end 0 ls1 ->
    placed (m_heap s) (m_size s) prev l padded m' p ->
    exists s' r, Ok (mk_mmap m' (m_size s) (m_prev_fail s) prev c, Some p) = Ok (s', r) /\ m_size s' = m_size s /\ right (m_size s) live (Alloc n) (Handle r) /\
      heap_rep s' (after live (Alloc n) (Handle r))).
  { intros ls1 l ls2 m' p prev c E F -> P. exists (mk_mmap m' (m_size s) (m_prev_fail s) (chain_end 0 ls1) c), (Some p).
    split; [ reflexivity | ]. split; [ reflexivity | ].
    assert (X : chain (m_heap s) (m_size s) 0 (ls1 ++ l :: ls2) /\ live_rep (m_heap s) (used_c 0 (ls1 ++ l :: ls2)) live).
    { destruct E as [E|(-> & -> & -> & E)]; [ subst; auto | ]. split.
      - apply chain_grow; auto.
      - rewrite used_c_app. cbn [used_c used_l app]. rewrite app_nil_r. exact HL. }
    destruct X as [X1 X2].
    destruct (placed_heap s live ls1 l ls2 padded m' p n X1 F HH X2 P) as [Y1 Y2]; [ lia | lia | lia | ].
    split; [ exact Y1 | ]. cbn [after]. apply Y2. }
  destruct HA as (la & lb & EA & FA & EP).
  assert (HCb : chain (m_heap s) (m_size s) (m_prev_pos s) lb) by (rewrite EP; eapply chain_app; rewrite <- EA; exact HC).
  assert (PP : 0 <= m_prev_pos s) by (destruct (chain_end_le _ _ _ _ HCb); lia).
  pose proof (rounds_ok (m_size s) ltac:(unfold INDEX in *; lia)) as RO.
  assert (AT : forall ls1 ls2, lb = ls1 ++ ls2 -> full ls1 -> at_index ls (chain_end (m_prev_pos s) ls1)).
  { intros ls1 ls2 E F. exists (la ++ ls1), ls2. split; [ rewrite EA, E, app_assoc; reflexivity | ]. split.
    - unfold full in *. apply Forall_app. auto.
    - rewrite chain_end_app, <- EP. reflexivity. }
  assert (AT0 : at_index ls (m_prev_pos s)) by (exists la, lb; auto).
  pose proof (alloc_loop_ok lb (rounds (m_size s)) (m_heap s) (m_size s) padded (m_prev_pos s) (m_prev_pos s) HCb (proj2 HH) Q1 Q2 ltac:(lia)) as A.
  destruct (alloc_loop (rounds (m_size s)) (m_heap s) (m_size s) padded (m_prev_pos s) (m_prev_pos s)) as [e prev]. destruct e.
  - destruct A as (ls1 & ls2 & E & F & ->). apply FAIL. eapply AT; eauto.
  - destruct A.
  - destruct A.
  - assert (AT1 : at_index ls prev) by (destruct A as [->|(ls1 & ls2 & E & F & ->)]; [ exact AT0 | eapply AT; eauto ]).
    destruct (Z.ltb_spec 0 (m_prev_pos s)) as [_|_]; [ | apply FAIL; exact AT1 ].
    pose proof (alloc_loop_ok ls (rounds (m_size s)) (m_heap s) (m_size s) padded 0 prev HC (proj2 HH) Q1 Q2 ltac:(lia)) as A0.
    destruct (alloc_loop (rounds (m_size s)) (m_heap s) (m_size s) padded 0 prev) as [e' prev']. destruct e'.
    + destruct A0 as (ls1 & ls2 & E & F & ->). apply FAIL. exists ls1, ls2. auto.
    + destruct A0.
    + destruct A0.
    + apply FAIL. destruct A0 as [->|(ls1 & ls2 & E & F & ->)]; [ exact AT1 | exists ls1, ls2; auto ].
    + destruct A0 as (ls1 & l & ls2 & E & F & E' & P). eapply DONE; eauto.
  - destruct A as (ls1 & l & ls2 & E & F & E' & P). apply (DONE (la ++ ls1) l ls2).
    + destruct E as [E|(E1 & E2 & E3 & E4)].
      * left. rewrite EA, E, app_assoc. reflexivity.
      * right. split; [ rewrite EA, E1; reflexivity | auto ].
    + unfold full in *. apply Forall_app. auto.
    + rewrite chain_end_app, <- EP. exact E'.
    + exact P.
Qed.

Lemma free_ok : forall s live h, heap_rep s live ->
  (is_live live h -> exists s', mmap_free s h = Ok s' /\ m_size s' = m_size s /\ heap_rep s' (after live (Free h) Done)) /\
  (~ is_live live h -> mmap_free s h = Bug).
Proof.
  intros s live h (ls & HC & HA & HH & (L1 & L2 & L3)). unfold mmap_free.
  pose proof (rounds_ok (m_size s) ltac:(unfold INDEX in *; lia)) as RO.
  pose proof (free_loop_ok (rounds (m_size s)) ls (m_heap s) (m_size s) h 0 HC (proj2 HH) RO) as A.
  destruct (free_loop (rounds (m_size s)) (m_heap s) (m_size s) h 0) as [m'| |]; [ | | destruct A ].
  - destruct A as (ls1 & l1 & z & l2 & ls2 & E & HZ & -> & ->). subst ls.
    pose proof (clear_chain _ _ _ _ _ _ _ _ HC HZ) as X. cbv zeta in X. destruct X as (X1 & X2 & X3).
    assert (HU : In (chain_end 0 ls1 + INDEX + total l1, z) (used_c 0 (ls1 ++ (l1 ++ (true, z) :: l2) :: ls2))).
    { rewrite used_c_app. cbn [used_c]. rewrite used_l_app. cbn [used_l andb]. destruct (Z.eqb_spec z 0); [ lia | ]. cbn [negb app].
      apply in_or_app. right. apply in_or_app. left. apply in_or_app. right. left. reflexivity. }
    split; [ | intros X; destruct (X (L2 _ _ HU)) ].
    intros _. eexists. split; [ reflexivity | ]. split; [ reflexivity | ].
    set (hh := chain_end 0 ls1 + INDEX + total l1) in *.
    exists (ls1 ++ (l1 ++ (false, z) :: l2) :: ls2). cbn [m_heap m_size m_prev_pos after]. split; [ exact X1 | ]. split; [ | split; [ exact HH | ] ].
    + destruct HA as (la & lb & EA & FA & EP).
      assert (G : forall ls1 la lb x y ls2, ls1 ++ x :: ls2 = la ++ lb -> zlen y = zlen x -> total y = total x -> full la ->
        exists la' lb', ls1 ++ y :: ls2 = la' ++ lb' /\ full la' /\ forall q, chain_end q la = chain_end q la').
      { clear. induction ls1 as [|c ls1 IH]; intros la lb x y ls2 E Z T F.
        - destruct la as [|c la]; [ exists [], (y :: ls2); auto | ]. cbn [app] in E. inversion E; subst. exists (y :: la), lb.
          unfold full in *. apply Forall_cons_iff in F. destruct F as [F1 F2]. split; [ reflexivity | ]. split; [ constructor; [ congruence | assumption ] | ].
          intros q. cbn [chain_end]. rewrite T. reflexivity.
        - destruct la as [|c' la]; [ exists [], ((c :: ls1) ++ y :: ls2); repeat split; constructor | ]. cbn [app] in E. inversion E; subst.
          unfold full in *. apply Forall_cons_iff in F. destruct F as [F1 F2].
          destruct (IH la lb x y ls2 H1 Z T F2) as (la' & lb' & E1 & E2 & E3). exists (c' :: la'), lb'. split; [ cbn [app]; rewrite E1; reflexivity | ].
          split; [ constructor; assumption | ]. intros q. cbn [chain_end]. apply E3. }
      destruct (G ls1 la lb (l1 ++ (true, z) :: l2) (l1 ++ (false, z) :: l2) ls2 EA) as (la' & lb' & E1 & E2 & E3).
      * rewrite !zlen_app, !zlen_cons. reflexivity.
      * rewrite !total_app, !total_cons. reflexivity.
      * exact FA.
      * exists la', lb'. split; [ exact E1 | ]. split; [ exact E2 | ]. rewrite EP. apply E3.
    + split; [ | split ].
      * intros b Hb. apply filter_In in Hb. destruct Hb as [Hb Eb]. destruct (L1 b Hb) as (s' & B1 & B2 & B3 & B4). exists s'.
        split; [ apply X2; split; [ exact B1 | cbn [fst]; destruct (Z.eqb_spec (b_at b) hh); [ discriminate | assumption ] ] | ].
        split; [ assumption | ]. split; [ assumption | ]. intros i x Hi1 Hi2 Hx. rewrite X3; [ apply B4; auto | ].
        pose proof (used_outside _ _ _ _ _ _ _ _ HC B1). unfold INDEX in *. lia.
      * intros h' s' HU'. apply X2 in HU'. destruct HU' as [HU' N]. cbn [fst] in N. destruct (L2 _ _ HU') as (b & Hb & <-).
        exists b. split; [ | reflexivity ]. apply filter_In. split; [ exact Hb | ]. destruct (Z.eqb_spec (b_at b) hh); [ contradiction | reflexivity ].
      * clear -L3. induction live as [|b live IH]; [ constructor | ]. cbn [map] in L3. inversion L3; subst. cbn [filter].
        destruct (negb (b_at b =? hh)); [ | auto ]. cbn [map]. constructor; [ | auto ]. intros X. apply H1.
        apply in_map_iff in X. destruct X as (b' & E & HX). apply filter_In in HX. rewrite <- E. apply in_map. tauto.
  - split; [ | reflexivity ]. intros (b & Hb & <-). destruct (L1 b Hb) as (s' & B1 & _). destruct (A s' B1).
Qed.

Lemma put_ok : forall s live h i v, heap_rep s live -> in_range live h i ->
  heap_rep (mk_mmap (upd (m_heap s) (h + 8 * i) v) (m_size s) (m_prev_fail s) (m_prev_pos s) (m_allocs s)) (after live (Put h i v) Done).
Proof.
  intros s live h i v (ls & HC & HA & HH & (L1 & L2 & L3)) (b & Hb & <- & Hi & Hi2).
  destruct (L1 b Hb) as (z & B1 & B2 & B3 & B4). exists ls. cbn [m_heap m_size m_prev_pos after].
  split; [ eapply put_chain; [ exact HC | exact B1 | lia ] | ]. split; [ exact HA | ]. split; [ exact HH | ].
  assert (MA : forall (f : block -> block) l, (forall c, b_at (f c) = b_at c) -> map b_at (map f l) = map b_at l).
  { intros f l HF. rewrite map_map. apply map_ext. exact HF. }
  split; [ | split ].
  - intros c Hc. apply in_map_iff in Hc. destruct Hc as (c' & <- & Hc). destruct (L1 c' Hc) as (z' & C1 & C2 & C3 & C4).
    destruct (Z.eqb_spec (b_at c') (b_at b)) as [E|E].
    + pose proof (same_block _ _ _ L3 Hc Hb E) as EB. subst c'. exists z. cbn [b_at b_bytes b_words]. split; [ exact B1 | ]. split; [ exact B2 | ]. split; [ exact B3 | ].
      intros k x Hk1 Hk2 Hx. destruct (Z.eqb_spec k i) as [->|Ek].
      * rewrite upd_same. congruence.
      * rewrite upd_other by lia. apply B4; auto.
    + exists z'. split; [ exact C1 | ]. split; [ exact C2 | ]. split; [ exact C3 | ]. intros k x Hk1 Hk2 Hx.
      rewrite upd_other; [ apply C4; auto | ]. destruct (used_c_apart _ _ _ _ _ _ HC B1 C1) as [X|X]; [ congruence | ].
      unfold apart in X. cbn [fst snd] in X. lia.
  - intros h' s' HU. destruct (L2 _ _ HU) as (c & Hc & <-). eexists. split; [ apply in_map; exact Hc | ].
    destruct (b_at c =? b_at b); reflexivity.
  - rewrite MA; [ exact L3 | ]. intros c. destruct (b_at c =? b_at b); reflexivity.
Qed.

Lemma behaves_ok : forall os s live, heap_rep s live -> behaves s live os.
Proof.
  induction os as [|o os IH]; intros s live HR; [ exact Logic.I | ]. cbn [behaves]. split.
  - intros HL. destruct o as [n|h|h i v|h i|]; cbn [legal] in HL; cbn [step].
    + destruct (allocate_ok s live n HR HL) as (s' & r & E & ES & R & HR'). rewrite E. exists s', (Handle r). split; [ reflexivity | ]. auto.
    + destruct (free_ok s live h HR) as [F _]. destruct (F HL) as (s' & E & ES & HR'). rewrite E. exists s', Done. split; [ reflexivity | ]. split; [ exact Logic.I | ]. auto.
    + eexists _, Done. split; [ reflexivity | ]. split; [ exact Logic.I | ]. apply IH. apply put_ok; auto.
    + eexists _, _. split; [ reflexivity | ]. split; [ | apply IH; exact HR ].
      cbn [right]. intros b x Hb Eb Hx. destruct HR as (ls & HC & HA & HH & (L1 & L2 & L3)). destruct HL as (b' & Hb' & Eb' & Hi & Hi2).
      assert (b' = b) by (apply (same_block _ _ _ L3); congruence). subst b' h. destruct (L1 b Hb) as (z & B1 & B2 & B3 & B4). apply B4; auto.
    + destruct HR as (ls & HC & HA & HH & HL'). pose proof (rounds_ok (m_size s) ltac:(unfold INDEX in *; lia)) as RO.
      destruct (empty_loop_ok (rounds (m_size s)) ls (m_heap s) (m_size s) 0 HC (proj2 HH) RO) as (b & E & B). unfold mmap_is_empty. rewrite E.
      exists s, (Answer b). split; [ reflexivity | ]. split.
      * cbn [right]. rewrite B. destruct HL' as (L1 & L2 & L3). split.
        -- intros X. destruct live as [|c live]; [ reflexivity | ]. destruct (L1 c (or_introl eq_refl)) as (z & C1 & _). rewrite X in C1. destruct C1.
        -- intros ->. destruct (used_c 0 ls) as [|[h z] r]; [ reflexivity | ]. destruct (L2 h z (or_introl eq_refl)) as (c & [] & _).
      * apply IH. exists ls. auto.
  - intros h -> HN. cbn [step]. destruct (free_ok s live h HR) as [_ F]. rewrite F by exact HN. reflexivity.
Qed.
