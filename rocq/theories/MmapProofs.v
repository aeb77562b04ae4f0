(** Proofs about the allocator: the words of the heap represent a chain of indexes. *)
From Coq Require Import ZArith List Bool Lia.
From Verif Require Import Common MmapModel MmapSpec.
Import ListNotations.
Open Scope Z_scope.
Local Opaque Z.pow.

(** A slot of an index: used flag and size.  (true, 0) is a chunk lost to merging;
    the slots behind the list are (false, 0). *)
Definition slot := (bool * Z)%type.
Definition total (l : list slot) : Z := fold_right (fun x a => snd x + a) 0 l.
Definition index_rep (m : mem) (ix : Z) (l : list slot) : Prop :=
  forall j, 0 <= j < 64 ->
    used m ix j = fst (nth (Z.to_nat j) l (false, 0)) /\ size_of m ix j = snd (nth (Z.to_nat j) l (false, 0)).
Definition slot_ok (m : mem) (pos : Z) (x : slot) : Prop :=
  (snd x = 0 /\ fst x = true) \/ (16 <= snd x /\ snd x mod 16 = 0 /\ m (pos + snd x - 8) = SENTINEL).
Fixpoint blocks_ok (m : mem) (pos : Z) (l : list slot) : Prop :=
  match l with [] => True | x :: r => slot_ok m pos x /\ blocks_ok m (pos + snd x) r end.
Definition index_ok (m : mem) (H ix : Z) (l : list slot) : Prop :=
  ix mod 8 = 0 /\ 0 <= ix /\ zlen l <= 64 /\ index_rep m ix l /\ blocks_ok m (ix + INDEX) l /\ ix + INDEX + total l <= H.
Fixpoint chain (m : mem) (H pos : Z) (ls : list (list slot)) : Prop :=
  match ls with
  | [] => 0 <= pos <= H /\ pos mod 8 = 0 /\ forall a, pos <= a -> m a = 0
  | l :: r => index_ok m H pos l /\ (r <> [] -> zlen l = 64) /\ chain m H (pos + INDEX + total l) r
  end.
(** Used blocks, with position and size. *)
Fixpoint used_l (pos : Z) (l : list slot) : list (Z * Z) :=
  match l with
  | [] => []
  | (u, s) :: r => (if u && negb (s =? 0) then [(pos, s)] else []) ++ used_l (pos + s) r
  end.
Fixpoint used_c (pos : Z) (ls : list (list slot)) : list (Z * Z) :=
  match ls with [] => [] | l :: r => used_l (pos + INDEX) l ++ used_c (pos + INDEX + total l) r end.
Fixpoint chain_end (pos : Z) (ls : list (list slot)) : Z :=
  match ls with [] => pos | l :: r => chain_end (pos + INDEX + total l) r end.
Definition sizes_ok (l : list slot) : Prop := Forall (fun x => 0 <= snd x) l.

Lemma total_app : forall a b, total (a ++ b) = total a + total b.
Proof. induction a as [|x a IH]; intros; cbn [app total fold_right]; [ reflexivity | ]. fold (total (a ++ b)) (total a). rewrite IH. lia. Qed.
Lemma total_cons : forall x l, total (x :: l) = snd x + total l.
Proof. reflexivity. Qed.
Lemma total_nonneg : forall l, sizes_ok l -> 0 <= total l.
Proof. induction l as [|x l IH]; intros H; [ cbn; lia | ]. inversion H; subst. rewrite total_cons. specialize (IH H3). lia. Qed.
Lemma blocks_sizes : forall m l pos, blocks_ok m pos l -> sizes_ok l.
Proof.
  induction l as [|x l IH]; intros pos H; constructor; destruct H as [H1 H2].
  - destruct H1 as [[H1 _]|[H1 _]]; lia.
  - eapply IH; eauto.
Qed.
Lemma total_mod : forall m l pos, blocks_ok m pos l -> total l mod 16 = 0.
Proof.
  induction l as [|x l IH]; intros pos H; [ reflexivity | ]. destruct H as [H1 H2]. apply IH in H2.
  rewrite total_cons. destruct H1 as [[H1 _]|[H1 [H3 _]]].
  - rewrite H1. exact H2.
  - rewrite Z.add_mod, H3, H2 by lia. reflexivity.
Qed.
Lemma blocks_app : forall m a b pos, blocks_ok m pos (a ++ b) <-> blocks_ok m pos a /\ blocks_ok m (pos + total a) b.
Proof.
  induction a as [|x a IH]; intros b pos; cbn [app blocks_ok].
  - change (total []) with 0. rewrite Z.add_0_r. tauto.
  - rewrite IH, total_cons, Z.add_assoc. tauto.
Qed.
Lemma used_l_app : forall a b pos, used_l pos (a ++ b) = used_l pos a ++ used_l (pos + total a) b.
Proof.
  induction a as [|[u s] a IH]; intros b pos; cbn [app used_l].
  - change (total []) with 0. rewrite Z.add_0_r. reflexivity.
  - rewrite IH, total_cons, <- app_assoc. cbn [snd]. rewrite Z.add_assoc. reflexivity.
Qed.
Lemma used_l_range : forall l pos h s, sizes_ok l -> In (h, s) (used_l pos l) -> pos <= h /\ 0 < s /\ h + s <= pos + total l.
Proof.
  induction l as [|[u z] l IH]; intros pos h s HS H; [ destruct H | ]. inversion HS; subst. cbn [snd] in *.
  cbn [used_l] in H. rewrite total_cons. cbn [snd]. pose proof (total_nonneg l H3) as HT. apply in_app_or in H. destruct H as [H|H].
  - destruct u, (Z.eqb_spec z 0); cbn in H; try tauto. destruct H as [H|[]]. inversion H; subst. lia.
  - apply IH in H; auto. lia.
Qed.

Lemma chain_end_le : forall m H ls pos, chain m H pos ls -> 0 <= pos <= chain_end pos ls /\ chain_end pos ls <= H.
Proof.
  induction ls as [|l r IH]; intros pos HC; cbn [chain chain_end] in *; [ lia | ].
  destruct HC as [HI [_ HC]]. apply IH in HC. destruct HI as (_ & H0 & _ & _ & HB & _).
  apply blocks_sizes in HB. apply total_nonneg in HB. unfold INDEX in *. lia.
Qed.
Lemma chain_mod : forall m H ls pos, chain m H pos ls -> pos mod 8 = 0.
Proof. intros m H [|l r] pos HC; cbn [chain] in HC; [ tauto | ]. destruct HC as [HI _]. apply HI. Qed.
Lemma used_c_range : forall m H ls pos h s, chain m H pos ls -> In (h, s) (used_c pos ls) ->
  pos + INDEX <= h /\ 0 < s /\ h + s <= chain_end pos ls.
Proof.
  induction ls as [|l r IH]; intros pos h s HC HU; [ destruct HU | ]. cbn [chain chain_end used_c] in *.
  destruct HC as [HI [HL HC]]. pose proof (chain_end_le _ _ _ _ HC) as HE.
  destruct HI as (_ & H0 & _ & _ & HB & _). apply blocks_sizes in HB. pose proof (total_nonneg l HB) as HT.
  apply in_app_or in HU. destruct HU as [HU|HU].
  - apply used_l_range in HU; auto. unfold INDEX in *. lia.
  - eapply IH in HU; eauto. unfold INDEX in *. lia.
Qed.

Definition apart (x y : Z * Z) : Prop := fst x + snd x <= fst y \/ fst y + snd y <= fst x.
Lemma used_l_apart : forall l pos x y, sizes_ok l -> In x (used_l pos l) -> In y (used_l pos l) -> x = y \/ apart x y.
Proof.
  induction l as [|[u z] l IH]; intros pos x y HS HX HY; [ destruct HX | ]. apply Forall_cons_iff in HS. destruct HS as [HS1 HS]. cbn [snd] in *.
  cbn [used_l] in HX, HY. apply in_app_or in HX, HY.
  destruct x as [h s], y as [h' s']. unfold apart. cbn [fst snd].
  destruct HX as [HX|HX], HY as [HY|HY].
  - destruct u, (Z.eqb_spec z 0); cbn in HX, HY; try tauto. destruct HX as [HX|[]], HY as [HY|[]]. left. congruence.
  - apply used_l_range in HY; auto. destruct u, (Z.eqb_spec z 0); cbn in HX; try tauto. destruct HX as [HX|[]]. inversion HX; subst. lia.
  - apply used_l_range in HX; auto. destruct u, (Z.eqb_spec z 0); cbn in HY; try tauto. destruct HY as [HY|[]]. inversion HY; subst. lia.
  - destruct (IH _ _ _ HS HX HY) as [HE|HE]; [ left; exact HE | right; exact HE ].
Qed.
Lemma used_c_apart : forall m H ls pos x y, chain m H pos ls -> In x (used_c pos ls) -> In y (used_c pos ls) -> x = y \/ apart x y.
Proof.
  induction ls as [|l r IH]; intros pos x y HC HX HY; [ destruct HX | ]. cbn [chain used_c] in *.
  destruct HC as [HI [HL HC]]. destruct HI as (_ & H0 & _ & _ & HB & _). apply blocks_sizes in HB.
  apply in_app_or in HX, HY. destruct x as [h s], y as [h' s'].
  destruct HX as [HX|HX], HY as [HY|HY].
  - eapply used_l_apart; eauto.
  - apply used_l_range in HX; auto. eapply used_c_range in HY; eauto. unfold apart, INDEX in *. cbn [fst snd] in *. lia.
  - apply used_l_range in HY; auto. eapply used_c_range in HX; eauto. unfold apart, INDEX in *. cbn [fst snd] in *. lia.
  - eapply IH; eauto.
Qed.

(** Words which matter to an index are its own and the sentinels. *)
Lemma blocks_ext : forall m m' l pos, blocks_ok m pos l -> (forall a, pos <= a < pos + total l -> m' a = m a) -> blocks_ok m' pos l.
Proof.
  induction l as [|x l IH]; intros pos HB HA; [ exact I | ]. cbn [blocks_ok] in *. destruct HB as [HS HB].
  rewrite total_cons in HA. pose proof (total_nonneg l (blocks_sizes _ _ _ HB)) as HT.
  split.
  - destruct HS as [HS|(H1 & H2 & H3)]; [ left; exact HS | right ]. repeat (split; [ assumption | ]). rewrite HA by lia. exact H3.
  - apply IH; auto. intros a Ha. apply HA. assert (0 <= snd x) by (destruct HS as [[? _]|[? _]]; lia). lia.
Qed.
Lemma rep_ext : forall m m' ix l, index_rep m ix l -> (forall a, ix <= a < ix + INDEX -> m' a = m a) -> index_rep m' ix l.
Proof.
  intros m m' ix l HR HA j Hj. unfold used, size_of. unfold INDEX in HA. rewrite !HA by lia. apply HR. exact Hj.
Qed.
Lemma index_ext : forall m m' H ix l, index_ok m H ix l -> (forall a, ix <= a < ix + INDEX + total l -> m' a = m a) -> index_ok m' H ix l.
Proof.
  intros m m' H ix l (H0 & H1 & H2 & H3 & H4 & H5) HA. pose proof (total_nonneg l (blocks_sizes _ _ _ H4)) as HT.
  unfold index_ok. repeat (split; [ assumption | ]). split; [ | split; [ | assumption ] ].
  - eapply rep_ext; eauto. intros a Ha. apply HA. lia.
  - eapply blocks_ext; eauto. intros a Ha. apply HA. unfold INDEX in *. lia.
Qed.
Lemma chain_ext : forall m m' H ls pos, chain m H pos ls -> (forall a, pos <= a -> m' a = m a) -> chain m' H pos ls.
Proof.
  induction ls as [|l r IH]; intros pos HC HA; cbn [chain] in *.
  - destruct HC as (H1 & H2 & H3). repeat (split; [ assumption | ]). intros a Ha. rewrite HA by lia. auto.
  - destruct HC as (HI & HL & HC). split; [ | split; [ assumption | ] ].
    + eapply index_ext; eauto. intros a Ha. apply HA. lia.
    + apply IH; auto. intros a Ha. apply HA. destruct HI as (_ & _ & _ & _ & HB & _).
      pose proof (total_nonneg l (blocks_sizes _ _ _ HB)). unfold INDEX in *. lia.
Qed.

(** Reading a slot. *)
Lemma rep_nth : forall m ix l1 x l2, index_rep m ix (l1 ++ x :: l2) -> zlen l1 < 64 ->
  used m ix (zlen l1) = fst x /\ size_of m ix (zlen l1) = snd x.
Proof.
  intros m ix l1 x l2 HR HL. pose proof (zlen_nonneg _ l1). destruct (HR (zlen l1)) as [H1 H2]; [ lia | ].
  unfold zlen in *. rewrite Nat2Z.id in H1, H2. rewrite app_nth2, Nat.sub_diag in H1, H2 by lia. auto.
Qed.
Lemma rep_end : forall m ix l, index_rep m ix l -> zlen l < 64 -> used m ix (zlen l) = false /\ size_of m ix (zlen l) = 0.
Proof.
  intros m ix l HR HL. pose proof (zlen_nonneg _ l). destruct (HR (zlen l)) as [H1 H2]; [ lia | ].
  unfold zlen in *. rewrite Nat2Z.id in H1, H2. rewrite nth_overflow in H1, H2 by lia. auto.
Qed.

(** Slots whose space is free: unused blocks and chunks lost to merging. *)
Definition freeish (x : slot) : Prop := fst x = false \/ snd x = 0.
Lemma used_freeish : forall l pos, Forall freeish l -> used_l pos l = [].
Proof.
  induction l as [|[u s] l IH]; intros pos H; [ reflexivity | ]. inversion H; subst. cbn [used_l]. rewrite IH by auto.
  destruct H2 as [H2|H2]; cbn [fst snd] in H2; subst; [ reflexivity | ]. rewrite Bool.andb_false_r. reflexivity.
Qed.

Lemma upd_same : forall m a v, upd m a v a = v.
Proof. intros. unfold upd. rewrite Z.eqb_refl. reflexivity. Qed.
Lemma upd_other : forall m a v x, x <> a -> upd m a v x = m x.
Proof. intros. unfold upd. destruct (Z.eqb_spec x a); [ contradiction | reflexivity ]. Qed.

Lemma merge_mark_spec : forall n k m ix i, 0 <= k -> k + Z.of_nat n <= 64 ->
  let m' := merge_mark n k m ix in
  (0 <= i < 64 -> used m' ix i = (used m ix i || ((k <=? i) && (i <? k + Z.of_nat n)))) /\
  (0 <= i < 64 -> size_of m' ix i = if (k <=? i) && (i <? k + Z.of_nat n) then 0 else size_of m ix i) /\
  (forall a, ~ (ix <= a < ix + INDEX) -> m' a = m a).
Proof.
  induction n as [|n IH]; intros k m ix i Hk Hn m'; subst m'; cbn [merge_mark].
  - split; [ | split ]; intros.
    + destruct (k <=? i) eqn:E1, (i <? k + Z.of_nat 0) eqn:E2; try lia; rewrite Bool.orb_false_r; reflexivity.
    + destruct (k <=? i) eqn:E1, (i <? k + Z.of_nat 0) eqn:E2; try lia; reflexivity.
    + reflexivity.
  - set (m1 := set_size (set_used m ix k) ix k 0).
    destruct (IH (k + 1) m1 ix i) as (H1 & H2 & H3); [ lia | lia | ].
    assert (U : 0 <= i < 64 -> used m1 ix i = (used m ix i || (k =? i))).
    { intros Hi. unfold m1, set_size, set_used, used. rewrite upd_other by lia. rewrite upd_same.
      rewrite Z.lor_spec, Z.pow2_bits_eqb by lia. reflexivity. }
    assert (S1 : 0 <= i < 64 -> size_of m1 ix i = if k =? i then 0 else size_of m ix i).
    { intros Hi. unfold m1, set_size, set_used, size_of. destruct (Z.eqb_spec k i) as [->|E].
      - rewrite upd_same. reflexivity.
      - rewrite upd_other by lia. rewrite upd_other by lia. reflexivity. }
    split; [ | split ].
    + intros Hi. rewrite H1, U by lia. destruct (used m ix i); [ reflexivity | ]. cbn [orb]. lia.
    + intros Hi. rewrite H2, S1 by lia.
      destruct ((k + 1 <=? i) && (i <? k + 1 + Z.of_nat n)) eqn:E1, (k =? i) eqn:E2, ((k <=? i) && (i <? k + Z.of_nat (S n))) eqn:E3; try reflexivity; lia.
    + intros a Ha. rewrite H3 by exact Ha. unfold m1, set_size, set_used, INDEX in *. rewrite !upd_other by lia. reflexivity.
Qed.

(** The slots which an allocation leaves in place of [mid]. *)
Definition taken (S : Z) (k : nat) : list slot := (true, S) :: repeat (true, 0) k.
Lemma taken_len : forall S k, length (taken S k) = Datatypes.S k.
Proof. intros. cbn. rewrite repeat_length. reflexivity. Qed.
Lemma repeat0_total : forall k, total (repeat (true, 0) k) = 0.
Proof. induction k as [|k IH]; [ reflexivity | ]. cbn [repeat]. rewrite total_cons, IH. reflexivity. Qed.
Lemma taken_total : forall S k, total (taken S k) = S.
Proof. intros. unfold taken. rewrite total_cons, repeat0_total. cbn. lia. Qed.
Lemma repeat0_blocks : forall m pos k, blocks_ok m pos (repeat (true, 0) k).
Proof. induction k as [|k IH]; [ exact I | ]. cbn [repeat blocks_ok snd]. split; [ left; auto | ]. rewrite Z.add_0_r. exact IH. Qed.
Lemma taken_used : forall S k pos, 0 < S -> used_l pos (taken S k) = [(pos, S)].
Proof.
  intros S k pos H. unfold taken. cbn [used_l]. rewrite used_freeish.
  - destruct (Z.eqb_spec S 0); [ lia | reflexivity ].
  - apply Forall_forall. intros x Hx. apply repeat_spec in Hx. subst. right. reflexivity.
Qed.

Lemma rep_replace : forall m m' ix l1 mid l2 S k,
  index_rep m ix (l1 ++ mid ++ l2) ->
  (length mid = Datatypes.S k \/ (mid = [] /\ l2 = [] /\ k = O)) ->
  (forall i, 0 <= i < 64 -> used m' ix i = if (zlen l1 <=? i) && (i <=? zlen l1 + Z.of_nat k) then true else used m ix i) ->
  (forall i, 0 <= i < 64 -> size_of m' ix i =
     if i =? zlen l1 then S else if (zlen l1 <=? i) && (i <=? zlen l1 + Z.of_nat k) then 0 else size_of m ix i) ->
  index_rep m' ix (l1 ++ taken S k ++ l2).
Proof.
  intros m m' ix l1 mid l2 S k HR HL HU HS j Hj. rewrite HU, HS by exact Hj. destruct (HR j Hj) as [R1 R2].
  rewrite R1, R2. clear R1 R2 HR HU HS. unfold zlen.
  destruct (Z.ltb_spec j (Z.of_nat (length l1))).
  - rewrite !(app_nth1 l1) by lia. destruct (Z.eqb_spec j (Z.of_nat (length l1))); [ lia | ].
    destruct (Z.leb_spec (Z.of_nat (length l1)) j); [ lia | ]. cbn [andb]. auto.
  - rewrite !(app_nth2 l1) by lia.
    destruct (Z.eqb_spec j (Z.of_nat (length l1))) as [E|E].
    + replace (Z.to_nat j - length l1)%nat with O by lia. cbn. subst j. rewrite Z.leb_refl. destruct (Z.leb_spec (Z.of_nat (length l1)) (Z.of_nat (length l1) + Z.of_nat k)); [ | lia ]. auto.
    + destruct (Z.leb_spec (Z.of_nat (length l1)) j); [ | lia ]. cbn [andb].
      destruct (Z.leb_spec j (Z.of_nat (length l1) + Z.of_nat k)).
      * rewrite (app_nth1 (taken S k)) by (rewrite taken_len; lia). unfold taken.
        destruct (Z.to_nat j - length l1)%nat as [|i] eqn:Ei; [ lia | ]. cbn [nth].
        rewrite (nth_indep _ (false, 0) (true, 0)) by (rewrite repeat_length; lia).
        rewrite nth_repeat. auto.
      * rewrite (app_nth2 (taken S k)) by (rewrite taken_len; lia). rewrite taken_len.
        destruct HL as [HL|(-> & -> & ->)].
        -- rewrite (app_nth2 mid) by lia. rewrite HL. auto.
        -- cbn [app]. assert (X : forall n, nth n (@nil slot) (false, 0) = (false, 0)) by (intros [|n]; reflexivity). rewrite !X. auto.
Qed.

(** What an allocation does to the index it is served from. *)
Definition placed (m : mem) (H ix : Z) (l : list slot) (req : Z) (m' : mem) (p : Z) : Prop :=
  exists l1 mid l2 S k,
    l = l1 ++ mid ++ l2 /\ Forall freeish mid /\ p = ix + INDEX + total l1 /\ req <= S /\
    ((mid = [] /\ l2 = [] /\ k = O /\ zlen l < 64) \/ (total mid = S /\ length mid = Datatypes.S k)) /\
    index_ok m' H ix (l1 ++ taken S k ++ l2) /\
    (forall a, ~ (ix <= a < ix + INDEX) -> a <> p + S - 8 -> m' a = m a).

Lemma placed_intro : forall m m' H ix l1 mid l2 S k req p,
  index_ok m H ix (l1 ++ mid ++ l2) -> Forall freeish mid -> p = ix + INDEX + total l1 -> req <= S ->
  16 <= S -> S mod 16 = 0 ->
  ((mid = [] /\ l2 = [] /\ k = O /\ zlen (l1 ++ mid ++ l2) < 64 /\ p + S <= H) \/ (total mid = S /\ length mid = Datatypes.S k)) ->
  index_rep m' ix (l1 ++ taken S k ++ l2) ->
  (forall a, ~ (ix <= a < ix + INDEX) -> a <> p + S - 8 -> m' a = m a) ->
  m' (p + S - 8) = SENTINEL ->
  placed m H ix (l1 ++ mid ++ l2) req m' p.
Proof.
  intros m m' H ix l1 mid l2 S k req p (I1 & I2 & I3 & I4 & I5 & I6) HF HP HR HS1 HS2 HC HRep HA HSent.
  exists l1, mid, l2, S, k. split; [ reflexivity | ]. split; [ assumption | ]. split; [ assumption | ]. split; [ assumption | ].
  split; [ destruct HC as [HC|HC]; [ left; tauto | right; tauto ] | ]. split; [ | assumption ].
  pose proof I5 as B. rewrite !blocks_app in B. destruct B as (B1 & B2 & B3).
  pose proof (total_nonneg _ (blocks_sizes _ _ _ B1)) as T1. pose proof (total_nonneg _ (blocks_sizes _ _ _ B2)) as T2.
  pose proof (total_nonneg _ (blocks_sizes _ _ _ B3)) as T3.
  rewrite !total_app in I6.
  unfold index_ok. split; [ assumption | ]. split; [ assumption | ].
  split. { unfold zlen in *. rewrite !app_length in *. rewrite taken_len. destruct HC as [(-> & -> & -> & HC & _)|[_ HC]]; cbn [length] in *; lia. }
  split; [ assumption | ]. split.
  - rewrite !blocks_app, taken_total. split; [ | split ].
    + eapply blocks_ext; [ exact B1 | ]. intros a Ha. apply HA; lia.
    + unfold taken. cbn [blocks_ok snd fst]. split; [ | apply repeat0_blocks ].
      right. cbn [snd]. split; [ assumption | ]. split; [ assumption | ]. rewrite <- HP. exact HSent.
    + destruct HC as [(-> & -> & -> & HC)|[HC _]]; [ exact I | ]. rewrite HC in B3.
      eapply blocks_ext; [ exact B3 | ]. intros a Ha. apply HA; unfold INDEX in *; lia.
  - rewrite !total_app, taken_total. destruct HC as [(-> & -> & -> & _ & HC)|[HC _]]; [ | lia ]. cbn [total fold_right] in *. lia.
Qed.

Lemma last_sentinel : forall m pos a x, blocks_ok m pos (a ++ [x]) -> snd x <> 0 -> m (pos + total (a ++ [x]) - 8) = SENTINEL.
Proof.
  intros m pos a x HB HX. apply blocks_app in HB. destruct HB as [_ [[[H _]|(_ & _ & H)] _]]; [ contradiction | ].
  rewrite total_app, total_cons. change (total []) with 0. rewrite <- H. f_equal. lia.
Qed.

Definition pending (ix : Z) (base pend : list slot) (mj mpos cnt csz : Z) : Prop :=
  (pend = [] /\ cnt = 0 /\ csz = 0) \/
  (0 < cnt /\ mj = zlen base /\ mpos = ix + INDEX + total base /\ csz = total pend /\ Forall freeish pend /\ pend <> []).

Lemma alloc_slots_ok : forall todo n base pend m H ix req mj mpos cnt csz,
  index_ok m H ix (base ++ pend ++ todo) -> H < 2 ^ 63 -> 16 <= req <= 2 ^ 63 -> req mod 16 = 0 ->
  Z.of_nat n = 64 - zlen (base ++ pend) -> pending ix base pend mj mpos cnt csz ->
  match alloc_slots n (zlen (base ++ pend)) m H ix req (ix + INDEX + total (base ++ pend)) mj mpos cnt csz with
  | ABug => False
  | AFail => True
  | ANext pos => pos = ix + INDEX + total (base ++ pend ++ todo) /\ zlen (base ++ pend ++ todo) = 64
  | ADone m' p => placed m H ix (base ++ pend ++ todo) req m' p
  end.
Proof.
  assert (P63 : 2 ^ 63 = 9223372036854775808) by reflexivity.
  assert (P64 : 2 ^ 64 = 18446744073709551616) by reflexivity.
  assert (U : forall x, 0 <= x < 18446744073709551616 -> u64 x = x) by (intros; unfold u64; rewrite P64; apply Z.mod_small; assumption).
  induction todo as [|[u s] todo IH]; intros n base pend m H ix req mj mpos cnt csz HI HH HQ HM Hn HP;
    pose proof HI as (I1 & I2 & I3 & I4 & I5 & I6).
  - rewrite app_nil_r in *. destruct n as [|n]; cbn [alloc_slots].
    + split; [ reflexivity | lia ].
    + destruct (rep_end _ _ _ I4) as [R1 R2]; [ lia | ]. rewrite R1, R2.
      pose proof (total_nonneg _ (blocks_sizes _ _ _ I5)) as T.
      change (0 =? 0) with true. cbv iota. rewrite U by (unfold INDEX in *; lia).
      destruct (Z.ltb_spec H (ix + INDEX + total (base ++ pend) + req)) as [_|HB]; [ exact Logic.I | ].
      set (l := base ++ pend) in *. 
      match goal with |- placed _ _ _ _ _ ?m1 ?p1 => assert (G : placed m H ix (l ++ [] ++ []) req m1 p1); [ | cbn [app] in G; rewrite app_nil_r in G; exact G ] end.
      assert (A1 : ix + INDEX + total l + req - 8 < ix \/ ix + INDEX <= ix + INDEX + total l + req - 8) by lia.
      eapply placed_intro with (S := req) (k := O).
      * cbn [app]. rewrite app_nil_r. exact HI.
      * constructor.
      * reflexivity.
      * lia.
      * lia.
      * assumption.
      * left. cbn [app]. rewrite app_nil_r. repeat (split; [ reflexivity | ]). lia.
      * eapply rep_replace with (mid := []) (m := m).
        -- cbn [app]. rewrite app_nil_r. exact I4.
        -- right. auto.
        -- intros i Hi. unfold used, set_used, set_size. pose proof (zlen_nonneg _ l).
           rewrite upd_other by (unfold INDEX in *; lia). rewrite upd_same, Z.lor_spec, Z.pow2_bits_eqb by lia.
           rewrite (upd_other m) by lia.
           destruct (zlen l =? i) eqn:E1, ((zlen l <=? i) && (i <=? zlen l + Z.of_nat 0)) eqn:E2; try lia; rewrite ?Bool.orb_true_r, ?Bool.orb_false_r; reflexivity.
        -- intros i Hi. unfold size_of, set_used, set_size. pose proof (zlen_nonneg _ l).
           rewrite upd_other by (unfold INDEX in *; lia). rewrite upd_other by lia.
           destruct (Z.eqb_spec i (zlen l)) as [->|E].
           ++ rewrite upd_same. reflexivity.
           ++ rewrite upd_other by lia. destruct ((zlen l <=? i) && (i <=? zlen l + Z.of_nat 0)) eqn:E2; [ lia | reflexivity ].
      * intros a Ha1 Ha2. unfold set_used, set_size, INDEX in *. pose proof (zlen_nonneg _ l).
        rewrite upd_other by lia. rewrite upd_other by lia. rewrite upd_other by lia. reflexivity.
      * apply upd_same.
  - destruct n as [|n].
    { unfold zlen in *. rewrite !app_length in *. cbn [length] in *. lia. }
    cbn [alloc_slots]. rewrite app_assoc in I4, I5, I6.
    destruct (rep_nth _ _ _ _ _ I4) as [R1 R2]; [ lia | ]. cbn [fst snd] in R1, R2. rewrite R1, R2.
    pose proof I5 as B. apply blocks_app in B. destruct B as [B1 [B2 B3]].
    pose proof (total_nonneg _ (blocks_sizes _ _ _ B1)) as T1.
    pose proof (total_nonneg _ (blocks_sizes _ _ _ B3)) as T3.
    rewrite total_app, total_cons in I6. cbn [snd] in *.
    (* moving on with the slot added to the pending ones or not *)
    assert (EL : forall z, zlen ((base ++ pend) ++ [z]) = zlen (base ++ pend) + 1) by (intros; rewrite zlen_app; reflexivity).
    assert (ET : total ((base ++ pend) ++ [(u, s)]) = total (base ++ pend) + s) by (rewrite total_app, total_cons; change (total []) with 0; cbn [snd]; lia).
    assert (KEEP : forall mj' mpos' cnt' csz', Forall freeish (pend ++ [(u, s)]) -> 0 < cnt' -> mj' = zlen base -> mpos' = ix + INDEX + total base ->
      csz' = total (pend ++ [(u, s)]) ->
      match alloc_slots n (zlen (base ++ pend) + 1) m H ix req (ix + INDEX + total (base ++ pend) + s) mj' mpos' cnt' csz' with
      | ABug => False | AFail => True
      | ANext pos => pos = ix + INDEX + total (base ++ pend ++ (u, s) :: todo) /\ zlen (base ++ pend ++ (u, s) :: todo) = 64
      | ADone m' p => placed m H ix (base ++ pend ++ (u, s) :: todo) req m' p end).
    { intros mj' mpos' cnt' csz' F1 F2 F3 F4 F5.
      specialize (IH n base (pend ++ [(u, s)]) m H ix req mj' mpos' cnt' csz').
      rewrite <- !app_assoc in IH. cbn [app] in IH. rewrite !app_assoc in IH. rewrite <- !app_assoc in IH.
      replace (base ++ pend ++ [(u, s)]) with ((base ++ pend) ++ [(u, s)]) in IH by (rewrite app_assoc; reflexivity).
      rewrite EL, ET in IH. rewrite Z.add_assoc in IH. apply IH; auto; [ lia | ].
      right. repeat (split; [ assumption | ]). destruct pend; discriminate. }
    assert (DROP : forall mj' mpos',
      match alloc_slots n (zlen (base ++ pend) + 1) m H ix req (ix + INDEX + total (base ++ pend) + s) mj' mpos' 0 0 with
      | ABug => False | AFail => True
      | ANext pos => pos = ix + INDEX + total (base ++ pend ++ (u, s) :: todo) /\ zlen (base ++ pend ++ (u, s) :: todo) = 64
      | ADone m' p => placed m H ix (base ++ pend ++ (u, s) :: todo) req m' p end).
    { intros mj' mpos'.
      specialize (IH n ((base ++ pend) ++ [(u, s)]) [] m H ix req mj' mpos' 0 0).
      rewrite app_nil_r in IH. cbn [app] in IH. rewrite EL, ET in IH. rewrite Z.add_assoc in IH.
      replace (((base ++ pend) ++ [(u, s)]) ++ todo) with (base ++ pend ++ (u, s) :: todo) in IH by (rewrite <- !app_assoc; reflexivity).
      apply IH; auto; [ lia | ]. left. auto. }
    destruct (Z.eqb_spec s 0) as [->|Es].
    + destruct B2 as [[_ B2]|[B2 _]]; cbn [fst snd] in B2; [ | lia ]. destruct u; [ clear B2 | discriminate ].
      destruct HP as [(-> & -> & ->)|(C1 & C2 & C3 & C4 & C5 & C6)].
      * specialize (DROP mj mpos). rewrite Z.add_0_r in DROP. exact DROP.
      * specialize (KEEP mj mpos cnt csz). rewrite Z.add_0_r in KEEP. apply KEEP; auto.
        -- apply Forall_app. split; [ assumption | ]. constructor; [ right; reflexivity | constructor ].
        -- rewrite total_app, total_cons, C4. change (total []) with 0. cbn [snd]. lia.
    + destruct B2 as [[B2 _]|(S1 & S2 & S3)]; cbn [fst snd] in *; [ contradiction | ].
      rewrite S3, Z.eqb_refl. cbn [negb].
      rewrite !(U (ix + INDEX + total (base ++ pend) + s)) by (unfold INDEX in *; lia).
      assert (HN : (H <? ix + INDEX + total (base ++ pend) + s) = false) by lia. rewrite HN. cbv zeta.
      destruct u; cbn [negb]; [ apply DROP | ].
      assert (F : Forall freeish [(false, s)]) by (repeat constructor).
      assert (CS : u64 (csz + s) = total (pend ++ [(false, s)])).
      { rewrite total_app, total_cons. change (total []) with 0. cbn [snd]. rewrite total_app in I6, T1. apply blocks_app in B1. destruct B1 as [B0 B1].
        pose proof (total_nonneg _ (blocks_sizes _ _ _ B0)). pose proof (total_nonneg _ (blocks_sizes _ _ _ B1)).
        assert (csz = total pend) by (destruct HP as [(-> & _ & ->)|(_ & _ & _ & HP & _)]; [ reflexivity | exact HP ]).
        rewrite U by (unfold INDEX in *; lia). lia. }
      assert (MJ : (if cnt =? 0 then zlen (base ++ pend) else mj) = zlen base).
      { destruct HP as [(-> & -> & _)|(C1 & C2 & _)]; [ rewrite app_nil_r; reflexivity | ]. destruct (Z.eqb_spec cnt 0); [ lia | exact C2 ]. }
      assert (MP : (if cnt =? 0 then ix + INDEX + total (base ++ pend) else mpos) = ix + INDEX + total base).
      { destruct HP as [(-> & -> & _)|(C1 & _ & C2 & _)]; [ rewrite app_nil_r; reflexivity | ]. destruct (Z.eqb_spec cnt 0); [ lia | exact C2 ]. }
      assert (FP : Forall freeish (pend ++ [(false, s)])).
      { apply Forall_app. split; [ | exact F ]. destruct HP as [(-> & _ & _)|(_ & _ & _ & _ & HP & _)]; [ constructor | exact HP ]. }
      rewrite MJ, MP, CS.
      destruct (Z.leb_spec req s) as [HQ1|HQ1].
      * (* re-use *)
        rewrite app_assoc. change ((false, s) :: todo) with ([(false, s)] ++ todo).
        eapply placed_intro with (S := s) (k := O).
        -- rewrite <- app_assoc. exact HI.
        -- exact F.
        -- reflexivity.
        -- assumption.
        -- assumption.
        -- assumption.
        -- right. split; [ | reflexivity ]. rewrite total_cons. change (total []) with 0. cbn [snd]. lia.
        -- eapply rep_replace with (mid := [(false, s)]) (m := m).
           ++ exact I4.
           ++ left. reflexivity.
           ++ intros i Hi. unfold used, set_used. pose proof (zlen_nonneg _ (base ++ pend)).
              rewrite upd_same, Z.lor_spec, Z.pow2_bits_eqb by lia.
              destruct (zlen (base ++ pend) =? i) eqn:E1, ((zlen (base ++ pend) <=? i) && (i <=? zlen (base ++ pend) + Z.of_nat 0)) eqn:E2; try lia; rewrite ?Bool.orb_true_r, ?Bool.orb_false_r; reflexivity.
           ++ intros i Hi. unfold set_used. pose proof (zlen_nonneg _ (base ++ pend)).
              destruct (Z.eqb_spec i (zlen (base ++ pend))) as [->|E].
              ** unfold size_of in *. rewrite upd_other by lia. exact R2.
              ** destruct ((zlen (base ++ pend) <=? i) && (i <=? zlen (base ++ pend) + Z.of_nat 0)) eqn:E2; [ lia | ].
                 unfold size_of. rewrite upd_other by lia. reflexivity.
        -- intros a Ha1 Ha2. unfold set_used, INDEX in *. rewrite upd_other by lia. reflexivity.
        -- unfold set_used. rewrite upd_other by (unfold INDEX in *; lia). exact S3.
      * destruct (Z.leb_spec req (total (pend ++ [(false, s)]))) as [HQ2|HQ2].
        -- (* merge *)
           replace (zlen (base ++ pend) - zlen base + 1) with (Z.of_nat (length (pend ++ [(false, s)])))
             by (rewrite zlen_app, app_length; unfold zlen; cbn [length]; lia).
           rewrite Nat2Z.id.
           pose proof (app_assoc pend [(false, s) : slot] todo) as EQ. cbn [app] in EQ.
           rewrite EQ in HI |- *. set (mid := pend ++ [(false, s)]) in *. pose proof HI as (_ & _ & I3' & _).
           assert (LM : length mid = Datatypes.S (length pend)) by (unfold mid; rewrite app_length; cbn [length]; lia).
           assert (ZB : zlen base + Z.of_nat (length mid) <= 64).
           { rewrite (zlen_app _ base), (zlen_app _ mid) in I3'. pose proof (zlen_nonneg _ todo). unfold zlen in *. lia. }
           pose proof (zlen_nonneg _ base) as ZB0.
           assert (BM : blocks_ok m (ix + INDEX + total base) mid).
           { pose proof HI as (_ & _ & _ & _ & BB & _). apply blocks_app in BB. destruct BB as [_ BB]. apply blocks_app in BB. exact (proj1 BB). }
           assert (SM : m (ix + INDEX + total base + total mid - 8) = SENTINEL).
           { unfold mid in *. apply last_sentinel; [ exact BM | exact Es ]. }
           pose proof (total_mod _ _ _ BM) as TM.
           assert (T0 : 0 <= total base).
           { apply blocks_app in B1. destruct B1 as [B0 B1]. apply (total_nonneg _ (blocks_sizes _ _ _ B0)). }
           eapply placed_intro with (S := total mid) (k := length pend).
           ++ exact HI.
           ++ exact FP.
           ++ reflexivity.
           ++ assumption.
           ++ lia.
           ++ assumption.
           ++ right. auto.
           ++ eapply rep_replace with (mid := mid) (m := m).
              ** apply HI.
              ** left. exact LM.
              ** intros i Hi. destruct (merge_mark_spec (length mid) (zlen base) m ix i) as (M1 & M2 & M3); [ lia | lia | ].
                 unfold used at 1. unfold set_size. rewrite upd_other by lia. fold (used (merge_mark (length mid) (zlen base) m ix) ix i).
                 rewrite M1 by lia.
                 destruct ((zlen base <=? i) && (i <? zlen base + Z.of_nat (length mid))) eqn:E1, ((zlen base <=? i) && (i <=? zlen base + Z.of_nat (length pend))) eqn:E2; try lia; rewrite ?Bool.orb_true_r, ?Bool.orb_false_r; reflexivity.
              ** intros i Hi. destruct (merge_mark_spec (length mid) (zlen base) m ix i) as (M1 & M2 & M3); [ lia | lia | ].
                 destruct (Z.eqb_spec i (zlen base)) as [->|E].
                 --- unfold size_of, set_size. apply upd_same.
                 --- unfold size_of at 1. unfold set_size. rewrite upd_other by lia. fold (size_of (merge_mark (length mid) (zlen base) m ix) ix i).
                     rewrite M2 by lia.
                     destruct ((zlen base <=? i) && (i <? zlen base + Z.of_nat (length mid))) eqn:E1, ((zlen base <=? i) && (i <=? zlen base + Z.of_nat (length pend))) eqn:E2; try lia; reflexivity.
           ++ intros a Ha1 Ha2. destruct (merge_mark_spec (length mid) (zlen base) m ix 0) as (M1 & M2 & M3); [ lia | lia | ].
              unfold set_size. unfold INDEX in *. rewrite upd_other by lia. apply M3. exact Ha1.
           ++ destruct (merge_mark_spec (length mid) (zlen base) m ix 0) as (M1 & M2 & M3); [ lia | lia | ].
              unfold set_size. rewrite upd_other by (unfold INDEX in *; lia). rewrite M3 by (unfold INDEX in *; lia). exact SM.
        -- apply KEEP; auto. destruct HP as [(-> & -> & _)|(C1 & _)]; lia.
Qed.
