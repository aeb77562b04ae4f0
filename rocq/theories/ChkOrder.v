(** Queues of data: order. *)
From Coq Require Import ZArith List Bool Lia Permutation.
From Verif Require Import Common ChkTypes ChkModel ChkSpec ChkProofs.
Import ListNotations.
Open Scope Z_scope.

(** The list goes on from its beginning: octets and pointers. *)
Inductive flows : list chunk -> list chunk -> list Z -> list Z -> Prop :=
| FL_nil : flows [] [] [] []
| FL_stop : forall c r n, 0 <= n <= zlen (rem c) -> flows (c :: r) (advance c n :: r) (firstn (Z.to_nat n) (rem c)) []
| FL_next : forall c r l' st pr, flows r l' st pr -> flows (c :: r) l' (rem c ++ st) (k_private c :: pr).
Lemma advance_0 c : advance c 0 = c.
Proof. destruct c as [ k d p x ]. unfold advance. cbn. now rewrite Z.add_0_r. Qed.
Lemma flows_refl l : flows l l [] [].
Proof.
  destruct l as [ | c r ]; [ constructor | ]. rewrite <- (advance_0 c) at 2. change [] with (firstn (Z.to_nat 0) (rem c)) at 1. constructor. pose proof (zlen_nonneg _ (rem c)). lia.
Qed.

Lemma send_list_flows l : forall ss ret l' es ss', send_list l ss = (ret, l', es, ss') -> ret = OK \/ ret = INCOMPLETE ->
  flows l l' (stream es) (successes es) /\ gone_private es = successes es.
Proof.
  induction l as [ | c l IH ]; intros ss ret l' es ss' E R.
  - injection E as <- <- <- <-. split; [ constructor | reflexivity ].
  - rewrite send_list_cons in E. destruct (sendto 9 (k_no c) (rem c) 0 ss) as (((r0, n), ws), s0) eqn:ES.
    destruct (sendto_ok _ _ _ _ _ _ _ _ _ (conj (Z.le_refl 0) (zlen_nonneg _ _)) ES) as (B & WS & SW & F). rewrite Z.sub_0_r in SW. cbn [Z.to_nat skipn] in SW.
    destruct (writes_facts _ _ WS) as (_ & _ & HS & HG).
    destruct (Z.eqb_spec r0 OK) as [ E0 | E0 ]; cbn [negb] in E.
    + destruct (send_list l s0) as (((r1, l1), e1), s1) eqn:E1. injection E as <- <- <- <-. destruct (IH _ _ _ _ _ E1 R) as (H1 & H2).
      rewrite !stream_app, !successes_app, !gone_private_app, HS, HG, SW, (F E0), skipn_all_rem. split; [ | cbn [successes gone_private flat_map app]; fold (successes e1) (gone_private e1); now rewrite H2 ]. apply (FL_next c l l1 (stream e1) (successes e1) H1).
    + injection E as <- <- <- <-. destruct R as [ R | R ]; [ contradiction | ]. rewrite R, Z.eqb_refl, HS, HG, SW. split; [ now constructor | reflexivity ].
Qed.

Definition live (c : chunk) : Prop := 0 <= k_pos c < zlen (k_data c).
Lemma live_wf l : Forall live l -> Forall wf l.
Proof. apply Forall_impl. unfold live, wf. intros. lia. Qed.
Lemma write_list_cons c r ret max rs : write_list (c :: r) ret max rs =
  let n := Z.max 0 (Z.min (fst (hd (0, INCOMPLETE) rs)) (zlen (rem c))) in
  let ret := Z.ldiff (snd (hd (0, INCOMPLETE) rs)) INCOMPLETE in
  let complete := k_pos c + n =? zlen (k_data c) in
  let here := (if n =? 0 then [] else [Wrote (k_no c) (firstn (Z.to_nat n) (rem c))]) ++ (if complete then [Freed (k_no c) (k_private c)] else []) in
  let kept := if complete then [] else [advance c n] in
  if negb (ret =? 0) || (n =? 0) then (ret, max, kept ++ r, here, tl rs)
  else if max =? 0 then (ret, max - 1, kept ++ r, here, tl rs)
  else let '(ret, max, l, es, rs) := write_list r ret (max - 1) (tl rs) in (ret, max, kept ++ l, here ++ es, rs).
Proof. reflexivity. Qed.

(** Nothing is written: nothing has changed. *)
Lemma write_list_still l ret max rs ret' max' l' es rs' : Forall live l -> write_list l ret max rs = (ret', max', l', es, rs') -> stream es = [] -> l' = l /\ gone_private es = [].
Proof.
  destruct l as [ | c r ]; intros LV E S; [ injection E as <- <- <- <- <-; auto | ]. inversion LV as [ | ? ? LC _ ]; subst. unfold live in LC.
  pose proof (rem_length c ltac:(unfold wf; lia)) as RL. rewrite write_list_cons in E. cbv zeta in E.
  set (n := Z.max 0 (Z.min (fst (hd (0, INCOMPLETE) rs)) (zlen (rem c)))) in *. assert (N : 0 <= n <= zlen (rem c)) by lia. clearbody n.
  destruct (Z.eqb_spec n 0) as [ E0 | E0 ].
  - rewrite orb_true_r in E. rewrite E0 in E. destruct (Z.eqb_spec (k_pos c + 0) (zlen (k_data c))); [ lia | ]. injection E as <- <- <- <- <-. rewrite advance_0. auto.
  - exfalso. assert (X : forall a b, stream ([Wrote (k_no c) (firstn (Z.to_nat n) (rem c))] ++ a ++ b) <> []).
    { intros a b. cbn [app stream flat_map]. intros H. apply app_eq_nil in H. destruct H as (H & _). apply (f_equal (@length Z)) in H. rewrite firstn_length in H. cbn [length] in H. unfold zlen in N. lia. }
    destruct (negb (_ =? 0) || false); [ | destruct (max =? 0) ].
    + injection E as <- <- <- <- <-. rewrite <- (app_nil_r (if k_pos c + n =? zlen (k_data c) then _ else _)) in S. exact (X _ _ S).
    + injection E as <- <- <- <- <-. rewrite <- (app_nil_r (if k_pos c + n =? zlen (k_data c) then _ else _)) in S. exact (X _ _ S).
    + destruct (write_list r _ (max - 1) (tl rs)) as ((((r2, m2), l2), e2), s2). injection E as <- <- <- <- <-. exact (X _ _ S).
Qed.

Definition orderly_events (es : list event) : Prop := forall before k octets after, es = before ++ Wrote k octets :: after -> ~ In k (gone after) -> stream after = [].
Lemma orderly_suffix a b : orderly_events (a ++ b) -> orderly_events b.
Proof. intros O before k octets after E NG. apply (O (a ++ before) k octets after); [ rewrite E; apply app_assoc | exact NG ]. Qed.

Lemma write_list_flows l : forall ret max rs ret' max' l' es rs', NoDup (nos l) -> Forall live l -> write_list l ret max rs = (ret', max', l', es, rs') -> orderly_events es ->
  flows l l' (stream es) (gone_private es).
Proof.
  induction l as [ | c l IH ]; intros ret max rs ret' max' l' es rs' ND LV E O.
  - injection E as <- <- <- <- <-. constructor.
  - inversion LV as [ | ? ? LC LL ]; subst. inversion ND as [ | ? ? NI NDL ]; subst. assert (WC : wf c) by (unfold live, wf in *; lia). pose proof (rem_length c WC) as RL. unfold live in LC.
    rewrite write_list_cons in E. cbv zeta in E.
    set (n := Z.max 0 (Z.min (fst (hd (0, INCOMPLETE) rs)) (zlen (rem c)))) in *. assert (N : 0 <= n <= zlen (rem c)) by lia. clearbody n.
    set (r1 := Z.ldiff (snd (hd (0, INCOMPLETE) rs)) INCOMPLETE) in *. clearbody r1.
    set (w := if n =? 0 then [] else [Wrote (k_no c) (firstn (Z.to_nat n) (rem c))]) in *.
    assert (SW : stream w = firstn (Z.to_nat n) (rem c)) by (unfold w; destruct (Z.eqb_spec n 0) as [ E0 | ]; [ rewrite E0; reflexivity | cbn; apply app_nil_r ]).
    assert (GW : gone_private w = []) by (unfold w; destruct (n =? 0); reflexivity).
    destruct (Z.eqb_spec (k_pos c + n) (zlen (k_data c))) as [ D | D ].
    + assert (SR : stream w = rem c) by (rewrite SW; replace n with (zlen (rem c)) by lia; apply skipn_all_rem). clearbody w.
      assert (Q : flows (c :: l) l (stream (w ++ [Freed (k_no c) (k_private c)])) (gone_private (w ++ [Freed (k_no c) (k_private c)]))).
      { rewrite stream_app, gone_private_app, GW, SR. cbn [stream gone_private flat_map app]. apply FL_next. apply flows_refl. }
      destruct (negb (r1 =? 0) || (n =? 0)); [ | destruct (max =? 0) ].
      * injection E as <- <- <- <- <-. exact Q.
      * injection E as <- <- <- <- <-. exact Q.
      * destruct (write_list l r1 (max - 1) (tl rs)) as ((((r2, m2), l2), e2), s2) eqn:E2. injection E as <- <- <- <- <-. rewrite <- app_assoc. rewrite !stream_app, !gone_private_app, GW, SR. cbn [stream gone_private flat_map app].
        apply FL_next. eapply IH; eauto. eapply orderly_suffix; eauto.
    + rewrite app_nil_r in E.
      assert (Q : flows (c :: l) (advance c n :: l) (stream w) (gone_private w)) by (rewrite SW, GW; now constructor).
      destruct (Z.eqb_spec n 0) as [ E0 | E0 ]; [ rewrite orb_true_r in E; injection E as <- <- <- <- <-; exact Q | ].
      destruct (negb (r1 =? 0) || false); [ injection E as <- <- <- <- <-; exact Q | ]. destruct (max =? 0); [ injection E as <- <- <- <- <-; exact Q | ].
      destruct (write_list l r1 (max - 1) (tl rs)) as ((((r2, m2), l2), e2), s2) eqn:E2. injection E as <- <- <- <- <-.
      assert (S0 : stream e2 = []).
      { apply (O [] (k_no c) (firstn (Z.to_nat n) (rem c)) e2); [ reflexivity | ]. intros G. apply NI. eapply moves_nos; [ | left; exact G ]. eapply write_list_moves; [ exact NDL | apply live_wf; exact LL | exact E2 ]. }
      destruct (write_list_still _ _ _ _ _ _ _ _ _ LL E2 S0) as (-> & G2). change (flows (c :: l) (advance c n :: l) (stream (w ++ e2)) (gone_private (w ++ e2))). rewrite stream_app, gone_private_app, S0, G2, !app_nil_r. exact Q.
Qed.

(** ** The position in what was put in the queue *)
Definition head (l : list chunk) : list Z := match l with [] => [] | c :: _ => firstn (Z.to_nat (k_pos c)) (k_data c) end.
Definition fresh (c : chunk) : Prop := k_pos c = 0.
Definition aligned (ps : list (list Z * Z)) (m : nat) (l : list chunk) : Prop :=
  map (fun c => (k_data c, k_private c)) l = skipn m ps /\ Forall fresh (tl l).
Lemma skipn_cons_next {A : Type} (ps : list A) : forall m x r, x :: r = skipn m ps -> r = skipn (S m) ps /\ firstn (S m) ps = firstn m ps ++ [x] /\ (m < length ps)%nat.
Proof.
  induction ps as [ | y ps IH ]; intros m x r E; destruct m as [ | m ]; cbn in E; try discriminate.
  - injection E as -> ->. cbn. repeat split; lia.
  - destruct (IH m x r E) as (H1 & H2 & H3). cbn [length]. split; [ exact H1 | ]. split; [ | lia ]. change (firstn (S (S m)) (y :: ps)) with (y :: firstn (S m) ps). rewrite H2. reflexivity.
Qed.
Lemma flows_aligned ps l l' st pr : flows l l' st pr -> forall m, aligned ps m l -> Forall wf l -> (m <= length ps)%nat ->
  exists m', (m' <= length ps)%nat /\ aligned ps m' l' /\ concat (map fst (firstn m ps)) ++ head l ++ st = concat (map fst (firstn m' ps)) ++ head l' /\ map snd (firstn m ps) ++ pr = map snd (firstn m' ps).
Proof.
  induction 1 as [ | c r n N | c r l' st pr FL IH ]; intros m (AL & FR) W L.
  - exists m. repeat split; auto. apply app_nil_r.
  - exists m. split; [ exact L | ]. split; [ split; [ exact AL | exact FR ] | ]. cbn [head advance k_pos k_data]. inversion W as [ | ? ? WC _ ]; subst. unfold wf in WC. split; [ | apply app_nil_r ]. f_equal.
    pose proof (firstn_skipn_split (k_data c) 0 (k_pos c) (k_pos c + n)) as F. rewrite !Z.sub_0_r in F. cbn [Z.to_nat skipn] in F. rewrite <- F by lia. unfold rem. do 3 f_equal. lia.
  - cbn [map] in AL. destruct (skipn_cons_next _ _ _ _ AL) as (H1 & H2 & H3). inversion W as [ | ? ? WC WR ]; subst. cbn [tl] in FR.
    destruct (IH (S m)) as (m' & L' & A' & EO & EP); [ split; [ exact H1 | destruct r; [ constructor | now inversion FR ] ] | exact WR | lia | ].
    exists m'. split; [ exact L' | ]. split; [ exact A' | ]. rewrite H2, !map_app, concat_app in EO. rewrite H2, map_app in EP. cbn [map fst snd concat] in EO, EP. rewrite app_nil_r in EO. rewrite <- !app_assoc in EO, EP. split; [ | exact EP ].
    rewrite <- EO. cbn [head]. f_equal. assert (HR : head r = []) by (destruct r as [ | c2 r ]; [ reflexivity | inversion FR as [ | ? ? F0 _ ]; subst; unfold fresh in F0; cbn [head]; rewrite F0; reflexivity ]). rewrite HR. cbn [app].
    rewrite app_assoc. f_equal. apply firstn_skipn.
Qed.

Record inv2 (ps : list (list Z * Z)) (es : list event) (q : queue) (m : nat) : Prop := {
  j_m : (m <= length ps)%nat;
  j_high : q_high q = [];
  j_al : aligned ps m (q_normal q);
  j_stream : stream es = concat (map fst (firstn m ps)) ++ head (q_normal q);
  j_gone : gone_private es = map snd (firstn m ps) }.
Lemma flows_inv2 ps es e q q' m : inv2 ps es q m -> Forall wf (q_normal q) -> q_high q' = [] -> flows (q_normal q) (q_normal q') (stream e) (gone_private e) -> exists m', inv2 ps (es ++ e) q' m'.
Proof.
  intros J W QH FL. destruct (flows_aligned ps _ _ _ _ FL m (j_al _ _ _ _ J) W (j_m _ _ _ _ J)) as (m' & L & A & EO & EP). exists m'. constructor; auto.
  - rewrite stream_app, (j_stream _ _ _ _ J), <- app_assoc. exact EO.
  - rewrite gone_private_app, (j_gone _ _ _ _ J). exact EP.
Qed.
Lemma push_inv2 ps es q m d p : inv2 ps es q m -> inv2 (ps ++ [(d, p)]) es (push q false d p) m.
Proof.
  intros J. destruct J as [ L QH (AL & FR) ST GO ]. unfold push. assert (F : firstn m (ps ++ [(d, p)]) = firstn m ps) by (rewrite firstn_app; replace (m - length ps)%nat with 0%nat by lia; cbn; apply app_nil_r).
  constructor; cbn [q_high q_normal].
  - rewrite app_length. lia.
  - exact QH.
  - split.
    + rewrite map_app, AL, skipn_app. replace (m - length ps)%nat with 0%nat by lia. reflexivity.
    + destruct (q_normal q) as [ | c l ]; cbn [app tl] in *; [ constructor | ]. apply Forall_app. split; [ exact FR | ]. repeat constructor.
  - rewrite F, ST. f_equal. destruct (q_normal q) as [ | c l ]; reflexivity.
  - now rewrite F.
Qed.
Lemma inv2_new : inv2 [] [] queue_new 0.
Proof. constructor; cbn; auto. split; constructor. Qed.
Lemma inv2_all ps es q m : inv2 ps es q m -> all q = q_normal q.
Proof. intros J. unfold all. now rewrite (j_high _ _ _ _ J). Qed.

Lemma run_send os : forall ps es cs q q' xs m, inv ps es cs q -> inv2 ps es q m -> successes es = gone_private es -> Forall (fun o => normal_push o || is_send o = true) os -> run q os = (q', xs) -> Forall no_error xs ->
  exists m', inv2 (ps ++ pushed os) (es ++ sending xs) q' m' /\ successes (es ++ sending xs) = gone_private (es ++ sending xs).
Proof.
  induction os as [ | o os IH ]; intros ps es cs q q' xs m I J SG OK0 E F; cbn [run] in E.
  - injection E as <- <-. unfold pushed, sending. cbn [flat_map]. rewrite !app_nil_r. eauto.
  - destruct (step q o) as (q1, x) eqn:ES. destruct (run q1 os) as (q2, xs2) eqn:ER. injection E as <- <-. inversion F as [ | ? ? FO FR ]; subst. inversion OK0 as [ | ? ? O1 O2 ]; subst.
    unfold pushed, sending. cbn [flat_map]. fold (pushed os) (sending xs2). rewrite !app_assoc.
    destruct o as [ [] d p | ss | rs | ]; try discriminate O1; cbn [step] in ES.
    + injection ES as <- <-. cbn [pushed1]. rewrite !app_nil_r. eapply IH; [ exact (inv_push _ _ _ _ false d p I) | exact (push_inv2 _ _ _ _ d p J) | exact SG | exact O2 | exact ER | exact FR ].
    + destruct (send q ss) as ((q0, r0), e0) eqn:E0. injection ES as <- <-. cbn [pushed1]. rewrite !app_nil_r. cbn [no_error] in FO.
      destruct (send_moves _ _ _ _ _ (inv_nos _ _ _ _ I) (i_wf _ _ _ _ I) E0 FO) as (M & N).
      pose proof (i_wf _ _ _ _ I) as W. rewrite (inv2_all _ _ _ _ J) in W. unfold send in E0. rewrite (j_high _ _ _ _ J) in E0. cbn [send_list] in E0. change (negb (OK =? OK)) with false in E0. cbv iota in E0.
      destruct (send_list (q_normal q) ss) as (((r2, l2), e2), s2) eqn:E2. injection E0 as <- <- <-. cbn [app].
      destruct (send_list_flows _ _ _ _ _ _ E2 FO) as (FL & GP). rewrite <- GP in FL.
      destruct (flows_inv2 ps es e2 q (mk_queue [] l2 (q_next q)) m J W eq_refl FL) as (m' & J').
      eapply IH; [ exact (inv_moves _ _ _ _ _ _ I N M) | exact J' | rewrite successes_app, gone_private_app; congruence | exact O2 | exact ER | exact FR ].
Qed.

Lemma live_moves l l' es : Forall live l -> moves l l' es -> (forall c, In c l' -> k_pos c <> zlen (k_data c)) -> Forall live l'.
Proof.
  intros LV M NE. rewrite Forall_forall in *. intros c' I. destruct (mv_kept _ _ _ M c' I) as (c & IC & E1 & E2 & E3 & B & _). specialize (LV c IC). specialize (NE c' I). unfold live in *. rewrite <- E2 in *. lia.
Qed.
Lemma write_list_live l : forall ret max rs ret' max' l' es rs', Forall live l -> write_list l ret max rs = (ret', max', l', es, rs') -> Forall live l'.
Proof.
  induction l as [ | c l IH ]; intros ret max rs ret' max' l' es rs' LV E.
  - injection E as <- <- <- <- <-. constructor.
  - inversion LV as [ | ? ? LC LL ]; subst. assert (WC : wf c) by (unfold live, wf in *; lia). pose proof (rem_length c WC) as RL. unfold live in LC. rewrite write_list_cons in E. cbv zeta in E.
    set (n := Z.max 0 (Z.min (fst (hd (0, INCOMPLETE) rs)) (zlen (rem c)))) in *. assert (N : 0 <= n <= zlen (rem c)) by lia. clearbody n.
    set (kept := if k_pos c + n =? zlen (k_data c) then [] else [advance c n]) in *.
    assert (K : Forall live kept) by (unfold kept; destruct (Z.eqb_spec (k_pos c + n) (zlen (k_data c))); repeat constructor; cbn [advance k_pos k_data]; lia). clearbody kept.
    destruct (negb (_ =? 0) || _); [ | destruct (max =? 0) ].
    + injection E as <- <- <- <- <-. now apply Forall_app.
    + injection E as <- <- <- <- <-. now apply Forall_app.
    + destruct (write_list l _ (max - 1) (tl rs)) as ((((r2, m2), l2), e2), s2) eqn:E2. injection E as <- <- <- <- <-. apply Forall_app. split; [ exact K | ]. eapply IH; eauto.
Qed.

Lemma run_write os : forall ps es cs q q' xs m, inv ps es cs q -> inv2 ps es q m -> Forall live (q_normal q) -> Forall (fun o => normal_push o || is_write o = true) os -> Forall nonempty os -> run q os = (q', xs) -> Forall orderly xs ->
  exists m', inv2 (ps ++ pushed os) (es ++ sending xs) q' m'.
Proof.
  induction os as [ | o os IH ]; intros ps es cs q q' xs m I J LV OK0 NE E F; cbn [run] in E.
  - injection E as <- <-. unfold pushed, sending. cbn [flat_map]. rewrite !app_nil_r. eauto.
  - destruct (step q o) as (q1, x) eqn:ES. destruct (run q1 os) as (q2, xs2) eqn:ER. injection E as <- <-. inversion F as [ | ? ? FO FR ]; subst. inversion OK0 as [ | ? ? O1 O2 ]; subst. inversion NE as [ | ? ? N1 N2 ]; subst.
    unfold pushed, sending. cbn [flat_map]. fold (pushed os) (sending xs2). rewrite !app_assoc.
    destruct o as [ [] d p | ss | rs | ]; try discriminate O1; cbn [step] in ES.
    + injection ES as <- <-. cbn [pushed1]. rewrite !app_nil_r. eapply IH; [ exact (inv_push _ _ _ _ false d p I) | exact (push_inv2 _ _ _ _ d p J) | | exact O2 | exact N2 | exact ER | exact FR ].
      unfold push. cbn [q_normal]. apply Forall_app. split; [ exact LV | ]. repeat constructor; cbn [k_pos k_data]; [ lia | ]. cbn [nonempty] in N1. destruct d; [ contradiction | ]. rewrite zlen_cons. pose proof (zlen_nonneg _ d). lia.
    + destruct (write q rs) as ((q0, r0), e0) eqn:E0. injection ES as <- <-. cbn [pushed1]. rewrite !app_nil_r.
      destruct (write_moves _ _ _ _ _ (inv_nos _ _ _ _ I) (i_wf _ _ _ _ I) E0) as (M & N).
      pose proof (inv_nos _ _ _ _ I) as ND. rewrite (inv2_all _ _ _ _ J) in ND. unfold write in E0. rewrite (j_high _ _ _ _ J) in E0. cbn [write_list] in E0.
      destruct (write_list (q_normal q) 0 10 rs) as ((((r2, m2), l2), e2), s2) eqn:E2. injection E0 as <- <- <-. cbn [app] in *.
      pose proof (write_list_flows _ _ _ _ _ _ _ _ _ ND LV E2 FO) as FL.
      destruct (flows_inv2 ps es e2 q (mk_queue [] l2 (q_next q)) m J (live_wf _ LV) eq_refl FL) as (m' & J').
      eapply IH; [ exact (inv_moves _ _ _ _ _ _ I N M) | exact J' | exact (write_list_live _ _ _ _ _ _ _ _ _ LV E2) | exact O2 | exact N2 | exact ER | exact FR ].
Qed.

(** What the theorems state *)
Lemma head_firstn ps m l : aligned ps m l -> exists n, head l = firstn n (nth m (map fst ps) []).
Proof.
  intros (AL & _). destruct l as [ | c l ]; [ exists 0%nat; reflexivity | ]. exists (Z.to_nat (k_pos c)). cbn [head]. f_equal. cbn [map] in AL.
  destruct (skipn_cons_next _ _ _ _ AL) as (_ & H2 & H3). change (@nil Z) with (fst (@nil Z, 0)). rewrite map_nth. rewrite <- (firstn_skipn m ps), app_nth2; rewrite firstn_length_le by lia; [ | lia ]. rewrite Nat.sub_diag, <- AL. reflexivity.
Qed.
Lemma inv2_count ps es q m : inv2 ps es q m -> count q = Z.of_nat (length ps - m).
Proof.
  intros J. unfold count. rewrite (j_high _ _ _ _ J). destruct (j_al _ _ _ _ J) as (AL & _). apply (f_equal (@length _)) in AL. rewrite map_length, skipn_length in AL. unfold zlen. cbn [length]. lia.
Qed.
