(** Proofs about send loops. *)
From Coq Require Import ZArith List Bool Lia Permutation Sorted.
From Verif Require Import Common SendLoopModel SendLoopSpec.
Import ListNotations.
Open Scope Z_scope.

(** ** Lists *)
Lemma sub_refl : forall T (l : list T), sub l l.
Proof. induction l; [ apply sub_nil | apply sub_keep; auto ]. Qed.
Lemma sub_trans : forall T (b c : list T), sub b c -> forall a, sub a b -> sub a c.
Proof. intros T b c H. induction H as [|x b c H IH|x b c H IH]; intros a HA; [ auto | apply sub_skip; auto | ]. inversion HA; subst; [ apply sub_skip; auto | apply sub_keep; auto ]. Qed.
Lemma sub_app : forall T (a b c d : list T), sub a b -> sub c d -> sub (a ++ c) (b ++ d).
Proof. intros T a b c d H HC. induction H; cbn [app]; auto; [ apply sub_skip; auto | apply sub_keep; auto ]. Qed.
Lemma sub_app_l : forall T (a b : list T), sub a (a ++ b).
Proof. intros T a b. induction a; cbn [app]; [ induction b; [ apply sub_nil | apply sub_skip; auto ] | apply sub_keep; auto ]. Qed.
Lemma sub_in : forall T (a b : list T), sub a b -> forall x, In x a -> In x b.
Proof. intros T a b H. induction H; intros y Hy; [ auto | right; auto | destruct Hy as [->|Hy]; [ left; auto | right; auto ] ]. Qed.

(** ** The sort *)
Lemma smallest_spec : forall l e, In (smallest e l) (e :: l) /\ Forall (fun x => e_index (smallest e l) <= e_index x) (e :: l).
Proof.
  induction l as [|x r IH]; intros e; cbn [smallest]; [ split; [ left; auto | repeat constructor; lia ] | ].
  destruct (Z.ltb_spec (e_index x) (e_index e)) as [H|H].
  - destruct (IH x) as (A & B). split; [ right; exact A | ]. inversion B as [|? ? B1 B2]; subst. constructor; [ lia | constructor; auto ].
  - destruct (IH e) as (A & B). split; [ destruct A as [A|A]; [ left; auto | right; right; auto ] | ]. inversion B as [|? ? B1 B2]; subst. constructor; [ auto | constructor; [ lia | auto ] ].
Qed.
(** The first entry with the smallest index is what [remove] takes out *)
Lemma remove_perm : forall l e, smallest e l = e \/ exists a b, l = a ++ smallest e l :: b /\ Forall (fun x => e_index x <> e_index (smallest e l)) (e :: a).
Proof.
  induction l as [|x r IH]; intros e; cbn [smallest]; [ left; auto | ].
  destruct (Z.ltb_spec (e_index x) (e_index e)) as [H|H].
  - right. destruct (IH x) as [E|(a & b & E & HF)].
    + exists [], r. cbn [app]. rewrite E. split; [ reflexivity | constructor; [ lia | constructor ] ].
    + exists (x :: a), b. split; [ cbn [app]; f_equal; exact E | ]. constructor; [ | exact HF ].
      destruct (smallest_spec r x) as (_ & B). inversion B as [|? ? B1 B2]; subst. lia.
  - destruct (IH e) as [E|(a & b & E & HF)]; [ left; auto | right ].
    exists (x :: a), b. split; [ cbn [app]; f_equal; exact E | ]. inversion HF as [|? ? F1 F2]; subst. constructor; [ auto | constructor; [ | auto ] ].
    destruct (smallest_spec r e) as (_ & B). inversion B as [|? ? B1 B2]; subst. lia.
Qed.
Lemma remove_skip : forall a s b, Forall (fun x => e_index x <> e_index s) a -> remove (e_index s) (a ++ s :: b) = a ++ b.
Proof.
  induction a as [|x a IH]; intros s b H; cbn [app remove]; [ rewrite Z.eqb_refl; auto | ].
  inversion H; subst. destruct (Z.eqb_spec (e_index x) (e_index s)); [ contradiction | ]. rewrite IH; auto.
Qed.
Lemma sort_step : forall e l, exists a b, e :: l = a ++ smallest e l :: b /\ remove (e_index (smallest e l)) (e :: l) = a ++ b.
Proof.
  intros e l. destruct (remove_perm l e) as [E|(a & b & E & HF)].
  - exists [], l. rewrite E. cbn [app remove]. rewrite Z.eqb_refl. auto.
  - exists (e :: a), b. split; [ cbn [app]; f_equal; exact E | ].
    assert (EE : e :: l = (e :: a) ++ smallest e l :: b) by (cbn [app]; f_equal; exact E). rewrite EE. exact (remove_skip (e :: a) _ b HF).
Qed.
Lemma sort_perm : forall n l, length l = n -> Permutation l (sort n l).
Proof.
  induction n as [|n IH]; intros l HL; [ destruct l; [ constructor | discriminate ] | ]. destruct l as [|e l]; [ discriminate | ]. cbn [sort]. cbv zeta.
  destruct (sort_step e l) as (a & b & E & ER). rewrite ER.
  assert (HN : length (a ++ b) = n). { apply (f_equal (@length _)) in E. rewrite app_length in E. rewrite app_length. cbn [length] in *. lia. }
  rewrite E at 1. rewrite <- (IH (a ++ b) HN). symmetry. apply Permutation_middle.
Qed.
Definition le_i (a b : entry) : Prop := e_index a <= e_index b.
Definition lt_i (a b : entry) : Prop := e_index a < e_index b.
Lemma sort_sorted : forall n l, length l = n -> StronglySorted le_i (sort n l).
Proof.
  induction n as [|n IH]; intros l HL; [ destruct l; [ constructor | discriminate ] | ]. destruct l as [|e l]; [ discriminate | ]. cbn [sort]. cbv zeta.
  destruct (sort_step e l) as (a & b & E & ER). rewrite ER.
  assert (HN : length (a ++ b) = n). { apply (f_equal (@length _)) in E. rewrite app_length in E. rewrite app_length. cbn [length] in *. lia. }
  constructor; [ apply IH; auto | ]. apply Forall_forall. intros x Hx. apply (Permutation_in _ (Permutation_sym (sort_perm n _ HN))) in Hx.
  destruct (smallest_spec l e) as (_ & B). rewrite Forall_forall in B. apply B. rewrite E. apply in_app_iff in Hx. apply in_app_iff. cbn [In]. tauto.
Qed.
Lemma smallest_first : forall l e, Forall (lt_i e) l -> smallest e l = e.
Proof. induction l as [|x r IH]; intros e H; cbn [smallest]; [ auto | ]. inversion H; subst. unfold lt_i in *. destruct (Z.ltb_spec (e_index x) (e_index e)); [ lia | ]. apply IH; auto. Qed.
Lemma sort_id : forall l, StronglySorted lt_i l -> sort (length l) l = l.
Proof.
  induction l as [|e l IH]; intros H; [ reflexivity | ]. inversion H; subst. cbn [length sort]. cbv zeta. rewrite smallest_first by auto.
  cbn [remove]. rewrite Z.eqb_refl. f_equal. auto.
Qed.

(** ** Runs *)
Definition mt (e : entry) : Z * Z := (e_msg e, e_ts e).
Lemma mt_pushed : forall cf e, mt (pushed cf e) = mt e.
Proof. intros. unfold pushed. destruct (c_net cf); reflexivity. Qed.
Lemma msg_pushed : forall cf e, e_msg (pushed cf e) = e_msg e.
Proof. intros. unfold pushed. destruct (c_net cf); reflexivity. Qed.
Lemma index_pushed : forall cf e, e_index (pushed cf e) = e_index e.
Proof. intros. unfold pushed. destruct (c_net cf); reflexivity. Qed.
Lemma accepted_app : forall a b, accepted (a ++ b) = accepted a ++ accepted b.
Proof. intros. apply flat_map_app. Qed.
Lemma gone_app : forall a b, gone (a ++ b) = gone a ++ gone b.
Proof. intros. apply flat_map_app. Qed.
Lemma visit_perm : forall cf a e k evs go, visit cf a e = (k, evs, go) ->
  Permutation [e_msg e] (map e_msg k ++ map e_msg (accepted evs) ++ gone evs).
Proof.
  intros cf a e k evs go H. unfold visit in H.
  destruct (check cf (a_now a) e); [ destruct (a_code a) | | destruct (c_action cf) ]; cbv zeta in H; injection H as <- <- <-; cbn; rewrite ?msg_pushed; auto.
Qed.
Lemma visits_perm : forall cf last l ans k evs err, visits cf ans last l = (k, evs, err) ->
  Permutation (map e_msg l) (map e_msg k ++ map e_msg (accepted evs) ++ gone evs).
Proof.
  intros cf last l. induction l as [|e r IH]; intros ans k evs err H; cbn [visits] in H; [ injection H as <- <- <-; constructor | ].
  destruct (visit cf (hd last ans) e) as [[st e1] go] eqn:EV. apply visit_perm in EV.
  assert (HX : forall rk re, Permutation (map e_msg r) (map e_msg rk ++ map e_msg (accepted re) ++ gone re) ->
    Permutation (map e_msg (e :: r)) (map e_msg (st ++ rk) ++ map e_msg (accepted (e1 ++ re)) ++ gone (e1 ++ re))).
  { intros rk re HP. cbn [map]. change (e_msg e :: map e_msg r) with ([e_msg e] ++ map e_msg r). rewrite EV, HP. rewrite accepted_app, gone_app, !map_app. rewrite <- !app_assoc.
    apply Permutation_app_head. rewrite (app_assoc (map e_msg (accepted e1)) (gone e1)). rewrite (Permutation_app_comm (map e_msg (accepted e1)) (gone e1)), <- app_assoc.
    rewrite (app_assoc (gone e1)), (Permutation_app_comm (gone e1)), <- !app_assoc. 
    rewrite (Permutation_app_comm (map e_msg (accepted e1))). rewrite (Permutation_app_comm (gone e1)). rewrite <- !app_assoc. apply Permutation_app_head.
    rewrite (Permutation_app_comm (gone e1)). rewrite !app_assoc. rewrite (Permutation_app_comm (map e_msg (accepted re) ++ gone re)). rewrite <- !app_assoc. apply Permutation_app_head.
    apply Permutation_app_head. apply Permutation_refl || apply Permutation_app_comm. }
  destruct go as [[|]|].
  - destruct (visits cf (tl ans) last r) as [[k2 e2] err2] eqn:ER. injection H as <- <- <-. apply HX. eapply IH. exact ER.
  - injection H as <- <- <-. specialize (HX r []). rewrite (app_nil_r e1) in HX. apply HX. cbn. rewrite !app_nil_r. apply Permutation_refl.
  - injection H as <- <- <-. specialize (HX r []). rewrite (app_nil_r e1) in HX. apply HX. cbn. rewrite !app_nil_r. apply Permutation_refl.
Qed.
Lemma run_perm : forall cf ans last s s' evs err, run cf ans last s = (s', evs, err) ->
  Permutation (map e_msg (l_entries s)) (map e_msg (l_entries s') ++ map e_msg (accepted evs) ++ gone evs) /\ l_pos s' = l_pos s.
Proof.
  intros cf ans last s s' evs err H. unfold run in H. cbv zeta in H.
  destruct (visits cf ans last _) as [[k e1] er] eqn:EV. injection H as <- <- <-. split; [ | reflexivity ]. apply visits_perm in EV. cbn [l_entries]. rewrite <- EV.
  destruct (c_order cf); [ apply Permutation_map; apply sort_perm; reflexivity | apply Permutation_refl ].
Qed.
Lemma take_perm : forall n l e r, take n l = Some (e, r) -> Permutation l (e :: r).
Proof.
  induction n as [|n IH]; intros [|x l] e r H; cbn [take] in H; try discriminate; [ injection H as <- <-; auto | ].
  destruct (take n l) as [[y r']|] eqn:ET; [ | discriminate ]. injection H as <- <-. rewrite (IH _ _ _ ET). apply perm_swap.
Qed.
Definition all_of (w : world) : list Z := map e_msg (l_entries (w_loop w)) ++ map e_msg (w_flight w).
Lemma step_perm : forall cf w o w' evs d b, step cf w o = (w', evs, d, b) ->
  Permutation (all_of w ++ map fst (arrived [o])) (all_of w' ++ map e_msg d ++ gone evs).
Proof.
  intros cf w o w' evs d b H. destruct w as [s fl]. unfold all_of. destruct o as [now m ts|ans last|n|n|now n|now rel]; cbn [step w_loop w_flight] in H; cbn [arrived flat_map map app fst].
  - injection H as <- <- <- <-. cbn. rewrite map_app. cbn [map e_msg]. rewrite !app_nil_r, <- !app_assoc. apply Permutation_app_head. apply Permutation_app_comm.
  - destruct (run cf ans last s) as [[s1 e1] er] eqn:ER. injection H as <- <- <- <-. apply run_perm in ER as (ER & _). cbn [w_loop w_flight map app]. rewrite app_nil_r, map_app.
    rewrite ER, <- !app_assoc. apply Permutation_app_head. rewrite (app_assoc (map e_msg fl)), (Permutation_app_comm (map e_msg fl)), <- app_assoc. apply Permutation_app_head. apply Permutation_app_comm.
  - destruct (take n fl) as [[e r]|] eqn:ET; injection H as <- <- <- <-; cbn [w_loop w_flight map app gone flat_map]; rewrite ?app_nil_r; [ | apply Permutation_refl ].
    apply take_perm in ET. rewrite <- app_assoc. apply Permutation_app_head. rewrite (Permutation_map e_msg ET). cbn [map]. apply Permutation_cons_append.
  - destruct (take n fl) as [[e r]|] eqn:ET; injection H as <- <- <- <-; cbn [w_loop w_flight map app gone flat_map unshift l_entries]; rewrite ?app_nil_r; [ | apply Permutation_refl ].
    apply take_perm in ET. rewrite (Permutation_map e_msg ET). cbn [map]. symmetry. apply Permutation_middle.
  - destruct (take n fl) as [[e r]|] eqn:ET; [ | injection H as <- <- <- <-; cbn [w_loop w_flight map app gone flat_map]; rewrite ?app_nil_r; apply Permutation_refl ].
    destruct (unshift_if cf now e s) as [s1 u] eqn:EU. injection H as <- <- <- <-. unfold unshift_if in EU. cbn [w_loop w_flight map app gone flat_map]. rewrite ?app_nil_r.
    destruct (check cf now e); injection EU as <- <-; cbn [unshift l_entries map app]; try apply Permutation_refl; apply take_perm in ET; rewrite (Permutation_map e_msg ET); cbn [map]; symmetry; apply Permutation_middle.
  - injection H as <- <- <- <-. cbn [w_loop w_flight touch l_entries app map gone flat_map]. rewrite ?app_nil_r, !map_map.
    assert (HM : forall l, map (fun x => e_msg (if rel x then mk_e (e_msg x) (e_ts x) (e_net x) (e_index x) now else x)) l = map e_msg l) by (intros l; apply map_ext; intros x; destruct (rel x); reflexivity).
    rewrite !HM. apply Permutation_refl.
Qed.
Lemma perm_4 : forall T (a b c d : list T), Permutation (a ++ b ++ c ++ d) (c ++ a ++ d ++ b).
Proof. intros. rewrite !app_assoc. rewrite <- (app_assoc (a ++ b)). rewrite (Permutation_app_comm (a ++ b)). rewrite <- !app_assoc. apply Permutation_app_head. rewrite (Permutation_app_comm d (a ++ b)). rewrite <- !app_assoc. apply Permutation_app_head. apply Permutation_app_comm. Qed.
Lemma arrived_cons : forall o r, arrived (o :: r) = arrived [o] ++ arrived r.
Proof. intros. unfold arrived. cbn [flat_map]. rewrite app_nil_r. reflexivity. Qed.
Lemma steps_perm : forall cf ops w w' evs d b, steps cf w ops = (w', evs, d, b) ->
  Permutation (all_of w ++ map fst (arrived ops)) (all_of w' ++ map e_msg d ++ gone evs).
Proof.
  intros cf ops. induction ops as [|o r IH]; intros w w' evs d b H; cbn [steps] in H; [ injection H as <- <- <- <-; cbn; rewrite ?app_nil_r; apply Permutation_refl | ].
  destruct (step cf w o) as [[[w1 e1] d1] b1] eqn:ES. destruct (steps cf w1 r) as [[[w2 e2] d2] b2] eqn:ER. injection H as <- <- <- <-.
  apply step_perm in ES. apply IH in ER. rewrite arrived_cons, map_app, app_assoc, ES. rewrite map_app, gone_app.
  rewrite <- !app_assoc. rewrite (app_assoc (map e_msg d1)), (Permutation_app_comm (map e_msg d1 ++ gone e1)), app_assoc, ER. rewrite <- !app_assoc. apply Permutation_app_head.
  apply perm_4.
Qed.

(** ** Order *)
Lemma visits_keep : forall cf last l ans k evs err, c_order cf = true -> (c_timeout cf <= 0 \/ c_action cf <> Retry) -> visits cf ans last l = (k, evs, err) ->
  sub (map mt (accepted evs) ++ map mt k) (map mt l) /\ sub (map e_index k) (map e_index l).
Proof.
  intros cf last l. induction l as [|e r IH]; intros ans k evs err HO HT H; cbn [visits] in H; [ injection H as <- <- <-; split; constructor | ].
  destruct (visit cf (hd last ans) e) as [[st e1] go] eqn:EV. unfold visit in EV.
  assert (HC : check cf (a_now (hd last ans)) e = TimedOut -> c_action cf <> Retry).
  { intros HC HR. unfold check in HC. destruct ((0 <? c_ttl cf) && _); [ discriminate | ]. destruct (Z.ltb_spec 0 (c_timeout cf)); [ | discriminate ]. destruct HT; [ lia | contradiction ]. }
  destruct (check cf (a_now (hd last ans)) e); [ destruct (a_code (hd last ans)) | | destruct (c_action cf); [ exfalso; apply HC; auto | | destruct (a_ok (hd last ans)) ] ]; cbv zeta in EV; injection EV as <- <- <-;
    rewrite ?HO in H; cbn [negb] in H;
    try (destruct (visits cf (tl ans) last r) as [[k2 e2] err2] eqn:ER; apply IH in ER; [ | auto | auto ]; destruct ER as (A & B));
    injection H as <- <- <-; cbn [accepted flat_map app map] in *; rewrite ?mt_pushed, ?index_pushed; split; try (constructor; auto; fail); auto using sub_refl; try (apply sub_skip, sub_refl).
Qed.
Lemma visits_first : forall cf last l ans k evs err, c_order cf = true -> (c_timeout cf <= 0 \/ c_action cf <> Retry) -> StronglySorted le_i l -> visits cf ans last l = (k, evs, err) ->
  forall e c x, In (Pushed e c) evs -> In x k -> e_index e <= e_index x.
Proof.
  intros cf last l. induction l as [|e0 r IH]; intros ans k evs err HO HT HS H e c x He Hx; cbn [visits] in H; [ injection H as <- <- <-; destruct He | ].
  destruct (visit cf (hd last ans) e0) as [[st e1] go] eqn:EV. unfold visit in EV.
  assert (HC : check cf (a_now (hd last ans)) e0 = TimedOut -> c_action cf <> Retry).
  { intros HC HR. unfold check in HC. destruct ((0 <? c_ttl cf) && _); [ discriminate | ]. destruct (Z.ltb_spec 0 (c_timeout cf)); [ | discriminate ]. destruct HT; [ lia | contradiction ]. }
  inversion HS as [|? ? HS1 HS2]; subst. rewrite Forall_forall in HS2.
  assert (HF : forall y, In y r -> e_index e0 <= e_index y) by (intros y Hy; exact (HS2 y Hy)).
  assert (HK : forall k2 e2 err2, visits cf (tl ans) last r = (k2, e2, err2) -> In x k2 -> e_index e0 <= e_index x).
  { intros k2 e2 err2 EK Hk. destruct (visits_keep _ _ _ _ _ _ _ HO HT EK) as (_ & B). apply (in_map e_index) in Hk. apply (sub_in _ _ _ B) in Hk. apply in_map_iff in Hk as (y & Ey & Hy). rewrite <- Ey. auto. }
  destruct (check cf (a_now (hd last ans)) e0); [ destruct (a_code (hd last ans)) | | destruct (c_action cf); [ exfalso; apply HC; auto | | destruct (a_ok (hd last ans)) ] ]; cbv zeta in EV; injection EV as <- <- <-;
    rewrite ?HO in H; cbn [negb] in H;
    try (destruct (visits cf (tl ans) last r) as [[k2 e2] err2] eqn:ER);
    injection H as <- <- <-; cbn [app In] in *;
    repeat match type of He with _ \/ _ => destruct He as [He|He] end; repeat match type of Hx with _ \/ _ => destruct Hx as [Hx|Hx] end; try contradiction; try discriminate;
    try (injection He as <- <-; rewrite ?index_pushed in *; try subst x; rewrite ?index_pushed; try lia; eauto; fail);
    try (exact (IH _ _ _ _ HO HT HS1 ER e c x He Hx)).
Qed.
Lemma run_first : forall cf ans last s s' evs err, c_order cf = true -> (c_timeout cf <= 0 \/ c_action cf <> Retry) -> run cf ans last s = (s', evs, err) ->
  forall e c x, In (Pushed e c) evs -> In x (l_entries s') -> e_index e <= e_index x.
Proof.
  intros cf ans last s s' evs err HO HT H. unfold run in H. rewrite HO in H. cbv zeta in H. destruct (visits cf ans last _) as [[k e1] er] eqn:EV. injection H as <- <- <-. cbn [l_entries].
  eapply visits_first; eauto. apply sort_sorted. reflexivity.
Qed.

(** Histories in which nothing is put back *)
Definition plain (o : op) : Prop := match o with Failed _ | Check _ _ => False | _ => True end.
Definition OI (w : world) (n : Z) : Prop :=
  StronglySorted lt_i (l_entries (w_loop w)) /\ Forall (fun e => e_index e <= n) (l_entries (w_loop w)) /\ l_pos (w_loop w) = n.
Lemma sorted_map : forall l, StronglySorted lt_i l <-> StronglySorted Z.lt (map e_index l).
Proof.
  induction l as [|e l IH]; cbn [map]; [ split; constructor | ]. split; intros H; inversion H; subst; constructor; try (apply IH; auto); rewrite Forall_forall in *.
  - intros x Hx. apply in_map_iff in Hx as (y & <- & Hy). apply (H3 y Hy).
  - intros x Hx. apply H3. apply in_map. auto.
Qed.
Lemma sub_sorted : forall a b, sub a b -> StronglySorted Z.lt b -> StronglySorted Z.lt a.
Proof.
  intros a b H. induction H as [|x a b H IH|x a b H IH]; intros HS; [ auto | inversion HS; auto | ]. inversion HS; subst. constructor; [ auto | ].
  rewrite Forall_forall in *. intros y Hy. apply H3. eapply sub_in; eauto.
Qed.
Lemma step_order : forall cf w n o w' evs d b, c_order cf = true -> (c_timeout cf <= 0 \/ c_action cf <> Retry) -> plain o -> OI w n -> 0 <= n -> n + Z.of_nat (length (arrived [o])) < 2 ^ 64 ->
  step cf w o = (w', evs, d, b) ->
  OI w' (n + Z.of_nat (length (arrived [o]))) /\ sub (map mt (accepted evs) ++ map mt (l_entries (w_loop w'))) (map mt (l_entries (w_loop w)) ++ arrived [o]).
Proof.
  intros cf w n o w' evs d b HO HT HP (HS & HB & HN) H0 HL H. destruct w as [s fl]. cbn [w_loop] in *.
  destruct o as [now m ts|ans last|k|k|now k|now rel]; cbn [step w_loop w_flight] in H; cbn [plain] in HP; try contradiction; cbn [arrived flat_map app length] in *.
  - injection H as <- <- <- <-. cbn [w_loop push l_entries l_pos accepted flat_map map app]. unfold OI. cbn [w_loop push l_entries l_pos].
    assert (EI : u64 (l_pos s + 1) = n + 1) by (unfold u64; rewrite HN; apply Z.mod_small; lia). rewrite EI. split.
    + split; [ | split; [ | lia ] ].
      * clear -HS HB. induction (l_entries s) as [|e r IH]; cbn [app]; [ repeat constructor | ]. inversion HS; subst. inversion HB; subst. constructor; [ apply IH; auto | ].
        apply Forall_app. split; [ auto | constructor; [ unfold lt_i; cbn [e_index]; lia | constructor ] ].
      * apply Forall_app. split; [ eapply Forall_impl; [ | exact HB ]; cbn; intros; lia | constructor; [ cbn [e_index]; lia | constructor ] ].
    + rewrite map_app. cbn [map]. apply sub_refl.
  - destruct (run cf ans last s) as [[s1 e1] er] eqn:ER. injection H as <- <- <- <-. cbn [w_loop]. unfold run in ER. rewrite HO, sort_id in ER by auto. cbv zeta in ER.
    destruct (visits cf ans last (l_entries s)) as [[k e2] er2] eqn:EV. injection ER as <- <- <-. destruct (visits_keep _ _ _ _ _ _ _ HO HT EV) as (A & B). cbn [l_entries]. rewrite app_nil_r.
    split; [ | exact A ]. unfold OI. cbn [w_loop l_entries l_pos]. split; [ apply sorted_map; eapply sub_sorted; [ exact B | apply sorted_map; auto ] | split; [ | lia ] ].
    rewrite Forall_forall in *. intros x Hx. apply (in_map e_index) in Hx. apply (sub_in _ _ _ B) in Hx. apply in_map_iff in Hx as (y & Ey & Hy). specialize (HB y Hy). lia.
  - destruct (take k fl) as [[e r]|]; injection H as <- <- <- <-; cbn [w_loop accepted flat_map map app]; rewrite app_nil_r, Z.add_0_r; (split; [ repeat split; auto | apply sub_refl ]).
  - injection H as <- <- <- <-. cbn [w_loop touch l_entries l_pos accepted flat_map map app]. rewrite app_nil_r, Z.add_0_r.
    assert (EI : forall l, map e_index (map (fun e => if rel e then mk_e (e_msg e) (e_ts e) (e_net e) (e_index e) now else e) l) = map e_index l) by (intros l; rewrite map_map; apply map_ext; intros x; destruct (rel x); reflexivity).
    assert (EM : forall l, map mt (map (fun e => if rel e then mk_e (e_msg e) (e_ts e) (e_net e) (e_index e) now else e) l) = map mt l) by (intros l; rewrite map_map; apply map_ext; intros x; destruct (rel x); reflexivity).
    rewrite EM. split; [ | apply sub_refl ]. unfold OI, touch. cbn [w_loop l_entries l_pos]. split; [ apply sorted_map; rewrite EI; apply sorted_map; auto | split; [ | auto ] ].
    rewrite Forall_forall in *. intros x Hx. apply in_map_iff in Hx as (y & <- & Hy). specialize (HB y Hy). destruct (rel y); auto.
Qed.
Lemma steps_order : forall cf ops w n w' evs d b, c_order cf = true -> (c_timeout cf <= 0 \/ c_action cf <> Retry) -> Forall plain ops -> OI w n -> 0 <= n ->
  n + Z.of_nat (length (arrived ops)) < 2 ^ 64 -> steps cf w ops = (w', evs, d, b) ->
  sub (map mt (accepted evs) ++ map mt (l_entries (w_loop w'))) (map mt (l_entries (w_loop w)) ++ arrived ops).
Proof.
  intros cf ops. induction ops as [|o r IH]; intros w n w' evs d b HO HT HF HI H0 HL H; cbn [steps] in H; [ injection H as <- <- <- <-; cbn; rewrite app_nil_r; apply sub_refl | ].
  destruct (step cf w o) as [[[w1 e1] d1] b1] eqn:ES. destruct (steps cf w1 r) as [[[w2 e2] d2] b2] eqn:ER. injection H as <- <- <- <-. inversion HF as [|? ? HF1 HF2]; subst.
  rewrite arrived_cons, app_length, Nat2Z.inj_add in HL.
  destruct (step_order _ _ n _ _ _ _ _ HO HT HF1 HI H0 ltac:(lia) ES) as (HI1 & S1). specialize (IH _ _ _ _ _ _ HO HT HF2 HI1 ltac:(lia) ltac:(lia) ER).
  rewrite accepted_app, map_app, <- app_assoc, arrived_cons. rewrite (app_assoc _ (arrived [o])). eapply sub_trans; [ apply sub_app; [ exact S1 | apply sub_refl ] | ]. rewrite <- app_assoc. apply sub_app; [ apply sub_refl | exact IH ].
Qed.

(** ** Times *)
Lemma check_spec : forall cf now e, conf_ok cf -> time_ok cf now -> 0 <= e_ts e < 2 ^ 64 -> 0 < e_time e < 2 ^ 64 -> e_net e = false ->
  match check cf now e with
  | TtlReached => old cf now e
  | TimedOut => ~ old cf now e /\ stale cf now e
  | InTime => ~ old cf now e /\ ~ stale cf now e
  end.
Proof.
  intros cf now e (C1 & C2) (T1 & T2) HT HE HN. unfold check, timestamp, ttl_ok, old, stale. rewrite HN.
  assert (EU : u64 (now - c_timeout cf) = now - c_timeout cf) by (apply Z.mod_small; lia). rewrite EU.
  assert (ET : now <? c_ttl cf = false -> u64 (now - c_ttl cf) = now - c_ttl cf) by (intros; apply Z.mod_small; lia).
  destruct (Z.ltb_spec 0 (c_ttl cf)); cbn [andb].
  - destruct (now <? c_ttl cf) eqn:EN; cbn [negb].
    + destruct (Z.ltb_spec 0 (c_timeout cf)), (Z.ltb_spec 0 (e_time e)), (Z.ltb_spec (e_time e) (now - c_timeout cf)); cbn [andb]; try lia.
    + rewrite ET by auto. destruct (Z.ltb_spec (e_ts e) (now - c_ttl cf)); cbn [negb]; [ lia | ].
      destruct (Z.ltb_spec 0 (c_timeout cf)), (Z.ltb_spec 0 (e_time e)), (Z.ltb_spec (e_time e) (now - c_timeout cf)); cbn [andb]; try lia.
  - destruct (Z.ltb_spec 0 (c_timeout cf)), (Z.ltb_spec 0 (e_time e)), (Z.ltb_spec (e_time e) (now - c_timeout cf)); cbn [andb]; try lia.
Qed.
(** What is known of every entry *)
Definition fine (arr : list (Z * Z)) (e : entry) : Prop := 0 <= e_ts e < 2 ^ 64 /\ 0 < e_time e < 2 ^ 64 /\ e_net e = false /\ In (mt e) arr.
Lemma visit_due : forall cf a e k evs go arr, c_net cf = false -> conf_ok cf -> time_ok cf (a_now a) -> fine arr e -> visit cf a e = (k, evs, go) ->
  Forall (fun x => due cf (a_now a) x /\ fine arr (of_ev x)) evs /\ Forall (fine arr) k.
Proof.
  intros cf a e k evs go arr HN HC HT HF H. pose proof HF as (F1 & F2 & F3 & F4). pose proof (check_spec cf (a_now a) e HC HT F1 F2 F3) as HS. unfold visit in H.
  assert (EP : pushed cf e = e) by (unfold pushed; rewrite HN; reflexivity).
  assert (ER : returned e = e) by (unfold returned; destruct e; cbn in F3; subst; reflexivity).
  destruct (check cf (a_now a) e); [ destruct (a_code a) | | destruct (c_action cf) eqn:EA ]; cbv zeta in H; injection H as <- <- <-; rewrite ?EP, ?ER; (split; [ try apply Forall_nil; try (apply Forall_cons; [ cbn [due of_ev] | apply Forall_nil ]) | try apply Forall_nil; try (apply Forall_cons; [ | apply Forall_nil ]) ]); auto; tauto.
Qed.
Lemma hd_in : forall (ans : list answer) last, In (hd last ans) (last :: ans).
Proof. intros [|a r] last; cbn; auto. Qed.
Lemma visits_due : forall cf last l ans k evs err arr, c_net cf = false -> conf_ok cf -> Forall (fun a => time_ok cf (a_now a)) (last :: ans) -> Forall (fine arr) l ->
  visits cf ans last l = (k, evs, err) ->
  Forall (fun x => (exists now, In now (map a_now (last :: ans)) /\ due cf now x) /\ fine arr (of_ev x)) evs /\ Forall (fine arr) k.
Proof.
  intros cf last l. induction l as [|e r IH]; intros ans k evs err arr HN HC HT HF H; cbn [visits] in H; [ injection H as <- <- <-; split; constructor | ].
  destruct (visit cf (hd last ans) e) as [[st e1] go] eqn:EV. inversion HF as [|? ? H2 H3]; subst.
  assert (HA : time_ok cf (a_now (hd last ans))) by (rewrite Forall_forall in HT; apply HT, hd_in).
  destruct (visit_due _ _ _ _ _ _ arr HN HC HA H2 EV) as (D1 & D2).
  assert (D3 : Forall (fun x => (exists now, In now (map a_now (last :: ans)) /\ due cf now x) /\ fine arr (of_ev x)) e1).
  { eapply Forall_impl; [ | exact D1 ]. cbn beta. intros x (X1 & X2). split; [ | auto ]. exists (a_now (hd last ans)). split; [ apply in_map, hd_in | auto ]. }
  destruct go as [[|]|].
  - destruct (visits cf (tl ans) last r) as [[k2 e2] err2] eqn:ER. injection H as <- <- <-.
    assert (HT2 : Forall (fun a => time_ok cf (a_now a)) (last :: tl ans)) by (inversion HT as [|? ? T1 T2]; subst; constructor; [ auto | destruct ans; cbn [tl]; [ constructor | inversion T2; auto ] ]).
    destruct (IH _ _ _ _ arr HN HC HT2 H3 ER) as (A & B). split; [ apply Forall_app; split; [ auto | ] | apply Forall_app; auto ].
    eapply Forall_impl; [ | exact A ]. cbn beta. intros x ((now & X1 & X2) & X3). split; [ | auto ]. exists now. split; [ | auto ].
    cbn [map In] in *. destruct X1 as [X1|X1]; [ auto | right; destruct ans; cbn [tl map In] in *; auto ].
  - injection H as <- <- <-. split; [ auto | apply Forall_app; auto ].
  - injection H as <- <- <-. split; [ auto | apply Forall_app; auto ].
Qed.
Lemma fine_mono : forall a b e, fine a e -> fine (a ++ b) e.
Proof. intros a b e (H1 & H2 & H3 & H4). repeat split; try lia; auto. apply in_or_app; auto. Qed.
Lemma accepted_fine : forall arr evs, Forall (fun x => fine arr (of_ev x)) evs -> Forall (fine arr) (accepted evs).
Proof.
  intros arr evs H. induction H as [|x r H HF IH]; [ constructor | ]. unfold accepted. cbn [flat_map]. apply Forall_app. split; [ | exact IH ].
  destruct x as [e c|e|e|e o]; try constructor. destruct c; repeat constructor; exact H || apply H.
Qed.
Definition FW (arr : list (Z * Z)) (w : world) : Prop := Forall (fine arr) (l_entries (w_loop w)) /\ Forall (fine arr) (w_flight w).
Lemma take_forall : forall P n l e r, Forall P l -> take n l = Some (e, r) -> P e /\ Forall P r.
Proof. intros P n l e r HF H. apply take_perm in H. apply (Permutation_Forall H) in HF. inversion HF; auto. Qed.
Lemma step_due : forall cf w o w' evs d b arr, c_net cf = false -> conf_ok cf -> op_ok cf o -> FW arr w -> step cf w o = (w', evs, d, b) ->
  Forall (fun x => (exists now, In now (nows [o]) /\ due cf now x) /\ fine (arr ++ arrived [o]) (of_ev x)) evs /\ FW (arr ++ arrived [o]) w'.
Proof.
  intros cf w o w' evs d b arr HN HC HO (F1 & F2) H. destruct w as [s fl]. cbn [w_loop w_flight] in *.
  assert (F3 : forall c, Forall (fine (arr ++ c)) (l_entries s)) by (intros c; eapply Forall_impl; [ | exact F1 ]; intros; apply fine_mono; auto).
  assert (F4 : forall c, Forall (fine (arr ++ c)) fl) by (intros c; eapply Forall_impl; [ | exact F2 ]; intros; apply fine_mono; auto).
  destruct o as [now m ts|ans last|k|k|now k|now rel]; cbn [step w_loop w_flight op_ok] in *.
  - injection H as <- <- <- <-. split; [ constructor | ]. split; cbn [w_loop push l_entries w_flight]; [ | apply F4 ]. apply Forall_app. split; [ apply F3 | ].
    destruct HO as ((? & ?) & ?). constructor; [ | constructor ]. unfold fine. cbn [e_ts e_time e_net]. split; [ lia | split; [ lia | split; [ reflexivity | ] ] ]. apply in_or_app. right. left. reflexivity.
  - destruct (run cf ans last s) as [[s1 e1] er] eqn:ER. injection H as <- <- <- <-. unfold run in ER. cbv zeta in ER.
    destruct (visits cf ans last _) as [[k e2] er2] eqn:EV. injection ER as <- <- <-. eapply visits_due with (arr := arr) in EV; [ | auto | auto | auto | ].
    + destruct EV as (A & B). cbn [nows arrived flat_map]. rewrite !app_nil_r. split; [ exact A | ]. split; cbn [w_loop l_entries w_flight]; [ auto | ]. apply Forall_app. split; [ auto | ].
      apply accepted_fine. eapply Forall_impl; [ | exact A ]. cbn beta. tauto.
    + destruct (c_order cf); [ | auto ]. apply (Permutation_Forall (sort_perm _ _ eq_refl)). auto.
  - destruct (take k fl) as [[e r]|] eqn:ET; injection H as <- <- <- <-; (split; [ constructor | ]); split; cbn [w_loop w_flight]; auto.
    eapply take_forall in ET; [ | apply F4 ]. apply ET.
  - destruct (take k fl) as [[e r]|] eqn:ET; injection H as <- <- <- <-; (split; [ constructor | ]); [ | split; cbn [w_loop w_flight]; auto ].
    eapply take_forall in ET; [ | apply (F4 (arrived [Failed k])) ]. destruct ET. split; cbn [w_loop w_flight unshift l_entries]; [ constructor; auto | auto ].
  - destruct (take k fl) as [[e r]|] eqn:ET; [ | injection H as <- <- <- <-; (split; [ constructor | ]); split; cbn [w_loop w_flight]; auto ].
    destruct (unshift_if cf now e s) as [s1 u] eqn:EU. injection H as <- <- <- <-. split; [ constructor | ]. unfold unshift_if in EU. eapply take_forall in ET; [ | apply (F4 (arrived [Check now k])) ]. destruct ET as (E1 & E2).
    destruct (check cf now e); injection EU as <- <-; split; cbn [w_loop w_flight unshift l_entries]; auto.
  - injection H as <- <- <- <-. split; [ constructor | ]. destruct HO as (? & ?).
    assert (HX : forall l, Forall (fine (arr ++ arrived [Touch now rel])) l -> Forall (fine (arr ++ arrived [Touch now rel])) (map (fun e => if rel e then mk_e (e_msg e) (e_ts e) (e_net e) (e_index e) now else e) l)).
    { intros l HF. rewrite Forall_forall in *. intros x Hx. apply in_map_iff in Hx as (y & <- & Hy). specialize (HF y Hy). destruct (rel y); [ | auto ]. destruct HF as (Y1 & Y2 & Y3 & Y4). repeat split; cbn [e_ts e_time e_net]; auto; try lia. }
    split; cbn [w_loop w_flight touch l_entries]; auto.
Qed.
Lemma steps_due : forall cf ops w w' evs d b arr, c_net cf = false -> conf_ok cf -> Forall (op_ok cf) ops -> FW arr w -> steps cf w ops = (w', evs, d, b) ->
  Forall (fun x => (exists now, In now (nows ops) /\ due cf now x) /\ fine (arr ++ arrived ops) (of_ev x)) evs /\ FW (arr ++ arrived ops) w'.
Proof.
  intros cf ops. induction ops as [|o r IH]; intros w w' evs d b arr HN HC HF HW H; cbn [steps] in H.
  - injection H as <- <- <- <-. cbn [arrived flat_map]. rewrite app_nil_r. split; [ constructor | auto ].
  - destruct (step cf w o) as [[[w1 e1] d1] b1] eqn:ES. destruct (steps cf w1 r) as [[[w2 e2] d2] b2] eqn:ER. injection H as <- <- <- <-. inversion HF as [|? ? H1 H2]; subst.
    destruct (step_due _ _ _ _ _ _ _ arr HN HC H1 HW ES) as (A & B). destruct (IH _ _ _ _ _ _ HN HC H2 B ER) as (C & D). rewrite arrived_cons, app_assoc. split; [ | auto ].
    assert (EN : nows (o :: r) = nows [o] ++ nows r) by (unfold nows; cbn [flat_map]; rewrite app_nil_r; reflexivity). rewrite EN.
    apply Forall_app. split; (eapply Forall_impl; [ | eassumption ]); cbn beta; intros x ((now & X1 & X2) & X3); (split; [ exists now; split; [ apply in_or_app; auto | auto ] | ]); auto. apply fine_mono. auto.
Qed.

(** ** Progress *)
Lemma visits_ready : forall cf last l ans, Forall ready (last :: ans) -> (c_timeout cf <= 0 \/ c_action cf <> Retry) ->
  exists evs, visits cf ans last l = ([], evs, false).
Proof.
  intros cf last l. induction l as [|e r IH]; intros ans HR HT; cbn [visits]; [ eauto | ].
  assert (HA : ready (hd last ans)) by (rewrite Forall_forall in HR; apply HR, hd_in). destruct HA as (A1 & A2 & A3).
  assert (HR2 : Forall ready (last :: tl ans)) by (inversion HR as [|? ? T1 T2]; subst; constructor; [ auto | destruct ans; cbn [tl]; [ constructor | inversion T2; auto ] ]).
  destruct (IH _ HR2 HT) as (evs & ->). unfold visit. rewrite A3.
  assert (HC : check cf (a_now (hd last ans)) e = TimedOut -> c_action cf <> Retry).
  { intros HC HRt. unfold check in HC. destruct ((0 <? c_ttl cf) && _); [ discriminate | ]. destruct (Z.ltb_spec 0 (c_timeout cf)); [ | discriminate ]. destruct HT; [ lia | contradiction ]. }
  destruct (check cf (a_now (hd last ans)) e); [ destruct (a_code (hd last ans)); try contradiction | | destruct (c_action cf); [ exfalso; apply HC; auto | | ] ]; cbv zeta; cbn [app]; eauto.
Qed.
(** Without order: every entry is visited unless there is an error *)
Lemma visits_all : forall cf last l ans k evs, c_order cf = false -> (c_timeout cf <= 0 \/ c_action cf <> Retry) -> visits cf ans last l = (k, evs, false) ->
  forall x, In x k -> In (Pushed x CNotReady) evs.
Proof.
  intros cf last l. induction l as [|e r IH]; intros ans k evs HO HT H x Hx; cbn [visits] in H; [ injection H as <- <-; destruct Hx | ].
  destruct (visit cf (hd last ans) e) as [[st e1] go] eqn:EV. unfold visit in EV.
  assert (HC : check cf (a_now (hd last ans)) e = TimedOut -> c_action cf <> Retry).
  { intros HC HR. unfold check in HC. destruct ((0 <? c_ttl cf) && _); [ discriminate | ]. destruct (Z.ltb_spec 0 (c_timeout cf)); [ | discriminate ]. destruct HT; [ lia | contradiction ]. }
  destruct (check cf (a_now (hd last ans)) e); [ destruct (a_code (hd last ans)) | | destruct (c_action cf); [ exfalso; apply HC; auto | | destruct (a_ok (hd last ans)) ] ]; cbv zeta in EV; injection EV as <- <- <-;
    rewrite ?HO in H; cbn [negb] in H; try discriminate;
    (destruct (visits cf (tl ans) last r) as [[k2 e2] err2] eqn:ER); injection H as <- <- ->; cbn [app In] in *; try (right; exact (IH _ _ _ HO HT ER x Hx)).
  destruct Hx as [->|Hx]; [ left; reflexivity | right; exact (IH _ _ _ HO HT ER x Hx) ].
Qed.
