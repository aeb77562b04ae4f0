(** Lemmas for the messages between two sides (MqttQosSpec): the two sides and the packets on
    their way. *)
From Coq Require Import ZArith List Bool Lia Permutation Sorted.
From Verif Require Import Common IdPoolModel MqttQosModel MqttQosSpec MqttQosProofs MqttQosRecvProofs MqttQosPairProofs.
Import ListNotations.
Open Scope Z_scope.

(** ** Packets sent are valid *)
Definition qr (e : entry) : Prop := e_kind e = KPub -> 0 <= e_qos e <= 2.
Definition ir (e : entry) : Prop := 1 <= e_id e <= 65535.
Definition ranged (s : sess) : Prop := Forall qr (s_to s ++ s_delayed s) /\ Forall ir (s_from s).
Lemma qr_same : forall e e', same e e' -> qr e -> qr e'.
Proof. intros e e' (A & B & C & D) H. unfold qr in *. rewrite A, C. exact H. Qed.
Lemma ir_same : forall e e', same e e' -> ir e -> ir e'.
Proof. intros e e' (A & B & C & D) H. unfold ir in *. rewrite D. exact H. Qed.
Lemma same_refl : forall l, Forall2 same l l. Proof. induction l; constructor; auto. repeat split. Qed.
Lemma same_Forall : forall (P : entry -> Prop) l l', (forall e e', same e e' -> P e -> P e') -> Forall2 same l l' -> Forall P l -> Forall P l'.
Proof. intros P l l' HP H. induction H; intros HF; [ constructor | ]. inversion HF; subst. constructor; eauto. Qed.
Lemma ack_publish_same : forall a f e, same e (fst (fst (fst (ack_publish a f e)))).
Proof.
  intros a f e. unfold ack_publish. assert (HR : same e e) by (repeat split).
  destruct a; cbn [orb]; cbv zeta; repeat (match goal with |- context [if ?b then _ else _] => destruct b end; cbn [fst]; auto); repeat split.
Qed.
Lemma ack_loop_same : forall a id out l f l' f' del err, ack_loop a id out f l = Some (l', f', del, err) -> Forall2 same l l'.
Proof.
  intros a id out. induction l as [|e r IH]; intros f l' f' del err H; cbn [ack_loop] in H; [ injection H as <- <- <- <-; constructor | ].
  destruct (ack_entry a id out f e) as [[[[e1 f1] d1] fl]|] eqn:EA; [ | discriminate ].
  assert (HS : same e e1).
  { pose proof (ack_publish_same a f e) as HP. unfold ack_entry in EA. assert (HR : same e e) by (repeat split). assert (HT : same e (set_suback e true)) by (repeat split).
    destruct (negb (e_id e =? id)); [ injection EA as <- <- <- <-; exact HR | ]. destruct (ack_bug a out e); [ discriminate | ]. destruct (e_kind e).
    - injection EA as EA. rewrite EA in HP. exact HP.
    - destruct a; injection EA as <- <- <- <-; auto.
    - destruct a; injection EA as <- <- <- <-; auto. }
  destruct fl.
  - destruct (ack_loop a id out f1 r) as [[[[r1 f2] d2] er]|] eqn:EL; [ | discriminate ]. injection H as <- <- <- <-. constructor; eauto.
  - injection H as <- <- <- <-. constructor; [ auto | apply same_refl ].
  - destruct (ack_loop a id out f1 r) as [[[[r1 f2] d2] er]|] eqn:EL; [ | discriminate ]. injection H as <- <- <- <-. constructor; eauto.
Qed.
Lemma process_ack_ranged : forall s a id out s' f del err, process_ack s a id out = Some (s', f, del, err) -> ranged s -> ranged s'.
Proof.
  intros s a id out s' f del err H (H1 & H2). unfold process_ack in H. destruct (ack_loop _ _ _ _ _) as [[[[l f1] d1] er]|] eqn:EL; [ | discriminate ].
  apply ack_loop_same in EL. destruct (_ && _); [ discriminate | ]. injection H as <- <- <- <-. destruct out; split; cbn [s_to s_delayed s_from]; auto.
  - apply Forall_app in H1 as [A B]. apply Forall_app. split; [ | auto ]. eapply same_Forall; eauto using qr_same.
  - eapply same_Forall; eauto using ir_same.
Qed.
Lemma send_now_ranged : forall s a id rs pre s' evs c, send_now s a id rs pre = Some (s', evs, c) -> ranged s -> plain a = true -> 1 <= id <= 65535 -> sents pre = [] ->
  ranged s' /\ Forall wire_ok (sents evs).
Proof.
  intros s a id rs pre s' evs c H HR HP Hid HS. unfold send_now in H. destruct (process_ack _ _ _ _) as [[[[s1 f1] d1] er]|] eqn:EP; [ | discriminate ].
  apply process_ack_ranged in EP; [ | auto ]. destruct er; injection H as <- <- <-; (split; [ auto | ]); rewrite !sents_app, sents_deliver, HS; cbn [app sents flat_map]; [ constructor | ].
  constructor; [ cbn; auto | constructor ].
Qed.
Lemma insert_ir : forall e l, ir e -> Forall ir l -> Forall ir (insert_id e l).
Proof. intros e l He. induction l as [|x r IH]; intros H; cbn [insert_id]; [ auto | ]. inversion H; subst. destruct (_ <? _); auto. Qed.
Lemma receive_ranged : forall cf now s w s' evs c, receive cf now s w = Some (s', evs, c) -> ranged s -> wire_ok w -> ranged s' /\ Forall wire_ok (sents evs).
Proof.
  intros cf now s w s' evs c H HR HW. destruct w as [m z k id dup|a id rs|id|id]; cbn [receive] in H.
  - destruct HW as (Hk & Hid). unfold handle_publish in H. cbv zeta in H. destruct (Z.eqb_spec k 0) as [E0|E0]; [ injection H as <- <- <-; split; [ auto | constructor ] | ]. specialize (Hid E0).
    assert (HR1 : forall e, e_id e = id -> ranged (with_from s (insert_id e (s_from s)))).
    { intros e Ee. destruct HR as (A & B). split; [ exact A | ]. cbn [with_from s_from]. apply insert_ir; [ unfold ir; rewrite Ee; exact Hid | exact B ]. }
    destruct (k =? 1); [ eapply send_now_ranged; eauto | ]. destruct (find_qos2 id (s_from s)) as [x|]; [ | eapply send_now_ranged; eauto ].
    destruct (_ || _); [ injection H as <- <- <-; split; [ auto | constructor ] | eapply send_now_ranged; eauto ].
  - destruct HW as (HP & Hid).
    assert (HM : forall b nx, plain nx = true -> handle_middle cf s b nx id = Some (s', evs, c) -> ranged s' /\ Forall wire_ok (sents evs)).
    { intros b nx Hn HM. unfold handle_middle in HM. destruct (process_ack _ _ _ _) as [[[[s1 f1] d1] er]|] eqn:EP; [ | discriminate ]. apply process_ack_ranged in EP; [ | auto ].
      cbv zeta in HM. destruct (_ && _); [ injection HM as <- <- <-; rewrite sents_deliver; auto | ]. eapply send_now_ranged; eauto. apply sents_deliver. }
    assert (HF : forall b, handle_final s b id = Some (s', evs, c) -> ranged s' /\ Forall wire_ok (sents evs)).
    { intros b HX. unfold handle_final in HX. destruct (process_ack _ _ _ _) as [[[[s1 f1] d1] er]|] eqn:EP; [ | discriminate ]. apply process_ack_ranged in EP; [ | auto ].
      injection HX as <- <- <-. rewrite sents_deliver. auto. }
    destruct a; try discriminate; first [ exact (HF _ H) | exact (HM _ Pubrel eq_refl H) | exact (HM _ Pubcomp eq_refl H) ].
  - injection H as <- <- <-. split; [ auto | constructor ].
  - injection H as <- <- <-. split; [ auto | constructor ].
Qed.
Lemma can_send_ok : forall e e1 w, core e e1 -> ir e -> qr e -> can_send e1 w -> wire_ok w.
Proof.
  intros e e1 w HC HI HQ HW. unfold core in HC. destruct HC as (CK & CM & _ & CQ & CI & _). unfold can_send, ir, qr in *. rewrite CK in HW. destruct (e_kind e).
  - destruct HW as (HW & _). unfold to_transmit, as_wire in HW. rewrite CQ, CI in HW.
    repeat (match type of HW with context [if ?b then _ else _] => destruct b end); try discriminate; injection HW as <-; cbn [wire_ok plain]; auto.
  - subst w. cbn. rewrite CI. auto.
  - subst w. cbn. rewrite CI. auto.
Qed.
Lemma PR_wires_to : forall pool l k d p ws, PR pool l k d p ws -> forall ctx, Forall fine_to l -> holds pool (nz l ++ ctx) -> Forall qr l ->
  Forall wire_ok ws /\ Forall qr k.
Proof.
  induction 1 as [pool l|pool e r k d p ws HF H IH|pool pool' id e r k d p ws H0 HF HG Hid H IH|pool pool' e r H0 HG|pool e e' r k d p ws HN HF HC H IH|pool e e1 e' w r k d p ws HN HF HC1 HC HW H IH|pool pool' e e1 r k d p ws HN HF HC HK HQ HO HE H IH];
    intros ctx HFi HH HQr; try (match type of HFi with Forall _ (_ :: _) => idtac end; inversion HFi as [|? ? HF1 HF2]; subst; inversion HQr as [|? ? HQ1 HQ2]; subst).
  - auto.
  - pose proof (fine_finished _ HF1 HF) as HN. rewrite nz_cons in HH. destruct (Z.eqb_spec (e_id e) 0); [ contradiction | ]. cbn [app] in HH.
    apply (IH (e_id e :: ctx)); auto. eapply holds_perm; [ exact HH | apply Permutation_middle ].
  - rewrite nz_cons, H0 in HH. cbn [Z.eqb app] in HH. destruct (holds_get _ _ HH) as (p1 & id1 & EG & HX). rewrite HG in EG. injection EG as <- <-.
    destruct HX as [(_ & _ & HL')|(HX & _)]; [ | contradiction ]. apply (IH ctx); auto; [ constructor; [ apply set_id_fine; auto | auto ] | ].
    rewrite nz_cons. cbn [set_id e_id]. destruct (Z.eqb_spec id 0); [ contradiction | exact HL' ].
  - split; [ constructor | ]. constructor; auto.
  - rewrite nz_cons in HH. destruct (Z.eqb_spec (e_id e) 0); [ contradiction | ]. cbn [app] in HH.
    destruct (IH (e_id e :: ctx)) as (A & B); auto; [ eapply holds_perm; [ exact HH | apply Permutation_middle ] | ]. split; [ auto | ]. constructor; [ eapply qr_same; [ apply core_same, HC | auto ] | auto ].
  - rewrite nz_cons in HH. destruct (Z.eqb_spec (e_id e) 0); [ contradiction | ]. cbn [app] in HH.
    destruct (IH (e_id e :: ctx)) as (A & B); auto; [ eapply holds_perm; [ exact HH | apply Permutation_middle ] | ].
    pose proof (holds_valid _ _ (e_id e) HH (or_introl eq_refl)) as HV.
    split; [ constructor; [ eapply can_send_ok; [ exact HC1 | exact HV | exact HQ1 | exact HW ] | auto ] | ]. constructor; [ eapply qr_same; [ apply core_same, HC | auto ] | auto ].
  - rewrite nz_cons in HH. destruct (Z.eqb_spec (e_id e) 0); [ contradiction | ]. cbn [app] in HH.
    unfold free_id in HE. destruct (holds_release _ _ _ HH) as (p' & EP & HL'). rewrite HE in EP. injection EP as <-.
    destruct (IH ctx) as (A & B); auto. split; [ | auto ]. constructor; [ | auto ].
    apply core_same in HC as (CK & CM & CQ & CI). cbn [as_wire wire_ok]. rewrite CQ, HQ. lia.
Qed.
Lemma PR_wires_from : forall pool l k d p ws, PR pool l k d p ws -> Forall fine_from l -> Forall ir l ->
  Forall wire_ok ws /\ Forall ir k /\ Forall (fun w => is_a Pubrec w) ws.
Proof.
  induction 1 as [pool l|pool e r k d p ws HF H IH|pool pool' id e r k d p ws H0 HF HG Hid H IH|pool pool' e r H0 HG|pool e e' r k d p ws HN HF HC H IH|pool e e1 e' w r k d p ws HN HF HC1 HC HW H IH|pool pool' e e1 r k d p ws HN HF HC HK HQ HO HE H IH];
    intros HFi HI; try (match type of HFi with Forall _ (_ :: _) => idtac end; inversion HFi as [|? ? HF1 HF2]; subst; inversion HI as [|? ? HQ1 HQ2]; subst).
  - auto.
  - auto.
  - destruct HF1 as (_ & _ & HX). contradiction.
  - destruct HF1 as (_ & _ & HX). contradiction.
  - destruct IH as (A & B & C); auto. split; [ auto | split; [ | auto ] ]. constructor; [ eapply ir_same; [ apply core_same, HC | auto ] | auto ].
  - destruct IH as (A & B & C); auto.
    assert (HW2 : w = WAck Pubrec (e_id e) 0).
    { unfold core in HC1. destruct HC1 as (CK & _ & _ & _ & CI & CO & _). destruct HF1 as (HK & HO & _). unfold can_send in HW. rewrite CK, HK in HW. destruct HW as (HW & _).
      unfold to_transmit in HW. rewrite CO, HO, andb_false_r, CI in HW. destruct (e_qos e1 =? 2); [ | discriminate ]. destruct (_ && _); [ | discriminate ]. injection HW as <-. reflexivity. }
    subst w. split; [ constructor; [ cbn; auto | auto ] | split; [ | constructor; [ reflexivity | auto ] ] ]. constructor; [ eapply ir_same; [ apply core_same, HC | auto ] | auto ].
  - destruct HF1 as (_ & HX & _). congruence.
Qed.
(** What the pass over the queue to the other side sends does not answer anything. *)
Lemma PR_wires_b2 : forall pool l k d p ws, PR pool l k d p ws -> Forall fine_to l -> forall w i, In w ws -> b2 i w = false.
Proof.
  induction 1 as [pool l|pool e r k d p ws HF H IH|pool pool' id e r k d p ws H0 HF HG Hid H IH|pool pool' e r H0 HG|pool e e' r k d p ws HN HF HC H IH|pool e e1 e' w r k d p ws HN HF HC1 HC HW H IH|pool pool' e e1 r k d p ws HN HF HC HK HQ HO HE H IH];
    intros HFi x i Hx; try (match type of HFi with Forall _ (_ :: _) => idtac end; inversion HFi as [|? ? HF1 HF2]; subst); try (destruct Hx; fail); auto.
  - apply IH; auto. constructor; [ apply set_id_fine; auto | auto ].
  - destruct Hx as [<-|Hx]; [ | auto ]. unfold core in HC1. destruct HC1 as (CK & _ & _ & _ & CI & CO & _). destruct HF1 as (HO & _). unfold can_send in HW. rewrite CK in HW. destruct (e_kind e); [ | subst; reflexivity | subst; reflexivity ].
    destruct HW as (HW & _). unfold to_transmit, as_wire in HW. rewrite CO, HO in HW. cbn [is_pub] in HW. rewrite andb_true_r in HW.
    repeat (match type of HW with context [if ?b then _ else _] => destruct b end); try discriminate; injection HW as <-; reflexivity.
  - destruct Hx as [<-|Hx]; [ reflexivity | auto ].
Qed.

(** ** A asks for a message *)
Lemma DI_add : forall a1 a2 e f1 f2 E g q qq, DI (a1 ++ a2) f1 f2 E g q -> e_id e = 0 -> fine_to e ->
  (if is_pub (e_kind e) then qq = [(e_msg e, e_qos e)] /\ 0 <= e_qos e <= 2 /\ ~ In (e_msg e) (map fst q) else qq = []) ->
  DI (a1 ++ e :: a2) f1 f2 E g (q ++ qq).
Proof.
  intros a1 a2 e f1 f2 E g q qq HD H0 HF HQ.
  assert (HIn : forall x, In x (a1 ++ e :: a2) -> x = e \/ In x (a1 ++ a2)) by (intros x Hx; apply in_app_or in Hx as [Hx|[Hx|Hx]]; [ right; apply in_or_app | left | right; apply in_or_app ]; auto).
  assert (HNz : nz (a1 ++ e :: a2) = nz (a1 ++ a2)) by (rewrite !nz_app, nz_cons, H0; reflexivity).
  assert (HAt : forall i, i <> 0 -> at_id i (a1 ++ e :: a2) = at_id i (a1 ++ a2)) by (intros i Hi; rewrite !at_app, at_cons, H0; destruct (Z.eqb_spec 0 i); [ congruence | reflexivity ]).
  destruct (is_pub (e_kind e)) eqn:EK.
  - destruct HQ as (-> & Hr & HN). assert (KE : e_kind e = KPub) by (destruct (e_kind e); auto; discriminate).
    assert (HNg : ~ In (e_msg e) g) by (intros HX; destruct (d_g _ _ _ _ _ _ HD _ HX) as (k & Hk); apply HN; apply (in_map fst) in Hk; exact Hk).
    assert (HNt : ~ In (e_msg e) (tags (a1 ++ a2))).
    { intros HX. apply tags_in in HX as (x & Hx & Kx & Mx). apply HN. pose proof (d_a _ _ _ _ _ _ HD x Hx Kx) as HX. apply (in_map fst) in HX. rewrite <- Mx. exact HX. }
    assert (HNf : ~ In (e_msg e) (pub0 f1)).
    { unfold pub0. intros HX. apply in_flat_map in HX as (w & Hw & HX). destruct w as [m z k i d| | | ]; try (destruct HX; fail). destruct (k =? 0); [ | destruct HX ].
      destruct HX as [HX|[]]. apply HN. pose proof (d_f _ _ _ _ _ _ HD _ _ _ _ _ Hw) as HY. apply (in_map fst) in HY. rewrite <- HX. exact HY. }
    assert (HT : Permutation (e_msg e :: tags (a1 ++ a2)) (tags (a1 ++ e :: a2))).
    { rewrite !tags_app, tags_cons, EK. apply Permutation_middle. }
    assert (HNT : forall m, ~ In m (tags (a1 ++ e :: a2)) -> m <> e_msg e /\ ~ In m (tags (a1 ++ a2))).
    { intros m HX. split; [ intros ->; apply HX; eapply Permutation_in; [ exact HT | left; auto ] | intros HY; apply HX; eapply Permutation_in; [ exact HT | right; auto ] ]. }
    destruct HD as [d_nodup0 d_fine0 d_from0 d_q0 d_qos0 d_a0 d_one0 d_e0 d_f0 d_sort0 d_slot0 d_00 d_20 d_10 d_g0 d_z0]. constructor; auto.
    + rewrite HNz. auto.
    + apply Forall_app in d_fine0 as [F1 F2]. apply Forall_app. auto.
    + rewrite map_app. cbn [map fst]. eapply Permutation_NoDup; [ apply Permutation_cons_append | ]. constructor; auto.
    + intros m k HX. apply in_app_or in HX as [HX|[HX|[]]]; [ eauto | ]. injection HX as <- <-. exact Hr.
    + intros x Hx Kx. apply in_or_app. destruct (HIn x Hx) as [->|Hx']; [ right; left; auto | left; auto ].
    + eapply Permutation_NoDup; [ exact HT | ]. constructor; auto.
    + intros x Hx. destruct (d_e0 x Hx). split; [ apply in_or_app; auto | auto ].
    + intros m z k i d HI. apply in_or_app. left. eauto.
    + intros i Hi. rewrite (HAt i Hi). auto.
    + intros x Hx X0 Kx Qx. destruct (HIn x Hx) as [->|Hx']; [ apply count_occ_not_In; auto | auto ].
    + intros m HX HN1. destruct (HNT m HN1). apply in_app_or in HX as [HX|[HX|[]]]; [ auto | ]. injection HX as <- _. congruence.
    + intros m HX HN1. destruct (HNT m HN1). apply in_app_or in HX as [HX|[HX|[]]]; [ auto | ]. injection HX as <- _. congruence.
    + intros m HX. destruct (d_g0 m HX) as (k & Hk). exists k. apply in_or_app. auto.
    + intros m HX. rewrite <- (proj1 (Permutation_count_occ Z.eq_dec (e_msg e :: tags (a1 ++ a2)) (tags (a1 ++ e :: a2))) HT m). cbn [count_occ].
      apply in_app_or in HX as [HX|[HX|[]]].
      * destruct (Z.eq_dec (e_msg e) m) as [E0|E0]; [ | auto ]. elim HN. rewrite E0. apply (in_map fst) in HX. exact HX.
      * injection HX as <- _. rewrite (proj1 (count_occ_not_In Z.eq_dec g _) HNg), (proj1 (count_occ_not_In Z.eq_dec _ _) HNt), (proj1 (count_occ_not_In Z.eq_dec _ _) HNf).
        destruct (Z.eq_dec (e_msg e) (e_msg e)); lia.
  - subst qq. rewrite app_nil_r. assert (HT : tags (a1 ++ e :: a2) = tags (a1 ++ a2)) by (rewrite !tags_app, tags_cons, EK; reflexivity).
    assert (KE : e_kind e <> KPub) by (intros HX; rewrite HX in EK; discriminate).
    destruct HD as [d_nodup0 d_fine0 d_from0 d_q0 d_qos0 d_a0 d_one0 d_e0 d_f0 d_sort0 d_slot0 d_00 d_20 d_10 d_g0 d_z0]. constructor; auto; rewrite ?HT; auto.
    + rewrite HNz. auto.
    + apply Forall_app in d_fine0 as [F1 F2]. apply Forall_app. auto.
    + intros x Hx Kx. destruct (HIn x Hx) as [->|Hx']; [ contradiction | auto ].
    + intros i Hi. rewrite (HAt i Hi). auto.
    + intros x Hx X0 Kx Qx. destruct (HIn x Hx) as [->|Hx']; [ contradiction | auto ].
Qed.

(** ** The whole *)
Record WI (w : world) : Prop := {
  i_a : sinv (w_a w);
  i_b : sinv (w_b w);
  i_ra : ranged (w_a w);
  i_rb : ranged (w_b w);
  i_ab : Forall wire_ok (w_ab w);
  i_ba : Forall wire_ok (w_ba w);
  i_d : DI (s_to (w_a w) ++ s_delayed (w_a w)) (w_ab w) (w_ba w) (s_from (w_b w)) (w_got w) (w_asked w) }.
Lemma WI_new : WI world_new.
Proof. constructor; try apply sinv_new; try (split; constructor); try constructor; try (intros ? []; fail); try apply DI_new. Qed.
Lemma lose_sub : forall T (l : list T) mask, sub (lose mask l) l.
Proof. intros T l. induction l as [|x l IH]; intros [|b mask]; cbn [lose]; try apply sub_refl. destruct b; constructor; auto. Qed.
Lemma settled_clear : forall w id, settled w id -> clear_of (w_ab w) (w_ba w) (s_from (w_b w)) id.
Proof.
  intros w id (H1 & H2 & H3). split; [ | split; [ | exact H3 ] ].
  - intros x Hx. specialize (H1 x Hx). destruct x as [m z k i d|a i rs|i|i]; cbn [b1]; try reflexivity; [ destruct (Z.eqb_spec i id), (Z.eqb_spec k 0); cbn [negb andb]; auto; elim H1; auto | ].
    destruct a; try reflexivity. destruct (Z.eqb_spec i id); [ contradiction | reflexivity ].
  - intros x Hx. specialize (H2 x Hx). destruct x as [m z k i d|a i rs|i|i]; cbn [b2]; try reflexivity.
    destruct a; try reflexivity; destruct (Z.eqb_spec i id); try contradiction; reflexivity.
Qed.

Lemma round_PR : forall cf now a1 a2 s s' evs c, round cf now a1 a2 s = Some (s', evs, c) ->
  exists d1 p1 ws1 ws2, PR (s_pool s) (s_to s ++ s_delayed s) (s_to s') d1 p1 ws1 /\ s_delayed s' = [] /\ sents evs = ws1 ++ ws2 /\ delivers evs = [] /\
    exists d2 p2, PR p1 (s_from s) (s_from s') d2 p2 ws2.
Proof.
  intros cf now a1 a2 s s' evs c H. unfold round in H. destruct (iterate cf now a1 0 _ _) as [p|] eqn:E1; [ | discriminate ]. cbv zeta in H.
  pose proof (iterate_PR _ _ _ _ _ _ _ E1) as H1. destruct (p_err p).
  - injection H as <- <- <-. do 4 eexists. split; [ exact H1 | ]. cbn [s_to s_delayed s_from]. rewrite sents_sent, delivers_sent. split; [ auto | split; [ symmetry; apply app_nil_r | split; [ auto | ] ] ].
    do 2 eexists. apply PR_stop.
  - destruct (iterate cf now a2 0 (p_pool p) (s_from s)) as [q|] eqn:E2; [ | discriminate ]. pose proof (iterate_PR _ _ _ _ _ _ _ E2) as H2.
    injection H as <- <- <-. do 4 eexists. split; [ exact H1 | ]. cbn [s_to s_delayed s_from]. rewrite sents_sent, delivers_sent. split; [ auto | split; [ auto | split; [ auto | ] ] ].
    do 2 eexists. exact H2.
Qed.
Lemma round_ranged : forall cf now a1 a2 s s' evs c, round cf now a1 a2 s = Some (s', evs, c) -> sinv s -> ranged s -> ranged s' /\ Forall wire_ok (sents evs).
Proof.
  intros cf now a1 a2 s s' evs c H (HH & HT & HD & HF) (R1 & R2). destruct (round_PR _ _ _ _ _ _ _ _ H) as (d1 & p1 & ws1 & ws2 & HP1 & HDel & -> & _ & d2 & p2 & HP2).
  assert (HH2 : holds (s_pool s) (nz (s_to s ++ s_delayed s) ++ owned (s_grace s))) by (rewrite nz_app, HD, app_nil_r; exact HH).
  destruct (PR_wires_to _ _ _ _ _ _ HP1 _ HT HH2 R1) as (A & B). destruct (PR_wires_from _ _ _ _ _ _ HP2 HF R2) as (C & D & _).
  split; [ | apply Forall_app; auto ]. split; [ rewrite HDel, app_nil_r; auto | auto ].
Qed.
Lemma forget_same : forall now s s' evs c, forget now s = Some (s', evs, c) -> s_to s' = s_to s /\ s_delayed s' = s_delayed s /\ s_from s' = s_from s /\ evs = [].
Proof. intros now s s' evs c H. unfold forget in H. destruct (grace_loop _ _ _) as [[g p]|]; [ | discriminate ]. injection H as <- <- <-. auto. Qed.
Lemma new_fine : forall k m z q u, fine_to (new_entry k m z q u) /\ e_id (new_entry k m z q u) = 0.
Proof. intros. split; [ split; [ reflexivity | intros _; repeat split ] | reflexivity ]. Qed.
(** The range of the entries and of what is sent, for all the steps. *)
Lemma step_ranged : forall cf s o s' evs c, step cf s o = Some (s', evs, c) -> sinv s -> ranged s -> op_ok o -> asked_ok o -> ranged s' /\ Forall wire_ok (sents evs).
Proof.
  intros cf s o s' evs c H HI HR HO HA. destruct o as [k m z q u|m z q u|now w|now a1 a2|now]; cbn [step] in H.
  - injection H as <- <- <-. split; [ | constructor ]. destruct HR as (R1 & R2). split; [ | exact R2 ]. cbn [s_to s_delayed]. apply Forall_app in R1 as [A B]. rewrite !Forall_app. split; [ split; [ auto | ] | auto ].
    constructor; [ | constructor ]. intros HK. cbn in HK. subst k. exact HA.
  - injection H as <- <- <-. split; [ | constructor ]. destruct HR as (R1 & R2). split; [ | exact R2 ]. cbn [s_to s_delayed]. apply Forall_app in R1 as [A B]. rewrite !Forall_app. split; [ auto | split; [ auto | ] ].
    constructor; [ | constructor ]. intros _. exact HA.
  - eapply receive_ranged; eauto.
  - eapply round_ranged; eauto.
  - destruct (forget_same _ _ _ _ _ H) as (A & B & C & ->). split; [ | constructor ]. unfold ranged. rewrite A, B, C. exact HR.
Qed.

Lemma wstep_WI : forall ca cb w o w', WI w -> wstep ca cb w o = Some w' -> proper w o w' -> WI w'.
Proof.
  intros ca cb w o w' HI H HP. destruct HI as [IA IB RA RB OA OB HD].
  assert (HL : forall ab ba, sub ab (w_ab w) -> sub ba (w_ba w) -> DI (s_to (w_a w) ++ s_delayed (w_a w)) ab ba (s_from (w_b w)) (w_got w) (w_asked w)) by (intros; eapply DI_lose; eauto).
  assert (STA : forall o ba, op_ok o -> asked_ok o -> Forall wire_ok ba -> (forall s evs c, step ca (w_a w) o = Some (s, evs, c) ->
      DI (s_to s ++ s_delayed s) (w_ab w ++ sents evs) ba (s_from (w_b w)) (w_got w) (w_asked w ++ match o with Queue KPub m _ q _ | Later m _ q _ => [(m, q)] | _ => [] end)) ->
      stepA ca w o ba = Some w' -> WI w').
  { intros o0 ba HO HA HB HDI HS. unfold stepA in HS. destruct (step_some ca (w_a w) o0 IA HO) as (s1 & ev1 & c1 & E & IS). rewrite E in HS. injection HS as <-.
    destruct (step_ranged _ _ _ _ _ _ E IA RA HO HA) as (R1 & R2). constructor; cbn [w_a w_b w_ab w_ba w_got w_asked]; auto. - apply Forall_app. auto. - eauto. }
  assert (STB : forall o ab, op_ok o -> asked_ok o -> Forall wire_ok ab -> (forall s evs c, step cb (w_b w) o = Some (s, evs, c) ->
      DI (s_to (w_a w) ++ s_delayed (w_a w)) ab (w_ba w ++ sents evs) (s_from s) (w_got w ++ delivers evs) (w_asked w)) ->
      stepB cb w o ab = Some w' -> WI w').
  { intros o0 ab HO HA HB HDI HS. unfold stepB in HS. destruct (step_some cb (w_b w) o0 IB HO) as (s1 & ev1 & c1 & E & IS). rewrite E in HS. injection HS as <-.
    destruct (step_ranged _ _ _ _ _ _ E IB RB HO HA) as (R1 & R2). constructor; cbn [w_a w_b w_ab w_ba w_got w_asked]; auto. - apply Forall_app. auto. - eauto. }
  destruct o as [o|o|now|now|ka kb]; cbn [wstep] in H.
  - destruct o as [k m z q u|m z q u|now x|now a1 a2|now]; cbn [proper] in HP; try contradiction.
    + apply (STA (Queue k m z q u) (w_ba w)); auto; [ exact Logic.I | destruct k; [ apply HP | exact Logic.I | exact Logic.I ] | ].
      intros s evs c E. cbn [step] in E. injection E as <- <- <-. cbn [s_to s_delayed sents flat_map]. rewrite app_nil_r, <- app_assoc. cbn [app].
      destruct (new_fine k m z q u) as (N1 & N2). apply DI_add; auto. destruct k; cbn [new_entry e_kind is_pub e_msg e_qos]; auto.
    + apply (STA (Later m z q u) (w_ba w)); auto; [ exact Logic.I | apply HP | ].
      intros s evs c E. cbn [step] in E. injection E as <- <- <-. cbn [s_to s_delayed sents flat_map]. rewrite app_nil_r, app_assoc.
      destruct (new_fine KPub m z q u) as (N1 & N2). rewrite <- (app_nil_r (s_to (w_a w) ++ s_delayed (w_a w))) in HD. apply DI_add; auto. cbn [new_entry e_kind is_pub e_msg e_qos]. split; [ auto | exact HP ].
    + apply (STA (Round now a1 a2) (w_ba w)); auto; try exact Logic.I. intros s evs c E. cbn [step] in E.
      assert (EW : s_to s = s_to (w_a w')) by (unfold stepA in H; cbn [step] in H; rewrite E in H; injection H as <-; reflexivity).
      destruct (round_PR _ _ _ _ _ _ _ _ E) as (d1 & p1 & ws1 & ws2 & HP1 & HDel & ES & _ & d2 & p2 & HP2).
      rewrite ES, HDel, !app_nil_r, app_assoc. rewrite <- (app_nil_r (w_ba w)).
      destruct IA as (HH & HT & HDl & HF). destruct (PR_wires_from _ _ _ _ _ _ HP2 HF (proj2 RA)) as (_ & _ & HPr).
      assert (HH2 : holds (s_pool (w_a w)) (nz (s_to (w_a w) ++ s_delayed (w_a w)) ++ owned (s_grace (w_a w)))) by (rewrite nz_app, HDl, app_nil_r; exact HH).
      apply DI_ext.
      * refine (A_pass (w_ab w) (w_ba w) (s_from (w_b w)) (w_got w) (w_asked w) (s_to (w_a w) ++ s_delayed (w_a w)) _ _ _ _ _ _ HP1 [] (w_ab w) _ HD HH2 _ _ _ _ _).
        -- intros i Hi. apply in_or_app. left. exact Hi.
        -- auto.
        -- apply HD.
        -- intros e He HK H0. eauto 6.
        -- intros e He HK HQ Hid. rewrite EW in He. destruct (HP e He HK HQ Hid) as [(e0 & X1 & X2)|HX]; [ left; exists e0; split; [ apply in_or_app; auto | auto ] | right; apply settled_clear; auto ].
      * intros x Hx. rewrite Forall_forall in HPr. specialize (HPr x Hx). destruct x as [|[]| |]; try (cbn in HPr; try contradiction; discriminate). split; [ reflexivity | exact Logic.I ].
      * intros ? ? [].
    + apply (STA (Forget now) (w_ba w)); auto; try exact Logic.I. intros s evs c E. cbn [step] in E. destruct (forget_same _ _ _ _ _ E) as (-> & -> & _ & ->). cbn [sents flat_map]. rewrite !app_nil_r. auto.
  - destruct o as [k m z q u|m z q u|now x|now a1 a2|now]; cbn [proper] in HP; try contradiction.
    + apply (STB (Queue k m z q u) (w_ab w)); auto; [ exact Logic.I | ].
      intros s evs c E. cbn [step] in E. injection E as <- <- <-. cbn [s_from sents delivers flat_map]. rewrite !app_nil_r. auto.
    + apply (STB (Later m z q u) (w_ab w)); auto; [ exact Logic.I | ].
      intros s evs c E. cbn [step] in E. injection E as <- <- <-. cbn [s_from sents delivers flat_map]. rewrite !app_nil_r. auto.
    + apply (STB (Round now a1 a2) (w_ab w)); auto; try exact Logic.I. intros s evs c E. cbn [step] in E.
      destruct (round_PR _ _ _ _ _ _ _ _ E) as (d1 & p1 & ws1 & ws2 & HP1 & HDel & -> & -> & d2 & p2 & HP2). rewrite app_nil_r, app_assoc.
      apply (B_pass _ _ _ _ _ _ HP2 _ _ _ []). cbn [app]. rewrite <- (app_nil_r (w_ab w)). apply DI_ext; [ exact HD | intros ? [] | ].
      intros x i Hx. eapply PR_wires_b2; [ exact HP1 | apply IB | exact Hx ].
    + apply (STB (Forget now) (w_ab w)); auto; try exact Logic.I. intros s evs c E. cbn [step] in E. destruct (forget_same _ _ _ _ _ E) as (_ & _ & -> & ->). cbn [sents delivers flat_map]. rewrite !app_nil_r. auto.
  - destruct (w_ba w) as [|x r] eqn:EB; [ injection H as <-; constructor; rewrite ?EB; auto | ]. inversion OB as [|? ? OX OR]; subst.
    apply (STA (Recv now x) r); auto. intros s evs c E. cbn [step] in E. rewrite app_nil_r. exact (A_read _ _ _ _ _ _ _ _ _ _ _ _ IA OX HD E).
  - destruct (w_ab w) as [|x r] eqn:EB; [ injection H as <-; constructor; rewrite ?EB; auto | ]. inversion OA as [|? ? OX OR]; subst.
    apply (STB (Recv now x) r); auto. intros s evs c E. cbn [step] in E. exact (B_read _ _ _ _ _ _ _ _ _ _ _ _ IB OX HD E).
  - injection H as <-. constructor; cbn [w_a w_b w_ab w_ba w_got w_asked]; auto.
    + eapply sub_Forall; [ apply lose_sub | auto ].
    + eapply sub_Forall; [ apply lose_sub | auto ].
    + apply HL; apply lose_sub.
Qed.
Lemma history_WI : forall ca cb w ops w', history ca cb w ops w' -> WI w -> WI w'.
Proof. intros ca cb w ops w' H. induction H as [|w o w1 l w2 HS HP H IH]; intros HI; [ auto | ]. apply IH. eapply wstep_WI; eauto. Qed.

(** ** What follows for the messages *)
Lemma pending_tags : forall w m, pending w m <-> In m (tags (s_to (w_a w) ++ s_delayed (w_a w))).
Proof. intros. rewrite tags_in. reflexivity. Qed.
Lemma WI_two : forall w m, WI w -> In (m, 2) (w_asked w) -> (cnt (w_got w) m <= 1)%nat /\ (~ pending w m -> cnt (w_got w) m = 1%nat).
Proof.
  intros w m HI HM. pose proof (i_d _ HI) as HD. split; [ | intros HN; apply (d_2 _ _ _ _ _ _ HD); [ auto | rewrite <- pending_tags; auto ] ].
  destruct (in_dec Z.eq_dec m (tags (s_to (w_a w) ++ s_delayed (w_a w)))) as [HT|HT]; [ | rewrite (d_2 _ _ _ _ _ _ HD m HM HT); auto ].
  apply tags_in in HT as (e & He & KE & ME). assert (QE : e_qos e = 2).
  { eapply nodup_fst; [ apply (d_q _ _ _ _ _ _ HD) | | exact HM ]. rewrite <- ME. apply (d_a _ _ _ _ _ _ HD); auto. }
  destruct (Z.eq_dec (e_id e) 0) as [E0|E0]; [ rewrite <- ME, (d_0 _ _ _ _ _ _ HD e He E0 KE QE); auto | ].
  apply in_split in He as (l1 & l2 & El). rewrite El in HD. destruct (nodup_away _ _ _ (d_nodup _ _ _ _ _ _ HD) E0) as (A1 & A2 & _).
  pose proof (DI_slot1 _ _ _ _ _ _ _ _ HD E0 A1 A2) as HS. cbn [slot_ok] in HS. rewrite KE, QE in HS. cbn [Z.eqb] in HS. unfold slot_two in HS. rewrite ME in HS.
  destruct (e_pubcomp e); [ destruct HS as (_ & _ & _ & -> & _); auto | ]. destruct (e_pubrec e); [ | destruct HS as (_ & _ & _ & -> & _); auto ].
  destruct HS as (_ & [(_ & _ & _ & ->)|(_ & _ & _ & ->)]); auto.
Qed.
Lemma WI_rest : forall w, WI w ->
  (forall m, In m (w_got w) -> exists q, In (m, q) (w_asked w)) /\
  (forall m, In (m, 1) (w_asked w) -> ~ pending w m -> In m (w_got w)) /\
  (forall m, In (m, 0) (w_asked w) -> (cnt (w_got w) m <= 1)%nat).
Proof.
  intros w HI. pose proof (i_d _ HI) as HD. split; [ apply HD | split ].
  - intros m HM HN. apply (d_1 _ _ _ _ _ _ HD); [ auto | rewrite <- pending_tags; auto ].
  - intros m HM. pose proof (d_z _ _ _ _ _ _ HD m HM). lia.
Qed.
Lemma WI_live : forall ca cb w o, WI w -> match o with DoA (Recv _ _) | DoB (Recv _ _) => False | _ => True end -> exists w', wstep ca cb w o = Some w'.
Proof.
  intros ca cb w o HI HO. destruct HI as [IA IB _ _ OA OB _].
  assert (STA : forall o ba, op_ok o -> exists w', stepA ca w o ba = Some w').
  { intros o0 ba H0. unfold stepA. destruct (step_some ca (w_a w) o0 IA H0) as (s1 & ev1 & c1 & -> & _). eauto. }
  assert (STB : forall o ab, op_ok o -> exists w', stepB cb w o ab = Some w').
  { intros o0 ba H0. unfold stepB. destruct (step_some cb (w_b w) o0 IB H0) as (s1 & ev1 & c1 & -> & _). eauto. }
  destruct o as [o|o|now|now|ka kb]; cbn [wstep]; eauto.
  - apply STA. destruct o; try exact Logic.I. contradiction.
  - apply STB. destruct o; try exact Logic.I. contradiction.
  - destruct (w_ba w) as [|x r]; [ eauto | ]. inversion OB; subst. apply STA. auto.
  - destruct (w_ab w) as [|x r]; [ eauto | ]. inversion OA; subst. apply STB. auto.
Qed.
