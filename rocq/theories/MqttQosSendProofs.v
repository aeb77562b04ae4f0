(** Lemmas for the sender of messages (MqttQosSpec): what stays in its queue and what it sends. *)
From Coq Require Import ZArith List Bool Lia Permutation.
From Verif Require Import Common IdPoolModel IdPoolSpec MqttQosModel MqttQosSpec MqttQosProofs MqttQosRecvProofs MqttQosPairProofs MqttQosWorldProofs.
Import ListNotations.
Open Scope Z_scope.

Lemma awaits_unfinished : forall e, awaits e -> finished e = false /\ e_qos e <> 0.
Proof. intros e (HK & H). unfold finished. rewrite HK. destruct H as [(Q & P)|(Q & P)]; rewrite Q, P; split; auto; lia. Qed.
Lemma still_refl : forall e, still e e. Proof. unfold still; auto. Qed.
Lemma core_still : forall e e', core e e' -> awaits e -> awaits e' /\ still e e'.
Proof. intros e e' HC HA. unfold core in HC. destruct HC as (CK & CM & CS & CQ & CI & CO & CU & C1 & C2 & C3 & C4 & C5). unfold awaits, still in *. rewrite CK, CQ, CM, CS, C1, C4, CI. auto. Qed.
Lemma PR_surv : forall pool l k d p ws, PR pool l k d p ws -> forall e, In e l -> awaits e -> exists e', In e' k /\ awaits e' /\ still e e'.
Proof.
  induction 1 as [pool l|pool e r k d p ws HF H IH|pool pool' id e r k d p ws H0 HF HG Hid H IH|pool pool' e r H0 HG|pool e e' r k d p ws HN HF HC H IH|pool e e1 e' w r k d p ws HN HF HC1 HC HW H IH|pool pool' e e1 r k d p ws HN HF HC HK HQ HO HE H IH]; intros x Hx HA.
  - exists x. auto using still_refl.
  - destruct Hx as [<-|Hx]; [ destruct (awaits_unfinished _ HA); congruence | auto ].
  - destruct Hx as [<-|Hx]; [ | apply IH; [ right; auto | auto ] ]. destruct (IH (set_id e id) (or_introl eq_refl)) as (e' & He' & A' & (S1 & S2 & S3 & S4)); [ exact HA | ].
    exists e'. split; [ auto | split; [ auto | ] ]. unfold still. cbn [set_id e_msg e_size e_qos] in *. split; [ auto | split; [ auto | split; [ auto | contradiction ] ] ].
  - destruct Hx as [<-|Hx]; [ exists (set_last e 0); split; [ left; auto | ]; split; [ exact HA | unfold still; auto ] | exists x; split; [ right; auto | auto using still_refl ] ].
  - destruct Hx as [<-|Hx]; [ exists e'; split; [ left; auto | eapply core_still; eauto ] | ]. destruct (IH x Hx HA) as (y & Hy & Y). exists y. split; [ right; auto | auto ].
  - destruct Hx as [<-|Hx]; [ exists e'; split; [ left; auto | eapply core_still; eauto ] | ]. destruct (IH x Hx HA) as (y & Hy & Y). exists y. split; [ right; auto | auto ].
  - destruct Hx as [<-|Hx]; [ destruct (awaits_unfinished _ HA); congruence | auto ].
Qed.

Lemma ack_publish_awaits : forall a f e, awaits e -> a <> Puback -> a <> Pubcomp ->
  let e' := fst (fst (fst (ack_publish a f e))) in awaits e' /\ still e e'.
Proof.
  intros a f e HA H1 H2. cbv zeta. unfold ack_publish. destruct a; try congruence; cbn [orb];
    repeat (match goal with |- context [if ?b then _ else _] => destruct b end); cbn [fst]; split; try exact HA; unfold still; auto.
Qed.
Lemma ack_loop_awaits : forall a id out l f l' f' del err, ack_loop a id out f l = Some (l', f', del, err) -> id <> 0 ->
  forall e, In e l -> awaits e -> (a = Puback \/ a = Pubcomp -> e_id e <> id) -> exists e', In e' l' /\ awaits e' /\ still e e'.
Proof.
  intros a id out. induction l as [|x r IH]; intros f l' f' del err H Hid e He HA HN; [ destruct He | ]. cbn [ack_loop] in H.
  destruct (ack_entry a id out f x) as [[[[x1 f1] d1] fl]|] eqn:EA; [ | discriminate ].
  assert (HX : e = x -> awaits x1 /\ still e x1).
  { intros <-. unfold ack_entry in EA. destruct (Z.eqb_spec (e_id e) id) as [Ei|Ei]; cbn [negb] in EA; [ | injection EA as <- <- <- <-; auto using still_refl ].
    destruct (ack_bug a out e); [ discriminate | ]. rewrite (proj1 HA) in EA. injection EA as EA.
    pose proof (ack_publish_awaits a f e HA) as HP. cbv zeta in HP. rewrite EA in HP. cbn [fst] in HP. apply HP; intros ->; apply HN; auto. }
  assert (HR : forall l2, (forall e, In e r -> awaits e -> (a = Puback \/ a = Pubcomp -> e_id e <> id) -> exists e', In e' l2 /\ awaits e' /\ still e e') ->
            exists e', In e' (x1 :: l2) /\ awaits e' /\ still e e').
  { intros l2 H2. destruct He as [He|He]; [ exists x1; split; [ left; auto | apply HX; auto ] | ]. destruct (H2 e He HA HN) as (y & Hy & Y). exists y. split; [ right; auto | auto ]. }
  destruct fl.
  - destruct (ack_loop a id out f1 r) as [[[[r1 f2] d2] er]|] eqn:EL; [ | discriminate ]. injection H as <- <- <- <-. apply HR. intros. eapply IH; eauto.
  - injection H as <- <- <- <-. apply HR. intros y Hy Ay _. exists y. auto using still_refl.
  - destruct (ack_loop a id out f1 r) as [[[[r1 f2] d2] er]|] eqn:EL; [ | discriminate ]. injection H as <- <- <- <-. apply HR. intros. eapply IH; eauto.
Qed.
Lemma process_ack_awaits : forall s a id out s' f del err, process_ack s a id out = Some (s', f, del, err) -> id <> 0 ->
  forall e, In e (s_to s ++ s_delayed s) -> awaits e -> (out = true -> a = Puback \/ a = Pubcomp -> e_id e <> id) ->
  exists e', In e' (s_to s' ++ s_delayed s') /\ awaits e' /\ still e e'.
Proof.
  intros s a id out s' f del err H Hid e He HA HN. unfold process_ack in H. destruct (ack_loop _ _ _ _ _) as [[[[l f1] d1] er]|] eqn:EL; [ | discriminate ].
  destruct (_ && _); [ discriminate | ]. injection H as <- <- <- <-. destruct out; cbn [s_to s_delayed]; [ | exists e; auto using still_refl ].
  apply in_app_or in He as [He|He]; [ | exists e; split; [ apply in_or_app; auto | auto using still_refl ] ].
  destruct (ack_loop_awaits _ _ _ _ _ _ _ _ _ EL Hid e He HA (HN eq_refl)) as (e' & He' & A' & S'). exists e'. split; [ apply in_or_app; auto | auto ].
Qed.
Lemma still_trans : forall a b c, still a b -> still b c -> still a c.
Proof. unfold still. intros a b c (A1 & A2 & A3 & A4) (B1 & B2 & B3 & B4). repeat split; try congruence. intros H. rewrite B4; rewrite A4; auto. Qed.
Lemma send_now_awaits : forall s a id rs pre s' evs c, send_now s a id rs pre = Some (s', evs, c) -> id <> 0 ->
  forall e, In e (s_to s ++ s_delayed s) -> awaits e -> exists e', In e' (s_to s' ++ s_delayed s') /\ awaits e' /\ still e e'.
Proof.
  intros s a id rs pre s' evs c H Hid e He HA. unfold send_now in H. destruct (process_ack _ _ _ _) as [[[[s1 f1] d1] er]|] eqn:EP; [ | discriminate ].
  assert (s' = s1) by (destruct er; injection H as <- <- <-; auto). subst s1. eapply process_ack_awaits; [ exact EP | auto | auto | auto | ].
  intros HO [->| ->]; discriminate.
Qed.
Lemma receive_awaits : forall cf now s w s' evs c, receive cf now s w = Some (s', evs, c) -> wire_ok w ->
  forall e, In e (s_to s ++ s_delayed s) -> awaits e -> ~ finishes (Recv now w) (e_id e) -> exists e', In e' (s_to s' ++ s_delayed s') /\ awaits e' /\ still e e'.
Proof.
  intros cf now s w s' evs c H HW e He HA HN. assert (HR : exists e', In e' (s_to s ++ s_delayed s) /\ awaits e' /\ still e e') by (exists e; auto using still_refl).
  destruct w as [m z k id dup|a id rs|id|id]; cbn [receive] in H.
  - destruct HW as (Hk & Hid). unfold handle_publish in H. cbv zeta in H. destruct (Z.eqb_spec k 0) as [E0|E0]; [ injection H as <- <- <-; auto | ].
    assert (Hi : id <> 0) by (specialize (Hid E0); lia).
    destruct (k =? 1); [ eapply (send_now_awaits (with_from s _)); [ exact H | auto | exact He | exact HA ] | ].
    destruct (find_qos2 id (s_from s)); [ | eapply (send_now_awaits (with_from s _)); [ exact H | auto | exact He | exact HA ] ].
    destruct (_ || _); [ injection H as <- <- <-; auto | eapply send_now_awaits; eauto ].
  - destruct HW as (HP & Hid). assert (Hi : id <> 0) by lia.
    assert (HM : forall b nx, b <> Puback -> b <> Pubcomp -> handle_middle cf s b nx id = Some (s', evs, c) -> exists e', In e' (s_to s' ++ s_delayed s') /\ awaits e' /\ still e e').
    { intros b nx B1 B2 HM. unfold handle_middle in HM. destruct (process_ack _ _ _ _) as [[[[s1 f1] d1] er]|] eqn:EP; [ | discriminate ]. cbv zeta in HM.
      destruct (process_ack_awaits _ _ _ _ _ _ _ _ EP Hi e He HA) as (e1 & He1 & A1 & S1); [ intros _ [->| ->]; congruence | ].
      destruct (_ && _); [ injection HM as <- <- <-; eauto | ]. destruct (send_now_awaits _ _ _ _ _ _ _ _ HM Hi e1 He1 A1) as (e2 & He2 & A2 & S2). exists e2. split; [ auto | split; [ auto | eapply still_trans; eauto ] ]. }
    assert (HF : forall b, (b = Puback \/ b = Pubcomp -> e_id e <> id) -> handle_final s b id = Some (s', evs, c) -> exists e', In e' (s_to s' ++ s_delayed s') /\ awaits e' /\ still e e').
    { intros b HB HX. unfold handle_final in HX. destruct (process_ack _ _ _ _) as [[[[s1 f1] d1] er]|] eqn:EP; [ | discriminate ]. injection HX as <- <- <-.
      eapply process_ack_awaits; [ exact EP | auto | auto | auto | auto ]. }
    cbn [finishes] in HN. destruct a; try discriminate.
    + apply (HF Puback); auto.
    + apply (HM Pubrec Pubrel); auto; discriminate.
    + apply (HM Pubrel Pubcomp); auto; discriminate.
    + apply (HF Pubcomp); auto.
  - injection H as <- <- <-; auto.
  - injection H as <- <- <-; auto.
Qed.
Lemma step_awaits : forall cf s o s' evs c, step cf s o = Some (s', evs, c) -> op_ok o ->
  forall e, In e (s_to s ++ s_delayed s) -> awaits e -> ~ finishes o (e_id e) -> exists e', In e' (s_to s' ++ s_delayed s') /\ awaits e' /\ still e e'.
Proof.
  intros cf s o s' evs c H HO e He HA HN. destruct o as [k m z q u|m z q u|now w|now a1 a2|now]; cbn [step] in H.
  - injection H as <- <- <-. exists e. cbn [s_to s_delayed]. split; [ rewrite !in_app_iff in *; tauto | auto using still_refl ].
  - injection H as <- <- <-. exists e. cbn [s_to s_delayed]. split; [ rewrite !in_app_iff in *; tauto | auto using still_refl ].
  - eapply receive_awaits; eauto.
  - unfold round in H. destruct (iterate cf now a1 0 _ _) as [p|] eqn:E1; [ | discriminate ]. cbv zeta in H. pose proof (iterate_PR _ _ _ _ _ _ _ E1) as H1.
    destruct (PR_surv _ _ _ _ _ _ H1 e He HA) as (e' & He' & X). exists e'. split; [ | auto ]. apply in_or_app. left.
    destruct (p_err p); [ injection H as <- <- <-; exact He' | ]. destruct (iterate cf now a2 0 _ _) as [q|]; [ | discriminate ]. injection H as <- <- <-. exact He'.
  - unfold forget in H. destruct (grace_loop _ _ _) as [[g p]|]; [ | discriminate ]. injection H as <- <- <-. exists e. auto using still_refl.
Qed.

(** ** What is sent *)
Definition from_entry (l : list entry) (w : wire) : Prop :=
  match w with
  | WPub m z q i d => exists e, In e l /\ e_kind e = KPub /\ e_msg e = m /\ e_size e = z /\ e_qos e = q /\ (e_id e = 0 \/ e_id e = i) /\
      (q <> 0 -> awaits e /\ i <> 0) /\ (q = 2 -> e_pubrec e = false)
  | WAck Pubrel i _ => exists e, In e l /\ e_id e = i /\ e_qos e = 2 /\ e_pubrel e = true /\ awaits e
  | WAck _ _ _ => False
  | WSub i => exists e, In e l /\ e_kind e = KSub /\ (e_id e = 0 \/ e_id e = i)
  | WUnsub i => exists e, In e l /\ e_kind e = KUnsub /\ (e_id e = 0 \/ e_id e = i)
  end.
Lemma from_entry_mono : forall l l' w, incl l l' -> from_entry l w -> from_entry l' w.
Proof. intros l l' w HI H. destruct w as [m z q i d|[] i rs|i|i]; cbn in *; auto; destruct H as (e & He & H); exists e; auto. Qed.
(** What is sent for an entry: the message, its release, or the request. *)
Lemma can_send_entry : forall e e1 w, fine_to e -> e_id e <> 0 -> core e e1 -> can_send e1 w -> finished e = false -> (e_kind e = KPub -> 0 <= e_qos e <= 2) -> from_entry [e] w.
Proof.
  intros e e1 w (HO & _) Hid HC HW HFin HQr. unfold core in HC. destruct HC as (CK & CM & CS & CQ & CI & CO & CU & C1 & C2 & C3 & C4 & C5).
  unfold can_send in HW. rewrite CK in HW. destruct (e_kind e) eqn:EK.
  - destruct HW as (HW & HB & HP). unfold to_transmit, as_wire in HW. rewrite CO, HO, CQ, CM, CS, CI, C2, C3, C4 in HW. cbn [is_pub] in HW. rewrite andb_true_r in HW. rewrite C1 in HB. rewrite C4 in HP.
    specialize (HQr eq_refl).
    destruct (Z.eqb_spec (e_qos e) 0) as [E0|E0]; [ rewrite E0 in HW; discriminate | ].
    assert (HA : awaits e) by (split; [ auto | ]; assert (e_qos e = 1 \/ e_qos e = 2) as [E|E] by lia; rewrite E; auto).
    destruct (Z.eqb_spec (e_qos e) 1) as [E1|E1]; cbn [orb] in HW.
    + injection HW as <-. cbn [from_entry]. exists e. split; [ left; auto | ]. split; [ auto | ]. split; [ auto | ]. split; [ auto | ]. split; [ auto | ]. split; [ auto | ]. split; [ auto | lia ].
    + destruct (Z.eqb_spec (e_qos e) 2) as [E2|E2]; [ | discriminate ]. rewrite HP in HW. cbn [negb andb] in HW. destruct (e_pubrel e) eqn:ER.
      * injection HW as <-. cbn [from_entry]. exists e. split; [ left; auto | ]. split; [ auto | ]. split; [ auto | ]. split; auto.
      * destruct (e_pubrec e) eqn:EP; [ discriminate | ]. injection HW as <-. cbn [from_entry]. exists e. split; [ left; auto | ]. split; [ auto | ]. split; [ auto | ]. split; [ auto | ]. split; [ auto | ]. split; [ auto | ]. split; auto.
  - subst w. cbn [from_entry]. exists e. split; [ left; auto | ]. split; [ auto | right; congruence ].
  - subst w. cbn [from_entry]. exists e. split; [ left; auto | ]. split; [ auto | right; congruence ].
Qed.
Lemma PR_sends : forall pool l k d p ws, PR pool l k d p ws -> Forall fine_to l -> Forall (fun e => e_kind e = KPub -> 0 <= e_qos e <= 2) l ->
  forall w, In w ws -> from_entry l w.
Proof.
  induction 1 as [pool l|pool e r k d p ws HF H IH|pool pool' id e r k d p ws H0 HF HG Hid H IH|pool pool' e r H0 HG|pool e e' r k d p ws HN HF HC H IH|pool e e1 e' w r k d p ws HN HF HC1 HC HW H IH|pool pool' e e1 r k d p ws HN HF HC HK HQ HO HE H IH];
    intros HFi HQr x Hx; try (match type of HFi with Forall _ (_ :: _) => idtac end; inversion HFi as [|? ? HF1 HF2]; subst; inversion HQr as [|? ? HQ1 HQ2]; subst); try (destruct Hx; fail).
  - eapply from_entry_mono; [ | apply IH; auto ]. intros y Hy. right. auto.
  - assert (HX : from_entry (set_id e id :: r) x).
    { apply IH; auto. constructor; [ apply set_id_fine; auto | auto ]. }
    destruct HF1 as (_ & HIdle). destruct (HIdle H0) as (I1 & I2 & I3 & I4 & I5 & I6).
    destruct x as [m z q i dd|[] i rs|i|i]; cbn [from_entry] in *; auto.
    + destruct HX as (y & [<-|Hy] & X1 & X2 & X3 & X4 & X5 & X6 & X7); [ exists e | exists y; split; [ right; auto | auto 8 ] ].
      split; [ left; auto | ]. split; [ exact X1 | ]. split; [ exact X2 | ]. split; [ exact X3 | ]. split; [ exact X4 | ]. split; [ auto | ]. split; [ exact X6 | exact X7 ].
    + destruct HX as (y & [<-|Hy] & X1 & X2 & X3 & X4); [ cbn [set_id e_pubrel] in X3; congruence | exists y; split; [ right; auto | auto ] ].
    + destruct HX as (y & [<-|Hy] & X1 & X2); [ exists e; split; [ left; auto | split; [ exact X1 | auto ] ] | exists y; split; [ right; auto | auto ] ].
    + destruct HX as (y & [<-|Hy] & X1 & X2); [ exists e; split; [ left; auto | split; [ exact X1 | auto ] ] | exists y; split; [ right; auto | auto ] ].
  - eapply from_entry_mono; [ | apply IH; auto ]. intros y Hy. right. auto.
  - destruct Hx as [<-|Hx]; [ eapply from_entry_mono; [ | exact (can_send_entry e e1 w HF1 HN HC1 HW HF HQ1) ]; intros y [<-|[]]; left; auto | ].
    eapply from_entry_mono; [ | apply IH; auto ]. intros y Hy. right. auto.
  - destruct Hx as [<-|Hx].
    + unfold core in HC. destruct HC as (CK & CM & CS & CQ & CI & _). cbn [as_wire from_entry]. rewrite CM, CS, CQ, CI, HQ. exists e. split; [ left; auto | ]. split; [ auto | ]. split; [ auto | ]. split; [ auto | ]. split; [ auto | ]. split; [ auto | ]. split; lia.
    + eapply from_entry_mono; [ | apply IH; auto ]. intros y Hy. right. auto.
Qed.
Lemma receive_no_pub : forall cf now s w s' evs c m z q i d, receive cf now s w = Some (s', evs, c) -> ~ In (WPub m z q i d) (sents evs).
Proof.
  intros cf now s w s' evs c m z q i d H HI.
  assert (HS : forall s0 a id rs pre, sents pre = [] -> send_now s0 a id rs pre = Some (s', evs, c) -> False).
  { intros s0 a id rs pre HP HX. unfold send_now in HX. destruct (process_ack _ _ _ _) as [[[[s1 f1] d1] er]|]; [ | discriminate ].
    destruct er; injection HX as <- <- <-; rewrite !sents_app, sents_deliver, HP in HI; cbn in HI; [ destruct HI | destruct HI as [HI|[]]; discriminate ]. }
  destruct w as [m0 z0 k id dup|a id rs|id|id]; cbn [receive] in H.
  - unfold handle_publish in H. cbv zeta in H. destruct (k =? 0); [ injection H as <- <- <-; destruct HI | ]. destruct (k =? 1); [ eapply HS; [ | exact H ]; reflexivity | ].
    destruct (find_qos2 id (s_from s)); [ | eapply HS; [ | exact H ]; reflexivity ]. destruct (_ || _); [ injection H as <- <- <-; destruct HI | eapply HS; [ | exact H ]; reflexivity ].
  - assert (HM : forall b nx, handle_middle cf s b nx id = Some (s', evs, c) -> False).
    { intros b nx HX. unfold handle_middle in HX. destruct (process_ack _ _ _ _) as [[[[s1 f1] d1] er]|]; [ | discriminate ]. cbv zeta in HX.
      destruct (_ && _); [ injection HX as <- <- <-; rewrite sents_deliver in HI; destruct HI | eapply HS; [ | exact HX ]; apply sents_deliver ]. }
    assert (HF : forall b, handle_final s b id = Some (s', evs, c) -> False).
    { intros b HX. unfold handle_final in HX. destruct (process_ack _ _ _ _) as [[[[s1 f1] d1] er]|]; [ | discriminate ]. injection HX as <- <- <-. rewrite sents_deliver in HI. destruct HI. }
    destruct a; eauto.
  - injection H as <- <- <-. destruct HI.
  - injection H as <- <- <-. destruct HI.
Qed.
Lemma step_sends : forall cf s o s' evs c m z q i d, step cf s o = Some (s', evs, c) -> sinv s -> ranged s ->
  In (WPub m z q i d) (sents evs) -> from_entry (s_to s ++ s_delayed s) (WPub m z q i d).
Proof.
  intros cf s o s' evs c m z q i d H (HH & HT & HD & HF) (R1 & R2) HI. destruct o as [k m0 z0 q0 u|m0 z0 q0 u|now w|now a1 a2|now]; cbn [step] in H.
  - injection H as <- <- <-. destruct HI.
  - injection H as <- <- <-. destruct HI.
  - elim (receive_no_pub _ _ _ _ _ _ _ _ _ _ _ _ H HI).
  - destruct (round_PR _ _ _ _ _ _ _ _ H) as (d1 & p1 & ws1 & ws2 & HP1 & _ & ES & _ & d2 & p2 & HP2). rewrite ES in HI. apply in_app_or in HI as [HI|HI].
    + exact (PR_sends _ _ _ _ _ _ HP1 HT R1 _ HI).
    + destruct (PR_wires_from _ _ _ _ _ _ HP2 HF R2) as (_ & _ & HP). rewrite Forall_forall in HP. destruct (HP _ HI).
  - destruct (forget_same _ _ _ _ _ H) as (_ & _ & _ & ->). destruct HI.
Qed.
Lemma run_ranged : forall cf ops s s' t, run cf s ops = Some (s', t) -> sinv s -> ranged s -> Forall (fun o => op_ok o /\ asked_ok o) ops -> sinv s' /\ ranged s'.
Proof.
  intros cf ops. induction ops as [|o r IH]; intros s s' t H HI HR HF; cbn [run] in H; [ injection H as <- <-; auto | ].
  inversion HF as [|? ? (H1 & H2) H3]; subst. destruct (step_some cf s o HI H1) as (s1 & evs & c & E & HI1). rewrite E in H.
  destruct (run cf s1 r) as [[s2 t2]|] eqn:ER; [ | discriminate ]. injection H as <- <-. eapply IH; eauto. eapply step_ranged; eauto.
Qed.
Lemma in_use_nodup : forall s, sinv s -> NoDup (in_use s) /\ Forall valid_id (in_use s) /\ forall i, In i (in_use s) -> ~ In i (owned (s_grace s)).
Proof.
  intros s (HH & _). change (in_use s) with (nz (s_to s)). pose proof (holds_nodup _ _ HH) as HN. split; [ | split ].
  - clear HH. induction (nz (s_to s)) as [|x l IH]; [ constructor | ]. cbn [app] in HN. inversion HN as [|? ? H1 H2]; subst. constructor; [ intros HX; apply H1, in_or_app; auto | auto ].
  - apply Forall_forall. intros i Hi. eapply holds_valid; [ exact HH | apply in_or_app; auto ].
  - intros i Hi HO. clear HH. induction (nz (s_to s)) as [|x l IH]; [ destruct Hi | ]. cbn [app] in HN. inversion HN as [|? ? H1 H2]; subst. destruct Hi as [<-|Hi]; [ apply H1, in_or_app; auto | auto ].
Qed.
