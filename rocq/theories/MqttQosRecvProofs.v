(** Proofs on receiving messages. *)
From Coq Require Import ZArith List Bool Lia Permutation Sorted.
From Verif Require Import Common IdPoolModel MqttQosModel MqttQosSpec MqttQosProofs.
Import ListNotations.
Open Scope Z_scope.

Definition away (id : Z) (l : list entry) : Prop := forall e, In e l -> e_id e <> id.
Lemma away_cons : forall id e l, away id (e :: l) <-> e_id e <> id /\ away id l.
Proof. unfold away. intros. split; [ intros H; split; [ apply H; left; auto | intros; apply H; right; auto ] | intros [H H'] x [->|HI]; auto ]. Qed.
Lemma ack_entry_away : forall a id out f e, e_id e <> id -> ack_entry a id out f e = Some (e, f, [], FGo).
Proof. intros. unfold ack_entry. destruct (Z.eqb_spec (e_id e) id); [ contradiction | reflexivity ]. Qed.
Lemma ack_loop_pre : forall a id out l1 l2 f, away id l1 -> ack_loop a id out f (l1 ++ l2) =
  match ack_loop a id out f l2 with None => None | Some (l', f', d, er) => Some (l1 ++ l', f', d, er) end.
Proof.
  intros a id out l1. induction l1 as [|e r IH]; intros l2 f H.
  - cbn [app]. destruct (ack_loop a id out f l2) as [[[[? ?] ?] ?]|]; reflexivity.
  - apply away_cons in H as [H1 H2]. cbn [app ack_loop]. rewrite ack_entry_away, IH by auto.
    destruct (ack_loop a id out f l2) as [[[[? ?] ?] ?]|]; reflexivity.
Qed.
Lemma ack_loop_away : forall a id out l f, away id l -> ack_loop a id out f l = Some (l, f, [], false).
Proof. intros. rewrite <- (app_nil_r l) at 1. rewrite ack_loop_pre by auto. cbn [ack_loop]. rewrite app_nil_r. reflexivity. Qed.
Definition is_err (fl : flow) : bool := match fl with FErr => true | _ => false end.
Lemma ack_loop_one : forall a id out l1 e l2 f e' f' del fl, away id l1 -> away id l2 ->
  ack_entry a id out f e = Some (e', f', del, fl) ->
  ack_loop a id out f (l1 ++ e :: l2) = Some (l1 ++ e' :: l2, f', del, is_err fl).
Proof.
  intros a id out l1 e l2 f e' f' del fl H1 H2 HE. rewrite ack_loop_pre by auto. cbn [ack_loop]. rewrite HE.
  destruct fl; rewrite ?ack_loop_away by auto; rewrite ?app_nil_r; reflexivity.
Qed.

Definition ss (l : list entry) : Prop := StronglySorted Z.lt (map e_id l).
Lemma ss_cons : forall e l, ss (e :: l) <-> ss l /\ forall x, In x l -> e_id e < e_id x.
Proof.
  intros. unfold ss. cbn [map]. split.
  - intros H. apply StronglySorted_inv in H as [H1 H2]. split; [ exact H1 | ]. intros x HI. rewrite Forall_forall in H2. apply H2, in_map, HI.
  - intros [H1 H2]. constructor; [ exact H1 | ]. apply Forall_forall. intros i HI. apply in_map_iff in HI as (x & <- & HI). auto.
Qed.
Lemma ss_look : forall l id, ss l -> away id l \/ exists l1 e l2, l = l1 ++ e :: l2 /\ e_id e = id /\ away id l1 /\ away id l2.
Proof.
  induction l as [|e r IH]; intros id H; [ left; intros x [] | ]. apply ss_cons in H as [H1 H2].
  destruct (Z.eq_dec (e_id e) id) as [E|E].
  - right. exists [], e, r. split; [ reflexivity | split; [ exact E | split ] ]; [ intros x [] | ]. intros x HI. specialize (H2 x HI). lia.
  - destruct (IH id H1) as [HA|(l1 & x & l2 & -> & Ex & A1 & A2)].
    + left. apply away_cons. auto.
    + right. exists (e :: l1), x, l2. split; [ reflexivity | split; [ exact Ex | split; auto ] ]. apply away_cons. auto.
Qed.
Lemma ss_mid : forall l1 e l2 e', ss (l1 ++ e :: l2) -> e_id e' = e_id e -> ss (l1 ++ e' :: l2).
Proof. intros l1 e l2 e' H E. unfold ss in *. rewrite map_app in *. cbn [map] in *. rewrite E. exact H. Qed.
Lemma find_one : forall l1 e l2, ss (l1 ++ e :: l2) -> find_qos2 (e_id e) (l1 ++ e :: l2) = Some e.
Proof.
  induction l1 as [|x r IH]; intros e l2 H; cbn [app find_qos2].
  - rewrite Z.ltb_irrefl, Z.eqb_refl. reflexivity.
  - cbn [app] in H. apply ss_cons in H as [H1 H2]. assert (e_id x < e_id e) by (apply H2, in_or_app; right; left; reflexivity).
    replace (e_id x <? e_id e) with true by lia. auto.
Qed.
Lemma find_away : forall l id, away id l -> find_qos2 id l = None.
Proof.
  induction l as [|x r IH]; intros id H; cbn [find_qos2]; [ reflexivity | ]. apply away_cons in H as [H1 H2].
  destruct (e_id x <? id); [ auto | ]. destruct (Z.eqb_spec (e_id x) id); [ contradiction | reflexivity ].
Qed.
Lemma insert_mid : forall e l, exists l1 l2, l = l1 ++ l2 /\ insert_id e l = l1 ++ e :: l2 /\
  (ss l -> away (e_id e) l -> ss (insert_id e l)).
Proof.
  intros e l. induction l as [|x r IH]; cbn [insert_id].
  - exists [], []. split; [ reflexivity | split; [ reflexivity | ] ]. intros _ _. apply ss_cons. split; [ constructor | intros ? [] ].
  - destruct (e_id x <? e_id e) eqn:EL.
    + destruct IH as (l1 & l2 & E1 & E2 & HS). exists (x :: l1), l2. split; [ cbn; congruence | split; [ cbn; congruence | ] ].
      intros H HA. apply ss_cons in H as [H1 H2]. apply away_cons in HA as [HA1 HA2]. apply ss_cons. split; [ auto | ].
      intros y Hy. rewrite E2 in Hy. apply in_app_or in Hy as [Hy|[<-|Hy]]; [ | lia | ]; apply H2; rewrite E1; apply in_or_app; auto.
    + exists [], (x :: r). split; [ reflexivity | split; [ reflexivity | ] ]. intros H HA. apply ss_cons. split; [ exact H | ].
      intros y Hy. apply ss_cons in H as [H1 H2]. apply away_cons in HA as [HA1 HA2]. destruct Hy as [<-|Hy]; [ lia | ]. specialize (H2 _ Hy). lia.
Qed.

(** ** The queue and the identifiers *)
Definition fits (v : slot) (e : entry) : Prop :=
  match v with
  | Free => False
  | Held m z => e_qos e = 2 /\ e_msg e = m /\ e_size e = z /\ e_pubrec e = true /\ e_pubrel e = false /\ e_pubcomp e = false
  | Used1 => e_qos e = 1 /\ e_puback e = true
  | Used2 => e_qos e = 2 /\ e_pubrec e = true /\ e_pubrel e = true /\ e_pubcomp e = true
  end.
Definition R (r : slots) (l : list entry) : Prop :=
  ss l /\ (forall e, In e l -> fits (r (e_id e)) e) /\ (forall id m z, r id = Held m z -> exists e, In e l /\ e_id e = id).
Lemma R_new : R all_free [].
Proof. split; [ constructor | split; [ intros e [] | intros id m z H; discriminate ] ]. Qed.
Lemma put_same : forall r id v, put r id v id = v.
Proof. intros. unfold put. rewrite Z.eqb_refl. reflexivity. Qed.
Lemma put_other : forall r id v i, i <> id -> put r id v i = r i.
Proof. intros. unfold put. destruct (Z.eqb_spec i id); [ contradiction | reflexivity ]. Qed.
Lemma R_put : forall r l1 e l2 e' v, R r (l1 ++ e :: l2) -> away (e_id e) l1 -> away (e_id e) l2 -> e_id e' = e_id e -> fits v e' ->
  R (put r (e_id e) v) (l1 ++ e' :: l2).
Proof.
  intros r l1 e l2 e' v (H1 & H2 & H3) A1 A2 E HF. split; [ | split ].
  - eapply ss_mid; eauto.
  - intros x Hx. apply in_app_or in Hx as [Hx|[<-|Hx]].
    + rewrite put_other by (apply A1; auto). apply H2, in_or_app. auto.
    + rewrite E, put_same. exact HF.
    + rewrite put_other by (apply A2; auto). apply H2, in_or_app. right. right. auto.
  - intros id m z Hr. destruct (Z.eq_dec id (e_id e)) as [->|Hi].
    + exists e'. split; [ apply in_or_app; right; left; reflexivity | exact E ].
    + rewrite put_other in Hr by auto. destruct (H3 _ _ _ Hr) as (x & Hx & Ex). exists x. split; [ | exact Ex ].
      apply in_app_or in Hx as [Hx|[<-|Hx]]; apply in_or_app; [ auto | congruence | right; right; auto ].
Qed.
Lemma R_same : forall r l1 e l2 e', R r (l1 ++ e :: l2) -> away (e_id e) l1 -> away (e_id e) l2 -> e_id e' = e_id e -> fits (r (e_id e)) e' ->
  R r (l1 ++ e' :: l2).
Proof.
  intros r l1 e l2 e' H A1 A2 E HF. pose proof (R_put r l1 e l2 e' _ H A1 A2 E HF) as (B1 & B2 & B3).
  assert (HP : forall i, put r (e_id e) (r (e_id e)) i = r i) by (intros; unfold put; destruct (Z.eqb_spec i (e_id e)); congruence).
  split; [ exact B1 | split ].
  - intros x Hx. rewrite <- HP. auto.
  - intros id m z Hr. apply (B3 id m z). rewrite HP. exact Hr.
Qed.
Lemma R_free : forall r l id, R r l -> r id = Free -> away id l.
Proof. intros r l id (_ & H & _) HF e He E. specialize (H e He). rewrite E, HF in H. exact H. Qed.
Lemma R_insert : forall r l1 l2 e e' v, R r (l1 ++ l2) -> r (e_id e) = Free -> ss (l1 ++ e :: l2) -> e_id e' = e_id e -> fits v e' ->
  R (put r (e_id e) v) (l1 ++ e' :: l2).
Proof.
  intros r l1 l2 e e' v HR HF HS E Hv. pose proof (R_free _ _ _ HR HF) as HA. destruct HR as (H1 & H2 & H3). split; [ eapply ss_mid; eauto | split ].
  - intros x Hx. apply in_app_or in Hx as [Hx|[<-|Hx]].
    + rewrite put_other by (apply HA, in_or_app; auto). apply H2, in_or_app. auto.
    + rewrite E, put_same. exact Hv.
    + rewrite put_other by (apply HA, in_or_app; auto). apply H2, in_or_app. auto.
  - intros id m z Hr. destruct (Z.eq_dec id (e_id e)) as [->|Hi].
    + exists e'. split; [ apply in_or_app; right; left; reflexivity | exact E ].
    + rewrite put_other in Hr by auto. destruct (H3 _ _ _ Hr) as (x & Hx & Ex). exists x. split; [ | exact Ex ].
      apply in_app_or in Hx as [Hx|Hx]; apply in_or_app; [ auto | right; right; auto ].
Qed.

(** ** Packets received *)
Lemma process_from : forall s a id l f del, ack_loop a id false 0 (s_from s) = Some (l, f, del, false) -> f <= 1 ->
  process_ack s a id false = Some (with_from s l, f, del, false).
Proof. intros s a id l f del E Hf. unfold process_ack. rewrite E. replace (1 <? f) with false by lia. reflexivity. Qed.

Lemma next_does : forall cf now r s w r', R r (s_from s) -> Forall fine_from (s_from s) -> wire_ok w -> incoming w = true ->
  next r w = Some r' -> exists s' evs, receive cf now s w = Some (s', evs, false) /\ does r w evs /\ R r' (s_from s').
Proof.
  intros cf now r s w r' HR HF HW HI HN. destruct w as [m z q id dup|a id rs|id|id]; try discriminate; [ | destruct a; try discriminate ]; cbn [receive next does] in *.
  - unfold handle_publish. destruct HW as (Hq & Hid). destruct (Z.eqb_spec q 0) as [->|H0].
    { injection HN as <-. do 2 eexists; (split; [ reflexivity | ]). auto. }
    specialize (Hid H0). set (e := mk_e KPub m z q id dup now false 0 false false false false false).
    destruct (Z.eqb_spec q 1) as [->|H1].
    + destruct (r id) eqn:Er; try discriminate. injection HN as <-. unfold send_now. cbn [send_out].
      destruct (insert_mid e (s_from s)) as (l1 & l2 & E1 & E2 & HS). pose proof (R_free _ _ _ HR Er) as HA.
      assert (A1 : away id l1) by (intros x Hx; apply HA; rewrite E1; apply in_or_app; auto).
      assert (A2 : away id l2) by (intros x Hx; apply HA; rewrite E1; apply in_or_app; auto).
      assert (HE : ack_entry Puback id false 0 e = Some (set_puback e true, 1, [m], FGo)).
      { unfold ack_entry. cbn [e e_id e_kind]. rewrite Z.eqb_refl. reflexivity. }
      pose proof (ack_loop_one Puback id false l1 e l2 0 _ _ _ _ A1 A2 HE) as HL. rewrite <- E2 in HL.
      rewrite (process_from (with_from s (insert_id e (s_from s))) _ _ _ _ _ HL) by lia. do 2 eexists; (split; [ reflexivity | ]).
      split; [ reflexivity | ]. cbn [with_from s_from].
      apply (R_insert r l1 l2 e); auto; [ rewrite <- E1; exact HR | rewrite <- E2; apply HS; [ apply HR | exact HA ] | split; reflexivity ].
    + assert (q = 2) by lia. subst q. cbn [Z.eqb Pos.eqb] in *. destruct (r id) as [|m' z'| |] eqn:Er; try discriminate.
      * injection HN as <-. pose proof (R_free _ _ _ HR Er) as HA. rewrite (find_away _ _ HA). unfold send_now. cbn [send_out].
        destruct (insert_mid e (s_from s)) as (l1 & l2 & E1 & E2 & HS).
        assert (A1 : away id l1) by (intros x Hx; apply HA; rewrite E1; apply in_or_app; auto).
        assert (A2 : away id l2) by (intros x Hx; apply HA; rewrite E1; apply in_or_app; auto).
        assert (HE : ack_entry Pubrec id false 0 e = Some (set_pubrec e true, 1, [], FStop)).
        { unfold ack_entry. cbn [e e_id e_kind]. rewrite Z.eqb_refl. reflexivity. }
        pose proof (ack_loop_one Pubrec id false l1 e l2 0 _ _ _ _ A1 A2 HE) as HL. rewrite <- E2 in HL.
        rewrite (process_from (with_from s (insert_id e (s_from s))) _ _ _ _ _ HL) by lia. do 2 eexists; (split; [ reflexivity | ]).
        split; [ reflexivity | ]. cbn [with_from s_from].
        apply (R_insert r l1 l2 e); auto; [ rewrite <- E1; exact HR | rewrite <- E2; apply HS; [ apply HR | exact HA ] | repeat split; reflexivity ].
      * destruct ((m' =? m) && (z' =? z) && dup) eqn:EM; [ | discriminate ]. injection HN as <-.
        assert (m' = m /\ z' = z /\ dup = true) as (-> & -> & Hd) by (destruct dup; lia).
        destruct HR as (B1 & B2 & B3). destruct (ss_look (s_from s) id B1) as [HA|(l1 & x & l2 & E & Ex & A1 & A2)].
        { destruct (B3 _ _ _ Er) as (x & Hx & Ex). destruct (HA x Hx Ex). }
        assert (Hfx : fits (r (e_id x)) x) by (apply B2; rewrite E; apply in_or_app; right; left; reflexivity). rewrite Ex, Er in Hfx.
        destruct Hfx as (F1 & F2 & F3 & F4 & F5 & F6).
        assert (HFx : fine_from x) by (rewrite Forall_forall in HF; apply HF; rewrite E; apply in_or_app; right; left; reflexivity).
        destruct HFx as (K1 & K2 & K3).
        rewrite E, <- Ex, find_one by (rewrite <- E; exact B1). rewrite Ex, Hd, F3, Z.eqb_refl. cbn [negb orb]. unfold send_now. cbn [send_out].
        assert (HE : ack_entry Pubrec id false 0 x = Some (set_pubrec x true, 1, [], FStop)).
        { unfold ack_entry, ack_bug, ack_publish. rewrite Ex, Z.eqb_refl, K1, F1. cbn. rewrite andb_false_r. reflexivity. }
        pose proof (ack_loop_one Pubrec id false l1 x l2 0 _ _ _ _ A1 A2 HE) as HL. rewrite <- E in HL.
        rewrite (process_from s _ _ _ _ _ HL) by lia. do 2 eexists; (split; [ reflexivity | ]). split; [ reflexivity | ]. cbn [with_from s_from].
        apply (R_same r l1 x l2); rewrite ?Ex; auto; [ rewrite <- E; split; auto | ]. rewrite Er. cbn. auto 8.
  - destruct HW as (_ & Hid). unfold handle_middle. cbn [recv_out]. destruct HR as (B1 & B2 & B3).
    destruct (ss_look (s_from s) id B1) as [HA|(l1 & x & l2 & E & Ex & A1 & A2)].
    + rewrite (process_from s _ _ _ _ _ (ack_loop_away _ _ _ _ _ HA)) by lia. cbv zeta. cbn [andb]. unfold send_now. cbn [send_out with_from].
      assert (EW : with_from s (s_from s) = s) by (destruct s; reflexivity). rewrite EW.
      rewrite (process_from s _ _ _ _ _ (ack_loop_away _ _ _ _ _ HA)) by lia. rewrite EW.
      destruct (r id) eqn:Er; try discriminate; try (injection HN as <-).
      * do 2 eexists; (split; [ reflexivity | ]). split; [ reflexivity | ]. split; auto.
      * destruct (B3 _ _ _ Er) as (x & Hx & Ex). destruct (HA x Hx Ex).
      * do 2 eexists; (split; [ reflexivity | ]). split; [ right; reflexivity | ]. split; auto.
    + assert (Hfx : fits (r (e_id x)) x) by (apply B2; rewrite E; apply in_or_app; right; left; reflexivity). rewrite Ex in Hfx.
      assert (HFx : fine_from x) by (rewrite Forall_forall in HF; apply HF; rewrite E; apply in_or_app; right; left; reflexivity).
      destruct HFx as (K1 & K2 & K3).
      assert (HX : forall f1 f2, e_qos x = 2 -> e_pubrec x = true -> e_pubrel x = f1 -> e_pubcomp x = f2 ->
         exists s1, process_ack s Pubrel id false = Some (s1, 1, if f1 then [] else [e_msg x], false) /\ s_from s1 = l1 ++ set_pubrel x true :: l2 /\
         exists s2, process_ack s1 Pubcomp id false = Some (s2, 1, [], false) /\ s_from s2 = l1 ++ set_pubcomp (set_pubrel x true) true :: l2).
      { intros f1 f2 F1 F2 F3 F4.
        assert (HE : ack_entry Pubrel id false 0 x = Some (set_pubrel x true, 1, if f1 then [] else [e_msg x], FStop)).
        { unfold ack_entry, ack_bug, ack_publish. rewrite Ex, Z.eqb_refl, K1, F1, F2, F3, K2. cbn. reflexivity. }
        pose proof (ack_loop_one Pubrel id false l1 x l2 0 _ _ _ _ A1 A2 HE) as HL. rewrite <- E in HL.
        rewrite (process_from s _ _ _ _ _ HL) by lia. eexists. split; [ reflexivity | split; [ reflexivity | ] ].
        assert (HE2 : ack_entry Pubcomp id false 0 (set_pubrel x true) = Some (set_pubcomp (set_pubrel x true) true, 1, [], FStop)).
        { unfold ack_entry, ack_bug, ack_publish. cbn [set_pubrel e_id e_kind e_qos e_pubrec e_pubrel e_out]. rewrite Ex, Z.eqb_refl, K1, F1, F2, K2. cbn. reflexivity. }
        pose proof (ack_loop_one Pubcomp id false l1 _ l2 0 _ _ _ _ A1 A2 HE2) as HL2.
        rewrite (process_from (with_from s (l1 ++ set_pubrel x true :: l2)) _ _ _ _ _ HL2) by lia. eexists. split; reflexivity. }
      destruct (r id) as [|m z| |] eqn:Er; try discriminate; try contradiction; injection HN as <-.
      * destruct Hfx as (F1 & F2 & F3 & F4 & F5 & F6). destruct (HX _ _ F1 F4 F5 F6) as (s1 & -> & Es1 & s2 & E2 & Es2).
        cbv zeta. cbn [andb]. unfold send_now. cbn [send_out]. rewrite E2. do 2 eexists; (split; [ reflexivity | ]).
        cbn [negb Z.eqb Pos.eqb map app]. rewrite F2. split; [ reflexivity | ]. rewrite Es2, <- Ex. apply R_put; rewrite ?Ex; auto; [ rewrite <- E; split; auto | ].
        repeat split; auto.
      * destruct Hfx as (F1 & F4 & F5 & F6). destruct (HX _ _ F1 F4 F5 F6) as (s1 & -> & Es1 & s2 & E2 & Es2).
        cbv zeta. cbn [andb]. unfold send_now. cbn [send_out]. rewrite E2. do 2 eexists; (split; [ reflexivity | ]).
        cbn [negb Z.eqb Pos.eqb map app]. split; [ left; reflexivity | ]. rewrite Es2.
        apply (R_same r l1 x l2); rewrite ?Ex; auto; [ rewrite <- E; split; auto | ]. rewrite Er. repeat split; auto.
Qed.

(** ** Other steps *)
Lemma ack_out_quiet : forall a id l f l' f' del err, Forall fine_to l -> ack_loop a id true f l = Some (l', f', del, err) -> del = [].
Proof.
  intros a id l. induction l as [|e r IH]; intros f l' f' del err HF H; cbn [ack_loop] in H; [ congruence | ].
  inversion HF as [|? ? HF1 HF2]; subst. destruct (ack_entry a id true f e) as [[[[e1 f1] d1] fl]|] eqn:EE; [ | discriminate ].
  assert (d1 = []).
  { unfold ack_entry in EE. destruct (negb (e_id e =? id)); [ congruence | ]. destruct (ack_bug a true e); [ discriminate | ].
    destruct (e_kind e) eqn:EK; [ | destruct a; congruence | destruct a; congruence ].
    destruct HF1 as (HO & _). rewrite EK in HO. cbn [is_pub] in HO. unfold ack_publish in EE. rewrite HO in EE.
    destruct a; cbv zeta in EE; repeat ocases EE; try congruence;
      injection EE as <- <- <- <-; destruct (e_puback e); congruence. }
  subst d1. destruct fl.
  - destruct (ack_loop a id true f1 r) as [[[[r1 f2] d2] er]|] eqn:EL; [ | discriminate ]. injection H as <- <- <- <-. cbn [app]. eapply IH; eauto.
  - congruence.
  - destruct (ack_loop a id true f1 r) as [[[[r1 f2] d2] er]|] eqn:EL; [ | discriminate ]. injection H as <- <- <- <-. cbn [app]. eapply IH; eauto.
Qed.
Lemma process_out_quiet : forall s a id s' f del err, sinv s -> process_ack s a id true = Some (s', f, del, err) ->
  del = [] /\ s_from s' = s_from s.
Proof.
  intros s a id s' f del err (_ & HT & _) H. unfold process_ack in H. rewrite Forall_app in HT. destruct HT as [HT _].
  destruct (ack_loop a id true 0 (s_to s)) as [[[[l f1] d] er]|] eqn:EL; [ | discriminate ].
  destruct (_ && _); [ discriminate | ]. injection H as <- <- <- <-. split; [ eapply ack_out_quiet; eauto | reflexivity ].
Qed.
Lemma recv_quiet : forall cf now s w s' evs c, sinv s -> wire_ok w -> incoming w = false -> receive cf now s w = Some (s', evs, c) ->
  delivers evs = [] /\ s_from s' = s_from s.
Proof.
  intros cf now s w s' evs c HI HW HN H. destruct w as [m z q id dup|a id rs|id|id]; try discriminate; cbn [receive] in H.
  - destruct HW as (HP & Hid).
    assert (HF : forall a, recv_out a = true -> handle_final s a id = Some (s', evs, c) -> delivers evs = [] /\ s_from s' = s_from s).
    { intros b Hb Hh. unfold handle_final in Hh. rewrite Hb in Hh. destruct (process_ack s b id true) as [[[[s1 f] del] err]|] eqn:EP; [ | discriminate ].
      injection Hh as <- <- <-. destruct (process_out_quiet _ _ _ _ _ _ _ HI EP) as (-> & E). auto. }
    destruct a; try discriminate; try (apply HF in H; auto; fail).
    unfold handle_middle in H. cbn [recv_out] in H.
    destruct (process_ack_some s Pubrec id true HI eq_refl) as (s1 & f & del & err & EP & HI1 & _); [ lia | ]. rewrite EP in H. cbv zeta in H.
    destruct (process_out_quiet _ _ _ _ _ _ _ HI EP) as (-> & E1). destruct (_ && _); [ injection H as <- <- <-; auto | ].
    unfold send_now in H. cbn [send_out] in H. destruct (process_ack s1 Pubrel id true) as [[[[s2 f2] d2] er2]|] eqn:EP2; [ | discriminate ].
    destruct (process_out_quiet _ _ _ _ _ _ _ HI1 EP2) as (-> & E2). destruct er2; injection H as <- <- <-; (split; [ reflexivity | congruence ]).
  - injection H as <- <- <-. auto.
  - injection H as <- <- <-. auto.
Qed.

Lemma core_finished : forall e e', core e e' -> e_qos e <> 0 -> finished e' = finished e.
Proof.
  unfold core, finished. intros e e' H HN. decompose [and] H.
  replace (e_kind e') with (e_kind e). replace (e_qos e') with (e_qos e). replace (e_puback e') with (e_puback e).
  replace (e_pubcomp e') with (e_pubcomp e). replace (e_suback e') with (e_suback e).
  destruct (Z.eqb_spec (e_qos e) 0); [ contradiction | ]. reflexivity.
Qed.
Lemma PR_sub : forall pool l k d p ws, PR pool l k d p ws -> Forall fine_from l -> ss l ->
  ss k /\ (forall e', In e' k -> exists e, In e l /\ core e e') /\
  (forall e, In e l -> finished e = false -> exists e', In e' k /\ core e e').
Proof.
  assert (HC : forall e e' r k, core e e' -> ss (e :: r) -> ss k -> (forall x', In x' k -> exists x, In x r /\ core x x') -> ss (e' :: k)).
  { intros e e' r k HC HS HK HX. apply ss_cons in HS as [_ HS]. apply ss_cons. split; [ exact HK | ]. intros x' Hx'. destruct (HX x' Hx') as (x & Hx & Cx).
    specialize (HS x Hx). unfold core in HC, Cx. decompose [and] HC. decompose [and] Cx. lia. }
  induction 1; intros HF HS; try match type of HF with Forall _ (_ :: _) => inversion HF as [|? ? HF1 HF2]; subst end.
  - split; [ exact HS | split ]; intros e He; exists e; split; auto using core_refl.
  - apply ss_cons in HS as [HS HL]. destruct (IHPR HF2 HS) as (A & B & C). split; [ exact A | split ].
    + intros x Hx. destruct (B x Hx) as (y & Hy & Cy). exists y. split; [ right; auto | auto ].
    + intros x [<-|Hx] Hf; [ congruence | auto ].
  - destruct HF1 as (_ & _ & HN). contradiction.
  - destruct HF1 as (_ & _ & HN). contradiction.
  - pose proof HS as HS0. apply ss_cons in HS as [HS HL]. destruct (IHPR HF2 HS) as (A & B & C). split; [ eapply HC; eauto | split ].
    + intros x [<-|Hx]; [ exists e; split; [ left; reflexivity | auto ] | ]. destruct (B x Hx) as (y & Hy & Cy). exists y. split; [ right; auto | auto ].
    + intros x [<-|Hx] Hf; [ exists e'; split; [ left; reflexivity | auto ] | ]. destruct (C x Hx Hf) as (y & Hy & Cy). exists y. split; [ right; auto | auto ].
  - pose proof HS as HS0. apply ss_cons in HS as [HS HL]. destruct (IHPR HF2 HS) as (A & B & C). split; [ apply (HC e e' r); auto | split ].
    + intros x [<-|Hx]; [ exists e; split; [ left; reflexivity | auto ] | ]. destruct (B x Hx) as (y & Hy & Cy). exists y. split; [ right; auto | auto ].
    + intros x [<-|Hx] Hf; [ exists e'; split; [ left; reflexivity | auto ] | ]. destruct (C x Hx Hf) as (y & Hy & Cy). exists y. split; [ right; auto | auto ].
  - destruct HF1 as (_ & HO & _). congruence.
Qed.
Lemma iterate_clean : forall cf now l answers n pool p, forallb (fun t => match t with TOk => true | _ => false end) answers = true ->
  Forall fine_from l -> Forall (fun e => e_qos e <> 0) l -> iterate cf now answers n pool l = Some p ->
  Forall (fun e => finished e = false) (p_keep p).
Proof.
  intros cf now l. induction l as [|e r IH]; intros answers n pool p HA HF HQ H; [ injection H as <-; constructor | ].
  inversion HF as [|? ? HF1 HF2]; subst. inversion HQ as [|? ? HQ1 HQ2]; subst. rewrite iterate_step in H. destruct (finished e) eqn:EF.
  { apply done_first_some in H as (q & Hq & ->). cbn [p_keep]. exact (IH _ _ _ _ HA HF2 HQ2 Hq). }
  unfold ensure_id in H. destruct HF1 as (HK & HO & HN). destruct (Z.eqb_spec (e_id e) 0); [ contradiction | ]. cbn [negb] in H.
  assert (HTl : forallb (fun t => match t with TOk => true | _ => false end) (tl answers) = true).
  { destruct answers; [ reflexivity | ]. cbn in HA. apply andb_true_iff in HA. apply HA. }
  assert (HHd : hd TOk answers = TOk). { destruct answers as [|t a]; [ reflexivity | ]. cbn in HA |- *. destruct t; [ reflexivity | discriminate | discriminate ]. }
  destruct (one_cases cf now answers n pool e r) as [e' n' HC E|e' EHd HC E|e0 e' w EHd HC1 HC HW E|e0 e' w n' HC1 HC HW E|e0 full n' HC HK' HQ' HT E].
  - rewrite E in H. apply keep_first_some in H as (q & Hq & ->). cbn [p_keep]. constructor; [ rewrite (core_finished e); auto | exact (IH _ _ _ _ HA HF2 HQ2 Hq) ].
  - congruence.
  - congruence.
  - rewrite E in H. apply sent_first_some in H as (q & Hq & ->). apply keep_first_some in Hq as (q' & Hq' & ->). cbn [p_keep].
    constructor; [ rewrite (core_finished e); auto | exact (IH _ _ _ _ HTl HF2 HQ2 Hq') ].
  - congruence.
Qed.

Lemma iterate_noerr : forall cf now l answers n pool p, forallb (fun t => match t with TFail => false | _ => true end) answers = true ->
  iterate cf now answers n pool l = Some p -> p_err p = false.
Proof.
  intros cf now l. induction l as [|e r IH]; intros answers n pool p HA H; [ injection H as <-; reflexivity | ].
  assert (HTl : forallb (fun t => match t with TFail => false | _ => true end) (tl answers) = true).
  { destruct answers; [ reflexivity | ]. cbn in HA. apply andb_true_iff in HA. apply HA. }
  assert (HHd : hd TOk answers <> TFail). { destruct answers as [|t a]; [ discriminate | ]. cbn in HA |- *. destruct t; [ discriminate | discriminate | discriminate ]. }
  rewrite iterate_step in H. destruct (finished e) eqn:EF.
  { apply done_first_some in H as (q & Hq & ->). cbn [p_err]. exact (IH _ _ _ _ HA Hq). }
  destruct (ensure_id pool e) as [[[e1|] pool1]|]; [ | injection H as <-; reflexivity | discriminate ].
  destruct (one_cases cf now answers n pool1 e1 r) as [e' n' HC E|e' EHd HC E|e0 e' w EHd HC1 HC HW E|e0 e' w n' HC1 HC HW E|e0 full n' HC HK' HQ' HT E]; rewrite E in H.
  - apply keep_first_some in H as (q & Hq & ->). cbn [p_err]. exact (IH _ _ _ _ HA Hq).
  - congruence.
  - injection H as <-. reflexivity.
  - apply sent_first_some in H as (q & Hq & ->). apply keep_first_some in Hq as (q' & Hq' & ->). cbn [p_err]. exact (IH _ _ _ _ HTl Hq').
  - destruct (free_id pool1 e1); [ | discriminate ]. destruct full; [ injection H as <-; reflexivity | ].
    apply sent_first_some in H as (q & Hq & ->). cbn [p_err]. exact (IH _ _ _ _ HTl Hq).
Qed.

Lemma fits_qos : forall v e, fits v e -> e_qos e <> 0.
Proof. intros v e H. destruct v; cbn in H; [ contradiction | | | ]; destruct H as (-> & _); discriminate. Qed.
Lemma fits_core : forall v e e', core e e' -> fits v e -> fits v e'.
Proof. intros v e e' H HF. unfold core in H. decompose [and] H. destruct v; cbn in *; intuition congruence. Qed.
Lemma fits_finished : forall v e, e_kind e = KPub -> fits v e -> finished e = match v with Held _ _ => false | _ => true end.
Proof.
  intros v e HK HF. unfold finished. rewrite HK. destruct v; cbn in HF; [ contradiction | | | ];
    decompose [and] HF; repeat match goal with H : _ = _ |- _ => rewrite H end; reflexivity.
Qed.
Lemma R_pass : forall r pool l k d p ws, PR pool l k d p ws -> Forall fine_from l -> R r l ->
  R r k /\ (Forall (fun e => finished e = false) k -> R (tidy r) k).
Proof.
  intros r pool l k d p ws HP HF (H1 & H2 & H3). destruct (PR_sub _ _ _ _ _ _ HP HF H1) as (A & B & C).
  destruct (PR_from _ _ _ _ _ _ HP HF) as (_ & HFk & _).
  assert (HFit : forall e, In e k -> fits (r (e_id e)) e).
  { intros e' He'. destruct (B e' He') as (e & He & Ce). replace (e_id e') with (e_id e); [ eapply fits_core; eauto | ].
    unfold core in Ce. decompose [and] Ce. congruence. }
  assert (HHeld : forall id m z, r id = Held m z -> exists e, In e k /\ e_id e = id).
  { intros id m z Hr. destruct (H3 _ _ _ Hr) as (e & He & Ee). specialize (H2 e He). rewrite Ee, Hr in H2.
    rewrite Forall_forall in HF. destruct (HF e He) as (HK & _). destruct (C e He) as (e' & He' & Ce).
    { rewrite (fits_finished (Held m z)); auto. }
    exists e'. split; [ auto | ]. unfold core in Ce. decompose [and] Ce. congruence. }
  split; [ split; auto | ]. intros HU. split; [ exact A | split ].
  - intros e He. specialize (HFit e He). rewrite Forall_forall in HU, HFk. specialize (HU e He). destruct (HFk e He) as (HK & _).
    rewrite (fits_finished _ _ HK HFit) in HU. unfold tidy. destruct (r (e_id e)); [ discriminate | exact HFit | discriminate | discriminate ].
  - intros id m z Ht. unfold tidy in Ht. destruct (r id) eqn:Er; try discriminate. eapply HHeld. eauto.
Qed.

Lemma delivers_sent : forall ws, delivers (map Sent ws) = [].
Proof. unfold delivers. induction ws; [ reflexivity | auto ]. Qed.

Lemma round_right : forall cf now a1 a2 s r s' evs c, sinv s -> R r (s_from s) -> round cf now a1 a2 s = Some (s', evs, c) ->
  delivers evs = [] /\ R (if complete a1 a2 then tidy r else r) (s_from s').
Proof.
  intros cf now a1 a2 s r s' evs c (_ & _ & _ & HF) HR H. unfold round in H.
  destruct (iterate cf now a1 0 (s_pool s) (s_to s ++ s_delayed s)) as [p|] eqn:E1; [ | discriminate ]. cbv zeta in H.
  unfold complete. destruct (forallb (fun t => match t with TFail => false | _ => true end) a1) eqn:EA1; cbn [andb].
  - rewrite (iterate_noerr _ _ _ _ _ _ _ EA1 E1) in H. destruct (iterate cf now a2 0 (p_pool p) (s_from s)) as [q|] eqn:E2; [ | discriminate ].
    injection H as <- <- <-. split; [ apply delivers_sent | ]. cbn [s_from].
    pose proof (iterate_PR _ _ _ _ _ _ _ E2) as HP. destruct (R_pass r _ _ _ _ _ _ HP HF HR) as (A & B).
    destruct (forallb (fun t => match t with TOk => true | _ => false end) a2) eqn:EA2; [ | exact A ].
    apply B. eapply iterate_clean; [ exact EA2 | exact HF | | exact E2 ]. apply Forall_forall. intros e He. eapply fits_qos. apply HR. exact He.
  - destruct (p_err p); [ injection H as <- <- <-; split; [ apply delivers_sent | exact HR ] | ].
    destruct (iterate cf now a2 0 (p_pool p) (s_from s)) as [q|] eqn:E2; [ | discriminate ].
    injection H as <- <- <-. split; [ apply delivers_sent | ]. cbn [s_from].
    pose proof (iterate_PR _ _ _ _ _ _ _ E2) as HP. apply (R_pass r _ _ _ _ _ _ HP HF HR).
Qed.

Lemma conforms_right : forall cf ops s r, sinv s -> R r (s_from s) -> conforms r ops ->
  exists s' t, run cf s ops = Some (s', t) /\ right r ops t.
Proof.
  intros cf ops. induction ops as [|o rest IH]; intros s r HI HR HC; cbn [run].
  { do 2 eexists; (split; [ reflexivity | ]). exact Logic.I. }
  cbn [conforms] in HC. destruct HC as (HW & HN). destruct (after r o) as [r'|] eqn:EA; [ | contradiction ].
  assert (HO : op_ok o). { destruct o as [| |now w| |]; try exact Logic.I. destruct w as [m z q id dup|a id rs|id|id]; try exact HW. destruct HW as [H1 H2]. split; [ destruct a; try contradiction; reflexivity | exact H2 ]. }
  destruct (step_some cf s o HI HO) as (s1 & evs & c & ES & HI1). rewrite ES.
  assert (HX : R r' (s_from s1) /\ match o with Recv _ w => if incoming w then does r w evs /\ c = false else delivers evs = [] | _ => delivers evs = [] end).
  { destruct o as [k m z q u|m z q u|now w|now a1 a2|now]; cbn [step after] in *.
    - injection ES as <- <- <-. injection EA as <-. auto.
    - injection ES as <- <- <-. injection EA as <-. auto.
    - destruct (incoming w) eqn:EI.
      + assert (HF : Forall fine_from (s_from s)) by apply HI.
        destruct (next_does cf now r s w r' HR HF HO EI EA) as (s2 & ev2 & E2 & HD & HR2). rewrite E2 in ES. injection ES as <- <- <-. auto.
      + destruct (recv_quiet _ _ _ _ _ _ _ HI HO EI ES) as (HD & EF). split; [ | exact HD ]. rewrite EF.
        assert (r' = r) by (destruct w as [| [] | |]; try discriminate; cbn [next] in EA; congruence). subst. exact HR.
    - destruct (round_right _ _ _ _ _ _ _ _ _ HI HR ES) as (HD & HR2). split; [ | exact HD ]. destruct (complete a1 a2); injection EA as <-; exact HR2.
    - unfold forget in ES. destruct (grace_loop _ _ _) as [[g pool]|]; [ | discriminate ]. injection ES as <- <- <-. injection EA as <-. auto. }
  destruct HX as (HR1 & HX). destruct (IH s1 r' HI1 HR1 HN) as (s2 & t & -> & HT). do 2 eexists; (split; [ reflexivity | ]).
  cbn [right]. split; [ exact HX | ]. rewrite EA. exact HT.
Qed.
