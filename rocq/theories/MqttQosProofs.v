(** Proofs on one session: the identifiers, no aborts, what a pass over a queue does. *)
From Coq Require Import ZArith List Bool Lia Permutation.
From Verif Require Import Common IdPoolModel IdPoolSpec IdPoolProofs MqttQosModel MqttQosSpec.
Import ListNotations.
Open Scope Z_scope.

(** ** The pool of identifiers *)
Lemma abs_get : forall p used, abs p used -> exists p' id, get_id p = Some (p', id) /\
  ((valid_id id /\ ~ In id used /\ abs p' (id :: used)) \/ (id = 0 /\ abs p' used)).
Proof.
  intros p used H. pose proof (abs_step p used Get H Logic.I) as HS. cbn [id_step] in HS.
  destruct (get_id p) as [[p' id]|] eqn:E.
  - destruct HS as (u' & HC & HA). exists p', id. split; [ reflexivity | ].
    inversion HC; subst; [ left; auto | right; auto ].
  - destruct HS as (u' & HC & HA). inversion HC.
Qed.
Lemma abs_release : forall p used id, abs p used -> In id used -> exists p', release_id p id = Some p' /\
  abs p' (remove Z.eq_dec id used).
Proof.
  intros p used id H HI. assert (HV : valid_id id) by (destruct H as (_ & _ & HV & _); auto).
  pose proof (abs_step p used (Release id) H HV) as HS. cbn [id_step] in HS.
  destruct (release_id p id) as [p'|] eqn:E.
  - destruct HS as (u' & HC & HA). exists p'. split; [ reflexivity | ]. inversion HC; subst; auto.
  - destruct HS as (u' & HC & HA). inversion HC; subst. contradiction.
Qed.
Definition holds (p : id_pool) (l : list Z) : Prop :=
  exists used, abs p used /\ NoDup l /\ (forall i, In i used <-> In i l).
Lemma holds_perm : forall p l l', holds p l -> Permutation l l' -> holds p l'.
Proof.
  intros p l l' (u & HA & HN & HI) HP. exists u. split; [ auto | split ].
  - eapply Permutation_NoDup; eauto.
  - intros i. rewrite HI. split; apply Permutation_in; [ auto | apply Permutation_sym; auto ].
Qed.
Lemma holds_valid : forall p l i, holds p l -> In i l -> valid_id i.
Proof. intros p l i (u & HA & HN & HI) H. destruct HA as (_ & _ & HV & _). apply HV, HI, H. Qed.
Lemma holds_nodup : forall p l, holds p l -> NoDup l.
Proof. intros p l (u & HA & HN & HI). exact HN. Qed.
Lemma holds_get : forall p l, holds p l -> exists p' id, get_id p = Some (p', id) /\
  ((valid_id id /\ ~ In id l /\ holds p' (id :: l)) \/ (id = 0 /\ holds p' l)).
Proof.
  intros p l (u & HA & HN & HI). destruct (abs_get p u HA) as (p' & id & E & [(HV & HU & HA')|(H0 & HA')]);
    exists p', id; (split; [ exact E | ]).
  - left. rewrite HI in HU. split; [ auto | split; [ auto | ] ]. exists (id :: u). split; [ auto | split ].
    + constructor; auto.
    + intros i. cbn [In]. rewrite HI. tauto.
  - right. split; [ auto | ]. exists u. auto.
Qed.
Lemma holds_release : forall p l id, holds p (id :: l) -> exists p', release_id p id = Some p' /\ holds p' l.
Proof.
  intros p l id (u & HA & HN & HI). destruct (abs_release p u id HA) as (p' & E & HA').
  { apply HI. left. reflexivity. }
  exists p'. split; [ auto | ]. inversion HN; subst. exists (remove Z.eq_dec id u). split; [ auto | split; [ auto | ] ].
  intros i. split.
  - intros H. apply in_remove in H as [H HD]. apply HI in H as [->|H]; [ congruence | auto ].
  - intros H. apply in_in_remove; [ intros ->; contradiction | apply HI; right; auto ].
Qed.
Lemma holds_init : holds pool_init [].
Proof. exists []. split; [ apply abs_init | split; [ constructor | tauto ] ]. Qed.

(** ** Entries *)
(** An entry of the queue to the remote: those without an identifier have not been sent. *)
Definition idle (e : entry) : Prop :=
  e_last e = 0 /\ e_puback e = false /\ e_pubrec e = false /\ e_pubrel e = false /\ e_pubcomp e = false /\ e_suback e = false.
Definition fine_to (e : entry) : Prop := e_out e = is_pub (e_kind e) /\ (e_id e = 0 -> idle e).
Definition fine_from (e : entry) : Prop := e_kind e = KPub /\ e_out e = false /\ e_id e <> 0.
Definition nz (l : list entry) : list Z := filter (fun i => negb (i =? 0)) (map e_id l).
(** The same but for DUP and the time of the last attempt. *)
Definition core (e e' : entry) : Prop :=
  e_kind e' = e_kind e /\ e_msg e' = e_msg e /\ e_size e' = e_size e /\ e_qos e' = e_qos e /\ e_id e' = e_id e /\
  e_out e' = e_out e /\ e_until e' = e_until e /\ e_puback e' = e_puback e /\ e_pubrec e' = e_pubrec e /\
  e_pubrel e' = e_pubrel e /\ e_pubcomp e' = e_pubcomp e /\ e_suback e' = e_suback e.
Lemma core_refl : forall e, core e e. Proof. intros. unfold core. auto 12. Qed.
Lemma core_trans : forall a b c, core a b -> core b c -> core a c.
Proof. unfold core. intros a b c H H'. decompose [and] H. decompose [and] H'. repeat apply conj; congruence. Qed.
Lemma core_last : forall e t, core e (set_last e t). Proof. intros. unfold core. auto 12. Qed.
Lemma core_dup : forall e, core e (set_dup e). Proof. intros. unfold core. auto 12. Qed.
Lemma core_retry : forall cf now e, core e (check_retry cf now e).
Proof.
  intros. unfold check_retry. destruct (_ && _); [ | apply core_refl ].
  destruct (e_kind e); unfold core; auto 12.
Qed.
Lemma core_fine_to : forall e e', core e e' -> e_id e <> 0 -> fine_to e -> fine_to e'.
Proof. unfold core, fine_to. intros e e' H HN [H1 H2]. decompose [and] H. split; [ congruence | intros; congruence ]. Qed.
Lemma core_fine_from : forall e e', core e e' -> fine_from e -> fine_from e'.
Proof. unfold core, fine_from. intros e e' H H1. decompose [and] H. intuition congruence. Qed.
Lemma nz_cons : forall e l, nz (e :: l) = (if e_id e =? 0 then [] else [e_id e]) ++ nz l.
Proof. intros. unfold nz. cbn [map filter]. destruct (e_id e =? 0); reflexivity. Qed.
Lemma nz_app : forall a b, nz (a ++ b) = nz a ++ nz b.
Proof. intros. unfold nz. rewrite map_app, filter_app. reflexivity. Qed.
Lemma nz_in : forall l i, In i (nz l) <-> i <> 0 /\ exists e, In e l /\ e_id e = i.
Proof.
  intros. unfold nz. rewrite filter_In, in_map_iff. split.
  - intros ((e & E & H) & HN). split; [ destruct (Z.eqb_spec i 0); [ discriminate | auto ] | exists e; auto ].
  - intros (HN & e & H & E). split; [ exists e; auto | destruct (Z.eqb_spec i 0); [ contradiction | reflexivity ] ].
Qed.

(** ** A pass over a queue *)
Definition can_send (e : entry) (w : wire) : Prop :=
  match e_kind e with
  | KPub => to_transmit e = (Some w, false) /\ e_puback e = false /\ e_pubcomp e = false
  | KSub => w = WSub (e_id e)
  | KUnsub => w = WUnsub (e_id e)
  end.
Inductive PR : id_pool -> list entry -> list entry -> list entry -> id_pool -> list wire -> Prop :=
| PR_stop : forall pool l, PR pool l l [] pool []
| PR_done : forall pool e r k d p ws, finished e = true -> PR pool r k d p ws -> PR pool (e :: r) k (e :: d) p ws
| PR_id : forall pool pool' id e r k d p ws, e_id e = 0 -> finished e = false -> get_id pool = Some (pool', id) -> id <> 0 ->
    PR pool' (set_id e id :: r) k d p ws -> PR pool (e :: r) k d p ws
| PR_none : forall pool pool' e r, e_id e = 0 -> get_id pool = Some (pool', 0) -> PR pool (e :: r) (set_last e 0 :: r) [] pool' []
| PR_keep : forall pool e e' r k d p ws, e_id e <> 0 -> finished e = false -> core e e' ->
    PR pool r k d p ws -> PR pool (e :: r) (e' :: k) d p ws
| PR_send : forall pool e e1 e' w r k d p ws, e_id e <> 0 -> finished e = false -> core e e1 -> core e e' -> can_send e1 w ->
    PR pool r k d p ws -> PR pool (e :: r) (e' :: k) d p (w :: ws)
| PR_del : forall pool pool' e e1 r k d p ws, e_id e <> 0 -> finished e = false -> core e e1 ->
    e_kind e = KPub -> e_qos e = 0 -> e_out e = true -> free_id pool e = Some pool' ->
    PR pool' r k d p ws -> PR pool (e :: r) k d p (as_wire e1 :: ws).

Lemma process_publish_facts : forall cf now n e w del n', process_publish cf now n e = (Some w, del, n') ->
  to_transmit e = (Some w, del) /\ e_puback e = false /\ e_pubcomp e = false /\ drop now e = false.
Proof.
  intros cf now n e w del n' H. unfold process_publish in H. destruct (drop now e); [ discriminate | ].
  destruct (e_puback e); [ discriminate | ]. destruct (e_pubcomp e); [ discriminate | ]. cbn [orb] in H. cbv zeta in H.
  destruct (limited _ _ _); [ discriminate | ]. injection H as H1 H2. rewrite H1. auto.
Qed.
Lemma to_transmit_del : forall e w, to_transmit e = (Some w, true) -> e_qos e = 0 /\ e_out e = true /\ w = as_wire e.
Proof.
  intros e w H. unfold to_transmit in H. destruct (e_out e); rewrite ?andb_false_r, ?andb_true_r in H.
  - destruct (Z.eqb_spec (e_qos e) 0) as [H0|H0]; [ rewrite H0 in *; cbn in H; injection H as <-; auto | ].
    cbn [orb] in H. destruct (e_qos e =? 1); [ discriminate | ]. destruct (e_qos e =? 2); discriminate.
  - destruct (e_qos e =? 2); discriminate.
Qed.

Ltac ocases H := match type of H with context [match ?x with _ => _ end] => destruct x eqn:? end.

Lemma iterate_eq : forall cf now answers n pool e r, iterate cf now answers n pool (e :: r) =
      if finished e then done_first e (iterate cf now answers n pool r)
      else match ensure_id pool e with
      | None => None
      | Some (None, pool1) => Some (mk_pass (set_last e 0 :: r) [] pool1 [] false)
      | Some (Some e1, pool1) =>
          let e2 := check_retry cf now e1 in
          let '(w, del, n') :=
            match e_kind e2 with
            | KPub => process_publish cf now n e2
            | KSub => (if e_suback e2 then None else Some (WSub (e_id e2)), false, n)
            | KUnsub => (if e_suback e2 then None else Some (WUnsub (e_id e2)), false, n)
            end in
          let skip := keep_first e2 (iterate cf now answers n' pool1 r) in
          match w with
          | None => skip
          | Some w =>
              if negb (e_last e2 =? 0) then skip
              else
                let e3 := set_last e2 now in
                match hd TOk answers with
                | TFail => Some (mk_pass (e3 :: r) [] pool1 [] true)
                | TFull =>
                    if del then
                      match free_id pool1 e3 with
                      | None => None
                      | Some pool2 => Some (mk_pass r [] pool2 [w] false)
                      end
                    else Some (mk_pass (e3 :: r) [] pool1 [w] false)
                | TOk =>
                    if del then
                      match free_id pool1 e3 with
                      | None => None
                      | Some pool2 => sent_first w (iterate cf now (tl answers) n' pool2 r)
                      end
                    else sent_first w (keep_first e3 (iterate cf now (tl answers) n' pool1 r))
                end
          end
      end.
Proof. reflexivity. Qed.

(** The case of an entry which has an identifier. *)
Definition iterate_one (cf : conf) (now : Z) (answers : list took) (n : Z) (pool : id_pool) (e : entry) (r : list entry) : option pass :=
          let e2 := check_retry cf now e in
          let '(w, del, n') :=
            match e_kind e2 with
            | KPub => process_publish cf now n e2
            | KSub => (if e_suback e2 then None else Some (WSub (e_id e2)), false, n)
            | KUnsub => (if e_suback e2 then None else Some (WUnsub (e_id e2)), false, n)
            end in
          let skip := keep_first e2 (iterate cf now answers n' pool r) in
          match w with
          | None => skip
          | Some w =>
              if negb (e_last e2 =? 0) then skip
              else
                let e3 := set_last e2 now in
                match hd TOk answers with
                | TFail => Some (mk_pass (e3 :: r) [] pool [] true)
                | TFull =>
                    if del then
                      match free_id pool e3 with
                      | None => None
                      | Some pool2 => Some (mk_pass r [] pool2 [w] false)
                      end
                    else Some (mk_pass (e3 :: r) [] pool [w] false)
                | TOk =>
                    if del then
                      match free_id pool e3 with
                      | None => None
                      | Some pool2 => sent_first w (iterate cf now (tl answers) n' pool2 r)
                      end
                    else sent_first w (keep_first e3 (iterate cf now (tl answers) n' pool r))
                end
          end.
Lemma iterate_step : forall cf now answers n pool e r, iterate cf now answers n pool (e :: r) =
      if finished e then done_first e (iterate cf now answers n pool r)
      else match ensure_id pool e with
      | None => None
      | Some (None, pool1) => Some (mk_pass (set_last e 0 :: r) [] pool1 [] false)
      | Some (Some e1, pool1) => iterate_one cf now answers n pool1 e1 r
      end.
Proof. reflexivity. Qed.

(** The packet an entry would send, and the rest of its treatment, in cases. *)
Inductive one_case (cf : conf) (now : Z) (answers : list took) (n : Z) (pool : id_pool) (e : entry) (r : list entry) : Prop :=
| C_keep (e' : entry) (n' : Z) : core e e' ->
    iterate_one cf now answers n pool e r = keep_first e' (iterate cf now answers n' pool r) -> one_case cf now answers n pool e r
| C_fail (e' : entry) : hd TOk answers = TFail -> core e e' ->
    iterate_one cf now answers n pool e r = Some (mk_pass (e' :: r) [] pool [] true) -> one_case cf now answers n pool e r
| C_full (e1 e' : entry) (w : wire) : hd TOk answers = TFull -> core e e1 -> core e e' -> can_send e1 w ->
    iterate_one cf now answers n pool e r = Some (mk_pass (e' :: r) [] pool [w] false) -> one_case cf now answers n pool e r
| C_send (e1 e' : entry) (w : wire) (n' : Z) : core e e1 -> core e e' -> can_send e1 w ->
    iterate_one cf now answers n pool e r = sent_first w (keep_first e' (iterate cf now (tl answers) n' pool r)) ->
    one_case cf now answers n pool e r
| C_del (e1 : entry) (full : bool) (n' : Z) : core e e1 -> e_kind e = KPub -> e_qos e = 0 -> e_out e = true ->
    iterate_one cf now answers n pool e r =
      match free_id pool e with
      | None => None
      | Some pool2 => if full then Some (mk_pass r [] pool2 [as_wire e1] false)
                      else sent_first (as_wire e1) (iterate cf now (tl answers) n' pool2 r)
      end -> one_case cf now answers n pool e r.
Lemma one_cases : forall cf now answers n pool e r, one_case cf now answers n pool e r.
Proof.
  intros. pose proof (core_retry cf now e) as HC. set (e2 := check_retry cf now e) in *.
  assert (H3 : core e (set_last e2 now)) by (eapply core_trans; [ exact HC | apply core_last ]).
  assert (EF : forall x, core e x -> free_id pool x = free_id pool e).
  { intros x Hx. unfold core in Hx. unfold free_id. decompose [and] Hx. congruence. }
  assert (HS : forall (w : option wire) (del : bool) (n' : Z) (E : iterate_one cf now answers n pool e r =
            match w with
          | None => keep_first e2 (iterate cf now answers n' pool r)
          | Some w =>
              if negb (e_last e2 =? 0) then keep_first e2 (iterate cf now answers n' pool r)
              else
                let e3 := set_last e2 now in
                match hd TOk answers with
                | TFail => Some (mk_pass (e3 :: r) [] pool [] true)
                | TFull =>
                    if del then
                      match free_id pool e3 with
                      | None => None
                      | Some pool2 => Some (mk_pass r [] pool2 [w] false)
                      end
                    else Some (mk_pass (e3 :: r) [] pool [w] false)
                | TOk =>
                    if del then
                      match free_id pool e3 with
                      | None => None
                      | Some pool2 => sent_first w (iterate cf now (tl answers) n' pool2 r)
                      end
                    else sent_first w (keep_first e3 (iterate cf now (tl answers) n' pool r))
                end
          end),
          (forall x, w = Some x -> if del then e_kind e = KPub /\ e_qos e = 0 /\ e_out e = true /\ x = as_wire e2 else can_send e2 x) ->
          one_case cf now answers n pool e r).
  { intros w del n' E HW. destruct w as [w|]; [ | exact (C_keep _ _ _ _ _ _ _ e2 n' HC E) ].
    destruct (negb (e_last e2 =? 0)); [ exact (C_keep _ _ _ _ _ _ _ e2 n' HC E) | ]. cbv zeta in E.
    specialize (HW w eq_refl). destruct (hd TOk answers) eqn:EH.
    - destruct del; [ | exact (C_send _ _ _ _ _ _ _ e2 _ w n' HC H3 HW E) ]. destruct HW as (HK & HQ & HO & ->).
      rewrite (EF _ H3) in E. exact (C_del _ _ _ _ _ _ _ e2 false n' HC HK HQ HO E).
    - destruct del; [ | exact (C_full _ _ _ _ _ _ _ e2 _ w EH HC H3 HW E) ]. destruct HW as (HK & HQ & HO & ->).
      rewrite (EF _ H3) in E. exact (C_del _ _ _ _ _ _ _ e2 true n' HC HK HQ HO E).
    - exact (C_fail _ _ _ _ _ _ _ _ EH H3 E). }
  unfold iterate_one in HS. fold e2 in HS. cbv zeta in HS.
  destruct (e_kind e2) eqn:EK.
  - destruct (process_publish cf now n e2) as [[w del] n'] eqn:EP.
    apply (HS w del n' eq_refl). intros x ->. apply process_publish_facts in EP as (ET & EA & EC & _).
    unfold core in HC. decompose [and] HC. destruct del.
    + apply to_transmit_del in ET as (HQ & HO & ->). repeat split; congruence.
    + unfold can_send. rewrite EK. auto.
  - apply (HS (if e_suback e2 then None else Some (WSub (e_id e2))) false n eq_refl).
    intros x Hx. destruct (e_suback e2); [ discriminate | injection Hx as <- ]. unfold can_send. rewrite EK. reflexivity.
  - apply (HS (if e_suback e2 then None else Some (WUnsub (e_id e2))) false n eq_refl).
    intros x Hx. destruct (e_suback e2); [ discriminate | injection Hx as <- ]. unfold can_send. rewrite EK. reflexivity.
Qed.

Lemma done_first_some : forall e r p, done_first e r = Some p ->
  exists q, r = Some q /\ p = mk_pass (p_keep q) (e :: p_done q) (p_pool q) (p_sent q) (p_err q).
Proof. intros e [q|] p H; [ | discriminate ]. injection H as <-. eauto. Qed.
Lemma keep_first_some : forall e r p, keep_first e r = Some p ->
  exists q, r = Some q /\ p = mk_pass (e :: p_keep q) (p_done q) (p_pool q) (p_sent q) (p_err q).
Proof. intros e [q|] p H; [ | discriminate ]. injection H as <-. eauto. Qed.
Lemma sent_first_some : forall w r p, sent_first w r = Some p ->
  exists q, r = Some q /\ p = mk_pass (p_keep q) (p_done q) (p_pool q) (w :: p_sent q) (p_err q).
Proof. intros w [q|] p H; [ | discriminate ]. injection H as <-. eauto. Qed.

Definition is_PR (pool : id_pool) (l : list entry) (p : pass) : Prop :=
  PR pool l (p_keep p) (p_done p) (p_pool p) (p_sent p).

Lemma iterate_PR : forall cf now l answers n pool p, iterate cf now answers n pool l = Some p -> is_PR pool l p.
Proof.
  intros cf now l. induction l as [|e r IH]; intros answers n pool p H.
  - injection H as <-. apply PR_stop.
  - rewrite iterate_step in H. destruct (finished e) eqn:EF.
    { apply done_first_some in H as (q & Hq & ->). apply PR_done; [ exact EF | ]. apply (IH _ _ _ _ Hq). }
    assert (HO : forall pool1 e1, e_id e1 <> 0 -> finished e1 = false ->
              iterate_one cf now answers n pool1 e1 r = Some p -> is_PR pool1 (e1 :: r) p).
    { intros pool1 e1 HI HF HO. destruct (one_cases cf now answers n pool1 e1 r) as [e' n' HC E|e' EHd HC E|e0 e' w EHd HC1 HC HW E|e0 e' w n' HC1 HC HW E|e0 full n' HC HK HQ HT E]; rewrite E in HO.
      - apply keep_first_some in HO as (q & Hq & ->). apply PR_keep; auto. apply (IH _ _ _ _ Hq).
      - injection HO as <-. apply PR_keep; auto. apply PR_stop.
      - injection HO as <-. apply (PR_send _ _ e0); auto. apply PR_stop.
      - apply sent_first_some in HO as (q & Hq & ->). apply keep_first_some in Hq as (q' & Hq' & ->).
        apply (PR_send _ _ e0); auto. apply (IH _ _ _ _ Hq').
      - destruct (free_id pool1 e1) as [pool2|] eqn:EF1; [ | discriminate ]. destruct full.
        + injection HO as <-. apply (PR_del _ pool2); auto. apply PR_stop.
        + apply sent_first_some in HO as (q & Hq & ->). apply (PR_del _ pool2); auto. apply (IH _ _ _ _ Hq). }
    unfold ensure_id in H. destruct (Z.eqb_spec (e_id e) 0) as [H0|H0]; cbn [negb] in H.
    + destruct (get_id pool) as [[pool' id]|] eqn:EG; [ | discriminate ].
      destruct (Z.eqb_spec id 0) as [->|Hid].
      * injection H as <-. apply PR_none; auto.
      * apply (PR_id _ pool' id); auto. apply HO; auto.
    + apply HO; auto.
Qed.

(** Entries without an identifier are not finished; a finished one in the queue to the
    remote has an identifier. *)
Lemma idle_unfinished : forall e, idle e -> finished e = false.
Proof.
  intros e (H1 & H2 & H3 & H4 & H5 & H6). unfold finished. rewrite H1, H2, H5, H6. destruct (e_kind e); try reflexivity.
  cbn. rewrite !andb_false_r. reflexivity.
Qed.
Lemma fine_finished : forall e, fine_to e -> finished e = true -> e_id e <> 0.
Proof. intros e (H1 & H2) HF H0. rewrite idle_unfinished in HF by auto. discriminate. Qed.
Lemma set_id_fine : forall e id, id <> 0 -> fine_to e -> fine_to (set_id e id).
Proof. intros e id Hid (H1 & H2). split; [ exact H1 | ]. cbn [set_id e_id]. congruence. Qed.
Lemma set_last0_fine : forall e, fine_to e -> fine_to (set_last e 0).
Proof. intros e (H1 & H2). split; [ exact H1 | ]. intros H. destruct (H2 H) as (A & B). split; [ reflexivity | exact B ]. Qed.
Lemma nz_core : forall e e' l, core e e' -> nz (e' :: l) = nz (e :: l).
Proof. intros e e' l H. rewrite !nz_cons. unfold core in H. decompose [and] H. replace (e_id e') with (e_id e). reflexivity. Qed.

(** What a pass preserves. *)
Lemma PR_holds : forall pool l k d p ws, PR pool l k d p ws -> forall ctx, Forall fine_to l ->
  holds pool (nz l ++ ctx) ->
  holds p (nz k ++ map e_id d ++ ctx) /\ Forall fine_to k /\ Forall (fun e => fine_to e /\ finished e = true) d.
Proof.
  induction 1 as [pool l|pool e r k d p ws HF H IH|pool pool' id e r k d p ws H0 HF HG Hid H IH|pool pool' e r H0 HG|pool e e' r k d p ws HN HF HC H IH|pool e e1 e' w r k d p ws HN HF HC1 HC HW H IH|pool pool' e e1 r k d p ws HN HF HC HK HQ HO HE H IH]; intros ctx HFi HH.
  - cbn [map app]. auto.
  - inversion HFi; subst. pose proof (fine_finished _ H2 HF) as HN. rewrite nz_cons in HH.
    destruct (Z.eqb_spec (e_id e) 0); [ contradiction | ]. cbn [app] in HH.
    destruct (IH (e_id e :: ctx) H3) as (A & B & C).
    { eapply holds_perm; [ exact HH | ]. apply Permutation_middle. }
    split; [ | split; [ auto | constructor; auto ] ]. cbn [map app].
    eapply holds_perm; [ exact A | ]. rewrite !app_assoc.
    eapply Permutation_trans; [ | apply Permutation_middle ]. rewrite <- !app_assoc.
    apply Permutation_trans with (nz k ++ e_id e :: map e_id d ++ ctx).
    + apply Permutation_app_head. apply Permutation_sym, Permutation_middle.
    + apply Permutation_sym. apply Permutation_cons_app. reflexivity.
  - inversion HFi; subst. apply IH.
    + constructor; [ apply set_id_fine; auto | auto ].
    + rewrite nz_cons in *. cbn [set_id e_id]. rewrite H0 in HH. cbn [Z.eqb app] in HH.
      destruct (Z.eqb_spec id 0); [ contradiction | ]. cbn [app].
      destruct (holds_get _ _ HH) as (p' & id' & E & [(HV & HU & HH')|(Hi & _)]); rewrite HG in E; injection E as Ep Ei; subst; [ auto | contradiction ].
  - inversion HFi; subst. split; [ | split; [ constructor; [ apply set_last0_fine; auto | auto ] | constructor ] ].
    destruct (holds_get _ _ HH) as (p' & id' & E & [(HV & HU & HH')|(Hi & HH')]); rewrite HG in E; injection E as Ep Ei; subst.
    + destruct HV. lia.
    + cbn [map app]. rewrite nz_cons in *. cbn [set_last e_id]. exact HH'.
  - inversion HFi; subst. rewrite nz_cons in HH. destruct (Z.eqb_spec (e_id e) 0); [ contradiction | ]. cbn [app] in HH.
    destruct (IH (e_id e :: ctx) H3) as (A & B & C).
    { eapply holds_perm; [ exact HH | ]. apply Permutation_middle. }
    split; [ | split; [ constructor; [ eapply core_fine_to; eauto | auto ] | auto ] ].
    rewrite (nz_core _ _ _ HC), nz_cons. destruct (Z.eqb_spec (e_id e) 0); [ contradiction | ]. cbn [app].
    eapply holds_perm; [ exact A | ]. rewrite !app_assoc. apply Permutation_sym, Permutation_middle.
  - inversion HFi; subst. rewrite nz_cons in HH. destruct (Z.eqb_spec (e_id e) 0); [ contradiction | ]. cbn [app] in HH.
    destruct (IH (e_id e :: ctx) H3) as (A & B & C).
    { eapply holds_perm; [ exact HH | ]. apply Permutation_middle. }
    split; [ | split; [ constructor; [ eapply core_fine_to; eauto | auto ] | auto ] ].
    rewrite (nz_core _ _ _ HC), nz_cons. destruct (Z.eqb_spec (e_id e) 0); [ contradiction | ]. cbn [app].
    eapply holds_perm; [ exact A | ]. rewrite !app_assoc. apply Permutation_sym, Permutation_middle.
  - inversion HFi; subst. apply IH; [ auto | ]. rewrite nz_cons in HH. destruct (Z.eqb_spec (e_id e) 0); [ contradiction | ].
    cbn [app] in HH. destruct (holds_release _ _ _ HH) as (p' & E & HH'). unfold free_id in HE. rewrite HE in E. injection E as <-. exact HH'.
Qed.

(** The passes do not abort. *)
Lemma iterate_to_some : forall cf now l answers n pool ctx, Forall fine_to l -> holds pool (nz l ++ ctx) ->
  exists p, iterate cf now answers n pool l = Some p.
Proof.
  intros cf now l. induction l as [|e r IH]; intros answers n pool ctx HFi HH; [ eexists; reflexivity | ].
  inversion HFi; subst. rewrite iterate_step. destruct (finished e) eqn:EF.
  { pose proof (fine_finished _ H1 EF) as HN. rewrite nz_cons in HH. destruct (Z.eqb_spec (e_id e) 0); [ contradiction | ].
    destruct (IH answers n pool (e_id e :: ctx) H2) as (q & ->); [ | eexists; reflexivity ].
    eapply holds_perm; [ exact HH | ]. cbn [app]. apply Permutation_middle. }
  assert (HO : forall pool1 e1, e_id e1 <> 0 -> holds pool1 (e_id e1 :: nz r ++ ctx) ->
            exists p, iterate_one cf now answers n pool1 e1 r = Some p).
  { intros pool1 e1 HI HH1. assert (HH2 : holds pool1 (nz r ++ e_id e1 :: ctx)) by (eapply holds_perm; [ exact HH1 | apply Permutation_middle ]).
    destruct (one_cases cf now answers n pool1 e1 r) as [e' n' HC E|e' EHd HC E|e0 e' w EHd HC1 HC HW E|e0 e' w n' HC1 HC HW E|e0 full n' HC HK HQ HT E]; rewrite E.
    - destruct (IH answers n' pool1 (e_id e1 :: ctx) H2 HH2) as (q & ->). eexists; reflexivity.
    - eexists; reflexivity.
    - eexists; reflexivity.
    - destruct (IH (tl answers) n' pool1 (e_id e1 :: ctx) H2 HH2) as (q & ->). eexists; reflexivity.
    - unfold free_id. destruct (holds_release _ _ _ HH1) as (p' & -> & HH'). destruct full; [ eexists; reflexivity | ].
      destruct (IH (tl answers) n' p' ctx H2 HH') as (q & ->). eexists; reflexivity. }
  unfold ensure_id. destruct (Z.eqb_spec (e_id e) 0) as [H0|H0]; cbn [negb].
  - rewrite nz_cons, H0 in HH. cbn [Z.eqb app] in HH.
    destruct (holds_get _ _ HH) as (p' & id & -> & [(HV & HU & HH')|(-> & HH')]).
    + destruct (Z.eqb_spec id 0) as [->|Hid]; [ destruct HV; lia | ]. apply HO; auto.
    + eexists; reflexivity.
  - rewrite nz_cons in HH. destruct (Z.eqb_spec (e_id e) 0); [ contradiction | ]. apply HO; auto.
Qed.
Lemma iterate_from_some : forall cf now l answers n pool, Forall fine_from l ->
  exists p, iterate cf now answers n pool l = Some p.
Proof.
  intros cf now l. induction l as [|e r IH]; intros answers n pool HFi; [ eexists; reflexivity | ].
  inversion HFi; subst. rewrite iterate_step. destruct (finished e) eqn:EF.
  { destruct (IH answers n pool H2) as (q & ->). eexists; reflexivity. }
  unfold ensure_id. destruct H1 as (HK & HO & HN). destruct (Z.eqb_spec (e_id e) 0); [ contradiction | ]. cbn [negb].
  destruct (one_cases cf now answers n pool e r) as [e' n' HC E|e' EHd HC E|e0 e' w EHd HC1 HC HW E|e0 e' w n' HC1 HC HW E|e0 full n' HC HK' HQ HT E]; rewrite E.
  - destruct (IH answers n' pool H2) as (q & ->). eexists; reflexivity.
  - eexists; reflexivity.
  - eexists; reflexivity.
  - destruct (IH (tl answers) n' pool H2) as (q & ->). eexists; reflexivity.
  - congruence.
Qed.
Lemma PR_from : forall pool l k d p ws, PR pool l k d p ws -> Forall fine_from l ->
  p = pool /\ Forall fine_from k /\ Forall (fun e => fine_from e /\ finished e = true) d.
Proof.
  induction 1; intros HFi.
  - auto.
  - inversion HFi; subst. destruct (IHPR H4) as (-> & A & B). auto.
  - inversion HFi; subst. destruct H6 as (_ & _ & HN). contradiction.
  - inversion HFi; subst. destruct H3 as (_ & _ & HN). contradiction.
  - inversion HFi; subst. destruct (IHPR H6) as (-> & A & B). split; [ auto | split; [ constructor; [ eapply core_fine_from; eauto | auto ] | auto ] ].
  - inversion HFi; subst. destruct (IHPR H8) as (-> & A & B). split; [ auto | split; [ constructor; [ eapply core_fine_from; eauto | auto ] | auto ] ].
  - inversion HFi; subst. destruct H9 as (_ & HO & _). congruence.
Qed.

(** ** No aborts *)
Definition kept (e e' : entry) : Prop :=
  e_kind e' = e_kind e /\ e_msg e' = e_msg e /\ e_size e' = e_size e /\ e_qos e' = e_qos e /\ e_id e' = e_id e /\
  e_out e' = e_out e /\ e_until e' = e_until e /\ e_last e' = e_last e /\ e_dup e' = e_dup e.
Lemma kept_refl : forall e, kept e e. Proof. intros. unfold kept. auto 10. Qed.
Lemma ack_publish_kept : forall a f e e' f' del fl, ack_publish a f e = (e', f', del, fl) -> kept e e'.
Proof.
  intros a f e e' f' del fl H. unfold ack_publish in H.
  destruct a; cbv zeta in H; repeat ocases H; injection H as <- <- <- <-;
    try (injection Heqp as <- <- <-); unfold kept; auto 10;
    try (repeat ocases Heqp; injection Heqp as <- <- <-; auto 10).
Qed.
Lemma ack_publish_found : forall a f e e' f' del fl, ack_publish a f e = (e', f', del, fl) -> 0 <= f <= 1 ->
  (a <> Puback -> f = 0) -> 0 <= f' <= 1 /\ (fl <> FStop -> a <> Puback -> f' = 0).
Proof.
  intros a f e e' f' del fl H Hf HP. unfold ack_publish in H.
  destruct a; cbv zeta in H; repeat ocases H; injection H as <- <- <- <-;
    (split; [ try (assert (f = 0) by (apply HP; discriminate)); lia | intros; try congruence; try (apply HP; discriminate); lia ]).
Qed.
Definition ack_safe (a : ack) (out : bool) (e : entry) : Prop := ack_bug a out e = false.
Lemma ack_entry_some : forall a id out f e, plain a = true -> ack_safe a out e -> 0 <= f <= 1 -> (a <> Puback -> f = 0) ->
  exists e' f' del fl, ack_entry a id out f e = Some (e', f', del, fl) /\ kept e e' /\ 0 <= f' <= 1 /\
    (fl <> FStop -> a <> Puback -> f' = 0) /\ (e_id e <> id -> e' = e).
Proof.
  intros a id out f e HP HB Hf H0. unfold ack_entry. unfold ack_safe in HB. destruct (Z.eqb_spec (e_id e) id) as [E|E]; cbn [negb].
  - rewrite HB. destruct (e_kind e).
    + destruct (ack_publish a f e) as [[[e' f'] del] fl] eqn:EA. exists e', f', del, fl.
      destruct (ack_publish_found _ _ _ _ _ _ _ EA Hf H0). pose proof (ack_publish_kept _ _ _ _ _ _ _ EA). repeat split; auto; try apply H2; lia || congruence.
    + destruct a; try discriminate; do 4 eexists; (split; [ reflexivity | ]); pose proof (kept_refl e); repeat split; auto; lia.
    + destruct a; try discriminate; do 4 eexists; (split; [ reflexivity | ]); pose proof (kept_refl e); repeat split; auto; lia.
  - do 4 eexists; (split; [ reflexivity | ]); pose proof (kept_refl e); repeat split; auto; lia.
Qed.
Lemma ack_loop_some : forall a id out l f, plain a = true -> Forall (ack_safe a out) l -> 0 <= f <= 1 -> (a <> Puback -> f = 0) ->
  exists l' f' del err, ack_loop a id out f l = Some (l', f', del, err) /\ 0 <= f' <= 1 /\
    Forall2 (fun e e' => kept e e' /\ (e_id e <> id -> e' = e)) l l'.
Proof.
  intros a id out l. induction l as [|e r IH]; intros f HP HB Hf H0; cbn [ack_loop].
  - do 4 eexists; (split; [ reflexivity | ]). split; [ lia | constructor ].
  - inversion HB as [|? ? HB1 HB2]; subst. destruct (ack_entry_some a id out f e HP HB1 Hf H0) as (e' & f1 & del & fl & -> & HK & Hf1 & HS & HI).
    assert (HR : forall l, Forall2 (fun e e' => kept e e' /\ (e_id e <> id -> e' = e)) l l).
    { induction l; constructor; auto. split; [ apply kept_refl | auto ]. }
    destruct fl.
    + destruct (IH f1 HP HB2 Hf1) as (l' & f' & del' & err & -> & Hf' & HL); [ intros; apply HS; [ discriminate | auto ] | ].
      do 4 eexists; (split; [ reflexivity | ]). auto.
    + do 4 eexists; (split; [ reflexivity | ]). auto.
    + destruct (IH f1 HP HB2 Hf1) as (l' & f' & del' & err & -> & Hf' & HL); [ intros; apply HS; [ discriminate | auto ] | ].
      do 4 eexists; (split; [ reflexivity | ]). auto.
Qed.

Definition owned (g : list (entry * Z)) : list Z := map e_id (filter own (map fst g)).
Definition sinv (s : sess) : Prop :=
  holds (s_pool s) (nz (s_to s) ++ owned (s_grace s)) /\ Forall fine_to (s_to s ++ s_delayed s) /\
  nz (s_delayed s) = [] /\ Forall fine_from (s_from s).
Lemma sinv_new : sinv sess_new.
Proof. split; [ apply holds_init | ]. repeat split; constructor. Qed.

Lemma kept_from : forall e e', kept e e' -> fine_from e -> fine_from e'.
Proof. unfold kept, fine_from. intros e e' H (A & B & C). decompose [and] H. repeat split; congruence. Qed.
Lemma kept_to : forall e e', kept e e' -> e_id e <> 0 -> fine_to e -> fine_to e'.
Proof. unfold kept, fine_to. intros e e' H HN (A & B). decompose [and] H. split; [ congruence | intros; congruence ]. Qed.
Lemma safe_to : forall a l, plain a = true -> Forall fine_to l -> Forall (ack_safe a true) l.
Proof.
  intros a l HP. apply Forall_impl. intros e (HO & _). unfold ack_safe, ack_bug. rewrite HO. destruct a; try discriminate; destruct (e_kind e); reflexivity.
Qed.
Lemma safe_from : forall a l, plain a = true -> Forall fine_from l -> Forall (ack_safe a false) l.
Proof.
  intros a l HP. apply Forall_impl. intros e (HK & HO & _). unfold ack_safe, ack_bug. rewrite HK, HO. destruct a; try discriminate; reflexivity.
Qed.

Lemma process_ack_some : forall s a id out, sinv s -> plain a = true -> id <> 0 ->
  exists s' f del err, process_ack s a id out = Some (s', f, del, err) /\ sinv s' /\ 0 <= f <= 1.
Proof.
  intros s a id out (HH & HT & HD & HF) HP Hid. unfold process_ack. rewrite Forall_app in HT. destruct HT as [HT HT2].
  destruct out.
  - destruct (ack_loop_some a id true (s_to s) 0 HP (safe_to _ _ HP HT)) as (l & f & del & err & -> & Hf & HL); [ lia | auto | ].
    replace (negb err && (1 <? f)) with false by (destruct err; [ reflexivity | cbn [negb andb]; lia ]).
    do 4 eexists; (split; [ reflexivity | ]). split; [ | lia ].
    assert (HI : map e_id l = map e_id (s_to s)).
    { clear - HL. induction HL; cbn [map]; [ reflexivity | ]. destruct H as [H _]. unfold kept in H. decompose [and] H. congruence. }
    split; [ | split; [ | split; auto ] ]; cbn [s_to s_delayed s_from s_grace s_pool].
    + unfold nz in *. rewrite HI. exact HH.
    + apply Forall_app. split; [ | exact HT2 ]. clear - HL HT Hid. induction HL; [ constructor | ]. inversion HT; subst. constructor; [ | auto ].
      destruct H as [H H']. destruct (Z.eq_dec (e_id x) id) as [E|E]; [ apply (kept_to x); auto; congruence | rewrite H' by auto; auto ].
  - destruct (ack_loop_some a id false (s_from s) 0 HP (safe_from _ _ HP HF)) as (l & f & del & err & -> & Hf & HL); [ lia | auto | ].
    replace (negb err && (1 <? f)) with false by (destruct err; [ reflexivity | cbn [negb andb]; lia ]).
    do 4 eexists; (split; [ reflexivity | ]). split; [ | lia ].
    split; [ exact HH | split; [ apply Forall_app; auto | split; [ exact HD | ] ] ]. cbn [s_from].
    clear - HL HF. induction HL; [ constructor | ]. inversion HF; subst. constructor; [ | auto ]. destruct H as [H _]. apply (kept_from x); auto.
Qed.

Lemma send_now_some : forall s a id reason pre, sinv s -> plain a = true -> id <> 0 ->
  exists s' evs c, send_now s a id reason pre = Some (s', evs, c) /\ sinv s'.
Proof.
  intros s a id reason pre HI HP Hid. unfold send_now.
  destruct (process_ack_some s a id (send_out a) HI HP Hid) as (s' & f & del & err & -> & HI' & _). destruct err; eauto.
Qed.

Lemma insert_from : forall e l, fine_from e -> Forall fine_from l -> Forall fine_from (insert_id e l).
Proof. intros e l He. induction 1; cbn [insert_id]; [ auto | ]. destruct (e_id x <? e_id e); auto. Qed.

(** The packets a session can receive: identifiers are not zero (the parser refuses these),
    and no SUBACK or UNSUBACK, which only a client receives. *)
Lemma receive_some : forall cf now s w, sinv s -> wire_ok w ->
  exists s' evs c, receive cf now s w = Some (s', evs, c) /\ sinv s'.
Proof.
  intros cf now s w HI HW. destruct w as [msg size qos id dup|a id rs|id|id]; cbn [receive].
  - destruct HW as (Hq & HN). unfold handle_publish. destruct (Z.eqb_spec qos 0) as [->|H0]; [ eauto | ]. specialize (HN H0).
    assert (HIn : sinv (with_from s (insert_id (mk_e KPub msg size qos id dup now false 0 false false false false false) (s_from s)))).
    { destruct HI as (A & B & C & D). split; [ exact A | split; [ exact B | split; [ exact C | ] ] ]. cbn [with_from s_from].
      apply insert_from; auto. split; [ reflexivity | split; [ reflexivity | cbn; lia ] ]. }
    destruct (qos =? 1); [ apply send_now_some; auto; lia | ].
    destruct (find_qos2 id (s_from s)); [ | apply send_now_some; auto; lia ].
    destruct (_ || _); [ eauto | apply send_now_some; auto; lia ].
  - destruct HW as (HP & Hid).
    assert (HF : forall a, plain a = true -> exists s' evs c, handle_final s a id = Some (s', evs, c) /\ sinv s').
    { intros b Hb. unfold handle_final. destruct (process_ack_some s b id (recv_out b) HI Hb) as (s' & f & del & err & -> & HI' & _); [ lia | eauto ]. }
    assert (HM : forall a b, plain a = true -> plain b = true -> exists s' evs c, handle_middle cf s a b id = Some (s', evs, c) /\ sinv s').
    { intros b c Hb Hc. unfold handle_middle. destruct (process_ack_some s b id (recv_out b) HI Hb) as (s' & f & del & err & -> & HI' & _); [ lia | ].
      cbv zeta. destruct (_ && _); [ eauto | apply send_now_some; auto; lia ]. }
    destruct a; try discriminate; auto.
  - eauto.
  - eauto.
Qed.

Lemma owned_app : forall a b, owned (a ++ b) = owned a ++ owned b.
Proof. intros. unfold owned. rewrite map_app, filter_app, map_app. reflexivity. Qed.
Lemma fine_own : forall e, fine_to e -> own e = true.
Proof. intros e (H & _). unfold own. rewrite H. destruct (is_pub _); reflexivity. Qed.
Lemma owned_to : forall cf now l, Forall (fun e => fine_to e /\ finished e = true) l -> owned (to_grace cf now l) = map e_id l.
Proof.
  intros cf now l. unfold owned, to_grace. rewrite map_map, map_id. induction 1; [ reflexivity | ]. cbn [filter map].
  rewrite fine_own by apply H. cbn [map]. congruence.
Qed.
Lemma owned_from : forall cf now l, Forall (fun e => fine_from e /\ finished e = true) l -> owned (to_grace cf now l) = [].
Proof.
  intros cf now l. unfold owned, to_grace. rewrite map_map, map_id. induction 1; [ reflexivity | ]. cbn [filter map].
  destruct H as ((HK & HO & _) & _). unfold own at 1. rewrite HK, HO. cbn [is_pub negb orb]. auto.
Qed.

Lemma round_some : forall cf now a1 a2 s, sinv s ->
  exists s' evs c, round cf now a1 a2 s = Some (s', evs, c) /\ sinv s'.
Proof.
  intros cf now a1 a2 s (HH & HT & HD & HF). unfold round.
  assert (HH2 : holds (s_pool s) (nz (s_to s ++ s_delayed s) ++ owned (s_grace s))) by (rewrite nz_app, HD, app_nil_r; exact HH).
  destruct (iterate_to_some cf now _ a1 0 _ _ HT HH2) as (p & E). rewrite E.
  pose proof (iterate_PR _ _ _ _ _ _ _ E) as HP. destruct (PR_holds _ _ _ _ _ _ HP _ HT HH2) as (HH3 & HT3 & HD3).
  assert (HG : holds (p_pool p) (nz (p_keep p) ++ owned (s_grace s ++ to_grace cf now (p_done p)))).
  { rewrite owned_app, (owned_to _ _ _ HD3). eapply holds_perm; [ exact HH3 | ]. apply Permutation_app_head, Permutation_app_comm. }
  cbv zeta. destruct (p_err p).
  - do 3 eexists; (split; [ reflexivity | ]). split; [ exact HG | ]. cbn [s_to s_delayed s_from]. rewrite app_nil_r. auto.
  - destruct (iterate_from_some cf now _ a2 0 (p_pool p) HF) as (q & Eq). rewrite Eq.
    pose proof (iterate_PR _ _ _ _ _ _ _ Eq) as HQ. destruct (PR_from _ _ _ _ _ _ HQ HF) as (Ep & HF3 & HDq).
    do 3 eexists; (split; [ reflexivity | ]). split; [ | cbn [s_to s_delayed s_from]; rewrite app_nil_r; auto ].
    cbn [s_pool s_to s_grace]. rewrite Ep, owned_app, (owned_from _ _ _ HDq), app_nil_r. exact HG.
Qed.

Lemma grace_loop_some : forall now g pool l, holds pool (l ++ owned g) ->
  exists g' pool', grace_loop now pool g = Some (g', pool') /\ holds pool' (l ++ owned g').
Proof.
  intros now g. induction g as [|[e t] r IH]; intros pool l HH; cbn [grace_loop]; [ eauto | ].
  destruct (t <? now); [ | eauto ]. unfold owned in HH. cbn [map fst filter] in HH. destruct (own e); cbn [map] in HH.
  - assert (HH' : holds pool (e_id e :: l ++ owned r)) by (eapply holds_perm; [ exact HH | apply Permutation_sym, Permutation_middle ]).
    destruct (holds_release _ _ _ HH') as (p' & E & HH2). unfold free_id. rewrite E. apply IH. exact HH2.
  - apply IH. exact HH.
Qed.

Lemma step_some : forall cf s o, sinv s -> op_ok o -> exists s' evs c, step cf s o = Some (s', evs, c) /\ sinv s'.
Proof.
  intros cf s o HI HO. destruct o; cbn [step].
  - do 3 eexists; (split; [ reflexivity | ]). destruct HI as (A & B & C & D). split; [ | split; [ | split; auto ] ]; cbn [s_to s_delayed s_from s_grace s_pool].
    + rewrite nz_app. unfold nz at 2. cbn [new_entry map e_id filter Z.eqb negb]. rewrite app_nil_r. exact A.
    + rewrite !Forall_app in *. destruct B as [B1 B2]. repeat split; auto. constructor; [ | constructor ]. split; [ reflexivity | intros _; repeat split ].
  - do 3 eexists; (split; [ reflexivity | ]). destruct HI as (A & B & C & D). split; [ exact A | split; [ | split; [ | exact D ] ] ]; cbn [s_to s_delayed s_from s_grace s_pool].
    + rewrite !Forall_app in *. destruct B as [B1 B2]. repeat split; auto. constructor; [ | constructor ]. split; [ reflexivity | intros _; repeat split ].
    + rewrite nz_app, C. reflexivity.
  - apply receive_some; auto.
  - apply round_some; auto.
  - unfold forget. destruct HI as (A & B). destruct (grace_loop_some now (s_grace s) (s_pool s) (nz (s_to s)) A) as (g & pool & -> & HH).
    do 3 eexists; (split; [ reflexivity | ]). split; auto.
Qed.
Lemma run_some : forall cf ops s, sinv s -> Forall op_ok ops -> exists s' t, run cf s ops = Some (s', t) /\ sinv s'.
Proof.
  intros cf ops. induction ops as [|o r IH]; intros s HI HO; cbn [run]; [ eauto | ]. inversion HO; subst.
  destruct (step_some cf s o HI H1) as (s1 & evs & c & -> & HI1). destruct (IH s1 HI1 H2) as (s2 & t & -> & HI2). eauto.
Qed.
