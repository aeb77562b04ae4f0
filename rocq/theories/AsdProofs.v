(** Invariants of clients and receiver: no abort, no loss. *)
From Coq Require Import ZArith List Bool Lia Sorting.Sorted.
From Verif Require Import Common ReadModel AsdModel AsdSpec AsdQueue.
Import ListNotations.
Open Scope Z_scope.

(** ** Control frames *)
Lemma ctl_split_join : forall f i, 0 <= f < 2^32 -> 0 <= i < 2^32 -> ctl_split (ctl_join f i) = (f, i).
Proof.
  intros f i Hf Hi. unfold ctl_split, ctl_join.
  assert (E : Z.lor (Z.shiftl f 32) i = f * 2^32 + i).
  { rewrite Z.shiftl_mul_pow2 by lia. apply lor_add with (k := 32); lia. }
  rewrite E. f_equal.
  - rewrite Z.shiftr_div_pow2 by lia. unfold u32. rewrite Z.div_add_l by lia. rewrite (Z.div_small i) by lia. rewrite Z.add_0_r. apply Z.mod_small. lia.
  - change (2^32 - 1) with (Z.ones 32). rewrite Z.land_ones by lia. rewrite Z.add_comm, Z.mod_add by lia. apply Z.mod_small. lia.
Qed.
Lemma split_rack : forall i, 0 <= i < 2^32 -> ctl_split (ctl_join RACK i) = (RACK, i). Proof. intros. apply ctl_split_join; [ unfold RACK; lia | assumption ]. Qed.
Lemma split_dack : forall i, 0 <= i < 2^32 -> ctl_split (ctl_join DACK i) = (DACK, i). Proof. intros. apply ctl_split_join; [ unfold DACK; lia | assumption ]. Qed.
Lemma split_cack : forall i, 0 <= i < 2^32 -> ctl_split (ctl_join CACK i) = (CACK, i). Proof. intros. apply ctl_split_join; [ unfold CACK; lia | assumption ]. Qed.

(** ** Flags *)
Definition flags_ok (f : Z) : Prop := In f [0; 1; 2; 3; 6; 7].
Lemma flags_cases : forall f, flags_ok f -> has f CACK = false /\ flags_ok (Z.lor f DACK) /\ has (Z.lor f DACK) DACK = true /\
  (((f =? 0) || (f =? MSG) = true /\ has f DACK = false /\ flags_ok (Z.lor f MSG) /\ has (Z.lor f MSG) DACK = false) \/
   ((f =? 0) || (f =? MSG) = false /\ has f DACK = true /\ flags_ok (Z.lor f RACK) /\ has (Z.lor f RACK) DACK = true)).
Proof.
  intros f H. unfold flags_ok in *. cbn [In] in H. destruct H as [ <- | [ <- | [ <- | [ <- | [ <- | [ <- | [] ] ] ] ] ] ]; vm_compute; tauto.
Qed.

(** ** The send queue *)
Definition key (e : sent) : Z * message := (t_id e, t_msg e).
Definition same_entry (e e' : sent) : Prop := key e' = key e /\ flags_ok (t_flags e') /\ has (t_flags e') DACK = has (t_flags e) DACK.
Lemma send_tasks_ok : forall now q room, Forall (fun e => flags_ok (t_flags e)) q ->
  exists q' ms cs, send_tasks now room q = Ok (q', ms, cs) /\ Forall2 same_entry q q' /\
    (forall x, In x ms -> exists e, In e q /\ x = key e /\ has (t_flags e) DACK = false) /\
    (forall a, In a cs -> exists e, In e q /\ a = ctl_join RACK (t_id e) /\ has (t_flags e) DACK = true).
Proof.
  intros now. induction q as [ | e q IH ]; intros room F; cbn [send_tasks].
  - exists [], [], []. split; [ reflexivity | ]. split; [ constructor | ]. split; intros ? [].
  - inversion F as [ | ? ? F1 F2 ]; subst. destruct (flags_cases (t_flags e) F1) as (C & _ & _ & [ (K1 & K2 & K3 & K4) | (K1 & K2 & K3 & K4) ]); rewrite C.
    + destruct (negb (due now e)).
      * destruct (IH room F2) as (q' & ms & cs & R & S1 & S2 & S3). rewrite R. exists (e :: q'), ms, cs. split; [ reflexivity | ].
        split; [ constructor; [ repeat split; auto | exact S1 ] | ].
        split; intros x I; [ destruct (S2 x I) as (y & Y1 & Y2) | destruct (S3 x I) as (y & Y1 & Y2) ]; exists y; split; auto; right; auto.
      * rewrite K1. destruct room as [ | room ].
        -- destruct (IH O F2) as (q' & ms & cs & R & S1 & S2 & S3). rewrite R. eexists _, ms, cs. split; [ reflexivity | ].
           split; [ constructor; [ repeat split; auto | exact S1 ] | ].
           split; intros x I; [ destruct (S2 x I) as (y & Y1 & Y2) | destruct (S3 x I) as (y & Y1 & Y2) ]; exists y; split; auto; right; auto.
        -- destruct (IH room F2) as (q' & ms & cs & R & S1 & S2 & S3). rewrite R. eexists _, _, cs. split; [ reflexivity | ].
           split; [ constructor; [ repeat split; cbn [t_flags]; [ auto | congruence ] | exact S1 ] | ].
           split; intros x I.
           ++ destruct I as [ <- | I ]; [ exists e; split; [ left; reflexivity | split; [ reflexivity | exact K2 ] ] | ].
              destruct (S2 x I) as (y & Y1 & Y2). exists y. split; [ right; exact Y1 | exact Y2 ].
           ++ destruct (S3 x I) as (y & Y1 & Y2). exists y. split; [ right; exact Y1 | exact Y2 ].
    + destruct (negb (due now e)).
      * destruct (IH room F2) as (q' & ms & cs & R & S1 & S2 & S3). rewrite R. exists (e :: q'), ms, cs. split; [ reflexivity | ].
        split; [ constructor; [ repeat split; auto | exact S1 ] | ].
        split; intros x I; [ destruct (S2 x I) as (y & Y1 & Y2) | destruct (S3 x I) as (y & Y1 & Y2) ]; exists y; split; auto; right; auto.
      * rewrite K1, K2. destruct (IH room F2) as (q' & ms & cs & R & S1 & S2 & S3). rewrite R. eexists _, ms, _. split; [ reflexivity | ].
        split; [ constructor; [ repeat split; cbn [t_flags]; [ auto | congruence ] | exact S1 ] | ].
        split; intros x I.
        -- destruct (S2 x I) as (y & Y1 & Y2). exists y. split; [ right; exact Y1 | exact Y2 ].
        -- destruct I as [ <- | I ]; [ exists e; split; [ left; reflexivity | split; [ reflexivity | exact K2 ] ] | ].
           destruct (S3 x I) as (y & Y1 & Y2). exists y. split; [ right; exact Y1 | exact Y2 ].
Qed.
Lemma same_ids : forall q q', Forall2 same_entry q q' -> map t_id q' = map t_id q.
Proof. induction 1 as [ | e e' q q' H F IH ]; cbn [map]; [ reflexivity | ]. destruct H as (K & _). unfold key in K. congruence. Qed.
Lemma same_in : forall q q' e', Forall2 same_entry q q' -> In e' q' -> exists e, In e q /\ same_entry e e'.
Proof.
  induction 1 as [ | x x' q q' H F IH ]; intros I; [ destruct I | ]. destruct I as [ <- | I ]; [ exists x; split; [ left; reflexivity | exact H ] | ].
  destruct (IH I) as (e & I1 & I2). exists e. split; [ right; exact I1 | exact I2 ].
Qed.
Lemma same_len : forall q q', Forall2 same_entry q q' -> zlen q' = zlen q.
Proof. induction 1; [ reflexivity | ]. rewrite !zlen_cons. lia. Qed.

(** ** Release queues *)
Lemma queue_of_set : forall qs n c q d, queue_of (mk_receiver (set_queue qs c q) n) d = if d =? c then q else queue_of (mk_receiver qs n) d.
Proof.
  intros qs n c q d. unfold queue_of. cbn [r_queues]. induction qs as [ | (x, y) qs IH ]; cbn [set_queue find fst].
  - rewrite (Z.eqb_sym c d). destruct (d =? c); reflexivity.
  - destruct (Z.eqb_spec x c) as [->|NE]; cbn [find fst snd].
    + rewrite (Z.eqb_sym c d). destruct (d =? c); reflexivity.
    + destruct (Z.eqb_spec x d) as [->|ND].
      * destruct (Z.eqb_spec d c); [ congruence | reflexivity ].
      * exact IH.
Qed.
Lemma queue_of_started : forall qs n m d, queue_of (mk_receiver qs n) d = queue_of (mk_receiver qs m) d. Proof. reflexivity. Qed.
Lemma queue_of_clear : forall r n c d, queue_of (mk_receiver (map (fun p : Z * list held => if fst p =? c then (fst p, []) else p) (r_queues r)) n) d = if d =? c then [] else queue_of r d.
Proof.
  intros r n c d. unfold queue_of. cbn [r_queues]. induction (r_queues r) as [ | (x, y) qs IH ]; cbn [map find fst snd].
  - destruct (d =? c); reflexivity.
  - destruct (Z.eqb_spec x c) as [->|NE]; cbn [fst].
    + rewrite (Z.eqb_sym c d). destruct (Z.eqb_spec d c); [ reflexivity | exact IH ].
    + destruct (Z.eqb_spec x d) as [->|ND].
      * destruct (Z.eqb_spec d c); [ congruence | reflexivity ].
      * exact IH.
Qed.
Lemma maintain_queues_0 : forall qs n, 0 <= n -> 0 <= snd (maintain_queues qs n).
Proof.
  induction qs as [ | (c, q) qs IH ]; intros n H; cbn [maintain_queues]; [ exact H | ]. specialize (IH 0 ltac:(lia)). destruct (maintain_queues qs 0). exact IH.
Qed.
Lemma update_grace_0 : forall q, update_grace q 0 = q.
Proof.
  induction q as [ | e q IH ]; cbn [update_grace]; [ reflexivity | ]. rewrite IH, Z.sub_0_r.
  destruct (Z.ltb_spec 0 (h_grace e)); [ | reflexivity ]. destruct (Z.leb_spec (h_grace e) 0); [ lia | ]. destruct e; reflexivity.
Qed.
Lemma maintain_queues_of : forall qs n m d, exists k, (k = n \/ k = 0) /\
  queue_of (mk_receiver (fst (maintain_queues qs n)) m) d = update_grace (queue_of (mk_receiver qs m) d) k.
Proof.
  unfold queue_of. cbn [r_queues]. induction qs as [ | (c, q) qs IH ]; intros n m d; cbn [maintain_queues].
  - exists n. split; [ auto | reflexivity ].
  - specialize (IH 0 m d). destruct (maintain_queues qs 0) as (r', n'). cbn [fst find snd] in *. destruct (c =? d); [ exists n; auto | ].
    destruct IH as (k & K & E). exists k. split; [ destruct K; auto | exact E ].
Qed.
Lemma maintain_of : forall r d, exists k, (k = r_started r \/ k = 0) /\ queue_of (maintain r) d = update_grace (queue_of r d) k.
Proof.
  intros r d. unfold maintain. destruct (maintain_queues_of (r_queues r) (r_started r) (snd (maintain_queues (r_queues r) (r_started r))) d) as (k & K & E).
  destruct (maintain_queues (r_queues r) (r_started r)) as (qs, n). exists k. split; [ exact K | exact E ].
Qed.
Definition kept (k : Z) (e0 e : held) : Prop :=
  h_id e = h_id e0 /\ h_msg e = h_msg e0 /\ ((h_grace e0 <= 0 /\ h_grace e = h_grace e0) \/ (0 < h_grace e0 /\ h_grace e = h_grace e0 - k /\ 0 < h_grace e)).
Lemma update_grace_in : forall q k e, In e (update_grace q k) -> exists e0, In e0 q /\ kept k e0 e.
Proof.
  induction q as [ | x q IH ]; intros k e I; cbn [update_grace] in I; [ destruct I | ].
  assert (G : In e (update_grace q k) -> exists e0, In e0 (x :: q) /\ kept k e0 e) by (intros J; destruct (IH k e J) as (y & Y1 & Y2); exists y; split; [ right; exact Y1 | exact Y2 ]).
  destruct (Z.ltb_spec 0 (h_grace x)); [ destruct (Z.leb_spec (h_grace x - k) 0) | ]; [ auto | | ].
  - destruct I as [ <- | I ]; [ | auto ]. exists x. split; [ left; reflexivity | ]. repeat split. right. cbn [h_grace]. lia.
  - destruct I as [ <- | I ]; [ | auto ]. exists x. split; [ left; reflexivity | ]. repeat split. left. lia.
Qed.
Lemma update_grace_keeps : forall q k e0, In e0 q -> h_grace e0 <= 0 \/ k < h_grace e0 -> exists e, In e (update_grace q k) /\ kept k e0 e.
Proof.
  induction q as [ | x q IH ]; intros k e0 I H; [ destruct I | ]. cbn [update_grace].
  destruct I as [ <- | I ].
  - destruct (Z.ltb_spec 0 (h_grace x)); [ destruct (Z.leb_spec (h_grace x - k) 0); [ lia | ] | ].
    + eexists. split; [ left; reflexivity | ]. repeat split. right. cbn [h_grace]. lia.
    + exists x. split; [ left; reflexivity | ]. repeat split. left. lia.
  - destruct (IH k e0 I H) as (e & E1 & E2).
    exists e. split; [ | exact E2 ]. destruct (0 <? h_grace x); [ destruct (h_grace x - k <=? 0) | ]; [ exact E1 | right; exact E1 | right; exact E1 ].
Qed.
Lemma update_grace_sorted : forall q k, sorted held h_id q -> sorted held h_id (update_grace q k).
Proof.
  induction q as [ | x q IH ]; intros k H; cbn [update_grace]; [ exact H | ]. apply sorted_cons in H. destruct H as [H1 H2]. specialize (IH k H1).
  assert (B : forall y, In y (update_grace q k) -> h_id x < h_id y) by (intros y I; destruct (update_grace_in q k y I) as (e0 & I0 & (K & _)); rewrite K; auto).
  destruct (0 <? h_grace x); [ destruct (h_grace x - k <=? 0) | ]; [ exact IH | | ]; apply sorted_cons; split; auto.
Qed.

(** ** Nothing aborts *)
Record wf (n : Z -> Z) (s : system) : Prop := {
  wf_sorted : forall c, sorted sent t_id (c_queue (s_client s c));
  wf_ids : forall c e, In e (c_queue (s_client s c)) -> 1 <= t_id e <= c_pos (s_client s c);
  wf_flags : forall c e, In e (c_queue (s_client s c)) -> flags_ok (t_flags e);
  wf_pos : forall c, 0 <= c_pos (s_client s c) <= n c;
  wf_count : forall c, zlen (c_queue (s_client s c)) <= 500;
  wf_held : forall c, sorted held h_id (queue_of (s_receiver s) c);
  wf_grace : forall c e, In e (queue_of (s_receiver s) c) -> 0 <= h_grace e;
  wf_started : 0 <= r_started (s_receiver s) }.
Definition tally (o : op) (c : Z) : Z := match o with Queue d _ => if d =? c then 1 else 0 | _ => 0 end.

Lemma set_same : forall A (f : Z -> A) c x, set f c x c = x. Proof. intros. unfold set. rewrite Z.eqb_refl. reflexivity. Qed.
Lemma set_other : forall A (f : Z -> A) c x d, d <> c -> set f c x d = f d. Proof. intros A f c x d H. unfold set. destruct (Z.eqb_spec d c); [ congruence | reflexivity ]. Qed.

Lemma queue_message_ok : forall k m, sorted sent t_id (c_queue k) -> (forall e, In e (c_queue k) -> 1 <= t_id e <= c_pos k) -> 0 <= c_pos k < 2^32 - 1 ->
  (zlen (c_queue k) >= 500 /\ queue_message k m = Ok (k, None)) \/
  (zlen (c_queue k) < 500 /\ exists q', queue_message k m = Ok (mk_client q' (c_pos k + 1), Some (c_pos k + 1)) /\ sorted sent t_id q' /\
     (forall e, In e q' <-> e = mk_sent (c_pos k + 1) m 0 0 \/ In e (c_queue k)) /\ zlen q' = zlen (c_queue k) + 1).
Proof.
  intros k m H I P. unfold queue_message. change ASD_BUFFER_MAX with 500. destruct (Z.leb_spec 500 (zlen (c_queue k))); [ left; split; [ lia | reflexivity ] | right ].
  split; [ assumption | ]. cbv zeta. assert (U : u32 (c_pos k + 1) = c_pos k + 1) by (unfold u32; apply Z.mod_small; lia). rewrite U.
  destruct (Z.eqb_spec (c_pos k + 1) 0); [ lia | ]. destruct (q_find sent t_id (c_queue k) (c_pos k + 1)) as [ e | ] eqn:F.
  { apply q_find_some in F. destruct F as [I1 I2]. specialize (I e I1). lia. }
  destruct (q_insert_in sent t_id (c_queue k) (mk_sent (c_pos k + 1) m 0 0) H) as (q' & Q & S1 & [ (J & _) | (_ & S2 & S3) ]).
  { cbn [t_id] in J. apply in_map_iff in J. destruct J as (e & EQ & J). specialize (I e J). lia. }
  rewrite Q. exists q'. auto.
Qed.
Lemma collect_ok : forall r c i m, sorted held h_id (queue_of r c) -> exists q', collect r c i m = Some (mk_receiver (set_queue (r_queues r) c q') (r_started r)) /\
  sorted held h_id q' /\
  ((In i (map h_id (queue_of r c)) /\ q' = queue_of r c) \/
   (~ In i (map h_id (queue_of r c)) /\ (forall e, In e q' <-> e = mk_held i m 0 \/ In e (queue_of r c)) /\ zlen q' = zlen (queue_of r c) + 1)).
Proof.
  intros r c i m H. unfold collect. destruct (q_insert_in held h_id (queue_of r c) (mk_held i m 0) H) as (q' & Q & S1 & S2). rewrite Q. exists q'. auto.
Qed.
(** What a control frame does to the receiver *)
Definition taken (c : Z) (r r' : receiver) (d : list (Z * message)) (e : held) : Prop :=
  h_grace e = 0 /\ In e (queue_of r c) /\ d = [(h_id e, h_msg e)] /\ r_started r' = r_started r + 1 /\
  r' = mk_receiver (set_queue (r_queues r) c (map (fun x => if h_id x =? h_id e then mk_held (h_id x) (h_msg x) ASD_GRACE else x) (queue_of r c))) (r_started r + 1).
Lemma receiver_rack : forall accept r c i, sorted held h_id (queue_of r c) -> 0 <= i < 2^32 ->
  exists r' d cs, receiver_control accept r c (ctl_join RACK i) = (r', d, cs) /\
    ((r' = r /\ d = [] /\ cs = []) \/
     (r' = r /\ d = [] /\ cs = [ctl_join CACK i] /\ (~ In i (map h_id (queue_of r c)) \/ exists e, In e (queue_of r c) /\ h_id e = i /\ h_grace e <> 0)) \/
     (cs = [ctl_join CACK i] /\ exists e, taken c r r' d e /\ h_id e = i)).
Proof.
  intros accept r c i H R. unfold receiver_control. rewrite split_rack by assumption. change (RACK =? RACK) with true. cbv iota.
  destruct (q_find held h_id (queue_of r c) i) as [ e | ] eqn:F.
  - apply q_find_some in F. destruct F as [I EQ]. unfold deliver. destruct (Z.eqb_spec (h_grace e) 0) as [G|G]; cbn [negb].
    + destruct accept.
      * eexists _, _, _. split; [ reflexivity | ]. right. right. split; [ reflexivity | ]. exists e. split; [ | exact EQ ]. repeat split; auto. rewrite q_change_map by assumption. reflexivity.
      * exists r, [], []. split; [ reflexivity | ]. left. auto.
    + eexists _, _, _. split; [ reflexivity | ]. right. left. repeat split. right. eauto.
  - eexists _, _, _. split; [ reflexivity | ]. right. left. repeat split. left. intros I. apply in_map_iff in I. destruct I as (e & EQ & I).
    exact (q_find_none held h_id _ _ H F e I EQ).
Qed.
Lemma receiver_any : forall accept r c app, sorted held h_id (queue_of r c) ->
  exists r' d cs, receiver_control accept r c app = (r', d, cs) /\
    (r' = r \/ (exists e, taken c r r' d e) \/ r' = mk_receiver (map (fun p => if fst p =? c then (fst p, []) else p) (r_queues r)) (r_started r)).
Proof.
  intros accept r c app H. unfold receiver_control. destruct (ctl_split app) as (f, i). destruct (f =? RACK).
  - destruct (q_find held h_id (queue_of r c) i) as [ e | ] eqn:F.
    + apply q_find_some in F. destruct F as [I EQ]. unfold deliver. destruct (Z.eqb_spec (h_grace e) 0) as [G|G]; cbn [negb].
      * destruct accept.
        -- eexists _, _, _. split; [ reflexivity | ]. right. left. exists e. repeat split; auto. rewrite q_change_map by assumption. reflexivity.
        -- eexists _, _, _. split; [ reflexivity | auto ].
      * eexists _, _, _. split; [ reflexivity | auto ].
    + eexists _, _, _. split; [ reflexivity | auto ].
  - destruct (f =? RST); eexists _, _, _; (split; [ reflexivity | auto ]).
Qed.
Lemma taken_queue : forall c r r' d e x, taken c r r' d e ->
  queue_of r' x = if x =? c then map (fun y => if h_id y =? h_id e then mk_held (h_id y) (h_msg y) ASD_GRACE else y) (queue_of r c) else queue_of r x.
Proof. intros c r r' d e x (_ & _ & _ & _ & ->). rewrite queue_of_set. reflexivity. Qed.

Lemma step_wf : forall n s o, wf n s -> (forall c, n c + tally o c < 2^32 - 1) ->
  exists s', step s o = Ok s' /\ wf (fun c => n c + tally o c) s'.
Proof.
  intros n s o W B.
  assert (B0 : forall c, 0 <= c_pos (s_client s c) < 2^32 - 1).
  { intros c. pose proof (wf_pos n s W c). specialize (B c). assert (0 <= tally o c) by (destruct o; cbn [tally]; try lia; destruct (_ =? _); lia). lia. }
  assert (T : forall c, n c <= n c + tally o c) by (intros c; destruct o; cbn [tally]; try lia; destruct (_ =? _); lia).
  destruct o as [ c m | c now room | c k | c | c k accept | | c now | c | ]; cbn [step].
  - destruct (queue_message_ok (s_client s c) m (wf_sorted n s W c) (wf_ids n s W c) (B0 c)) as [ (_ & E) | (L & q' & E & S1 & S2 & S3) ]; rewrite E.
    + eexists. split; [ reflexivity | ]. destruct W. constructor; auto. intros d. specialize (wf_pos0 d). specialize (T d). lia.
    + eexists. split; [ reflexivity | ]. constructor; cbn [s_client s_receiver]; try (apply W).
      * intros d. destruct (Z.eq_dec d c) as [->|N]; [ rewrite set_same; exact S1 | rewrite set_other by assumption; apply W ].
      * intros d e. destruct (Z.eq_dec d c) as [->|N]; [ rewrite set_same; cbn [c_queue c_pos] | rewrite set_other by assumption; apply W ].
        intros I. apply S2 in I. specialize (B0 c). destruct I as [ -> | I ]; [ cbn [t_id]; lia | pose proof (wf_ids n s W c e I); lia ].
      * intros d e. destruct (Z.eq_dec d c) as [->|N]; [ rewrite set_same; cbn [c_queue] | rewrite set_other by assumption; apply W ].
        intros I. apply S2 in I. destruct I as [ -> | I ]; [ cbn [t_flags]; left; reflexivity | apply (wf_flags n s W c e I) ].
      * intros d. pose proof (wf_pos n s W d). destruct (Z.eq_dec d c) as [->|N]; [ rewrite set_same; cbn [c_pos tally]; rewrite Z.eqb_refl; lia | rewrite set_other by assumption; specialize (T d); lia ].
      * intros d. destruct (Z.eq_dec d c) as [->|N]; [ rewrite set_same; cbn [c_queue]; lia | rewrite set_other by assumption; apply W ].
  - destruct (send_tasks_ok now (c_queue (s_client s c)) room) as (q' & ms & cs & E & S1 & _ & _).
    { rewrite Forall_forall. apply (wf_flags n s W c). }
    rewrite E. eexists. split; [ reflexivity | ]. pose proof (same_ids _ _ S1) as SI. constructor; cbn [s_client s_receiver]; try (apply W).
    + intros d. destruct (Z.eq_dec d c) as [->|N]; [ rewrite set_same; cbn [c_queue]; unfold sorted; rewrite SI; apply W | rewrite set_other by assumption; apply W ].
    + intros d e. destruct (Z.eq_dec d c) as [->|N]; [ rewrite set_same; cbn [c_queue c_pos] | rewrite set_other by assumption; apply W ].
      intros I. destruct (same_in _ _ e S1 I) as (e0 & I0 & (K & _)). injection K as K1 K2. rewrite K1. apply (wf_ids n s W c e0 I0).
    + intros d e. destruct (Z.eq_dec d c) as [->|N]; [ rewrite set_same; cbn [c_queue] | rewrite set_other by assumption; apply W ].
      intros I. destruct (same_in _ _ e S1 I) as (e0 & I0 & (_ & K & _)). exact K.
    + intros d. pose proof (wf_pos n s W d). specialize (T d). destruct (Z.eq_dec d c) as [->|N]; [ rewrite set_same; cbn [c_pos]; lia | rewrite set_other by assumption; lia ].
    + intros d. destruct (Z.eq_dec d c) as [->|N]; [ rewrite set_same; cbn [c_queue]; rewrite (same_len _ _ S1); apply W | rewrite set_other by assumption; apply W ].
  - destruct (nth_error (s_down s c) k) as [ app | ].
    2: { eexists. split; [ reflexivity | ]. destruct W. constructor; auto. intros d. specialize (wf_pos0 d). specialize (T d). lia. }
    destruct (client_control (s_client s c) app) as (k', cs) eqn:E. eexists. split; [ reflexivity | ].
    assert (K : c_pos k' = c_pos (s_client s c) /\ sorted sent t_id (c_queue k') /\ zlen (c_queue k') <= 500 /\
      forall e, In e (c_queue k') -> exists e0, In e0 (c_queue (s_client s c)) /\ t_id e = t_id e0 /\ flags_ok (t_flags e)).
    { unfold client_control in E. destruct (ctl_split app) as (f, i). pose proof (wf_sorted n s W c) as HS. pose proof (wf_flags n s W c) as HF. pose proof (wf_count n s W c) as HC. destruct (f =? DACK); [ | destruct (f =? CACK) ]; injection E as <- _; cbn [c_queue c_pos].
      - rewrite q_change_map by assumption. repeat split.
        + apply sorted_map; [ intros e; destruct (t_id e =? i); reflexivity | exact HS ].
        + rewrite zlen_map. exact HC.
        + intros e I. apply in_map_iff in I. destruct I as (e0 & <- & I). exists e0. split; [ exact I | ]. destruct (t_id e0 =? i); cbn [t_id t_flags]; split; auto.
          apply flags_cases, HF, I.
      - destruct (q_remove_in sent t_id _ i HS) as [R1 R2]. repeat split; [ exact R1 | pose proof (q_remove_len sent t_id (c_queue (s_client s c)) i); lia | ].
        intros e I. apply R2 in I. destruct I as [I _]. exists e. auto.
      - repeat split; auto. intros e I. exists e. auto. }
    destruct K as (K1 & K2 & K3 & K4). constructor; cbn [s_client s_receiver]; try (apply W).
    + intros d. destruct (Z.eq_dec d c) as [->|N]; [ rewrite set_same; exact K2 | rewrite set_other by assumption; apply W ].
    + intros d e. destruct (Z.eq_dec d c) as [->|N]; [ rewrite set_same, K1 | rewrite set_other by assumption; apply W ].
      intros I. destruct (K4 e I) as (e0 & I0 & -> & _). apply (wf_ids n s W c e0 I0).
    + intros d e. destruct (Z.eq_dec d c) as [->|N]; [ rewrite set_same | rewrite set_other by assumption; apply W ].
      intros I. destruct (K4 e I) as (e0 & I0 & _ & K). exact K.
    + intros d. pose proof (wf_pos n s W d). specialize (T d). destruct (Z.eq_dec d c) as [->|N]; [ rewrite set_same, K1; lia | rewrite set_other by assumption; lia ].
    + intros d. destruct (Z.eq_dec d c) as [->|N]; [ rewrite set_same; exact K3 | rewrite set_other by assumption; apply W ].
  - assert (W0 : wf (fun d => n d + tally (Data c) d) s) by (destruct W; constructor; auto; intros d; specialize (wf_pos0 d); specialize (T d); lia).
    destruct (s_channel s c) as [ | (i, m) rest ]; [ eauto | ]. destruct (possible (s_receiver s)); [ | eauto ].
    unfold receive_message. destruct (2^32 - 1 <? i).
    { eexists. split; [ reflexivity | ]. constructor; cbn [s_client s_receiver]; apply W0. }
    destruct (collect_ok (s_receiver s) c (u32 i) m (wf_held n s W c)) as (q' & Q & S1 & S2). rewrite Q. eexists. split; [ reflexivity | ].
    constructor; cbn [s_client s_receiver r_started]; try (apply W0).
    + intros d. rewrite queue_of_set. destruct (d =? c); [ exact S1 | apply W ].
    + intros d e. rewrite queue_of_set. destruct (d =? c); [ | apply W ]. intros I. destruct S2 as [ (_ & ->) | (_ & S2 & _) ]; [ apply (wf_grace n s W c e I) | ].
      apply S2 in I. destruct I as [ -> | I ]; [ cbn [h_grace]; lia | apply (wf_grace n s W c e I) ].
  - assert (W0 : wf (fun d => n d + tally (ToReceiver c k accept) d) s) by (destruct W; constructor; auto; intros d; specialize (wf_pos0 d); specialize (T d); lia).
    destruct (nth_error (s_up s c) k) as [ app | ]; [ | eauto ].
    destruct (receiver_any accept (s_receiver s) c app (wf_held n s W c)) as (r' & d & cs & E & C). rewrite E. eexists. split; [ reflexivity | ].
    destruct C as [ -> | [ (e & TK) | -> ] ]; constructor; cbn [s_client s_receiver]; try (apply W0).
    + intros x. rewrite (taken_queue _ _ _ _ _ x TK). destruct (x =? c); [ | apply W ]. apply sorted_map; [ intros y; destruct (h_id y =? h_id e); reflexivity | apply W ].
    + intros x y. rewrite (taken_queue _ _ _ _ _ x TK). destruct (x =? c); [ | apply W ]. intros I. apply in_map_iff in I. destruct I as (z & <- & I).
      destruct (h_id z =? h_id e); [ cbn [h_grace]; unfold ASD_GRACE; lia | apply (wf_grace n s W c z I) ].
    + destruct TK as (_ & _ & _ & -> & _). pose proof (wf_started n s W). lia.
    + intros x. rewrite queue_of_clear. destruct (x =? c); [ apply sorted_nil | apply W ].
    + intros x y. rewrite queue_of_clear. destruct (x =? c); [ intros [] | apply W ].
  - assert (W0 : wf (fun d => n d + tally Maintain d) s) by (destruct W; constructor; auto; intros d; specialize (wf_pos0 d); specialize (T d); lia).
    eexists. split; [ reflexivity | ]. constructor; cbn [s_client s_receiver]; try (apply W0).
    + intros d. destruct (maintain_of (s_receiver s) d) as (k & _ & ->). apply update_grace_sorted, W.
    + intros d e. destruct (maintain_of (s_receiver s) d) as (k & _ & ->). intros I. destruct (update_grace_in _ _ _ I) as (e0 & I0 & (_ & _ & K)).
      pose proof (wf_grace n s W d e0 I0). lia.
    + unfold maintain. pose proof (maintain_queues_0 (r_queues (s_receiver s)) (r_started (s_receiver s)) (wf_started n s W)) as K.
      destruct (maintain_queues (r_queues (s_receiver s)) (r_started (s_receiver s))). exact K.
  - eexists. split; [ reflexivity | ].
    assert (K : forall e, t_id (if t_time e =? 0 then e else mk_sent (t_id e) (t_msg e) (t_flags e) (u64 (now - 2 * ASD_RESEND_INTERVAL))) = t_id e) by (intros e; destruct (t_time e =? 0); reflexivity).
    constructor; cbn [s_client s_receiver]; try (apply W).
    + intros d. destruct (Z.eq_dec d c) as [->|N]; [ rewrite set_same; cbn [c_queue]; apply sorted_map; [ exact K | apply W ] | rewrite set_other by assumption; apply W ].
    + intros d e. destruct (Z.eq_dec d c) as [->|N]; [ rewrite set_same; cbn [c_queue c_pos] | rewrite set_other by assumption; apply W ].
      intros I. apply in_map_iff in I. destruct I as (e0 & <- & I). rewrite K. apply (wf_ids n s W c e0 I).
    + intros d e. destruct (Z.eq_dec d c) as [->|N]; [ rewrite set_same; cbn [c_queue c_pos] | rewrite set_other by assumption; apply W ].
      intros I. apply in_map_iff in I. destruct I as (e0 & <- & I). destruct (t_time e0 =? 0); cbn [t_flags]; apply (wf_flags n s W c e0 I).
    + intros d. pose proof (wf_pos n s W d). specialize (T d). destruct (Z.eq_dec d c) as [->|N]; [ rewrite set_same; cbn [c_pos]; lia | rewrite set_other by assumption; lia ].
    + intros d. destruct (Z.eq_dec d c) as [->|N]; [ rewrite set_same; cbn [c_queue]; unfold reset_send_times; rewrite zlen_map; apply W | rewrite set_other by assumption; apply W ].
  - eexists. split; [ reflexivity | ]. constructor; cbn [s_client s_receiver]; try (apply W).
    + intros d. destruct (Z.eq_dec d c) as [->|N]; [ rewrite set_same; apply sorted_nil | rewrite set_other by assumption; apply W ].
    + intros d e. destruct (Z.eq_dec d c) as [->|N]; [ rewrite set_same; intros [] | rewrite set_other by assumption; apply W ].
    + intros d e. destruct (Z.eq_dec d c) as [->|N]; [ rewrite set_same; intros [] | rewrite set_other by assumption; apply W ].
    + intros d. pose proof (wf_pos n s W d). specialize (T d). destruct (Z.eq_dec d c) as [->|N]; [ rewrite set_same; cbn [c_pos new_client]; lia | rewrite set_other by assumption; lia ].
    + intros d. destruct (Z.eq_dec d c) as [->|N]; [ rewrite set_same; cbn; lia | rewrite set_other by assumption; apply W ].
  - eexists. split; [ reflexivity | ]. destruct W. constructor; cbn [s_client s_receiver]; auto.
    + intros d. specialize (wf_pos0 d). specialize (T d). lia.
    + intros d. apply sorted_nil.
    + intros d e [].
    + cbn. lia.
Qed.
Lemma wf_start : wf (fun _ => 0) start.
Proof. constructor; cbn; intros; try lia; try contradiction; apply sorted_nil. Qed.
Lemma queued_cons : forall c o os, queued c (o :: os) = tally o c + queued c os.
Proof. intros c o os. destruct o; reflexivity. Qed.
Lemma queued_nonneg : forall c os, 0 <= queued c os.
Proof. induction os as [ | o os IH ]; [ cbn; lia | ]. rewrite queued_cons. destruct o; cbn [tally]; try lia. destruct (_ =? _); lia. Qed.
Lemma run_wf : forall os n s, wf n s -> (forall c, n c + queued c os < 2^32 - 1) -> exists s', run s os = Ok s' /\ wf (fun c => n c + queued c os) s'.
Proof.
  induction os as [ | o os IH ]; intros n s W B; cbn [run].
  - exists s. split; [ reflexivity | ]. destruct W. constructor; auto. intros c. specialize (wf_pos0 c). cbn [queued]. lia.
  - destruct (step_wf n s o W) as (s1 & E & W1).
    { intros c. specialize (B c). rewrite queued_cons in B. pose proof (queued_nonneg c os). lia. }
    rewrite E. destruct (IH _ s1 W1) as (s2 & E2 & W2).
    { intros c. specialize (B c). rewrite queued_cons in B. lia. }
    exists s2. split; [ exact E2 | ]. destruct W2. constructor; auto. intros c. specialize (wf_pos0 c). rewrite queued_cons. lia.
Qed.
