(** Messages of QoS 0, 1 and 2 in MQTT sessions: the receiver, the sender, and both with the
    connections between them. *)
From Coq Require Import ZArith List Bool Lia.
From Verif Require Import Common IdPoolModel IdPoolSpec MqttQosModel MqttQosSpec MqttQosProofs MqttQosRecvProofs MqttQosPairProofs MqttQosWorldProofs MqttQosSendProofs.
Import ListNotations.
Open Scope Z_scope.

(** In flight 10, no Receive Maximum, repeat after 5 seconds, forget after 1 second *)
Definition cf0 : conf := mk_conf 10 0 5000000 1000000 true.

(** ** C84: the receiver *)

(** Partial: for packets but SUBACK and UNSUBACK (see [mqtt_qos_suback_abort_refuted]). *)
Theorem mqtt_qos_never_aborts_partial : forall cf ops, Forall op_ok ops ->
  exists s t, run cf sess_new ops = Some (s, t) /\ length t = length ops.
Proof.
  intros cf ops HF. destruct (run_some cf ops sess_new sinv_new HF) as (s & t & H & _). exists s, t. split; [ exact H | ].
  clear HF. revert H. generalize sess_new. revert s t. induction ops as [|o r IH]; intros s t s0 H; cbn [run] in H; [ injection H as <- <-; reflexivity | ].
  destruct (step cf s0 o) as [[[s1 evs] c]|]; [ | discriminate ]. destruct (run cf s1 r) as [[s2 t2]|] eqn:ER; [ | discriminate ]. injection H as <- <-. cbn [length]. f_equal. eapply IH. exact ER.
Qed.
Definition ex_odd : list op :=
  [Queue KPub 7 3 2 0; Queue KSub 0 0 0 0; Recv 5 (WAck Pubcomp 9 0); Round 10 [] []; Recv 11 (WAck Pubrel 1 0); Recv 12 (WAck Puback 1 0);
   Recv 13 (WPub 8 4 2 65535 true); Recv 14 (WPub 8 5 2 65535 true); Recv 15 (WAck Pubrel 65535 0); Forget 16; Round 17 [TFail] []].
Example mqtt_qos_never_aborts_ex : Forall op_ok ex_odd /\ exists s t, run cf0 sess_new ex_odd = Some (s, t) /\
  t = [([], false); ([], false); ([], false); ([Sent (WPub 7 3 2 1 false); Sent (WSub 2)], false);
       ([Sent (WAck Pubcomp 1 146)], false); ([], true); ([Sent (WAck Pubrec 65535 0)], false); ([], true);
       ([Deliver 8; Sent (WAck Pubcomp 65535 0)], false); ([], false); ([], false)].
Proof. split; [ repeat (constructor; [ cbn; try exact I; lia | ]); constructor | ]. do 2 eexists. split; [ vm_compute; reflexivity | reflexivity ]. Qed.
Print Assumptions mqtt_qos_never_aborts_partial.

(** FINDING: a broker which answers with SUBACK or UNSUBACK for the identifier of a message
    makes the client abort: the check of the types is an internal error, not an error of the
    remote (mqtt_session_ram.c:1563-1600). *)
Theorem mqtt_qos_suback_abort_refuted : forall a, a = Suback \/ a = Unsuback ->
  exists s t, run cf0 sess_new [Queue KPub 7 3 1 0; Round 10 [] []] = Some (s, t) /\
    In [Sent (WPub 7 3 1 1 false)] (map fst t) /\ forall cf now rs, step cf s (Recv now (WAck a 1 rs)) = None.
Proof. intros a [->| ->]; do 2 eexists; (split; [ vm_compute; reflexivity | split; [ right; left; reflexivity | intros; reflexivity ] ]). Qed.
Print Assumptions mqtt_qos_suback_abort_refuted.

(** Partial: for remotes which follow the protocol and use an identifier again only after
    this side has tidied its queues (see the findings below for those which do so before). *)
Theorem mqtt_qos_receiver_partial : forall cf ops, conforms all_free ops ->
  exists s t, run cf sess_new ops = Some (s, t) /\ right all_free ops t.
Proof. intros cf ops HC. exact (conforms_right cf ops sess_new all_free sinv_new R_new HC). Qed.
(** A message of QoS 2 repeated after the first PUBREC is lost, PUBREL repeated too; between
    them one of QoS 1, and the identifiers used again afterwards. *)
Definition ex_peer : list op :=
  [Recv 10 (WPub 7 3 2 1 false); Recv 11 (WPub 8 4 1 2 false); Recv 12 (WPub 7 3 2 1 true); Recv 13 (WAck Pubrel 1 0); Recv 14 (WAck Pubrel 1 0);
   Recv 15 (WPub 9 9 0 0 false); Round 20 [] []; Recv 21 (WAck Pubrel 1 0); Recv 22 (WPub 10 1 2 2 false); Recv 23 (WPub 11 1 1 1 false); Recv 24 (WAck Pubrel 2 0)].
Example mqtt_qos_receiver_ex : conforms all_free ex_peer /\ exists s t, run cf0 sess_new ex_peer = Some (s, t) /\
  flat_map delivers (map fst t) = [8; 7; 9; 11; 10].
Proof. split; [ cbn; repeat split; try lia; try discriminate; auto | ]. do 2 eexists. split; [ vm_compute; reflexivity | reflexivity ]. Qed.
Print Assumptions mqtt_qos_receiver_partial.

(** FINDING: when PUBLISH of QoS 1 is repeated with DUP before the queues are tidied (the
    PUBACK was lost, or was late), the connection is closed without PUBACK. What is left makes
    the old message be delivered a third time, and the connection be closed again, when
    another message comes with the same identifier: here after message 8. *)
Theorem mqtt_qos_repeated_refuted : exists s t,
  run cf0 sess_new [Recv 10 (WPub 7 3 1 1 false); Recv 20 (WPub 7 3 1 1 true); Round 30 [] []; Recv 40 (WPub 8 4 1 1 false)] = Some (s, t) /\
  t = [([Deliver 7; Sent (WAck Puback 1 0)], false); ([Deliver 7], true); ([], false); ([Deliver 8; Deliver 7], true)].
Proof. do 2 eexists. split; [ vm_compute; reflexivity | reflexivity ]. Qed.
Print Assumptions mqtt_qos_repeated_refuted.

(** FINDING: a remote which uses the identifier of a message of QoS 2 again as soon as it has
    got PUBCOMP, as it may, has its connection closed unless the queues were tidied between:
    the message released is still found. *)
Theorem mqtt_qos_reused_refuted : forall cf now1 now2 now3, exists s t,
  run cf sess_new [Recv now1 (WPub 7 3 2 1 false); Recv now2 (WAck Pubrel 1 0); Recv now3 (WPub 8 4 2 1 false)] = Some (s, t) /\
  t = [([Sent (WAck Pubrec 1 0)], false); ([Deliver 7; Sent (WAck Pubcomp 1 0)], false); ([], true)].
Proof. intros. do 2 eexists. split; [ cbn; reflexivity | reflexivity ]. Qed.
Print Assumptions mqtt_qos_reused_refuted.

(** ** C85: the sender *)

Theorem mqtt_qos_ids_distinct : forall cf ops s t, Forall op_ok ops -> run cf sess_new ops = Some (s, t) ->
  NoDup (in_use s) /\ Forall valid_id (in_use s).
Proof. intros cf ops s t HF H. destruct (run_some cf ops sess_new sinv_new HF) as (s1 & t1 & E & HI). rewrite E in H. injection H as <- <-. destruct (in_use_nodup _ HI) as (A & B & _). auto. Qed.
Definition ex_send : list op :=
  [Queue KPub 7 3 2 0; Later 8 4 1 0; Queue KSub 0 0 0 0; Round 10 [] []; Recv 11 (WAck Pubrec 1 0); Round 6000000 [] []].
Example mqtt_qos_ids_distinct_ex : Forall op_ok ex_send /\ exists s t, run cf0 sess_new ex_send = Some (s, t) /\ in_use s = [1; 2; 3] /\
  map fst t = [[]; []; []; [Sent (WPub 7 3 2 1 false); Sent (WSub 2); Sent (WPub 8 4 1 3 false)]; [Sent (WAck Pubrel 1 0)];
               [Sent (WAck Pubrel 1 0); Sent (WSub 2); Sent (WPub 8 4 1 3 true)]].
Proof. split; [ repeat (constructor; [ cbn; try exact I; lia | ]); constructor | ]. do 2 eexists. split; [ vm_compute; reflexivity | split; reflexivity ]. Qed.
Print Assumptions mqtt_qos_ids_distinct.

Theorem mqtt_qos_kept : forall cf s o s' evs c, op_ok o -> step cf s o = Some (s', evs, c) ->
  forall e, In e (s_to s ++ s_delayed s) -> awaits e -> ~ finishes o (e_id e) ->
  exists e', In e' (s_to s' ++ s_delayed s') /\ awaits e' /\ still e e'.
Proof. intros cf s o s' evs c HO H e He HA HN. exact (step_awaits cf s o s' evs c H HO e He HA HN). Qed.
(** The run above: both messages are still there after a round, of which the second packet
    cannot be sent, and after the last answer to one of them the other one *)
Example mqtt_qos_kept_ex : exists s t, run cf0 sess_new ex_send = Some (s, t) /\
  map e_msg (filter (fun e => match e_kind e with KPub => true | _ => false end) (s_to s)) = [7; 8] /\ (exists e, In e (s_to s ++ s_delayed s) /\ e_msg e = 7 /\ awaits e) /\
  (exists s' evs c, step cf0 s (Round 12000000 [TOk; TFail] []) = Some (s', evs, c) /\ map e_msg (filter (fun e => match e_kind e with KPub => true | _ => false end) (s_to s')) = [7; 8]) /\
  exists s' t', run cf0 s [Recv 7000000 (WAck Pubcomp 1 0); Round 7000001 [] []] = Some (s', t') /\ map e_msg (filter (fun e => match e_kind e with KPub => true | _ => false end) (s_to s')) = [8].
Proof.
  do 2 eexists. split; [ vm_compute; reflexivity | ]. split; [ reflexivity | ]. split; [ eexists; split; [ left; reflexivity | split; [ reflexivity | split; [ reflexivity | right; auto ] ] ] | ].
  split; [ do 3 eexists; (split; [ vm_compute; reflexivity | reflexivity ]) | do 2 eexists; (split; [ vm_compute; reflexivity | reflexivity ]) ].
Qed.
Print Assumptions mqtt_qos_kept.

Theorem mqtt_qos_sent : forall cf ops s t o s' evs c, Forall (fun o => op_ok o /\ asked_ok o) ops ->
  run cf sess_new ops = Some (s, t) -> step cf s o = Some (s', evs, c) ->
  forall m z q i d, In (WPub m z q i d) (sents evs) ->
  exists e, In e (s_to s ++ s_delayed s) /\ e_kind e = KPub /\ e_msg e = m /\ e_size e = z /\ e_qos e = q /\ (e_id e = 0 \/ e_id e = i) /\
    (q <> 0 -> awaits e /\ i <> 0) /\ (q = 2 -> e_pubrec e = false).
Proof.
  intros cf ops s t o s' evs c HF H HS m z q i d HI. destruct (run_ranged _ _ _ _ _ H sinv_new) as (A & B); [ split; constructor | exact HF | ].
  exact (step_sends _ _ _ _ _ _ _ _ _ _ _ HS A B HI).
Qed.
(** Once PUBREC has come the message is not sent again, only its release *)
Example mqtt_qos_sent_ex : Forall (fun o => op_ok o /\ asked_ok o) ex_send /\ exists s t, run cf0 sess_new ex_send = Some (s, t) /\
  exists s' evs c, step cf0 s (Round 12000000 [] []) = Some (s', evs, c) /\ sents evs = [WAck Pubrel 1 0; WSub 2; WPub 8 4 1 3 true].
Proof. split; [ repeat (constructor; [ cbn; try (split; [ exact I | lia ]); try exact (conj I I); try (split; [ lia | exact I ]) | ]); constructor | ]. do 2 eexists. split; [ vm_compute; reflexivity | ]. do 3 eexists. split; [ vm_compute; reflexivity | reflexivity ]. Qed.
Print Assumptions mqtt_qos_sent.

(** FINDING: a client whose Receive Maximum is 1, which is valid, never gets a message of
    QoS 1 or QoS 2: the message about to be sent is counted before the limit is checked, so
    that one less than allowed is in flight (the same for the limit of the session itself). *)
Definition cf1 : conf := mk_conf 10 1 5000000 1000000 true.
Theorem mqtt_qos_receive_maximum_refuted : forall m z q, q = 1 \/ q = 2 -> forall rounds : list (Z * list took * list took),
  exists s t, run cf1 sess_new (Queue KPub m z q 0 :: map (fun r => Round (fst (fst r)) (snd (fst r)) (snd r)) rounds) = Some (s, t) /\
    flat_map sents (map fst t) = [] /\ exists e, s_to s = [e] /\ awaits e.
Proof.
  intros m z q Hq rounds.
  assert (HX : forall id pool, id = 0 /\ pool = pool_init \/ id = 1 /\ get_id pool_init = Some (pool, 1) ->
    exists s t, run cf1 (mk_s [mk_e KPub m z q id false 0 true 0 false false false false false] [] [] [] pool) (map (fun r => Round (fst (fst r)) (snd (fst r)) (snd r)) rounds) = Some (s, t) /\
    flat_map sents (map fst t) = [] /\ exists e, s_to s = [e] /\ awaits e).
  { induction rounds as [|[[now a1] a2] r IH]; intros id pool HP.
    - do 2 eexists. split; [ reflexivity | split; [ reflexivity | ] ]. eexists. split; [ reflexivity | ]. split; [ reflexivity | ]. destruct Hq as [->| ->]; auto.
    - assert (HS : exists pool', get_id pool_init = Some (pool', 1)) by (eexists; vm_compute; reflexivity). destruct HS as (pool' & HS).
      assert (HR : round cf1 now a1 a2 (mk_s [mk_e KPub m z q id false 0 true 0 false false false false false] [] [] [] pool) =
                   Some (mk_s [mk_e KPub m z q 1 false 0 true 0 false false false false false] [] [] [] pool', [], false)).
      { destruct HP as [(-> & ->)|(-> & HG)]; [ | assert (pool' = pool) by congruence; subst pool' ];
          unfold round; cbn [s_to s_delayed s_pool s_grace s_from app iterate]; destruct Hq as [->| ->]; cbn [finished e_kind e_qos e_last e_puback e_pubcomp Z.eqb negb andb orb ensure_id e_id]; unfold ensure_id; cbn [e_id Z.eqb negb]; rewrite ?HS; reflexivity. }
      destruct (IH 1 pool') as (s & t & E & ET & EE); [ auto | ]. exists s, (([], false) :: t). cbn [map run step fst snd]. rewrite HR, E. auto. }
  destruct (HX 0 pool_init) as (s & t & E & ET & EE); [ auto | ]. exists s, (([], false) :: t). split; [ | auto ].
  cbn [run step sess_new s_to s_delayed s_from s_grace s_pool app]. unfold new_entry. cbn [is_pub]. rewrite E. reflexivity.
Qed.
Print Assumptions mqtt_qos_receive_maximum_refuted.

(** FINDING: a message whose time has run out is not sent, but is not removed either: it
    stays in the queue with its identifier for as long as the session lives. *)
Theorem mqtt_qos_expired_refuted : forall m z q until, q = 1 \/ q = 2 -> 0 < until ->
  forall rounds : list (Z * list took * list took), Forall (fun r => until < fst (fst r)) rounds ->
  exists s t, run cf0 sess_new (Queue KPub m z q until :: map (fun r => Round (fst (fst r)) (snd (fst r)) (snd r)) rounds) = Some (s, t) /\
    flat_map sents (map fst t) = [] /\ exists e, s_to s = [e] /\ awaits e.
Proof.
  intros m z q until Hq Hu rounds HF.
  assert (HX : forall id pool, id = 0 /\ pool = pool_init \/ id = 1 /\ get_id pool_init = Some (pool, 1) ->
    exists s t, run cf0 (mk_s [mk_e KPub m z q id false 0 true until false false false false false] [] [] [] pool) (map (fun r => Round (fst (fst r)) (snd (fst r)) (snd r)) rounds) = Some (s, t) /\
    flat_map sents (map fst t) = [] /\ exists e, s_to s = [e] /\ awaits e).
  { induction HF as [|[[now a1] a2] r Hn HF IH]; intros id pool HP; cbn [fst] in *.
    - do 2 eexists. split; [ reflexivity | split; [ reflexivity | ] ]. eexists. split; [ reflexivity | ]. split; [ reflexivity | ]. destruct Hq as [->| ->]; auto.
    - assert (HS : exists pool', get_id pool_init = Some (pool', 1)) by (eexists; vm_compute; reflexivity). destruct HS as (pool' & HS).
      assert (HD : forall i, drop now (mk_e KPub m z q i false 0 true until false false false false false) = true).
      { intros i. unfold drop. cbn [e_until]. destruct (Z.eqb_spec until 0); [ lia | ]. cbn [negb andb]. lia. }
      assert (HR : round cf0 now a1 a2 (mk_s [mk_e KPub m z q id false 0 true until false false false false false] [] [] [] pool) =
                   Some (mk_s [mk_e KPub m z q 1 false 0 true until false false false false false] [] [] [] pool', [], false)).
      { assert (HE : ensure_id pool (mk_e KPub m z q id false 0 true until false false false false false) = Some (Some (mk_e KPub m z q 1 false 0 true until false false false false false), pool')).
        { unfold ensure_id. destruct HP as [(-> & ->)|(-> & HG)]; cbn [e_id Z.eqb negb]; [ rewrite HS; reflexivity | congruence ]. }
        unfold round. cbn [s_to s_delayed s_pool s_grace s_from app iterate].
        assert (HFi : finished (mk_e KPub m z q id false 0 true until false false false false false) = false) by (destruct Hq as [->| ->]; reflexivity).
        rewrite HFi, HE. unfold check_retry. cbn [e_last Z.eqb negb andb e_kind]. unfold process_publish. rewrite HD. reflexivity. }
      destruct (IH 1 pool') as (s & t & E & ET & EE); [ auto | ]. exists s, (([], false) :: t). cbn [map run step fst snd]. rewrite HR, E. auto. }
  destruct (HX 0 pool_init) as (s & t & E & ET & EE); [ auto | ]. exists s, (([], false) :: t). split; [ | auto ].
  cbn [run step sess_new s_to s_delayed s_from s_grace s_pool app]. unfold new_entry. cbn [is_pub]. rewrite E. reflexivity.
Qed.
Print Assumptions mqtt_qos_expired_refuted.

(** ** C86: both sides *)

(** A message of QoS 2 is delivered at most once, and exactly once when the sender has done
    with it; one of QoS 1 has been delivered when the sender has done with it; one of QoS 0 is
    delivered at most once; nothing else is delivered.  This for every order of steps, lost
    packets and lost connections, and there is never an abort.  Partial: an identifier is
    given to a new message only when nothing is left of the message which had it before
    ([proper]; the sender takes 65535 others first). *)
Theorem mqtt_qos_delivery_partial : forall ca cb ops w, history ca cb world_new ops w ->
  (forall m, In (m, 2) (w_asked w) -> (count_occ Z.eq_dec (w_got w) m <= 1)%nat /\ (~ pending w m -> count_occ Z.eq_dec (w_got w) m = 1%nat)) /\
  (forall m, In (m, 1) (w_asked w) -> ~ pending w m -> In m (w_got w)) /\
  (forall m, In (m, 0) (w_asked w) -> (count_occ Z.eq_dec (w_got w) m <= 1)%nat) /\
  (forall m, In m (w_got w) -> exists q, In (m, q) (w_asked w)).
Proof.
  intros ca cb ops w H. pose proof (history_WI _ _ _ _ _ H WI_new) as HI. destruct (WI_rest w HI) as (A & B & C).
  split; [ intros m Hm; exact (WI_two w m HI Hm) | ]. split; [ exact B | split; [ exact C | exact A ] ].
Qed.
Definition ex_ops : list wop :=
  [DoA (Queue KPub 7 3 2 0); DoA (Later 8 4 1 0); DoA (Round 10 [] []); ReadB 11; Lose [] [false]; ReadB 12; Lose [] [false];
   DoA (Round 6000000 [] []); ReadB 6000001; ReadA 6000002; ReadB 6000003; ReadB 6000004; Lose [] [false]; DoB (Round 6000005 [] []);
   DoA (Round 12000000 [] []); ReadB 12000001; ReadB 12000002; ReadA 12000003; ReadA 12000004; DoA (Round 12000005 [] [])].
Ltac wnext := eapply h_cons; [ vm_compute; reflexivity | cbn -[Z.le Z.lt] | ].
Ltac wround := intros e [<-|[<-|[]]]; cbn; intros _ _ _; first [ left; eexists; split; [ left; reflexivity | repeat split; reflexivity ] | left; eexists; split; [ right; left; reflexivity | repeat split; reflexivity ] | right; split; [ | split ]; intros ? [] ].
(** A message of QoS 2 whose PUBREC and PUBCOMP are lost is delivered once, one of QoS 1 whose
    PUBACK is lost more often. *)
Example mqtt_qos_delivery_ex : exists w, history cf0 cf0 world_new ex_ops w /\
  w_got w = [8; 8; 7; 8; 8] /\ w_asked w = [(7, 2); (8, 1)] /\ ~ pending w 7 /\ ~ pending w 8.
Proof.
  eexists. split.
  - unfold ex_ops. wnext; [ split; [ lia | tauto ] | ]. wnext; [ split; [ lia | lia ] | ]. wnext; [ wround | ].
    do 4 (wnext; [ exact I | ]). wnext; [ wround | ]. do 6 (wnext; [ exact I | ]). wnext; [ wround | ]. do 4 (wnext; [ exact I | ]). wnext; [ intros e [] | ]. apply h_nil.
  - cbn. split; [ reflexivity | ]. split; [ reflexivity | ]. split; intros (e & [] & _).
Qed.
Print Assumptions mqtt_qos_delivery_partial.

(** Whatever has happened, both sides can go on: neither reading a packet of the other side
    nor anything else makes a side abort. *)
Theorem mqtt_qos_pair_never_aborts_partial : forall ca cb ops w o, history ca cb world_new ops w ->
  match o with DoA (Recv _ _) | DoB (Recv _ _) => False | _ => True end -> exists w', wstep ca cb w o = Some w'.
Proof. intros ca cb ops w o H HO. exact (WI_live ca cb w o (history_WI _ _ _ _ _ H WI_new) HO). Qed.
Example mqtt_qos_pair_never_aborts_ex : exists w, history cf0 cf0 world_new [DoA (Queue KPub 7 3 2 0); DoB (Queue KPub 7 3 1 0)] w /\ w_asked w = [(7, 2)].
Proof. eexists. split; [ wnext; [ split; [ lia | tauto ] | ]; wnext; [ lia | ]; apply h_nil | reflexivity ]. Qed.
Print Assumptions mqtt_qos_pair_never_aborts_partial.
