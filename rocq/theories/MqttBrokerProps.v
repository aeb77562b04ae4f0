(** The MQTT broker: subscriptions, forwarding, retained messages, sessions, wills. *)
From Coq Require Import ZArith List Bool Lia.
From Verif Require Import Common Utf8Spec TopicModel TopicSpec MqttBrokerModel MqttBrokerSpec MqttBrokerProofs MqttBrokerSubProofs MqttBrokerRunProofs MqttBrokerFullProofs.
Import ListNotations.
Open Scope Z_scope.

(** Two clients (identifiers [1] and [2]); filters a/+ and bc, topics a/b and bc *)
Definition f_wild : list Z := [97; 47; 43].
Definition f_bc : list Z := [98; 99].
Definition t_ab : list Z := [97; 47; 98].
Lemma f_wild_ok : filter_ok f_wild.
Proof.
  split; [repeat (apply Forall_cons; [unfold byte; lia|]); constructor|]. split; [cbn; intuition lia|]. split; [discriminate|]. split.
  { assert (S : MqttSpec.string_legal f_wild) by (apply MqttSendProofs.ascii_legal; [reflexivity|vm_compute; discriminate]). apply S. }
  split; [vm_compute; discriminate|]. exists [[97]; [43]]. split; [split; [discriminate|repeat (apply Forall_cons; [split; cbn; intuition lia|]); constructor]|].
  split; [reflexivity|]. apply LF_lit; [split; cbn; intuition lia|]. apply (LF_plus []). constructor.
Qed.
Lemma f_bc_ok : filter_ok f_bc.
Proof. apply plain_filter; [reflexivity|discriminate|vm_compute; discriminate]. Qed.
Lemma t_bc_ok : topic_ok f_bc.
Proof. apply plain_topic; [reflexivity|discriminate|vm_compute; discriminate]. Qed.
Lemma t_ab_ok : topic_ok t_ab.
Proof.
  split; [repeat (apply Forall_cons; [unfold byte; lia|]); constructor|]. split; [cbn; intuition lia|]. split; [discriminate|]. split.
  { assert (S : MqttSpec.string_legal t_ab) by (apply MqttSendProofs.ascii_legal; [reflexivity|vm_compute; discriminate]). apply S. }
  split; cbn; intuition lia.
Qed.
Definition msg (topic : list Z) (payload : list Z) (qos : Z) (retain : bool) (t : Z) : pub :=
  mkPub topic payload qos retain false 7 t 0 20 false 0 false false false false 0.
Definition wish (f : list Z) (rh qos : Z) : sub := mkSub f rh 0 0 qos.

Ltac ev :=
  repeat (apply Forall_cons;
    [ cbn [event_ok]; try exact I;
      try (split; [discriminate|split; [repeat (apply Forall_cons; [split; [first [apply f_wild_ok|apply f_bc_ok]|cbn; lia]|]); constructor
                                       |repeat (constructor; [cbn; intuition discriminate|]); constructor]]);
      try (split; [first [apply t_ab_ok|apply t_bc_ok]|cbn; lia]) |]);
  try apply Forall_nil.

Definition ex_es : list bevent :=
  [EConnect [1] true 3600 0 None 1000000;
   EConnect [2] true 0 0 (Some (msg f_bc [9] 1 false 0, 0)) 1000001;
   EPublish (msg t_ab [1; 2] 2 true 1000002);
   ESubscribe [1] [wish f_wild 0 1; wish f_bc 0 0] 1000003;
   EUnsubscribe [1] [wish f_bc 0 0];
   EPublish (msg f_bc [3] 1 true 1000004)].
Lemma ex_es_ok : Forall event_ok ex_es.
Proof. unfold ex_es. ev. Qed.

(** ** C80: subscriptions *)

(** Partial: as long as no more than 65536 filters have been asked for in total, so
    that no session is full (see [mqtt_subscribe_full_refuted]). *)
Theorem mqtt_broker_never_aborts_partial : forall es, Forall event_ok es -> asked es <= 65536 ->
  exists b h, brun start es = Done (b, h) /\ map fst h = es /\ NoDup (map ss_id (b_sess b)).
Proof. intros es F Z. destruct (run_ok es F Z) as (b & h & A & B & C). exists b, h. split; [exact A|split; [exact B|apply C]]. Qed.
Example mqtt_broker_never_aborts_ex : exists b h, brun start ex_es = Done (b, h) /\ map ss_id (b_sess b) = [[2]; [1]] /\
  map (fun s => (zlen (ss_subs s), zlen (ss_to s), zlen (ss_delayed s))) (b_sess b) = [(0, 0, 0); (1, 0, 1)].
Proof. eexists _, _. split; [vm_compute; reflexivity|]. split; reflexivity. Qed.
Print Assumptions mqtt_broker_never_aborts_partial.

(** After any history an UNSUBSCRIBE is answered, for each filter, with 0 (success)
    if the last request about the filter was a subscription which was granted and
    kept, and with 17 (no subscription existed) otherwise. *)
Theorem mqtt_unsuback_partial : forall es b h id req, Forall event_ok es -> asked es <= 65536 -> brun start es = Done (b, h) ->
  In id (map ss_id (b_sess b)) -> Forall (fun s => s_qos s = 0) req -> NoDup (map s_filter req) ->
  exists b' codes, bstep b (EUnsubscribe id req) = Done (b', mkA false (Some codes) []) /\
    Forall2 (fun s c => (c = 0 /\ exists q, subscribed (requests id h) (s_filter s) q) \/
                        (c = 17 /\ forall q, ~ subscribed (requests id h) (s_filter s) q)) req codes.
Proof. intros es b h id req F Z R. destruct (run_det es b h F Z R) as [_ I]. apply after_unsubscribe. exact I. Qed.
Example mqtt_unsuback_ex : exists b h b', brun start ex_es = Done (b, h) /\ In [1] (map ss_id (b_sess b)) /\
  bstep b (EUnsubscribe [1] [wish f_wild 0 0; wish f_bc 0 0]) = Done (b', mkA false (Some [0; 17]) []).
Proof. eexists _, _, _. split; [vm_compute; reflexivity|]. split; [right; left; reflexivity|]. vm_compute. reflexivity. Qed.
Print Assumptions mqtt_unsuback_partial.

(** FINDING: A session holds 65536 subscriptions. A further one is refused, but the
    return value telling this is overwritten with the one of a callback in
    [rrr_mqtt_subscription_collection_append_unique_copy_from_collection]
    (mqtt_subscription.c:618-631): the SUBACK grants the subscription, the retained
    messages are sent, and the messages published later are not. *)
Theorem mqtt_subscribe_full_refuted :
  exists es b h s f q, Forall event_ok es /\ brun start es = Done (b, h) /\ In s (b_sess b) /\
    subscribed (requests (ss_id s) h) f q /\ ~ In f (map s_filter (ss_subs s)).
Proof.
  destruct (full_n 16 eq_refl) as (F & b & h & s & R & I & A & N).
  exists (full_es 16), b, h, s, one_more, 1. split; [exact F|]. split; [exact R|]. split; [exact I|]. split; [exact A|exact N].
Qed.
Print Assumptions mqtt_subscribe_full_refuted.

(** ** C81: forwarding *)

(** After any history a PUBLISH is queued for each session once for each of its
    subscriptions which matches the topic, with the lower one of the two QoS levels,
    behind what was queued before, unless the packet is larger than the client
    allows. Nothing else is queued for anyone. *)
Theorem mqtt_forward_partial : forall es b h p, Forall event_ok es -> asked es <= 65536 -> brun start es = Done (b, h) -> pub_ok p ->
  exists b', bstep b (EPublish p) = Done (b', mkA false None [p]) /\
    Forall2 (fun s s' => exists subs cs, subscriptions h (ss_id s) subs /\
      ss_id s' = ss_id s /\ ss_to s' = ss_to s ++ cs /\ ss_delayed s' = ss_delayed s /\
      ((ss_max s <> 0 /\ ss_max s < p_size p /\ cs = []) \/
       ((ss_max s = 0 \/ p_size p <= ss_max s) /\ copies false p subs cs))) (b_sess b) (b_sess b').
Proof. intros es b h p F Z R. destruct (run_det es b h F Z R) as [_ I]. apply after_publish. exact I. Qed.
Example mqtt_forward_ex : exists b h b', brun start ex_es = Done (b, h) /\ bstep b (EPublish (msg t_ab [5] 2 false 1000009)) = Done (b', mkA false None [msg t_ab [5] 2 false 1000009]) /\
  map (fun s => map (fun p => (p_topic p, p_payload p, p_qos p, p_retain p)) (ss_to s)) (b_sess b') = [[]; [(t_ab, [5], 1, false)]].
Proof. eexists _, _, _. split; [vm_compute; reflexivity|]. split; vm_compute; reflexivity. Qed.
Print Assumptions mqtt_forward_partial.

(** ** C82: retained messages *)

(** After any history (with no SUBSCRIBE later than [now]) a SUBSCRIBE is answered
    with the codes asked for, and the client is sent, with the RETAIN flag, the last
    retained message of each topic, if it has a payload and has not expired, once
    for each of the filters of the packet which matches and was not subscribed to
    before, and nothing else. *)
Theorem mqtt_retained_partial : forall es b h id req now, Forall event_ok es -> asked es + zlen req <= 65536 -> brun start es = Done (b, h) ->
  event_ok (ESubscribe id req now) -> In id (map ss_id (b_sess b)) ->
  (forall i r t, In (ESubscribe i r t) es -> t <= now) ->
  exists b' s s' news rs cs, bstep b (ESubscribe id req now) = Done (b', mkA false (Some (map s_qos req)) []) /\
    get_session (b_sess b) id = Some s /\ get_session (b_sess b') id = Some s' /\
    NoDup (map fst news) /\
    (forall f q, In (f, q) news <-> (exists x, In x req /\ s_filter x = f /\ s_qos x = q) /\ q <= 2 /\ forall q', ~ subscribed (requests id h) f q') /\
    ss_to s' = ss_to s /\ ss_delayed s' = ss_delayed s ++ concat cs /\
    NoDup (map p_topic rs) /\ (news = [] \/ (forall p, In p rs <-> last_retained (published h) p /\ p_payload p <> [] /\ ~ too_old now p)) /\
    Forall2 (fun p c => copies true p news c) rs cs.
Proof.
  intros es b h id req now F Z R E J T. assert (Z0 : asked es <= 65536) by (pose proof (zlen_nonneg _ req); lia).
  destruct (run_det es b h F Z0 R) as [M I].
  destruct (after_subscribe b h id req now I E) as (b' & s & s' & rs & cs & B & G & G' & X1 & X2 & X3 & X4 & X5).
  - rewrite M. exact Z.
  - exact J.
  - intros t (i & r & a & H). apply (T i r). rewrite <- M. change (ESubscribe i r t) with (fst (ESubscribe i r t, a)). apply in_map. exact H.
  - exists b', s, s', (pairs (filter (fun x => (s_qos x <=? 2) && negb (inb (s_filter x) (ss_subs s))) req)), rs, cs.
    destruct (get_session_in _ _ _ G) as [Is Es].
    split; [exact B|]. split; [exact G|]. split; [exact G'|]. split; [apply news_nodup; apply E|]. split.
    { intros f q. rewrite <- Es. apply (news_spec b h s req I Is). }
    split; [exact X1|]. split; [exact X2|]. split; [exact X3|]. split; [|exact X5].
    destruct X4 as [X4|X4]; [left; rewrite X4; reflexivity|right; exact X4].
Qed.
Example mqtt_retained_ex : exists b h b', brun start ex_es = Done (b, h) /\
  bstep b (ESubscribe [2] [wish f_wild 0 2; wish f_bc 0 0] 1000010) = Done (b', mkA false (Some [2; 0]) []) /\
  map (fun s => map (fun p => (p_topic p, p_payload p, p_qos p, p_retain p)) (ss_delayed s)) (b_sess b') =
    [[(t_ab, [1; 2], 2, true); (f_bc, [3], 0, true)]; [(t_ab, [1; 2], 1, true)]].
Proof. eexists _, _, _. split; [vm_compute; reflexivity|]. split; vm_compute; reflexivity. Qed.
Print Assumptions mqtt_retained_partial.

(** FINDING: The retain handling option of a subscription (MQTT 5, 3.8.3.1) is read
    and stored, but never looked at: with the value 2 (do not send retained messages)
    they are sent all the same. *)
Theorem mqtt_retain_handling_refuted :
  exists es b h s p, Forall event_ok es /\ brun start es = Done (b, h) /\
    (forall i req now, In (ESubscribe i req now) es -> Forall (fun x => s_rh x = 2) req) /\
    In s (b_sess b) /\ In p (ss_delayed s) /\ p_retain p = true.
Proof.
  exists [EConnect [1] true 0 0 None 1; EPublish (msg f_bc [7] 0 true 2); ESubscribe [1] [wish f_bc 2 0] 3].
  eexists _, _, _, _. split; [ev|]. split; [vm_compute; reflexivity|]. split.
  - intros i req now [H|[H|[H|[]]]]; try discriminate. injection H as <- <- <-. repeat constructor.
  - split; [left; reflexivity|]. split; [left; reflexivity|reflexivity].
Qed.
Print Assumptions mqtt_retain_handling_refuted.

(** FINDING: A SUBSCRIBE with a filter which is subscribed to already does not send
    the retained messages again; MQTT (3.1.1: 3.8.4, 5: 3.8.4 with retain handling 0)
    requires it. A client which resumes its session and subscribes again, as they
    commonly do, is not told the current values. *)
Theorem mqtt_resubscribe_retained_refuted :
  exists es b h b' s, Forall event_ok es /\ brun start es = Done (b, h) /\ (exists p, last_retained (published h) p /\ p_topic p = f_bc /\ p_payload p = [7]) /\
    bstep b (ESubscribe [1] [wish f_bc 0 0] 9) = Done (b', mkA false (Some [0]) []) /\
    get_session (b_sess b') [1] = Some s /\ ss_delayed s = [] /\ Forall (fun p => p_payload p <> [7]) (ss_to s).
Proof.
  exists [EConnect [1] true 60 8 None 1; ESubscribe [1] [wish f_bc 0 0] 2; EPublish (msg f_bc [7] 0 true 3)].
  eexists _, _, _, _. split; [ev|]. split; [vm_compute; reflexivity|]. split.
  - eexists. split; [split; [|exists [], []; split; [reflexivity|constructor]]; reflexivity|]. split; reflexivity.
  - split; [vm_compute; reflexivity|]. split; [reflexivity|]. split; [reflexivity|constructor].
Qed.
Print Assumptions mqtt_resubscribe_retained_refuted.

(** FINDING: Retained messages are sent to a client even if they are larger than the
    maximum packet size it gave in CONNECT. *)
Theorem mqtt_retained_size_refuted :
  exists es b h s p, Forall event_ok es /\ brun start es = Done (b, h) /\ In s (b_sess b) /\ In p (ss_delayed s) /\
    0 < ss_max s < zlen (p_topic p) + zlen (p_payload p).
Proof.
  exists [EConnect [1] true 0 8 None 1; EPublish (msg f_bc [7; 7; 7; 7; 7; 7; 7; 7; 7] 0 true 2); ESubscribe [1] [wish f_bc 0 0] 3].
  eexists _, _, _, _. split; [ev|]. split; [vm_compute; reflexivity|]. split; [left; reflexivity|]. split; [left; reflexivity|]. vm_compute. split; reflexivity.
Qed.
Print Assumptions mqtt_retained_size_refuted.

(** ** C83: sessions and wills *)

(** After any history, if a client with a session expiry interval which is neither 0
    nor unlimited disconnects (and not because its session was taken over), then,
    whatever happens until the interval has passed, as long as it stays away its
    session is kept, with its subscriptions and all messages queued for it; and a
    connection without clean start is told that the session is present. *)
Theorem mqtt_session_kept_partial : forall es b h id s reason now es2 b1 a b2 h2 expiry max will now2,
  Forall event_ok (es ++ es2) -> asked (es ++ es2) <= 65536 -> brun start es = Done (b, h) ->
  get_session (b_sess b) id = Some s -> 0 < ss_expiry s < 4294967295 -> 0 <= now -> reason <> 142 ->
  bstep b (EDisconnect id reason now) = Done (b1, a) ->
  Forall (away id (now + ss_expiry s * 1000000)) es2 -> brun b1 es2 = Done (b2, h2) ->
  (exists s2 more moreR, get_session (b_sess b2) id = Some s2 /\ ss_subs s2 = ss_subs s /\
    ss_to s2 = ss_to s ++ more /\ ss_delayed s2 = ss_delayed s ++ moreR /\ ss_from s2 = ss_from s) /\
  (exists b3, bstep b2 (EConnect id false expiry max will now2) = Done (b3, mkA true None [])).
Proof.
  intros es b h id s reason now es2 b1 a b2 h2 expiry max will now2 F Z R G X NW NR B AW R2.
  apply Forall_app in F as [F F2]. rewrite asked_app in Z. pose proof (asked_nonneg es2).
  destruct (run_det es b h F ltac:(lia) R) as [M I].
  destruct (after_disconnect b h id reason now s I G NR X NW) as (b1' & a' & B' & K). rewrite B in B'. injection B' as <- <-.
  destruct (bstep_inv b h (EDisconnect id reason now) I Logic.I ltac:(rewrite M; cbn [asked fold_right]; lia)) as (b1' & a' & B' & I1).
  rewrite B in B'. injection B' as <- <-.
  pose proof (brun_kept es2 b1 (h ++ [(EDisconnect id reason now, a)]) b2 h2 id (now + ss_expiry s * 1000000) s I1 F2 ltac:(rewrite map_app, asked_app, M; cbn [map fst]; change (asked [EDisconnect id reason now]) with 0; lia) ltac:(lia) K AW R2) as (N & s2 & m1 & m2 & G2 & X1 & X2 & X3 & X4 & X5 & X6).
  split; [exists s2, m1, m2; auto|].
  eexists. cbn [bstep]. unfold connect. rewrite find_session_spec by exact N. rewrite G2. cbn [obind fst snd negb]. reflexivity.
Qed.
Example mqtt_session_kept_ex : exists b h b1 a b2 h2 s s2, brun start ex_es = Done (b, h) /\
  get_session (b_sess b) [1] = Some s /\ 0 < ss_expiry s < 4294967295 /\
  bstep b (EDisconnect [1] 4 2000000) = Done (b1, a) /\
  Forall (away [1] (2000000 + ss_expiry s * 1000000)) [EMaintain 3000000000; EPublish (msg t_ab [6] 1 false 5); EMaintain 3601000000] /\
  brun b1 [EMaintain 3000000000; EPublish (msg t_ab [6] 1 false 5); EMaintain 3601000000] = Done (b2, h2) /\
  get_session (b_sess b2) [1] = Some s2 /\ map p_payload (ss_to s2) = [[6]].
Proof.
  eexists _, _, _, _, _, _, _, _. split; [vm_compute; reflexivity|]. split; [reflexivity|]. split; [cbn; lia|]. split; [vm_compute; reflexivity|].
  split; [repeat constructor; cbn; lia|]. split; [vm_compute; reflexivity|]. split; reflexivity.
Qed.
Print Assumptions mqtt_session_kept_partial.

(** The wills which maintenance publishes after any history are those of the
    sessions, in order, whose delay has passed or which end now. *)
Theorem mqtt_will_maintain_partial : forall es b h now, Forall event_ok es -> asked es <= 65536 -> brun start es = Done (b, h) ->
  exists b' a, bstep b (EMaintain now) = Done (b', a) /\
    forall p, In p (a_pubs a) <-> exists s d t, In s (b_sess b) /\ ss_will s = Some (p, d, t) /\ t <> 0 /\
      (t <= now \/ (ss_expire s <> 0 /\ ss_expire s <= now) \/ (ss_expire s = 0 /\ ss_heart s + 20000000 < now)).
Proof.
  intros es b h now F Z R. destruct (run_det es b h F Z R) as [M I]. destruct (bstep_inv b h (EMaintain now) I Logic.I) as (b' & a & B & _).
  { rewrite M. cbn [asked fold_right]. lia. }
  exists b', a. split; [exact B|]. cbn [bstep] in B. unfold maintain in B.
  destruct (maintain_loop now (length (b_sess b)) [] (b_sess b) (b_retain b)) as [[b2 o]|] eqn:ML; [|discriminate].
  cbn [obind fst snd] in B. injection B as <- <-. cbn [a_pubs].
  apply maintain_loop_pubs in ML; [|constructor|apply I]. rewrite ML. intros p. rewrite in_flat_map. split.
  - intros (s & Is & D). unfold due in D. destruct (ss_will s) as [[[q d] t]|] eqn:W; cbn [will_due] in D; [|destruct D].
    destruct (Z.eqb_spec t 0); [destruct D|]. destruct (do_expire s now || (t <=? now)) eqn:E; cbn [fst] in D; [|destruct D]. destruct D as [<-|[]].
    exists s, d, t. split; [exact Is|]. split; [exact W|]. split; [assumption|]. unfold do_expire, hard_timeout in E. lia.
  - intros (s & d & t & Is & W & T & E). exists s. split; [exact Is|]. unfold due. rewrite W. cbn [will_due]. replace (t =? 0) with false by lia.
    replace (do_expire s now || (t <=? now)) with true; [left; reflexivity|]. unfold do_expire, hard_timeout. lia.
Qed.
Example mqtt_will_maintain_ex : exists b h b' a, 
  brun start [EConnect [2] true 60 0 (Some (msg f_bc [9] 1 false 0, 10)) 1000000; EDisconnect [2] 128 2000000; EMaintain 11999999] = Done (b, h) /\ published h = [] /\
  bstep b (EMaintain 12000000) = Done (b', a) /\ a_pubs a = [msg f_bc [9] 1 false 0].
Proof. eexists _, _, _, _. split; [vm_compute; reflexivity|]. split; [reflexivity|]. split; [vm_compute; reflexivity|reflexivity]. Qed.
Print Assumptions mqtt_will_maintain_partial.

(** After any history, when a client disconnects: its will is forgotten if the reason
    is 0; published at once if the session ends there or there is no delay; otherwise
    it is due after the delay, if that is below 4294 seconds and the session lives
    longer. *)
Theorem mqtt_will_disconnect_partial : forall es b h id s p d t reason now, Forall event_ok es -> asked es <= 65536 -> brun start es = Done (b, h) ->
  get_session (b_sess b) id = Some s -> ss_will s = Some (p, d, t) -> 0 <= d <= 4294 -> 0 < now -> reason <> 142 ->
  exists b' a, bstep b (EDisconnect id reason now) = Done (b', a) /\
    (reason = 0 -> a_pubs a = [] /\ forall s', get_session (b_sess b') id = Some s' -> ss_will s' = None) /\
    (reason <> 0 -> (ss_expiry s = 0 \/ d = 0) -> a_pubs a = [p] /\ forall s', get_session (b_sess b') id = Some s' -> ss_will s' = None) /\
    (reason <> 0 -> ss_expiry s <> 0 -> d <> 0 -> a_pubs a = [] /\ exists s', get_session (b_sess b') id = Some s' /\ ss_will s' = Some (p, d, now + d * 1000000)).
Proof.
  intros es b h id s p d t reason now F Z R G W D NW NR. destruct (run_det es b h F Z R) as [M I].
  destruct (bstep_inv b h (EDisconnect id reason now) I Logic.I) as (b' & a & B & _). { rewrite M. cbn [asked fold_right]. lia. }
  exists b', a. split; [exact B|]. apply (disconnect_will b h id s p d t reason now b' a I G W D NW NR B).
Qed.
Example mqtt_will_disconnect_ex : exists b h b' a, brun start ex_es = Done (b, h) /\ bstep b (EDisconnect [2] 128 2000000) = Done (b', a) /\
  a_pubs a = [msg f_bc [9] 1 false 0] /\ get_session (b_sess b') [2] = None.
Proof. eexists _, _, _, _. split; [vm_compute; reflexivity|]. split; [vm_compute; reflexivity|]. split; reflexivity. Qed.
Print Assumptions mqtt_will_disconnect_partial.

(** FINDING: A session which shall never expire (interval 0xffffffff, also used for
    every MQTT 3.1.1 client which connects without clean session) is deleted 20
    seconds after its client disconnected: an expire time of 0 stands both for "never"
    and for "connected", and for the latter a missing heartbeat ends the session. *)
Theorem mqtt_session_never_expires_refuted :
  exists es b h, Forall event_ok es /\ brun start es = Done (b, h) /\
    In (EConnect [1] false 4294967295 0 None 1000000) es /\ In (ESubscribe [1] [wish f_bc 0 1] 1000001) es /\
    Forall (fun e => match e with EMaintain now => now <= 23000000 | _ => True end) es /\ b_sess b = [].
Proof.
  exists [EConnect [1] false 4294967295 0 None 1000000; ESubscribe [1] [wish f_bc 0 1] 1000001; EHeartbeat [1] 1000002; EDisconnect [1] 0 2000000; EMaintain 23000000].
  eexists _, _. split; [ev|]. split; [vm_compute; reflexivity|]. split; [left; reflexivity|]. split; [right; left; reflexivity|]. split; [|reflexivity].
  repeat constructor; lia.
Qed.
Print Assumptions mqtt_session_never_expires_refuted.

(** FINDING: A session resumed more than 20 seconds after the last packet of the
    previous connection is deleted by the next run of the maintenance, unless another
    packet is read before: CONNECT resets the expire time but does not count as a
    heartbeat (that is done at the start of a read, when the connection has no session
    yet). The client has been told that the session is present; its subscriptions and
    messages are gone. *)
Theorem mqtt_session_resumed_refuted :
  exists es b h, Forall event_ok es /\ brun start es = Done (b, h) /\
    In (EConnect [1] false 3600 0 None 60000000, mkA true None []) h /\
    (forall id r now, ~ In (EDisconnect id r now) (skipn 4 es)) /\ skipn 4 es = [EMaintain 60100000] /\ b_sess b = [].
Proof.
  exists [EConnect [1] false 3600 0 None 1000000; ESubscribe [1] [wish f_bc 0 1] 1000001; EDisconnect [1] 0 2000000; EConnect [1] false 3600 0 None 60000000; EMaintain 60100000].
  eexists _, _. split; [ev|]. split; [vm_compute; reflexivity|]. split; [right; right; right; left; reflexivity|].
  split; [intros id r now [H|[]]; discriminate|]. split; reflexivity.
Qed.
Print Assumptions mqtt_session_resumed_refuted.

(** FINDING: A clean start does not discard the messages of QoS 1 and 2 which are
    queued for the previous session: they are sent in the new one, although the client
    is told that no session was present and has subscribed to nothing. *)
Theorem mqtt_clean_start_refuted :
  exists es b h s p, Forall event_ok es /\ brun start es = Done (b, h) /\
    In (EConnect [1] true 60 0 None 9000000, mkA false None []) h /\ In s (b_sess b) /\
    (forall f q, ~ subscribed (requests (ss_id s) h) f q) /\ In p (ss_to s) /\ p_payload p = [7].
Proof.
  exists [EConnect [1] true 60 0 None 1000000; ESubscribe [1] [wish f_bc 0 1] 1000001; EPublish (msg f_bc [7] 1 false 2000000); EConnect [1] true 60 0 None 9000000].
  eexists _, _, _, _. split; [ev|]. split; [vm_compute; reflexivity|]. split; [right; right; right; left; reflexivity|]. split; [left; reflexivity|].
  split; [|split; [left; reflexivity|reflexivity]].
  intros f q S. apply cur_spec in S. vm_compute in S. discriminate.
Qed.
Print Assumptions mqtt_clean_start_refuted.

(** FINDING: The will delay is converted to microseconds in 32 bits
    (mqtt_session_ram.c:1016): a will with a delay of 4295 seconds is published after
    33 milliseconds. *)
Theorem mqtt_will_delay_refuted :
  exists es b h, Forall event_ok es /\ brun start es = Done (b, h) /\
    In (EConnect [1] true 86400 0 (Some (msg f_bc [9] 0 false 0, 4295)) 1000000) es /\
    In (EDisconnect [1] 128 2000000) es /\
    Forall (fun e => match e with EMaintain now => now <= 2100000 | _ => True end) es /\ published h = [msg f_bc [9] 0 false 0].
Proof.
  exists [EConnect [1] true 86400 0 (Some (msg f_bc [9] 0 false 0, 4295)) 1000000; EDisconnect [1] 128 2000000; EMaintain 2100000].
  eexists _, _. split; [ev|]. split; [vm_compute; reflexivity|]. split; [left; reflexivity|]. split; [right; left; reflexivity|]. split; [|reflexivity].
  repeat constructor; lia.
Qed.
Print Assumptions mqtt_will_delay_refuted.

(** FINDING: The will of a client is lost when another connection takes over its
    session; without a delay it should be published then (MQTT 5, 3.1.2.5; MQTT 3.1.1,
    3.1.2.5: unless a DISCONNECT packet has been received). *)
Theorem mqtt_will_take_over_refuted :
  exists es b h, Forall event_ok es /\ brun start es = Done (b, h) /\
    In (EConnect [1] true 60 0 (Some (msg f_bc [9] 0 false 0, 0)) 1000000) es /\ In (EDisconnect [1] 142 2000000) es /\
    (forall reason now, In (EDisconnect [1] reason now) es -> reason <> 0) /\
    published h = [] /\ Forall (fun s => ss_will s = None) (b_sess b).
Proof.
  exists [EConnect [1] true 60 0 (Some (msg f_bc [9] 0 false 0, 0)) 1000000; EDisconnect [1] 142 2000000; EConnect [1] true 60 0 None 2000001].
  eexists _, _. split; [ev|]. split; [vm_compute; reflexivity|]. split; [left; reflexivity|]. split; [right; left; reflexivity|].
  split; [intros r n [H|[H|[H|[]]]]; try discriminate; injection H as <- <-; discriminate|]. split; [reflexivity|]. repeat constructor.
Qed.
Print Assumptions mqtt_will_take_over_refuted.
