(** Properties C69 and C70: assured single delivery over UDP-streams. *)
From Coq Require Import ZArith List Bool Lia Sorting.Permutation.
From Verif Require Import Common ReadModel AsdModel AsdSpec AsdQueue AsdProofs AsdLoss AsdOnce AsdMore.
Import ListNotations.
Open Scope Z_scope.

(** ** C69: every accepted message is delivered once *)

(** Missing from the full statement: several clients at the same receiver
    ([asd_two_clients_refuted]) and crashes ([asd_client_restart_refuted], [asd_late_reset_refuted],
    [asd_receiver_restart_refuted]).  With one client, whatever is lost, doubled or reordered, at
    whatever times the ends act and however often the connection is made again: what the receiver
    has been given is what the client has accepted, each message once, without some which the
    client still holds. *)
Theorem asd_once_partial : forall os s c, few os -> Forall no_restart os -> Forall (only c) os -> along ticking start os -> run start os = Ok s ->
  exists rest, Permutation (delivered s c ++ rest) (accepted s c) /\ sublist rest (outstanding s c).
Proof. exact once_lemma. Qed.
Print Assumptions asd_once_partial.

(** In particular, when the client holds nothing any more, every message has been delivered, once. *)
Theorem asd_done_partial : forall os s c, few os -> Forall no_restart os -> Forall (only c) os -> along ticking start os -> run start os = Ok s ->
  outstanding s c = [] -> Permutation (delivered s c) (accepted s c).
Proof.
  intros os s c FW NR OC TK E H. destruct (once_lemma os s c FW NR OC TK E) as (rest & P & S1). rewrite H in S1. inversion S1; subst. rewrite app_nil_r in P. exact P.
Qed.
Print Assumptions asd_done_partial.

(** With any number of clients nothing is lost and nothing is made up: a message which a client has
    accepted has been delivered as a message of that client, or the client still holds it. *)
Theorem asd_no_loss_partial : forall os s c, few os -> Forall no_restart os -> run start os = Ok s ->
  incl (accepted s c) (delivered s c ++ outstanding s c) /\ incl (delivered s c) (accepted s c).
Proof. exact no_loss_lemma. Qed.
Print Assumptions asd_no_loss_partial.

(** No history aborts the program, crashes of the ends included. *)
Theorem asd_run_safe : forall os, few os -> exists s, run start os = Ok s.
Proof. intros os FW. destruct (run_wf os (fun _ => 0) start wf_start (fun c => FW c)) as (s & E & _). eauto. Qed.
Print Assumptions asd_run_safe.

(** Two messages; the first is sent again as its acknowledgement is late, the copy arrives after the
    delivery, the connection is made again, control frames arrive twice and in another order. *)
Definition asd_story : list op :=
  [Queue 1 [7]; Queue 1 [8; 8]; Tick 1 10 5; Data 1; Tick 1 4000011 1; Data 1; ToClient 1 1; ToClient 1 0; ToClient 1 0; ToReceiver 1 1 false; ToReceiver 1 1 true;
   ToReceiver 1 2 true; Maintain; Data 1; ToReceiver 1 0 true; ToClient 1 2; Reconnect 1 5000000; Tick 1 9000000 5; ToReceiver 1 0 true; Queue 1 [7]].
Example asd_ex : exists s, run start asd_story = Ok s /\ few asd_story /\ Forall no_restart asd_story /\ Forall (only 1) asd_story /\ along ticking start asd_story /\
  delivered s 1 = [[8; 8]; [7]] /\ accepted s 1 = [[7]; [8; 8]; [7]] /\ outstanding s 1 = [[8; 8]; [7]].
Proof.
  eexists. split; [ vm_compute; reflexivity | ]. split; [ intros c; pose proof (queued_len c asd_story) as H; change (zlen asd_story) with 20 in H; lia | ].
  split; [ repeat constructor | ]. split; [ repeat constructor | ]. split; [ vm_compute; repeat split; discriminate | ]. vm_compute. repeat split.
Qed.

(** FINDING: the number of messages after which a delivered message is forgotten counts those of all
    clients, and only forgets those of the first client seen (udpstream_asd.c:1044-1055).  With two
    clients, the second copy of a message, sent as the first was not acknowledged in time, may
    arrive after 1500 messages of the other client: it is delivered again. *)
Theorem asd_two_clients_refuted : exists os s m, few os /\ Forall no_restart os /\ along ticking start os /\ run start os = Ok s /\
  accepted s 1 = [m] /\ delivered s 1 = [m; m].
Proof. exact doubled_lemma. Qed.
Print Assumptions asd_two_clients_refuted.

(** FINDING: when a client starts, it sends one control frame which makes the receiver forget the
    ids of the former run; it is sent once and not acknowledged (udpstream_asd.c:440-458).  If it is
    lost, new messages get the ids of old ones: they are acknowledged and never delivered. *)
Theorem asd_client_restart_refuted : exists os s m, few os /\ run start os = Ok s /\
  In m (accepted s 1) /\ outstanding s 1 = [] /\ ~ In m (delivered s 1) /\ s_channel s 1 = [].
Proof.
  exists [Queue 1 [7]; Tick 1 10 1; Data 1; ToClient 1 0; ToReceiver 1 0 true; ToClient 1 1; Maintain;
          Restart 1; Queue 1 [8]; Tick 1 20 1; Data 1; ToClient 1 2; ToReceiver 1 2 true; ToClient 1 3]. eexists. exists [8].
  split; [ intros c; cbn [queued]; destruct (1 =? c); lia | ]. split; [ vm_compute; reflexivity | ]. vm_compute.
  split; [ right; left; reflexivity | ]. split; [ reflexivity | ]. split; [ | reflexivity ]. intros [H|[]]. discriminate.
Qed.
Print Assumptions asd_client_restart_refuted.

(** FINDING: if that control frame arrives later than the first message, which was sent after it
    over the UDP-stream, the receiver drops the message, which it has acknowledged; asked to release
    a message it does not have, it confirms that (udpstream_asd.c:596-606), and the message is lost. *)
Theorem asd_late_reset_refuted : exists os s m, few os /\ run start os = Ok s /\
  accepted s 1 = [m] /\ outstanding s 1 = [] /\ delivered s 1 = [] /\ s_channel s 1 = [].
Proof.
  exists [Restart 1; Queue 1 [7]; Tick 1 10 1; Data 1; ToReceiver 1 0 true; ToClient 1 0; ToReceiver 1 1 true; ToClient 1 1]. eexists. exists [7].
  split; [ intros c; cbn [queued]; destruct (1 =? c); lia | ]. split; [ vm_compute; reflexivity | ]. vm_compute. repeat split.
Qed.
Print Assumptions asd_late_reset_refuted.

(** FINDING: likewise for a receiver which is restarted between its acknowledgement of a message and
    the release of the message. *)
Theorem asd_receiver_restart_refuted : exists os s m, few os /\ run start os = Ok s /\
  accepted s 1 = [m] /\ outstanding s 1 = [] /\ delivered s 1 = [] /\ s_channel s 1 = [].
Proof.
  exists [Queue 1 [7]; Tick 1 10 1; Data 1; RestartReceiver; Reconnect 1 20; ToClient 1 0; ToReceiver 1 0 true; ToClient 1 1]. eexists. exists [7].
  split; [ intros c; cbn [queued]; destruct (1 =? c); lia | ]. split; [ vm_compute; reflexivity | ]. vm_compute. repeat split.
Qed.
Print Assumptions asd_receiver_restart_refuted.

(** ** C70: the receiver goes on receiving *)

(** Missing from the full statement: several clients ([asd_halted_refuted]).  With one client the
    receiver always has room for another message: the next one in the UDP-stream is taken. *)
Theorem asd_room_partial : forall os s c x rest, few os -> Forall no_restart os -> Forall (only c) os -> along ticking start os -> run start os = Ok s ->
  s_channel s c = x :: rest -> exists s', step s (Data c) = Ok s' /\ s_channel s' c = rest.
Proof.
  intros os s c x rest FW NR OC TK E CH. pose proof (room_lemma os s c FW NR OC TK E) as P. destruct (run_wf os (fun _ => 0) start wf_start (fun c => FW c)) as (s1 & E1 & W).
  rewrite E in E1. injection E1 as <-. cbn [step]. rewrite CH, P. destruct x as (i, m). unfold receive_message. destruct (2^32 - 1 <? i).
  - eexists. split; [ reflexivity | ]. cbn [s_channel]. apply set_same.
  - destruct (collect_ok (s_receiver s) c (u32 i) m (wf_held _ s W c)) as (q' & Q & _). rewrite Q. eexists. split; [ reflexivity | ]. cbn [s_channel]. apply set_same.
Qed.
Print Assumptions asd_room_partial.
(** A message waits in the UDP-stream and is taken *)
Example asd_room_ex : exists s s', run start [Queue 1 [7]; Queue 1 [8]; Tick 1 10 5; Data 1] = Ok s /\ s_channel s 1 = [(2, [8])] /\
  step s (Data 1) = Ok s' /\ s_channel s' 1 = [] /\ zlen (queue_of (s_receiver s') 1) = 2.
Proof. eexists. eexists. split; [ vm_compute; reflexivity | ]. split; [ reflexivity | ]. split; [ vm_compute; reflexivity | ]. split; reflexivity. Qed.

(** FINDING: delivered messages of all clients but the first seen are kept for ever
    (udpstream_asd.c:1055 clears the count after the first queue).  When there are 4500 of them,
    no message of any client is received any more, whatever happens, until one of the ends is
    restarted; a message of another client waits for ever. *)
Theorem asd_halted_refuted : exists os s, few os /\ Forall no_restart os /\ along ticking start os /\ run start os = Ok s /\ s_channel s 1 = [(1, [7])] /\
  forall os' s', few (os ++ os') -> Forall no_restart os' -> run s os' = Ok s' -> forall c, step s' (Data c) = Ok s'.
Proof. exact halted_lemma. Qed.
Print Assumptions asd_halted_refuted.

(** Whatever the state of the client, also after 2^32 messages: a message is given an id which is not zero,
    which the control frames use for "none", and the message is added under it. *)
Theorem asd_id : forall k m k' i, queue_message k m = Ok (k', Some i) -> 0 <= c_pos k < 2^32 -> 1 <= i < 2^32 /\ i = c_pos k'.
Proof.
  intros k m k' i E P. unfold queue_message in E. destruct (ASD_BUFFER_MAX <=? zlen (c_queue k)); [ discriminate | ]. cbv zeta in E.
  remember (if u32 (c_pos k + 1) =? 0 then u32 (u32 (c_pos k + 1) + 1) else u32 (c_pos k + 1)) as p eqn:Ep. destruct (q_find _ t_id (c_queue k) p); [ discriminate | ].
  destruct (q_insert _ t_id (c_queue k) (mk_sent p m 0 0)) as [q|]; [ | discriminate ]. injection E as <- <-. split; [ | reflexivity ].
  unfold u32 in Ep. destruct (Z.eqb_spec ((c_pos k + 1) mod 2^32) 0); lia.
Qed.
Print Assumptions asd_id.
Example asd_id_ex : exists k', queue_message (mk_client [] (2^32 - 1)) [7] = Ok (k', Some 1).
Proof. eexists. vm_compute. reflexivity. Qed.
