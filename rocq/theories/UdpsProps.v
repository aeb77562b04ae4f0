(** Properties C66 to C68: UDP-streams. *)
From Coq Require Import ZArith List Bool Lia.
From Verif Require Import Common MsgModel ReadModel UdpsModel UdpsSpec UdpsProofs UdpsInv UdpsStep UdpsMore UdpsHostile UdpsSendProofs.
Import ListNotations.
Open Scope Z_scope.

(** ** C66: messages arrive as queued, in order and once *)

(** Whatever the applications do and however the network loses, doubles and reorders datagrams: what
    an end has been given is, message by message with data and application data, what the other had
    queued up to some point, without empty messages and those the validator refuses. *)
Theorem udps_delivered_as_queued : forall valid y who, reachable valid y ->
  exists n, e_delivered (the_end y (negb who)) = expected valid (firstn n (e_queued (the_end y who))).
Proof.
  intros valid y who R. destruct (reachable_inv valid y R) as (D & D').
  assert (G : forall a b, dir valid a b -> exists n, e_delivered b = expected valid (firstn n (e_queued a))).
  { intros a b (_ & _ & _ & _ & (dn & td & Q1 & Q2 & _) & _). exists (length dn). rewrite Q1, firstn_app, Nat.sub_diag, firstn_all, app_nil_r. exact Q2. }
  destruct who; cbn [the_end negb]; apply G; assumption.
Qed.
Print Assumptions udps_delivered_as_queued.

(** No history of two such ends aborts the program or leaves memory. *)
Theorem udps_run_safe : forall valid id handle ls, Forall (fun l => label_ok (snd l)) ls -> exists r, run valid (new_system id handle) ls = Ok r.
Proof. intros valid id handle ls F. destruct (run_new valid id handle ls F) as (r & E & _). eauto. Qed.
Print Assumptions udps_run_safe.

(** Two messages, the first in three frames; the second frame is lost, the third doubled; the
    missing frame is sent again after the time limit, and both messages are delivered. *)
Definition big : list Z := repeat 7 1500 ++ repeat 8 600.
Definition story : list (bool * label) :=
  [(true, Queue 4 big); (true, Queue 5 [1; 2]); (true, Send 10); (false, Receive 11 0); (false, Receive 12 2); (false, Receive 12 2);
   (false, Deliver (fun _ => true) (fun _ => 0)); (true, Queue 6 []); (true, Send 2000000); (false, Receive 13 7); (false, Receive 14 5); (false, Receive 14 4);
   (false, Deliver (fun _ => true) (fun _ => 0))].
Example udps_ex : exists y, run (fun _ => true) (new_system 5 9) story = Ok (Some y) /\
  e_delivered (snd y) = [(4, big); (5, [1; 2])] /\ length (e_out (fst y)) = 8%nat.
Proof. eexists. split; [ vm_compute; reflexivity | ]. vm_compute. split; reflexivity. Qed.

(** ** C67: nothing which was accepted is lost *)

(** Missing from the full statement: that frames get to the other end ([udps_tail_loss_refuted],
    [udps_reordered_refuted]), and empty messages ([udps_empty_refuted]).  While both ends live:
    once all frames have been acknowledged, all messages are delivered as soon as the other
    application takes them. *)
Theorem udps_acknowledged_partial : forall valid y who s t, reachable valid y ->
  e_stream (the_end y who) = Some s -> e_stream (the_end y (negb who)) = Some t -> s_send s = [] ->
  exists y', step valid y (negb who) (Deliver (fun _ => true) (fun _ => 0)) = Ok (Some y') /\
    e_delivered (the_end y' (negb who)) = expected valid (e_queued (the_end y' who)) /\ e_queued (the_end y' who) = e_queued (the_end y who).
Proof.
  intros valid (a, b) who s t R Es Et SE. destruct (reachable_inv valid _ R) as (D & D'). cbn [fst snd] in *. unfold step. destruct who; cbn [the_end negb fst snd] in *.
  - destruct (acknowledged_lemma valid a b s t D D' Es Et SE) as (b' & E & H). rewrite E. exists (a, b'). auto.
  - destruct (acknowledged_lemma valid b a s t D' D Es Et SE) as (a' & E & H). rewrite E. exists (a', b). auto.
Qed.
Print Assumptions udps_acknowledged_partial.

(** Every frame of a message which has not been delivered is at the sender or, acknowledged or not,
    at the receiver: a frame is only let go of when the other has it. *)
Theorem udps_retained_partial : forall valid y who s t, reachable valid y ->
  e_stream (the_end y who) = Some s -> e_stream (the_end y (negb who)) = Some t ->
  forall f, In f (frames_from 1 (e_queued (the_end y who))) -> fr_id f <= s_prev t \/
    exists g, (In g (s_send s) \/ In g (s_recv t)) /\ (fr_id g, fr_ft g, fr_app g, fr_data g) = (fr_id f, fr_ft f, fr_app f, fr_data f).
Proof.
  intros valid y who s t R Es Et f I. destruct (reachable_inv valid _ R) as (D & D').
  assert (G : forall a b, dir valid a b -> e_stream a = Some s -> e_stream b = Some t -> In f (frames_from 1 (e_queued a)) -> fr_id f <= s_prev t \/
    exists g, (In g (s_send s) \/ In g (s_recv t)) /\ core g = core f).
  { intros a b (_ & _ & D3 & _ & (dn & td & Q1 & Q2 & Q3) & _ & D7) Ea Eb J. pose proof (frames_known _ _ J) as KF. pose proof (known_bound _ _ KF) as KB.
    destruct (D3 s Ea) as (_ & _ & KS). destruct (Q3 t Eb) as (_ & _ & KR). rewrite Forall_forall in KS, KR.
    assert (SAME : forall g, known (all_cores (e_queued a)) g -> fr_id g = fr_id f -> core g = core f) by (intros g (_ & Kg) EI; destruct KF as (_ & KF); rewrite EI in Kg; congruence).
    destruct (D7 s t Ea Eb (fr_id f) KB) as [ H | [ H | H ] ]; [ right | left; exact H | right ]; apply in_ids in H as (g & H & EI); exists g; auto. }
  destruct who; cbn [the_end negb] in *; [ apply (G (fst y) (snd y)) | apply (G (snd y) (fst y)) ]; auto.
Qed.
Print Assumptions udps_retained_partial.

(** The story goes on: all frames are acknowledged. *)
Example udps_acknowledged_ex : exists y s t,
  run (fun _ => true) (new_system 5 9)
    [(true, Queue 4 big); (true, Send 10); (false, Receive 11 0); (false, Receive 12 1); (false, Receive 12 2); (false, Deliver (fun _ => false) (fun _ => 0)); (true, Receive 13 0)] = Ok (Some y) /\
  e_stream (fst y) = Some s /\ e_stream (snd y) = Some t /\ s_send s = [] /\ length (s_recv t) = 3%nat /\ e_delivered (snd y) = [].
Proof. do 3 eexists. split; [ vm_compute; reflexivity | ]. vm_compute. repeat split; reflexivity. Qed.

(** FINDING: the timer for sending is stopped when all frames of the window have been sent, and
    nothing but another message, or acknowledgements which tell of a gap, makes the sender send
    again; the periodic resending is commented out (udpstream.c:2160-2166).  So if the last datagram
    is lost its message is not delivered, however often the ends are run, until the connection times
    out. *)
Theorem udps_tail_loss_refuted : exists y, reachable (fun _ => true) y /\ e_queued (fst y) = [(7, [1])] /\ e_stream (fst y) <> None /\ e_stream (snd y) <> None /\
  forall ls y', Forall (after_loss (length (e_out (fst y)))) ls -> run (fun _ => true) y ls = Ok (Some y') -> e_delivered (snd y') = [].
Proof.
  destruct (run (fun _ => true) (new_system 5 9) [(true, Queue 7 [1]); (true, Send 10)]) as [ [ y | ] | | ] eqn:E; try (vm_compute in E; discriminate E).
  exists y. split. { exists 5, 9. eexists. split; [ | exact E ]. repeat constructor. }
  vm_compute in E. injection E as <-. split; [ reflexivity | ]. split; [ discriminate | ]. split; [ discriminate | ]. intros ls y' F R. refine (proj2 (proj2 (proj2 (proj2 (proj2 (lost_run _ _ ls _ y' _ F R)))))).
  split; [ intros s Es; injection Es as <-; reflexivity | ]. split; [ cbn; lia | ]. split; [ constructor | ]. split; [ constructor | ]. split; [ intros s Es; injection Es as <-; split; [ reflexivity | constructor ] | reflexivity ].
Qed.
Print Assumptions udps_tail_loss_refuted.

(** FINDING: if the second datagram of a stream arrives before the first the receiver throws the
    stream away.  No datagram is lost.  The sender does not know: the reset it is sent carries the
    number of the frame where the sender looks for its connection. *)
Theorem udps_reordered_refuted : exists y s, run (fun _ => true) (new_system 5 9)
    [(true, Queue 4 [1]); (true, Queue 5 [2]); (true, Send 10); (false, Receive 11 1); (false, Receive 11 0); (true, Receive 12 0); (true, Receive 12 1); (true, Receive 12 2)] = Ok (Some y) /\
  e_stream (snd y) = None /\ e_stream (fst y) = Some s /\ length (s_send s) = 2%nat /\ e_delivered (snd y) = [].
Proof. do 2 eexists. split; [ vm_compute; reflexivity | ]. vm_compute. repeat split; reflexivity. Qed.
Print Assumptions udps_reordered_refuted.

(** FINDING: a message without data is accepted for sending but nothing is sent. *)
Theorem udps_empty_refuted : forall s app, 0 <= s_send_counter s < FRAME_ID_LIMIT -> zlen (s_send s) < BUFFER_LIMIT ->
  exists s', queue_data s app [] = (0, s') /\ s_send s' = s_send s /\ s_send_counter s' = s_send_counter s.
Proof.
  intros s app C L. unfold queue_data. destruct (Z.leb_spec BUFFER_LIMIT (zlen (s_send s))); [ lia | ]. change (zlen (@nil Z) / DATA_SIZE_LIMIT + 1) with 1. destruct (Z.ltb_spec FRAME_ID_LIMIT (s_send_counter s + 1)); [ lia | ].
  eexists. split; [ reflexivity | ]. cbn [length make_frames s_send s_send_counter]. rewrite app_nil_r, zlen_nil, Z.add_0_r. auto.
Qed.
Print Assumptions udps_empty_refuted.

(** FINDING: with 750 frames waiting for acknowledgement nothing more is accepted, and being refused
    does not start sending again: if the datagrams of a full buffer get lost nothing is sent any
    more. *)
Theorem udps_full_refuted : forall s app data, BUFFER_LIMIT <= zlen (s_send s) -> s_pending s = false ->
  exists s', queue_data s app data = (NOT_READY, s') /\ s_pending s' = false.
Proof. intros s app data L P. unfold queue_data. destruct (Z.leb_spec BUFFER_LIMIT (zlen (s_send s))); [ | lia ]. eauto. Qed.
Print Assumptions udps_full_refuted.

(** ** C68: whatever arrives *)

(** A datagram is read as the frame which was sent. *)
Theorem udps_datagram_round_trip : forall p, packet_in_range p -> accepted (packed p) = Some p.
Proof. intros p R. destruct (round_trip_lemma p R) as (A & B). unfold accepted. rewrite A, Z.eqb_refl, B. reflexivity. Qed.
Print Assumptions udps_datagram_round_trip.
(** A datagram in which up to four neighbouring octets are damaged is refused.  (Not shown for
    damage which reaches over the end of the checksum itself.) *)
Theorem udps_datagram_damaged : forall p a w w' b, packet_in_range p -> packed p = a ++ w ++ b -> bytes w' -> zlen w = zlen w' -> zlen w <= 4 -> w <> w' ->
  (4 <= zlen a \/ zlen a + zlen w <= 4) -> accepted (a ++ w' ++ b) = None.
Proof. exact damage_lemma. Qed.
Print Assumptions udps_datagram_damaged.
(** No datagram aborts the program. *)
Theorem udps_datagram_safe : forall buf n e, udp_framer buf = FSize n e -> unpack buf <> Bug /\ unpack buf <> Ub.
Proof. exact unpack_safe_lemma. Qed.
Print Assumptions udps_datagram_safe.
Example udps_datagram_ex : packet_in_range (mk_packet 19 VERSION 5 1 77 [1; 2; 3]) /\ accepted (packed (mk_packet 19 VERSION 5 1 77 [1; 2; 3])) = Some (mk_packet 19 VERSION 5 1 77 [1; 2; 3]) /\
  zlen (packed (mk_packet 19 VERSION 5 1 77 [1; 2; 3])) = 29.
Proof. split; [ repeat split; try (vm_compute; congruence); repeat constructor; vm_compute; congruence | ]. vm_compute. split; reflexivity. Qed.

(** Missing from the full statement: 4 GB of data ([udps_flood_refuted]), and the memory of
    destroyed streams ([udps_freed_refuted]).  Frames of any contents in any order do not abort the
    program or make it leave memory. *)
Theorem udps_hostile_partial : forall valid id handle ls, packets_ok ls -> data_arriving ls < 2^32 -> exists r, hostile_run valid (new_endpoint id handle) ls = Ok r.
Proof. intros valid id handle ls P D. apply (hostile_lemma valid ls 0); [ | exact P | exact D ]. intros s E. injection E as <-. cbn. repeat split; try constructor; lia. Qed.
Print Assumptions udps_hostile_partial.
Example udps_hostile_ex : let ps := [mk_packet 3 3 5 1 0 [1]; mk_packet 36 3 5 4000000000 (2^64 - 1) []; mk_packet 255 2 5 (2^32 - 1) 8 []; mk_packet 19 3 5 3 0 [3]] in
  exists e s, hostile_run (fun _ => true) (new_endpoint 5 9) [(ps, Receive 0 0); (ps, Receive 0 1); (ps, Receive 0 2); (ps, Receive 0 3); ([], Deliver (fun _ => true) (fun _ => 0))] = Ok (Some e) /\
  e_stream e = Some s /\ length (s_recv s) = 3%nat /\ e_delivered e = [].
Proof. do 2 eexists. split; [ vm_compute; reflexivity | ]. vm_compute. repeat split; reflexivity. Qed.

(** FINDING: there is no limit to the frames kept, and the size of a message is a sum of 32 bits:
    4194304 full frames make it zero, and the data is then written to memory of that size. *)
Theorem udps_flood_refuted : forall valid cb, exists ls, packets_ok ls /\ Forall (fun x => Forall (fun p => zlen (p_data p) <= DATA_SIZE_LIMIT) (fst x)) ls /\
  hostile_run valid (new_endpoint 5 9) (ls ++ [([], Deliver (fun _ => true) cb)]) = Ub.
Proof.
  intros valid cb. assert (HN : Z.of_nat (Z.to_nat (2^22)) * 1024 = 2^32) by (rewrite Z2Nat.id by lia; reflexivity).
  exists (map (fun i => (flood_packets (Z.to_nat (2^22)), Receive 0 i)) (seq 0 (Z.to_nat (2^22)))). set (N := Z.to_nat (2^22)) in *. clearbody N.
  split; [ | split; [ | apply flood_lemma; exact HN ] ]; apply Forall_map; apply Forall_forall; intros i _; cbn [fst]; unfold flood_packets; apply Forall_map, Forall_forall; intros j _.
  - cbn [flood_packet p_id]. lia.
  - cbn [flood_packet p_data]. vm_compute. discriminate.
Qed.
Print Assumptions udps_flood_refuted.

(** FINDING: a reset, or a stream which starts with another frame than the first, destroys the
    stream, after which its receive buffer is read once more (udpstream.c:1296): memory which has
    been freed.  No hostile peer is needed: every ordinary reset does it. *)
Theorem udps_freed_refuted : exists y, reachable (fun _ => true) y /\ e_freed (snd y) = true.
Proof.
  destruct (run (fun _ => true) (new_system 5 9) [(true, Timeout); (false, Receive 1 0)]) as [ [ y | ] | | ] eqn:E; try (vm_compute in E; discriminate E).
  exists y. split; [ exists 5, 9; eexists; split; [ | exact E ]; repeat constructor | ]. vm_compute in E. injection E as <-. reflexivity.
Qed.
Print Assumptions udps_freed_refuted.

(** ** Rounds of sending, for C67 *)

(** A round sends only frames which may be sent: again, when they were lost as far as can be told, or for
    the first time within the window the other end allows.  It sends at most 100 of them, and if it is
    not followed by another round, it has sent all which may be sent. *)
Theorem udps_round : forall now s s' out, s_pending s = true -> event_send now s = Ok (s', out) ->
  (forall p, In p out -> exists a f b, s_send s = a ++ f :: b /\ p = frame_packet s f /\ may_send now (s_from_remote s) a f) /\
  (s_pending s' = false -> forall a f b, s_send s = a ++ f :: b -> may_send now (s_from_remote s) a f -> In (frame_packet s f) out) /\
  zlen out <= 100 /\ (s_pending s' = true -> zlen out = 100).
Proof. exact event_send_chosen. Qed.
Print Assumptions udps_round.
(** Three frames with room for one: the first was sent long ago *)
Example udps_round_ex : exists s s', s_from_remote s = 2 /\ s_pending s = true /\ map fr_sent (s_send s) = [7; 0; 0] /\
  event_send 2000000 s = Ok (s', [frame_packet s (mk_frame 1 3 0 [1] 7 0 0); frame_packet s (mk_frame 2 3 0 [2] 0 0 0)]) /\ s_pending s' = false.
Proof. exists (mk_stream 5 [mk_frame 1 3 0 [1] 7 0 0; mk_frame 2 3 0 [2] 0 0 0; mk_frame 3 3 0 [3] 0 0 0] 4 [] 0 0 2 2 0 0 9 true). eexists. vm_compute. repeat split. Qed.
