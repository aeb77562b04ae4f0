(** The properties of the Modbus client. *)
From Coq Require Import ZArith List Bool Lia.
From Verif Require Import Common BusTypes BusModel BusSpec BusProofs BusRun BusTrace.
Import ListNotations.
Open Scope Z_scope.

(** C109, C110. The client does what a Modbus client does ([step] in the specification), with every
    sequence of requests, times and octets received, and does not fail an assertion. *)
Theorem modbus_refines : forall os, Forall op_ok os ->
  exists c xs h, bus_run client_new os = Some (c, xs) /\ steps history_new os xs h.
Proof.
  intros os OK. destruct (run_ok os client_new history_new inv_new OK) as (c & xs & h & R & S & _). exists c, xs, h. auto.
Qed.
Print Assumptions modbus_refines.

(** Two requests, and answers in the other order, the first of them in two parts. *)
Definition bus_junk : list Z := repeat 170 252.
Definition bus_ex : list op :=
  [ Ask (Read_holding_registers 258 2) 1000 5; Ask (Read_coils 0 9) 2000 6; Send 7; Send 8; Send 9;
    Receive [0; 1; 0; 0; 0; 5; 255; 1; 2] bus_junk 0; Receive [0; 1; 0; 0; 0; 5; 255; 1; 2; 205; 1] bus_junk 0;
    Receive [0; 1; 0; 0; 0; 5; 255; 1; 2; 205; 1] bus_junk 0;
    Receive [0; 0; 0; 0; 0; 3; 255; 131; 2; 9; 9] bus_junk 0 ].
Example modbus_ex : Forall op_ok bus_ex /\ exists c, bus_run client_new bus_ex = Some (c,
  [ Asked 0 []; Asked 0 []; Sent 0 [0; 0; 0; 0; 0; 6; 255; 3; 1; 2; 0; 2]; Sent 0 [0; 1; 0; 0; 0; 6; 255; 1; 0; 0; 0; 9]; Sent 8 [];
    Received 4 9 []; Received 0 11 [Answered 1 1 (Values [205; 1]) 2000; Destroy 2000];
    Received 2 11 [];
    Received 0 9 [Answered 3 0 (Failed 2) 1000; Destroy 1000] ]).
Proof.
  split.
  - repeat constructor; try lia; try reflexivity; unfold byte; lia.
  - eexists. vm_compute. reflexivity.
Qed.

(** C109. What is sent is the requests which were taken, each once and in their order, as the
    protocol says, numbered modulo 65536. *)
Theorem modbus_sent : forall os, Forall op_ok os ->
  exists c xs m, bus_run client_new os = Some (c, xs) /\ (m <= length (taken os xs))%nat /\
    sent xs = map (fun k => frame (id_of k) (pdu_of (fst (nth k (taken os xs) (Read_coils 0 0, 0))))) (seq 0 m).
Proof.
  intros os OK. destruct (modbus_refines os OK) as (c & xs & h & R & S). exists c, xs, (h_sent h). split; [ exact R | ].
  destruct (sent_steps _ _ _ _ S sane_new) as (_ & E). cbn [history_new h_sent] in E. rewrite Nat.sub_0_r in E.
  pose proof (asked_steps _ _ _ _ S) as A. cbn [history_new h_asked app] in A. rewrite <- A. split; [ exact (s_sent _ (sane_steps _ _ _ _ S sane_new)) | exact E ].
Qed.
Print Assumptions modbus_sent.

(** C110. No request is answered twice: the pointers which come with the answers are those of
    different requests, which have been sent. *)
Theorem modbus_answered_once : forall os, Forall op_ok os ->
  exists c xs ks, bus_run client_new os = Some (c, xs) /\ NoDup ks /\ Forall (fun k => (k < length (sent xs))%nat) ks /\
    Forall2 (fun k data => exists r, nth_error (taken os xs) k = Some (r, data)) ks (answered xs).
Proof.
  intros os OK. destruct (modbus_refines os OK) as (c & xs & h & R & S). destruct (answered_steps _ _ _ _ S) as (ks & ND & F & F2 & _).
  destruct (sent_steps _ _ _ _ S sane_new) as (_ & E). cbn [history_new h_sent] in E. rewrite Nat.sub_0_r in E.
  assert (L : length (sent xs) = h_sent h) by (rewrite E; unfold frames; rewrite map_length, seq_length; reflexivity).
  pose proof (asked_steps _ _ _ _ S) as A. cbn [history_new h_asked app] in A.
  exists c, xs, ks. rewrite <- A. split; [ exact R | ]. split; [ exact ND | ]. split; [ | exact F2 ]. rewrite L. eapply Forall_impl; [ | exact F ]. cbn. tauto.
Qed.
Print Assumptions modbus_answered_once.

(** C110. An answer can belong to one request only: numbers are not used again before the request
    which had them is done with. *)
Theorem modbus_ids : forall os xs h i j, steps history_new os xs h -> outstanding h i -> outstanding h j -> id_of i = id_of j -> i = j.
Proof. intros os xs h i j S. apply ids_unique. exact (sane_steps _ _ _ _ S sane_new). Qed.
Print Assumptions modbus_ids.

Example modbus_ids_ex : exists xs h, steps history_new (firstn 5 bus_ex) xs h /\ outstanding h 0 /\ outstanding h 1.
Proof.
  eexists. eexists. split.
  - unfold bus_ex. cbn [firstn]. eapply Steps_cons; [ apply S_ask; cbn; intros; lia | ]. eapply Steps_cons; [ apply S_ask; cbn; intros; lia | ].
    eapply Steps_cons; [ eapply S_send; reflexivity | ]. eapply Steps_cons; [ eapply S_send; reflexivity | ]. eapply Steps_cons; [ apply S_idle; reflexivity | ]. apply Steps_nil.
  - split; split; cbn; auto.
Qed.

(** C110. When a request has been sent and is not done with, and an answer to it arrives, whatever
    comes after it, the answer is handed over with the pointer of the request and only it is taken
    from the data. *)
Theorem modbus_answer_arrives : forall os octets before ret, Forall op_ok os -> bytes octets -> bytes before -> length before = 252%nat ->
  exists c xs h, bus_run client_new os = Some (c, xs) /\ steps history_new os xs h /\
    forall k r data pdu a, outstanding h k -> asked h k r data -> framed octets (id_of k) pdu -> response r pdu a -> zlen pdu <= 252 ->
      exists c', bus_step c (Receive octets before ret) =
        Some (c', Received ret (if ret =? 0 then 7 + zlen pdu else zlen octets) (Answered (code_of r) (id_of k) a data :: given_back data)).
Proof.
  intros os octets before ret OK BO BB LB. destruct (run_ok os client_new history_new inv_new OK) as (c & xs & h & R & S & I). exists c, xs, h. split; [ exact R | ]. split; [ exact S | ].
  intros k r data pdu a O A F RE LP. destruct (receive_ok c h octets before ret I BO BB LB) as (c' & x & h' & ST & T & _). exists c'. rewrite ST. f_equal. f_equal.
  exact (step_answer h octets before ret x h' k r data pdu a (sane_steps _ _ _ _ S sane_new) T O A F RE LP).
Qed.
Print Assumptions modbus_answer_arrives.

(** The last octets of [modbus_ex] answer the first request there. *)
Example modbus_answer_arrives_ex : framed [0; 0; 0; 0; 0; 3; 255; 131; 2; 9; 9] (id_of 0) [131; 2] /\ response (Read_holding_registers 258 2) [131; 2] (Failed 2).
Proof.
  split.
  - exists 0, 0, 0, 0, 0, 3, 255, [9; 9]. repeat apply conj; reflexivity.
  - apply (R_failed (Read_holding_registers 258 2)).
Qed.

(** FINDING: an error answer without an error code is accepted, and the code given to the user is
    what happened to be in memory. *)
Theorem modbus_short_error_refuted : exists os c xs, bus_run client_new os = Some (c, xs) /\
  forall before, length before = 252%nat -> exists c', bus_step c (Receive [0; 0; 0; 0; 0; 2; 255; 131] before 0) = Some (c', Received 0 8 [Answered 3 0 (Failed (nth 1 before 0)) 1000; Destroy 1000]).
Proof.
  exists [Ask (Read_holding_registers 0 1) 1000 5; Send 6]. eexists. eexists. split; [ vm_compute; reflexivity | ].
  intros before L. destruct before as [ | b0 [ | b1 before ] ]; [ discriminate | discriminate | ]. eexists. reflexivity.
Qed.
Print Assumptions modbus_short_error_refuted.

(** FINDING: when the answer to a request is for another function or too long, the request is
    forgotten and its pointer is never given back: nothing is left in the client which could do so
    when it is destroyed. *)
Theorem modbus_leak_refuted : exists c xs, bus_run client_new [Ask (Read_holding_registers 0 1) 1000 5; Send 6; Receive [0; 0; 0; 0; 0; 4; 255; 1; 1; 1] bus_junk 0] = Some (c, xs) /\
  ~ In (Received 2 10 [Destroy 1000]) xs /\ xs = [Asked 0 []; Sent 0 [0; 0; 0; 0; 0; 6; 255; 3; 0; 0; 0; 1]; Received 2 10 []] /\ Forall (fun s => s = None) (cl_slots c).
Proof.
  eexists. eexists. split; [ vm_compute; reflexivity | ]. split; [ intros [ X | [ X | [ X | [] ] ] ]; discriminate | ]. split; [ reflexivity | ]. repeat constructor.
Qed.
Print Assumptions modbus_leak_refuted.
