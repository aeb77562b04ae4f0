(** C98-C100: the message broker. *)
From Coq Require Import ZArith List Bool Lia PeanoNat.
From Verif Require Import Common BrokModel BrokSpec BrokProofs BrokProgress BrokBack.
Import ListNotations.
Open Scope Z_scope.

(** ** C98: every reader gets every message once and in order *)
(** Whatever instances write, are told and poll, in any interleaving: nothing is aborted and no
    memory is used wrongly, and what an instance has got from another one is what that one has
    written up to some message: nothing twice, nothing left out, nothing in another order. *)
Theorem broker_order : forall N ops, ok_net N ->
  exists s, run N (start N) ops = Ok s /\ forall r a, In a (n_senders N r) -> begins (got s r a) (s_written s a).
Proof. exact broker_order_proof. Qed.
Print Assumptions broker_order.
(** Instance 0 duplicates, for 1 and 2; 3 is read by 1 only. *)
Definition net_ex : net :=
  mk_net (fun r => match r with 1%nat => [0; 3]%nat | 2%nat => [0%nat] | _ => [] end)
         (fun a => match a with 0%nat => [1; 2]%nat | 3%nat => [1%nat] | _ => [] end)
         (fun a => match a with 0%nat => Some 2%nat | _ => None end) (fun _ => true) 500.
Lemma net_ex_ok : ok_net net_ex.
Proof.
  constructor.
  - cbn. lia.
  - intros a r. split; intros H; destruct a as [|[|[|[|a]]]]; destruct r as [|[|[|r]]]; cbn in *; intuition lia.
  - intros [|[|[|[|a]]]]; cbn; repeat constructor; cbn; intuition lia.
  - intros [|[|[|r]]]; cbn; repeat constructor; cbn; intuition lia.
  - intros [|[|[|[|a]]]]; cbn; lia.
Qed.
Definition ops_ex : list op :=
  [New 0 10 0; New 3 20 0; Tell 1; Poll 1 1; Step 1; New 0 11 0; Step 1; Step 1; Tell 2; Poll 2 1; Step 2; Step 1; Step 1; Step 1; Step 1; Step 1; Step 1; Step 1;
   Step 1; Step 1; Step 2; Step 2; Step 2; Step 2; Step 2; Tell 2]%nat.
Example broker_order_ex : exists s, run net_ex (start net_ex) ops_ex = Ok s /\ s_written s 0%nat = [10; 11] /\ got s 1 0 = [10] /\ got s 2 0 = [10] /\
  s_poll s 1%nat = PIdle /\ (exists q, nth_error (s_split s 0%nat) 0 = Some (Some 1%nat, q) /\ msgs (q_list q) = [11]).
Proof. eexists. split; [vm_compute; reflexivity|]. vm_compute. repeat split; auto. eexists. split; reflexivity. Qed.

(** FINDING: of an instance with several readers and without duplicate, two readers can make
    use of memory which has been given free: if one of them has taken as many messages as are taken at
    a time, 500, and its amount ends at the last of them, it makes the message after them the first of
    the queue, though the other one has read it in the meantime. *)
Theorem broker_shared_memory_refuted :
  exists N ops, n_max N = 500%nat /\ loopless N /\ (forall a r, In r (n_readers N a) <-> In a (n_senders N r)) /\ run N (start N) ops = Ub.
Proof.
  exists (mk_net (fun r => match r with 1%nat => [0%nat] | 2%nat => [0%nat] | _ => [] end)
                 (fun a => match a with 0%nat => [1; 2]%nat | _ => [] end) (fun _ => None) (fun _ => false) 500).
  exists (repeat (New 0 7 0) 500 ++ [New 0 8 1] ++ repeat (Tell 1) 500 ++ [Tell 2; Poll 1 500; Step 1; Poll 2 1; Step 2; Step 2]%nat ++ repeat (Step 1) 500).
  split; [reflexivity|]. split; [|split].
  - intros [|[|[|r]]] H; cbn in H; intuition lia.
  - intros a r. split; intros H; destruct a as [|a]; destruct r as [|[|[|r]]]; cbn in *; intuition lia.
  - vm_compute. reflexivity.
Qed.
Print Assumptions broker_shared_memory_refuted.

(** ** C99: no message is left lying *)
(** An instance has exactly as many events, used, sent or about to be sent, as there are
    messages for it. *)
Theorem broker_events : forall N ops s r, ok_net N -> run N (start N) ops = Ok s -> events s r = unread N s r.
Proof. exact broker_events_proof. Qed.
Print Assumptions broker_events.
Example broker_events_ex : exists s, run net_ex (start net_ex) ops_ex = Ok s /\ unread net_ex s 1 = 2%nat /\ s_pending s 1%nat = 0%nat /\ s_unsent s = [1; 1]%nat /\
  unread net_ex s 2 = 1%nat /\ s_pending s 2%nat = 1%nat.
Proof. eexists. split; [vm_compute; reflexivity|]. vm_compute. auto. Qed.
(** Once it has none, it has got everything. *)
Theorem broker_complete : forall N ops s r a, ok_net N -> run N (start N) ops = Ok s -> events s r = O -> In a (n_senders N r) ->
  got s r a = s_written s a.
Proof. exact broker_complete_proof. Qed.
Print Assumptions broker_complete.
Definition ops_ex2 : list op := (ops_ex ++ [Poll 2 1] ++ repeat (Step 2) 5 ++ [Tell 1; Tell 1; Poll 1 2] ++ repeat (Step 1) 12)%nat.
Example broker_complete_ex : exists s, run net_ex (start net_ex) ops_ex2 = Ok s /\ events s 1%nat = O /\ events s 2%nat = O /\ got s 1 0 = [10; 11] /\ got s 1 3 = [20] /\
  got s 2 0 = [10; 11].
Proof. eexists. split; [vm_compute; reflexivity|]. vm_compute. auto 6. Qed.
(** There is no deadlock: if nothing can be done, there is nothing to do. *)
Theorem broker_no_deadlock : forall N ops s, ok_net N -> run N (start N) ops = Ok s ->
  (forall r, exec N s (Tell r) = None /\ (forall n, exec N s (Poll r n) = None) /\ exec N s (Step r) = None) -> at_rest s.
Proof. exact broker_no_deadlock_proof. Qed.
Print Assumptions broker_no_deadlock.
(** While instance 2 puts messages in the buffers, instance 1 has to wait. *)
Example broker_no_deadlock_ex : exists s, run net_ex (start net_ex) ([New 0 10 0; Tell 1; Tell 2; Poll 1 1; Poll 2 1; Step 2; Step 2]%nat) = Ok s /\
  exec net_ex s (Step 1) = None /\ exec net_ex s (Step 2) <> None.
Proof. eexists. split; [vm_compute; reflexivity|]. vm_compute. split; [auto|discriminate]. Qed.
(** Every poll by an instance which is not disturbed by others reads something... *)
Theorem broker_progress : forall N ops s r n, ok_net N -> run N (start N) ops = Ok s -> (forall k, s_poll s k = PIdle) ->
  (1 <= n <= s_pending s r)%nat -> Z.of_nat n <= 65535 ->
  exists m s', run N s (Poll r n :: repeat (Step r) m) = Ok s' /\ (forall k, s_poll s' k = PIdle) /\ (unread N s' r < unread N s r)%nat.
Proof. exact broker_progress_proof. Qed.
Print Assumptions broker_progress.
(** ... and so all there is. *)
Theorem broker_finish : forall N ops s r, ok_net N -> run N (start N) ops = Ok s -> (forall k, s_poll s k = PIdle) ->
  exists ops' s', Forall (ops_of r) ops' /\ run N s ops' = Ok s' /\ (forall a, In a (n_senders N r) -> got s' r a = s_written s a).
Proof. exact broker_finish_proof. Qed.
Print Assumptions broker_finish.
Example broker_progress_ex : exists s s', run net_ex (start net_ex) [New 0 10 0; New 3 20 0; New 0 11 0; Tell 1; Tell 1; Tell 1]%nat = Ok s /\ s_pending s 1%nat = 3%nat /\ unread net_ex s 1 = 3%nat /\
  run net_ex s (Poll 1 2 :: repeat (Step 1) 12)%nat = Ok s' /\ unread net_ex s' 1 = 1%nat /\ s_pending s' 1%nat = 1%nat /\ got s' 1 0 = [10; 11] /\ got s' 1 3 = [].
Proof. eexists. eexists. split; [vm_compute; reflexivity|]. split; [reflexivity|]. split; [reflexivity|]. split; [vm_compute; reflexivity|]. vm_compute. auto 6. Qed.

(** FINDING: of an instance with several readers and without duplicate, a reader can use its
    event for a message of which another reader was told, and leave a message from another sender,
    which only it can read, lying: it has no event any more, and whatever the readers do, it is not read until
    somebody writes again. *)
Theorem broker_shared_lost_refuted :
  exists N ops s, loopless N /\ (forall a r, In r (n_readers N a) <-> In a (n_senders N r)) /\ run N (start N) ops = Ok s /\
    n_readers N 3 = [1%nat] /\ s_written s 3%nat = [20] /\
    forall ops' s', Forall no_write ops' -> run N s ops' = Ok s' -> got s' 1 3 = [].
Proof.
  exists (mk_net (fun r => match r with 1%nat => [0; 3]%nat | 2%nat => [0%nat] | _ => [] end)
                 (fun a => match a with 0%nat => [1; 2]%nat | 3%nat => [1%nat] | _ => [] end) (fun _ => None) (fun _ => false) 500).
  exists ([New 0 10 1; New 3 20 0; Tell 1; Tell 2; Poll 1 1; Step 1; Step 1; Step 1]%nat). eexists.
  split; [|split; [|split; [|split; [|split]]]].
  - intros [|[|[|r]]] H; cbn in H; intuition lia.
  - intros a r. split; intros H; destruct a as [|[|[|[|a]]]]; destruct r as [|[|[|r]]]; cbn in *; intuition lia.
  - vm_compute. reflexivity.
  - reflexivity.
  - reflexivity.
  - intros ops' s' Hno H. unfold got. rewrite (asleep _ 1%nat _ _ _ Hno) with (4 := H); cbn; auto.
Qed.
Print Assumptions broker_shared_lost_refuted.

(** ** C100: messages do not come back *)
(** Without duplicate: the messages which a module is given are those read but, with
    backstop, its own, which are left out; the others are all there. *)
Theorem broker_backstop_partial : forall N ops s r, loopless N -> (forall a, n_split N a = None) -> run N (start N) ops = Ok s ->
  map e_msg (s_handed s r) = map (fun x => e_msg (snd x)) (filter (kept N r) (s_log s r)) /\
  (n_backstop N r = true -> forall e, In e (s_handed s r) -> e_origin e <> r).
Proof. exact broker_backstop_proof. Qed.
Print Assumptions broker_backstop_partial.
(** A ring of two: 0 writes to 1, which hands on to 0. *)
Definition net_ring (back : bool) : net :=
  mk_net (fun r => match r with 0%nat => [1%nat] | 1%nat => [0%nat] | _ => [] end)
         (fun a => match a with 0%nat => [1%nat] | 1%nat => [0%nat] | _ => [] end) (fun _ => None) (fun _ => back) 500.
Definition ops_ring : list op := ([New 0 10 0; New 1 30 0; Tell 1; Poll 1 1] ++ repeat (Step 1) 3 ++ [Forward 1 0 0; Tell 0; Tell 0; Poll 0 2] ++ repeat (Step 0) 5)%nat.
Example broker_backstop_ex :
  (exists s, run (net_ring true) (start (net_ring true)) ops_ring = Ok s /\ got s 0 1 = [30; 10] /\ map e_msg (s_handed s 0%nat) = [30]) /\
  (exists s, run (net_ring false) (start (net_ring false)) ops_ring = Ok s /\ got s 0 1 = [30; 10] /\ map e_msg (s_handed s 0%nat) = [30; 10]).
Proof. split; eexists; (split; [vm_compute; reflexivity|]); vm_compute; auto. Qed.
(** FINDING: with duplicate, messages come back: the clones put in the split buffers do not
    have the source of the message.  Instance 0 gets from instance 1, which duplicates, the message
    which it has made itself, though backstop is set; this is the bus of the manual page. *)
Theorem broker_backstop_duplicate_refuted :
  exists N ops s e, ok_net N /\ loopless N /\ run N (start N) ops = Ok s /\ n_backstop N 0 = true /\ In e (s_handed s 0%nat) /\ e_origin e = 0%nat.
Proof.
  exists (mk_net (fun r => match r with 0%nat => [1%nat] | 1%nat => [0%nat] | 2%nat => [1%nat] | _ => [] end)
                 (fun a => match a with 0%nat => [1%nat] | 1%nat => [0; 2]%nat | _ => [] end)
                 (fun a => match a with 1%nat => Some 2%nat | _ => None end) (fun _ => true) 500).
  exists ([New 0 10 0; Tell 1; Poll 1 1] ++ repeat (Step 1) 3 ++ [Forward 1 0 0; Tell 0; Poll 0 1] ++ repeat (Step 0) 9)%nat.
  eexists. exists (mk_e 10 0 (Some 1%nat)). split; [|split; [|split; [|split; [|split]]]].
  - constructor.
    + cbn. lia.
    + intros a r. split; intros H; destruct a as [|[|a]]; destruct r as [|[|[|r]]]; cbn in *; intuition lia.
    + intros [|[|a]]; cbn; repeat constructor; cbn; intuition lia.
    + intros [|[|[|r]]]; cbn; repeat constructor; cbn; intuition lia.
    + intros [|[|a]]; cbn; lia.
  - intros [|[|[|r]]] H; cbn in H; intuition lia.
  - vm_compute. reflexivity.
  - reflexivity.
  - cbn. auto.
  - reflexivity.
Qed.
Print Assumptions broker_backstop_duplicate_refuted.
