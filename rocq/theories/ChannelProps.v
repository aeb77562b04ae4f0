(** C34: the channel between two processes is a bounded queue, for every interleaving of
    the steps of one writer and one reader.  The specification is in ChannelSpec.v. *)
From Coq Require Import ZArith List Bool Lia.
From Verif Require Import Common ChannelModel ChannelSpec ChannelProofs.
Import ListNotations.
Open Scope Z_scope.

(** A schedule used in the examples: the reader starts while the second message is stored,
    refuses the first message once, and takes both. *)
Definition sched : list label :=
  [DoWrite [1; 2]; DoTryLock; DoFill true true; DoPost true; DoWrite [3]; DoTryLock; DoRead; DoReadLock;
   DoFill true true; DoShow false; DoRead; DoReadLock; DoShow true; DoPost false; DoReadPost;
   DoRead; DoReadLock; DoShow true; DoReadPost; DoRead].
Lemma sched_nonempty : Forall nonempty sched.
Proof. repeat apply Forall_cons; try apply Forall_nil; cbn; try exact I; discriminate. Qed.
Example sched_events : snd (run SLOTS initial sched) =
  [WCall; Wrote [1; 2]; WDone; WCall; Wrote [3]; Shown [1; 2]; RFailed; Shown [1; 2]; Took [1; 2]; WUnnotified;
   Shown [3]; Took [3]; RNothing].
Proof. vm_compute. reflexivity. Qed.

(** Whatever the schedule, the results are those of a queue with 1024 places: refused only
    when 1024 messages wait, nothing lost, repeated, changed or reordered. *)
Theorem channel_is_queue : forall ls, Forall nonempty ls ->
  exists r, queue_run SLOTS ([], Outside) (snd (run SLOTS initial ls)) r.
Proof. exact refines_queue. Qed.
Print Assumptions channel_is_queue.
Example channel_is_queue_ex : Forall nonempty sched /\ queue_run SLOTS ([], Outside) (snd (run SLOTS initial sched)) ([], Outside).
Proof. split; [ exact sched_nonempty | ]. rewrite sched_events. repeat (eapply qr_cons; [ constructor; reflexivity | ]). constructor. Qed.

(** The messages taken are a prefix of those written, at most 1024 behind. *)
Theorem channel_fifo : forall ls, Forall nonempty ls ->
  exists waiting, written (snd (run SLOTS initial ls)) = taken (snd (run SLOTS initial ls)) ++ waiting /\ zlen waiting <= SLOTS.
Proof. exact fifo. Qed.
Print Assumptions channel_fifo.
Example channel_fifo_ex : Forall nonempty sched /\ written (snd (run SLOTS initial sched)) = [[1; 2]; [3]] /\ taken (snd (run SLOTS initial sched)) = [[1; 2]; [3]].
Proof. split; [ exact sched_nonempty | ]. rewrite sched_events. split; reflexivity. Qed.

(** What the reader is shown is the oldest message it has not taken. *)
Theorem channel_shows_oldest : forall ls es1 d es2, Forall nonempty ls ->
  snd (run SLOTS initial ls) = es1 ++ Shown d :: es2 -> exists rest, written es1 = taken es1 ++ d :: rest.
Proof. exact shown_next. Qed.
Print Assumptions channel_shows_oldest.
Example channel_shows_oldest_ex : Forall nonempty sched /\
  snd (run SLOTS initial sched) = [WCall; Wrote [1; 2]; WDone; WCall; Wrote [3]; Shown [1; 2]; RFailed; Shown [1; 2]; Took [1; 2]; WUnnotified] ++ Shown [3] :: [Took [3]; RNothing].
Proof. split; [ exact sched_nonempty | exact sched_events ]. Qed.

(** A write is refused as full only when 1024 messages are waiting. *)
Theorem channel_full_only_when_full : forall ls es1 es2, Forall nonempty ls ->
  snd (run SLOTS initial ls) = es1 ++ WFull :: es2 ->
  exists waiting, written es1 = taken es1 ++ waiting /\ zlen waiting = SLOTS.
Proof. exact full_only. Qed.
Print Assumptions channel_full_only_when_full.
Definition fill_up : list label := concat (repeat (write_call SLOTS [5] false) 1025).
Example channel_full_only_when_full_ex : Forall nonempty fill_up /\
  snd (run SLOTS initial fill_up) = concat (repeat [WCall; Wrote [5]; WDone] 1024) ++ [WCall; WFull].
Proof.
  split; [ | vm_compute; reflexivity ].
  unfold fill_up. apply Forall_concat. apply Forall_forall. intros x Hx. apply repeat_spec in Hx. subst.
  unfold write_call. cbn [app]. repeat apply Forall_cons; try apply Forall_nil; cbn; try exact I; discriminate.
Qed.

(** With no call in progress the reported count is the number of waiting messages. *)
Theorem channel_count_exact : forall ls s, Forall nonempty ls -> s = fst (run SLOTS initial ls) -> quiet s ->
  exists waiting, written (snd (run SLOTS initial ls)) = taken (snd (run SLOTS initial ls)) ++ waiting /\
    channel_count (s_ch s) = zlen waiting.
Proof. exact count_waiting. Qed.
Print Assumptions channel_count_exact.
Example channel_count_exact_ex : let s := fst (run SLOTS initial (firstn 15 sched)) in quiet s /\ channel_count (s_ch s) = 1.
Proof. vm_compute. repeat split; reflexivity. Qed.

(** With no call in progress a read gives the oldest waiting message, and a write succeeds
    if there is room (and memory, and the callback and notification succeed). *)
Theorem channel_progress : forall ls s, Forall nonempty ls -> s = fst (run SLOTS initial ls) -> quiet s ->
  exists waiting, written (snd (run SLOTS initial ls)) = taken (snd (run SLOTS initial ls)) ++ waiting /\
    (forall d rest, waiting = d :: rest -> snd (run SLOTS s read_call) = [Shown d; Took d] /\ quiet (fst (run SLOTS s read_call))) /\
    (forall d, d <> [] -> zlen waiting < SLOTS ->
       snd (run SLOTS s (write_call SLOTS d (c_cleanup (s_ch s)))) = [WCall; Wrote d; WDone] /\
       quiet (fst (run SLOTS s (write_call SLOTS d (c_cleanup (s_ch s)))))).
Proof. exact quiet_progress. Qed.
Print Assumptions channel_progress.
(** A message above 9216 octets, which leaves a block to be cleaned up by the next write. *)
Definition big : list label := write_call SLOTS (repeat 7 (Z.to_nat 10000)) false ++ read_call.
Example channel_progress_ex : let s := fst (run SLOTS initial big) in
  quiet s /\ c_cleanup (s_ch s) = true /\ b_cap (c_blocks (s_ch s) 0) = 12288 /\
  let s' := fst (run SLOTS s (write_call SLOTS [9] true)) in
  b_cap (c_blocks (s_ch s') 0) = 0 /\ c_cleanup (s_ch s') = false /\ snd (run SLOTS s' read_call) = [Shown [9]; Took [9]].
Proof. vm_compute. repeat split; reflexivity. Qed.

(** A stored message never exceeds the memory allocated for it. *)
Theorem channel_in_bounds : forall ls i, Forall nonempty ls ->
  let b := c_blocks (s_ch (fst (run SLOTS initial ls))) i in
  zlen (b_data b) <= b_cap b /\ (b_data b <> [] -> b_ptr b = true).
Proof. exact in_bounds. Qed.
Print Assumptions channel_in_bounds.
Example channel_in_bounds_ex : let b := c_blocks (s_ch (fst (run SLOTS initial (firstn 4 big)))) 0 in zlen (b_data b) = 10000 /\ b_cap b = 12288.
Proof. vm_compute. split; reflexivity. Qed.

(** Finding: without the restriction to messages of at least one octet the claim is false.
    After an empty message the reader is refused until the ring has been written round,
    and is then given the newest message instead of the oldest. *)
Theorem channel_empty_message_refuted : exists ls,
  taken (snd (run SLOTS initial ls)) = [[2]] /\
  written (snd (run SLOTS initial ls)) = [] :: repeat [1] 1023 ++ [[2]] /\
  In REmpty (snd (run SLOTS initial ls)).
Proof.
  exists (write_call SLOTS [] false ++ read_call ++ concat (repeat (write_call SLOTS [1] false) 1023)
          ++ write_call SLOTS [2] false ++ read_call).
  split; [ vm_compute; reflexivity | ]. split; [ vm_compute; reflexivity | ]. vm_compute. auto.
Qed.
Print Assumptions channel_empty_message_refuted.

(** Finding: a write which returns an error may have stored the message, so that a
    writer trying again sends it twice. *)
Theorem channel_error_stores_refuted : exists ls, Forall nonempty ls /\
  snd (run SLOTS initial ls) = [WCall; Wrote [4]; WUnnotified; Shown [4]; Took [4]].
Proof.
  exists ([DoWrite [4]; DoTryLock; DoFill true true; DoPost false] ++ read_call).
  split; [ | vm_compute; reflexivity ].
  cbn [app read_call]. repeat apply Forall_cons; try apply Forall_nil; cbn; try exact I; discriminate.
Qed.
Print Assumptions channel_error_stores_refuted.

(** Finding: freeing the blocks does not reset the number of entries.  The channel
    then reports a message which is not there, for ever after. *)
Theorem channel_free_blocks_refuted : exists s,
  s = mk_state (writer_free_blocks (s_ch (fst (run SLOTS initial (write_call SLOTS [4] false))))) WIdle RIdle /\
  channel_count (s_ch s) = 1 /\ snd (run SLOTS s read_call) = [REmpty] /\
  let s' := fst (run SLOTS s (write_call SLOTS [6] false ++ read_call)) in
  channel_count (s_ch s') = 1 /\ snd (run SLOTS s' read_call) = [REmpty].
Proof. eexists. split; [ reflexivity | ]. vm_compute. repeat split; reflexivity. Qed.
Print Assumptions channel_free_blocks_refuted.
