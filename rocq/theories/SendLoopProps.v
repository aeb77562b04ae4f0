(** Send loops: nothing is lost, times and order. *)
From Coq Require Import ZArith List Bool Lia Permutation.
From Verif Require Import Common SendLoopModel SendLoopSpec SendLoopProofs.
Import ListNotations.
Open Scope Z_scope.

Definition now0 : Z := 1795031040000000.
Definition a_ok0 : answer := mk_a (now0 + 10) COk true.
Definition a_not : answer := mk_a (now0 + 10) CNotReady true.
(** Keep the order, expire after an hour, return after 10 seconds *)
Definition cf1 : conf := mk_conf true 3600000000 10000000 Return false.
(** Three messages; the second cannot be sent at first; the first is handed over, but sending
    it fails later and it comes back *)
Definition ex1 : list op :=
  [Come now0 1 now0; Come (now0 + 1) 2 5; Come (now0 + 2) 3 now0; Run [a_ok0; a_not] a_ok0; Failed 0; Come (now0 + 20) 4 now0; Run [] a_ok0; Done 1; Run [] (mk_a (now0 + 3600000001) COk true)].

(** ** C87: every message is in one place *)

Theorem send_loop_conserves : forall cf ops w evs done err, steps cf world_new ops = (w, evs, done, err) ->
  Permutation (map fst (arrived ops)) (map e_msg (l_entries (w_loop w)) ++ map e_msg (w_flight w) ++ map e_msg done ++ gone evs).
Proof. intros cf ops w evs d b H. apply steps_perm in H. unfold all_of in H. cbn [world_new w_loop w_flight loop_new l_entries map app] in H. rewrite <- app_assoc in H. exact H. Qed.
Example send_loop_conserves_ex : exists w evs done err, steps cf1 world_new ex1 = (w, evs, done, err) /\
  (map e_msg (l_entries (w_loop w)), map e_msg (w_flight w), map e_msg done, gone evs) = ([], [3; 4], [1], [2]).
Proof. do 4 eexists. split; [ vm_compute; reflexivity | reflexivity ]. Qed.
Print Assumptions send_loop_conserves.

(** When the callbacks do not refuse, a run leaves nothing behind; without the order being
    kept, what is left are the messages which were not ready. *)
Theorem send_loop_progress : forall cf ans last s s' evs err, run cf ans last s = (s', evs, err) -> (c_timeout cf = 0 \/ c_action cf <> Retry) -> 0 <= c_timeout cf ->
  (Forall ready (last :: ans) -> l_entries s' = [] /\ err = false) /\
  (c_order cf = false -> err = false -> forall x, In x (l_entries s') -> In (Pushed x CNotReady) evs).
Proof.
  intros cf ans last s s' evs err H HT H0. assert (HT' : c_timeout cf <= 0 \/ c_action cf <> Retry) by (destruct HT; [ left; lia | auto ]).
  unfold run in H. cbv zeta in H. split.
  - intros HR. destruct (visits_ready cf last (if c_order cf then sort (length (l_entries s)) (l_entries s) else l_entries s) ans HR HT') as (e1 & E). rewrite E in H. injection H as <- _ <-. auto.
  - intros HO HE x Hx. destruct (visits cf ans last _) as [[k e1] er] eqn:EV. injection H as <- <- <-. subst er. eapply visits_all; eauto.
Qed.
Example send_loop_progress_ex : exists s1 s2 evs, s1 = mk_l [mk_e 1 now0 false 1 now0; mk_e 2 now0 false 2 now0; mk_e 3 5 false 3 now0] 3 /\ Forall ready [a_ok0; mk_a (now0 + 5) CSoft true] /\
  run (mk_conf false 3600000000 0 Retry false) [a_not; a_ok0] a_ok0 s1 = (s2, evs, false) /\ map e_msg (l_entries s2) = [1].
Proof. do 3 eexists. split; [ reflexivity | ]. split; [ repeat (constructor; [ repeat split; discriminate | ]); constructor | ]. split; [ vm_compute; reflexivity | reflexivity ]. Qed.
Print Assumptions send_loop_progress.

(** ** C88: messages expire and time out when they are due *)

(** Partial: for modules which do not change the memory of a message when they send it
    ([c_net]; see [send_loop_network_order_refuted]). *)
Theorem send_loop_due_partial : forall cf ops w evs done err, c_net cf = false -> conf_ok cf -> Forall (op_ok cf) ops -> steps cf world_new ops = (w, evs, done, err) ->
  forall x, In x evs -> (exists now, In now (nows ops) /\ due cf now x) /\ In (e_msg (of_ev x), e_ts (of_ev x)) (arrived ops).
Proof.
  intros cf ops w evs d b HN HC HF H x Hx. destruct (steps_due cf ops world_new w evs d b [] HN HC HF) as (A & _); [ split; constructor | exact H | ].
  rewrite Forall_forall in A. destruct (A x Hx) as (A1 & A2). split; [ exact A1 | ]. apply A2.
Qed.
Example send_loop_due_ex : c_net cf1 = false /\ conf_ok cf1 /\ Forall (op_ok cf1) ex1 /\ exists w evs done err, steps cf1 world_new ex1 = (w, evs, done, err) /\
  map (fun x => match x with Pushed e c => (e_msg e, 1, match c with COk => 1 | _ => 0 end) | Expired e => (e_msg e, 2, 0) | Dropped e => (e_msg e, 3, 0) | Returned e _ => (e_msg e, 4, 0) end) evs =
  [(1, 1, 1); (2, 2, 0); (3, 1, 1); (1, 1, 1); (4, 1, 1)].
Proof.
  split; [ reflexivity | ]. split; [ split; cbn; lia | ]. split; [ unfold ex1, op_ok, time_ok; repeat first [ apply Forall_nil | apply Forall_cons | apply conj ]; try exact I; cbn; unfold now0; lia | ].
  do 4 eexists. split; [ vm_compute; reflexivity | reflexivity ].
Qed.
Print Assumptions send_loop_due_partial.

Lemma swap64_ge : forall ts, 0 <= ts -> (ts mod 256) * 2 ^ 56 <= swap64 ts.
Proof.
  intros ts H. unfold swap64. assert (HE : exists l, rev (be_enc 8 ts) = ts mod 256 :: l /\ zlen l = 7 /\ bytes l).
  { eexists. split; [ | split ]; [ cbn [be_enc rev app]; f_equal; change (2 ^ (8 * Z.of_nat 0)) with 1; rewrite Z.div_1_r; reflexivity | reflexivity | ].
    repeat (constructor; [ apply Z.mod_pos_bound; lia | ]). constructor. }
  destruct HE as (l & -> & HL & HB). rewrite be_dec_cons, HL. pose proof (be_dec_bound l HB). change (256 ^ 7) with (2 ^ 56). lia.
Qed.
Lemma run_one : forall cf last e p, run cf [] last (mk_l [e] p) = let '(st, evs, go) := visit cf last e in (mk_l st p, evs, match go with None => true | _ => false end).
Proof.
  intros. unfold run. cbn [l_entries l_pos]. assert (ES : (if c_order cf then sort (length [e]) [e] else [e]) = [e]) by (destruct (c_order cf); reflexivity).
  rewrite ES. cbn [visits hd tl]. destruct (visit cf last e) as [[st evs] [[|]|]]; cbn; rewrite ?app_nil_r; reflexivity.
Qed.
(** FINDING: the module ip with ip_send_rrr_message turns a message to network order in place
    when it tries to send it, and the time to live is then read from the turned timestamp.
    A message which was not ready once never expires (unless its timestamp is a multiple of
    256 microseconds), whatever ip_ttl_seconds is: it is still sent after any time. *)
Theorem send_loop_network_order_refuted : forall ttl ts now1 now2, 0 < ttl -> 0 <= ts -> ts mod 256 <> 0 -> now1 <= ts + ttl -> ttl <= now1 -> now1 < 2 ^ 56 -> ttl <= now2 -> now2 < 2 ^ 56 ->
  exists w evs, steps (mk_conf true ttl 0 Retry true) world_new [Come ts 7 ts; Run [] (mk_a now1 CNotReady true); Run [] (mk_a now2 COk true)] = (w, evs, [], false) /\
    map e_msg (accepted evs) = [7] /\ (now2 > ts + ttl -> exists e, In e (accepted evs) /\ e_ts e + ttl < now2).
Proof.
  intros ttl ts now1 now2 H1 H2 H3 H4 H5 H6 H7 H8. assert (HS : 2 ^ 56 <= swap64 ts) by (pose proof (swap64_ge ts H2); pose proof (Z.mod_pos_bound ts 256); lia).
  assert (C1 : check (mk_conf true ttl 0 Retry true) now1 (mk_e 7 ts false 1 ts) = InTime).
  { unfold check, timestamp, ttl_ok. cbn [c_ttl c_timeout e_net e_ts e_time]. destruct (Z.ltb_spec now1 ttl); [ cbn; destruct (0 <? ttl); reflexivity | ].
    assert (EU : u64 (now1 - ttl) = now1 - ttl) by (apply Z.mod_small; lia). rewrite EU. destruct (Z.ltb_spec ts (now1 - ttl)); [ lia | ]. destruct (0 <? ttl); reflexivity. }
  assert (C2 : check (mk_conf true ttl 0 Retry true) now2 (mk_e 7 ts true 1 ts) = InTime).
  { unfold check, timestamp, ttl_ok. cbn [c_ttl c_timeout e_net e_ts e_time]. destruct (Z.ltb_spec now2 ttl); [ cbn; destruct (0 <? ttl); reflexivity | ].
    assert (EU : u64 (now2 - ttl) = now2 - ttl) by (apply Z.mod_small; lia). rewrite EU. destruct (Z.ltb_spec (swap64 ts) (now2 - ttl)); [ lia | ]. destruct (0 <? ttl); reflexivity. }
  do 2 eexists. split; [ | split; [ | intros; eexists; split ] ].
  - cbn [steps step]. unfold push, world_new, loop_new. cbv zeta. cbn [w_loop w_flight l_entries l_pos app]. change (u64 (0 + 1)) with 1. rewrite run_one. unfold visit. cbn [a_now a_code]. rewrite C1. unfold pushed. cbn [c_net c_order negb e_msg e_ts e_index e_time].
    cbn [w_loop w_flight]. rewrite run_one. unfold visit. cbn [a_now a_code]. rewrite C2. cbn. reflexivity.
  - reflexivity.
  - left. reflexivity.
  - cbn [e_ts]. lia.
Qed.
Print Assumptions send_loop_network_order_refuted.

(** FINDING: for the same reason a message whose timestamp is a multiple of 65536 microseconds
    is dropped as too old after the first failed attempt, 10 microseconds after it was made,
    with a time to live of one hour. *)
Theorem send_loop_network_order_early_refuted : exists w e evs,
  steps (mk_conf true 3600000000 0 Retry true) world_new [Come now0 7 now0; Run [] a_not; Run [] a_ok0] = (w, evs ++ [Expired e], [], false) /\ e_ts e = now0.
Proof. exists (mk_w (mk_l [] 1) []), (mk_e 7 now0 true 1 now0), [Pushed (mk_e 7 now0 true 1 now0) CNotReady]. split; [ vm_compute; reflexivity | reflexivity ]. Qed.
Print Assumptions send_loop_network_order_early_refuted.

(** FINDING: a timeout longer than the time since 1970 makes every message time out at once:
    the difference wraps (the time to live is checked for this). *)
Theorem send_loop_long_timeout_refuted : forall cf now m ts ok, c_ttl cf = 0 -> c_action cf = Return -> 0 < now -> now < c_timeout cf -> c_timeout cf < 2 ^ 63 ->
  exists w e, steps cf world_new [Come now m ts; Run [] (mk_a now COk ok)] = (w, [Returned e ok], [], negb ok) /\ e_msg e = m /\ now < e_time e + c_timeout cf.
Proof.
  intros cf now m ts ok HT HA H0 H1 H2. eexists. exists (mk_e m ts false 1 now). split; [ | split; [ reflexivity | cbn [e_time]; lia ] ].
  assert (C1 : check cf now (mk_e m ts false 1 now) = TimedOut).
  { unfold check. rewrite HT. cbn [Z.ltb Z.compare andb e_time]. assert (EU : u64 (now - c_timeout cf) = now - c_timeout cf + 2 ^ 64).
    { unfold u64. symmetry. apply Z.mod_unique_pos with (-1); lia. }
    rewrite EU. destruct (Z.ltb_spec 0 (c_timeout cf)); [ | lia ]. destruct (Z.ltb_spec 0 now); [ | lia ]. destruct (Z.ltb_spec now (now - c_timeout cf + 2 ^ 64)); [ reflexivity | lia ]. }
  cbn [steps step]. unfold push, world_new, loop_new. cbv zeta. cbn [w_loop w_flight l_entries l_pos app]. change (u64 (0 + 1)) with 1. rewrite run_one. unfold visit. cbn [a_now a_ok]. rewrite C1, HA. destruct ok; cbn; reflexivity.
Qed.
Print Assumptions send_loop_long_timeout_refuted.

(** FINDING: seconds in the configuration are multiplied without a check: a time to live of
    18446744073710 seconds is less than half a second. *)
Theorem send_loop_seconds_refuted : of_seconds 18446744073710 = 448384.
Proof. reflexivity. Qed.
Print Assumptions send_loop_seconds_refuted.

(** ** C89: order *)

(** Nothing which stays in the queue is older than a message handed to the module *)
Theorem send_loop_first : forall cf ans last s s' evs err, c_order cf = true -> (c_timeout cf = 0 \/ c_action cf <> Retry) -> 0 <= c_timeout cf -> run cf ans last s = (s', evs, err) ->
  forall e c x, In (Pushed e c) evs -> In x (l_entries s') -> e_index e <= e_index x.
Proof. intros cf ans last s s' evs err HO HT H0 H. apply (run_first cf ans last s s' evs err HO); [ destruct HT; [ left; lia | auto ] | exact H ]. Qed.
Example send_loop_first_ex : exists s1 s2 evs, s1 = mk_l [mk_e 3 now0 false 3 now0; mk_e 1 now0 false 1 now0; mk_e 2 now0 false 2 now0] 3 /\
  run cf1 [a_ok0; a_not] a_ok0 s1 = (s2, evs, false) /\ evs = [Pushed (mk_e 1 now0 false 1 now0) COk; Pushed (mk_e 2 now0 false 2 now0) CNotReady] /\ map e_index (l_entries s2) = [2; 3].
Proof. do 3 eexists. split; [ reflexivity | ]. split; [ vm_compute; reflexivity | split; reflexivity ]. Qed.
Print Assumptions send_loop_first.

(** The messages are handed over in the order they came, some being left out; those which
    wait come after.  Partial: while nothing handed over comes back (which puts it before the
    others again), for less than 2^64 messages. *)
Theorem send_loop_order_partial : forall cf ops w evs done err, c_order cf = true -> (c_timeout cf = 0 \/ c_action cf <> Retry) -> 0 <= c_timeout cf ->
  Forall (fun o => match o with Failed _ | Check _ _ => False | _ => True end) ops -> Z.of_nat (length (arrived ops)) < 2 ^ 64 -> steps cf world_new ops = (w, evs, done, err) ->
  sub (map (fun e => (e_msg e, e_ts e)) (accepted evs ++ l_entries (w_loop w))) (arrived ops).
Proof.
  intros cf ops w evs d b HO HT H0 HF HL H. pose proof (steps_order cf ops world_new 0 w evs d b HO) as HX. rewrite map_app. apply HX; auto.
  - destruct HT; [ left; lia | auto ].
  - split; [ constructor | split; [ constructor | reflexivity ] ].
  - lia.
Qed.
Example send_loop_order_ex : exists w evs done err, steps cf1 world_new [Come now0 1 now0; Come now0 2 now0; Come now0 3 5; Run [a_ok0; a_not] a_ok0; Come now0 4 now0; Come now0 5 now0; Run [a_ok0; a_ok0; a_not] a_ok0] = (w, evs, done, err) /\
  map e_msg (accepted evs) = [1; 2] /\ map e_msg (l_entries (w_loop w)) = [4; 5].
Proof. do 4 eexists. split; [ vm_compute; reflexivity | split; reflexivity ]. Qed.
Print Assumptions send_loop_order_partial.
