(** The properties of averages of measurements. *)
From Coq Require Import Strings.String.
From Coq Require Import ZArith List Bool Lia.
From Verif Require Import Common MsgModel MsgSpec MsgProofs TypeModel TypeSpec TypeProofs ArrayModel ArraySpec ArrayProofs ArrayProps ConvSpec ConvProofs AvgModel AvgSpec AvgProofs.
Import ListNotations.
Open Scope Z_scope.

(** A message with a measurement, and one with a signed number, for examples. *)
Definition message_of (vs : list value) (time : Z) : rrr_msg_msg :=
  match new_message_from_array vs time [] with ROk m => m | _ => mk_mm (mk_msg 0 0 0 0 0) 0 0 0 0 [] end.
Definition measured (x from to time : Z) : rrr_msg_msg := message_of [unsigned "timestamp_from" from; unsigned "timestamp_to" to; unsigned "measurement" x] time.
Definition averaged (from to average max min time : Z) : rrr_msg_msg :=
  message_of [unsigned "timestamp_from" from; unsigned "timestamp_to" to; unsigned "average" average; unsigned "max" max; unsigned "min" min] time.

(** C115. When the interval has passed, one message tells the average, the extremes and the times of
    all measurements which have arrived since the last interval and are within the timespan.  What
    is missing: measurements within the timespan from before (avg_timespan_refuted), and sums above 64
    bits (avg_sum_refuted). *)
Theorem avg_interval_partial : forall after c os now time, topic_fits c -> Forall (readable c) (received os) ->
  0 <= g_timespan c -> g_timespan c * 1000000 <= now < 2^64 -> zlen os < 2^64 ->
  exists rs, readings (filter (fun m => now - g_timespan c * 1000000 <=? mm_timestamp m) (since os [])) rs /\
    (total rs < 2^64 ->
      (rs = [] /\ last (run after c [] (os ++ [Interval now time])) Stopped = Out []) \/
      exists from to average max min m, summary rs from to average max min /\
        last (run after c [] (os ++ [Interval now time])) Stopped = Out [m] /\
        contents m [unsigned "timestamp_from" from; unsigned "timestamp_to" to; unsigned "average" average; unsigned "max" max; unsigned "min" min] /\
        MSG_TOPIC m = topic_of_config c /\ mm_timestamp m = time).
Proof.
  intros after c os now time T R G B L. destruct (run_app after c (Interval now time) os T R [] (Forall_nil _)) as (outs & _ & _ & RU & FC). rewrite RU, last_app. cbn [step snd].
  assert (LS : zlen (since os []) < 2^64).
  { apply Z.le_lt_trans with (zlen os); [ | exact L ]. clear. assert (H : forall os l, zlen (since os l) <= zlen l + zlen os). { clear. induction os as [ | [ m | a b ] os IH ]; intros l; cbn [since]; [ rewrite zlen_nil; lia | | ]; rewrite zlen_cons. - specialize (IH (if is_measurement m then l ++ [m] else l)). destruct (is_measurement m); rewrite ?zlen_app, ?zlen_cons, ?zlen_nil in IH; lia. - specialize (IH []). rewrite zlen_nil in IH. pose proof (zlen_nonneg _ l). lia. } specialize (H os []). rewrite zlen_nil in H. lia. }
  destruct (event_spec after c now time (since os []) FC T LS) as (rs & RD & H). rewrite maintain_window in RD by auto. exists rs. split; [ exact RD | ]. intros TT. destruct (H TT) as [ H1 | (from & to & average & max & min & m & H1 & H2 & H3 & H4 & H5 & _) ]; [ left; exact H1 | right ].
  exists from, to, average, max, min, m. auto.
Qed.
Print Assumptions avg_interval_partial.

(** Messages made from arrays of values are such messages, if their numbers have octets. *)
Theorem avg_readable : forall c vs time topic m, Forall array_value vs -> 30 + zlen topic + wire_size vs < 2^32 -> 30 + zlen (topic_of_config c) + wire_size vs < 2^32 ->
  Forall (fun v => In (v_type v) integer_types -> v_data v <> []) vs -> new_message_from_array vs time topic = ROk m -> readable c m.
Proof.
  intros c vs time topic m F S1 S2 N E. destruct (new_message_ok vs time topic F S1) as (o & HI & E2). rewrite E in E2. injection E2 as ->.
  pose proof (images_len _ _ HI) as IL. pose proof (zlen_nonneg _ topic). pose proof (zlen_nonneg _ o).
  assert (C : mm_consistent (array_msg time topic o)) by (unfold mm_consistent, array_msg; cbn [mm_head msg_size mm_topic_length mm_data]; rewrite ?zlen_app; repeat split; lia).
  split; [ exact C | ]. split.
  - assert (MSG_DATA (array_msg time topic o) = o) as -> by (apply data_of; cbn [msg_size]; lia). lia.
  - intros _. exists vs. split; [ intros after; apply (ArrayProofs.append_ok after _ time _ _ [] HI); lia | ].
    apply Forall_forall. intros v IV. rewrite Forall_forall in F, N. destruct (F v IV) as ((B & _ & _ & P) & _). split; [ exact B | ]. intros I. specialize (N v IV I).
    destruct P as [ (_ & M) | [ (P & _) | [ P | [ (P & _) | (P & _) ] ] ] ].
    + destruct (v_data v) as [ | a d ]; [ congruence | ]. rewrite zlen_cons in *. pose proof (zlen_nonneg _ d). lia.
    + exfalso. unfold integer_types in I. cbn in I, P. repeat (destruct I as [ I | I ]; [ rewrite <- I in P; repeat (destruct P as [ P | P ]; [ discriminate | ]); exact P | ]). exact I.
    + exfalso. rewrite P in I. cbn in I. repeat (destruct I as [ I | I ]; [ discriminate | ]). exact I.
    + exfalso. rewrite P in I. cbn in I. repeat (destruct I as [ I | I ]; [ discriminate | ]). exact I.
    + exfalso. rewrite P in I. cbn in I. repeat (destruct I as [ I | I ]; [ discriminate | ]). exact I.
Qed.
Print Assumptions avg_readable.

Example avg_interval_ex : let c := mk_config false false 15 None in
  readable c (measured 8 100 200 20000000) /\
  run [] c [] [Receive (measured 8 100 200 20000000); Receive (measured 3 50 150 3000000); Receive (measured 5 90 400 21000000); Interval 22000000 22000001] =
  [Out []; Out []; Out []; Out [averaged 90 400 6 8 5 22000001]].
Proof.
  split; [ | vm_compute; reflexivity ]. apply (avg_readable (mk_config false false 15 None) [unsigned "timestamp_from" 100; unsigned "timestamp_to" 200; unsigned "measurement" 8] 20000000 []).
  - apply Forall_cons; [ | apply Forall_cons; [ | apply Forall_cons; [ | apply Forall_nil ] ] ]; (apply unsigned_ok; [ apply str_bytes_bytes | reflexivity ]).
  - vm_compute; reflexivity.
  - vm_compute; reflexivity.
  - apply Forall_cons; [ | apply Forall_cons; [ | apply Forall_cons; [ | apply Forall_nil ] ] ]; intros _ H; apply (f_equal (@length Z)) in H; vm_compute in H; discriminate.
  - vm_compute; reflexivity.
Qed.

(** C115. What happens to a message which arrives: arrays are kept for the average and, if wanted,
    passed on with the topic set; all other messages are passed on as they are or, if wanted,
    dropped. *)
Theorem avg_passed : forall after c os m, topic_fits c -> Forall (readable c) (received (os ++ [Receive m])) ->
  exists ms, last (run after c [] (os ++ [Receive m])) Stopped = Out ms /\ length (run after c [] (os ++ [Receive m])) = length (os ++ [Receive m]) /\
    (MSG_TYPE m = 1 -> MSG_CLASS m = 11 -> g_preserve c = false -> ms = []) /\
    (MSG_TYPE m = 1 -> MSG_CLASS m = 11 -> g_preserve c = true ->
       exists m', ms = [m'] /\ MSG_DATA m' = MSG_DATA m /\ mm_timestamp m' = mm_timestamp m /\ MSG_TYPE m' = 1 /\ MSG_CLASS m' = 11 /\
         MSG_TOPIC m' = (match g_topic c with Some t => t | None => MSG_TOPIC m end)) /\
    (MSG_TYPE m <> 1 \/ MSG_CLASS m <> 11 -> ms = if g_discard c then [] else [m]).
Proof.
  intros after c os m T R.
  assert (RS : Forall (readable c) (received os) /\ readable c m). { revert R. clear. induction os as [ | [ a | a b ] os IH ]; cbn [app received]; intros R; [ inversion R; split; [ constructor | assumption ] | | apply IH, R ]. inversion R as [ | ? ? RA RR ]; subst. destruct (IH RR) as (F & M). split; [ constructor; assumption | exact M ]. }
  destruct RS as (RO & RM). destruct (run_app after c (Receive m) os T RO [] (Forall_nil _)) as (outs & L & _ & RU & _). rewrite RU, last_app, !app_length, L. cbn [step].
  destruct (poll_out c (since os []) m T RM) as (ms & E). rewrite E. exists ms. split; [ reflexivity | ]. split; [ reflexivity | ].
  unfold poll_callback in E.
  assert (I : is_measurement m = true <-> MSG_TYPE m = 1 /\ MSG_CLASS m = 11). { unfold is_measurement, MSG_IS_ARRAY, TYPE_MSG_MSG, CLASS_ARRAY. rewrite andb_true_iff, !Z.eqb_eq. reflexivity. }
  destruct (is_measurement m).
  - destruct (proj1 I eq_refl) as (I1 & I2). cbn [snd] in E. split; [ | split ].
    + intros _ _ P. rewrite P in E. injection E as <-. reflexivity.
    + intros _ _ P. rewrite P in E. destruct RM as (C & B & _). destruct T as (T & _). unfold topic_of_config in *. destruct (g_topic c) as [ t | ].
      * destruct (msg_topic_set_exact_copy m t C T B) as (m' & E' & H). rewrite E' in E. injection E as <-. exists m'. split; [ reflexivity | ]. destruct H as (H1 & H2 & H3 & H4 & H5). rewrite H2, H3, H4, H5, I1, I2. repeat split. exact H1.
      * injection E as <-. exists m. repeat split; assumption.
    + intros [ H | H ]; contradiction.
  - assert (~ (MSG_TYPE m = 1 /\ MSG_CLASS m = 11)) as N by (rewrite <- I; discriminate). split; [ intros; exfalso; tauto | split; [ intros; exfalso; tauto | ] ]. intros _. destruct (g_discard c); cbn [snd] in E; injection E as <-; reflexivity.
Qed.
Print Assumptions avg_passed.

Example avg_passed_ex : let c := mk_config true false 15 (Some (str_bytes "t")) in let text := mk_mm (mk_msg 0 33 2 0 0) 5 17 0 1 [120; 1; 2] in
  readable c text /\ run [] c [] [Receive text] = [Out [text]] /\
  exists m, run [] c [] [Receive (measured 8 1 2 3)] = [Out [m]] /\ MSG_TOPIC m = str_bytes "t" /\ MSG_DATA m = MSG_DATA (measured 8 1 2 3).
Proof.
  split; [ | split; [ vm_compute; reflexivity | ] ].
  - split; [ unfold mm_consistent; vm_compute; intuition congruence | split; [ vm_compute; reflexivity | intros H; vm_compute in H; discriminate ] ].
  - eexists. split; [ reflexivity | ]. split; vm_compute; reflexivity.
Qed.

(** FINDING: with the default timespan and interval, measurements are documented to be averaged over
    15 seconds; a measurement from 7 seconds ago is not in the average after it has been in one. *)
Theorem avg_timespan_refuted : let c := mk_config false false 15 None in
  run [] c [] [Receive (measured 100 1 2 15000000); Interval 20000000 20000000; Receive (measured 2 1 2 21000000); Interval 22000000 22000000] =
  [Out []; Out [averaged 1 2 100 100 100 20000000]; Out []; Out [averaged 1 2 2 2 2 22000000]].
Proof. vm_compute. reflexivity. Qed.
Print Assumptions avg_timespan_refuted.

(** FINDING: a sum of measurements above 64 bits wraps: the average is below the minimum. *)
Theorem avg_sum_refuted : let c := mk_config false false 15 None in
  run [] c [] [Receive (measured (2^63) 1 2 15000000); Receive (measured (2^63) 1 2 15000000); Interval 20000000 20000000] =
  [Out []; Out []; Out [averaged 1 2 0 (2^63) (2^63) 20000000]].
Proof. vm_compute. reflexivity. Qed.
Print Assumptions avg_sum_refuted.

(** FINDING: only the tag of the measurement is documented to be expected, and other messages to be
    passed on; an array without times is dropped, measurement or not. *)
Theorem avg_times_refuted : let c := mk_config false false 15 None in
  run [] c [] [Receive (message_of [unsigned "measurement" 7] 15000000); Receive (message_of [unsigned "other" 7] 15000000); Interval 20000000 20000000] = [Out []; Out []; Out []].
Proof. vm_compute. reflexivity. Qed.
Print Assumptions avg_times_refuted.

(** FINDING: negative measurements are taken for big ones. *)
Theorem avg_negative_refuted : let c := mk_config false false 15 None in
  run [] c [] [Receive (message_of [unsigned "timestamp_from" 1; unsigned "timestamp_to" 2; mk_value TYPE_H 1 (str_bytes "measurement") 8 1 (int64_memory [-1])] 15000000);
               Receive (measured 5 1 2 15000000); Interval 20000000 20000000] =
  [Out []; Out []; Out [averaged 1 2 2 (2^64 - 1) 5 20000000]].
Proof. vm_compute. reflexivity. Qed.
Print Assumptions avg_negative_refuted.

(** FINDING: one array message which cannot be read ends the module, and one with a number without
    octets is read outside its memory. *)
Theorem avg_broken_refuted : exists m m', whole_array_message m /\ whole_array_message m' /\
  (forall after, run after (mk_config false false 15 None) [] [Receive m; Interval 20000000 20000000] = [Out []; Stopped]) /\
  (forall after, run after (mk_config false false 15 None) [] [Receive m'; Interval 20000000 20000000] = [Out []; Crashed]).
Proof.
  exists (mk_mm (mk_msg 0 31 2 0 0) 15000000 177 7 0 [0]), (message_of [mk_value TYPE_H 0 (str_bytes "measurement") 0 1 []] 15000000).
  split; [ | split; [ | split; intros after; vm_compute; reflexivity ] ]; (split; [ reflexivity | split; [ apply Forall_forall; intros x Hx; apply byteb_iff; revert x Hx; apply forallb_forall; vm_compute; reflexivity | vm_compute; intuition discriminate ] ]).
Qed.
Print Assumptions avg_broken_refuted.
