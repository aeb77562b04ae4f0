From Coq Require Import ZArith List Bool Lia.
From Verif Require Import Common MsgModel TypeModel TypeSpec ArrayModel ArraySpec ArrayProofs ArrayProps ExpModel ExpSpec.
Import ListNotations.
Open Scope Z_scope.

Lemma c_string_text : forall l, ~ In 0 l -> c_string l = l.
Proof.
  induction l as [|c l IH]; intros N; [reflexivity|]. cbn [c_string]. replace (c =? 0) with false by (symmetry; apply Z.eqb_neq; intros ->; apply N; left; reflexivity).
  rewrite IH by (intros C; apply N; right; exact C). reflexivity.
Qed.
Definition prefix_of (c : config) (m : rrr_msg_msg) : list Z := (if g_preserve_topic c then MSG_TOPIC m else []) ++ g_topic c.
Lemma topic_is : forall c m v, ~ In 0 (v_tag v) -> (if g_append_tag c then prefix_of c m ++ c_string (v_tag v) else prefix_of c m) = topic_for c m v.
Proof.
  intros c m v N. unfold topic_for, prefix_of. destruct (g_append_tag c); [rewrite c_string_text by exact N; rewrite app_assoc; reflexivity|rewrite app_nil_r; reflexivity].
Qed.
Lemma value_message : forall c m t v, explodable c m v ->
  exists m', process_value c t (prefix_of c m) v = ROk m' /\ holds m' [v] /\ MSG_TOPIC m' = topic_for c m v /\ mm_timestamp m' = t /\ MSG_CLASS m' = 11.
Proof.
  intros c m t v (A & N & L & S0). destruct (array_round_trip [v] t (topic_for c m v) [] [] (Forall_cons _ A (Forall_nil _)) S0) as (m' & E & T & TI & C & _).
  exists m'. unfold process_value, TOPIC_MAX. rewrite (topic_is c m v N). cbv zeta. replace (65535 <? zlen (topic_for c m v)) with false by lia. split; [exact E|]. split.
  - intros after. destruct (array_round_trip [v] t (topic_for c m v) [] after (Forall_cons _ A (Forall_nil _)) S0) as (m2 & E2 & _ & _ & _ & R). rewrite E in E2. injection E2 as <-. exact R.
  - split; [exact T|]. split; [exact TI|exact C].
Qed.
Lemma values_messages : forall c m t vs, Forall (explodable c m) vs ->
  exists ms, process_values c t (prefix_of c m) vs = (ms, Goes_on) /\
    Forall2 (fun v m' => holds m' [v] /\ MSG_TOPIC m' = topic_for c m v /\ mm_timestamp m' = t /\ MSG_CLASS m' = 11) vs ms.
Proof.
  intros c m t vs F. induction F as [|v vs H F IH]; [exists []; split; [reflexivity|apply Forall2_nil]|].
  destruct IH as (ms & E & G). destruct (value_message c m t v H) as (m' & E1 & E2). exists (m' :: ms). cbn [process_values]. rewrite E1, E. split; [reflexivity|].
  apply Forall2_cons; [exact E2|exact G].
Qed.
Lemma prefix_is : forall c m, 0 <= mm_topic_length m -> (if g_preserve_topic c && (0 <? mm_topic_length m) then MSG_TOPIC m else []) ++ g_topic c = prefix_of c m.
Proof.
  intros c m L. unfold prefix_of. destruct (g_preserve_topic c); [|reflexivity]. cbn [andb]. destruct (0 <? mm_topic_length m) eqn:E; [reflexivity|].
  unfold MSG_TOPIC. replace (mm_topic_length m) with 0 by lia. unfold sub_mem. reflexivity.
Qed.
Lemma exploded : forall after c now m vs, MSG_CLASS m = 11 -> 0 <= mm_topic_length m -> holds m vs -> Forall (explodable c m) vs ->
  exists ms, poll_callback after c now m = (ms ++ (if g_original c then [m] else []), Goes_on) /\
    Forall2 (fun v m' => holds m' [v] /\ MSG_TOPIC m' = topic_for c m v /\ mm_timestamp m' = time_for c now m /\ MSG_CLASS m' = 11) vs ms.
Proof.
  intros after c now m vs C L H F. unfold poll_callback, MSG_IS_ARRAY, CLASS_ARRAY. rewrite C. change (negb (11 =? 11)) with false. cbv iota. rewrite (H after).
  change (negb (0 =? 0)) with false. cbv iota zeta. rewrite (prefix_is c m L). fold (time_for c now m).
  destruct (values_messages c m (time_for c now m) vs F) as (ms & E & G). exists ms. rewrite E. split; [reflexivity|exact G].
Qed.
Lemma not_array : forall after c now m, MSG_CLASS m <> 11 -> poll_callback after c now m = ((if g_non_array c then [m] else []), Goes_on).
Proof. intros after c now m C. unfold poll_callback, MSG_IS_ARRAY, CLASS_ARRAY. replace (MSG_CLASS m =? 11) with false by lia. reflexivity. Qed.
(** A topic of 65535 octets and a tag of one *)
Lemma long_text : exists l : list Z, zlen l = 65535.
Proof.
  assert (H : forall n : nat, exists l : list Z, length l = n) by (intros n; exists (repeat 97 n); apply repeat_length).
  destruct (H (Z.to_nat 65535)) as (l & E). exists l. unfold zlen. rewrite E. apply Z2Nat.id. discriminate.
Qed.
Lemma long_topic : ~ forall c now m vs, MSG_CLASS m = 11 -> 0 <= mm_topic_length m -> holds m vs -> Forall array_value vs ->
  forall after, snd (poll_callback after c now m) = Goes_on.
Proof.
  intros H. destruct long_text as (big & LB).
  set (v := mk_value TYPE_STR 0 [98] 1 1 [99]).
  assert (A : array_value v).
  { unfold array_value, packable. cbn [v_data v_flags v_tag v_elements v_import_length v_type v]. split; [split; [apply Forall_cons; [unfold byte; lia|apply Forall_nil]|]; split; [reflexivity|]; split; [reflexivity|right; right; left; reflexivity]|].
    split; [unfold byte; lia|]. split; [apply Forall_cons; [unfold byte; lia|apply Forall_nil]|]. split; [reflexivity|lia]. }
  destruct (array_round_trip [v] 0 [] [] [] (Forall_cons _ A (Forall_nil _)) ltac:(reflexivity)) as (m & E & T & _ & C & _).
  assert (HM : holds m [v]).
  { intros after. destruct (array_round_trip [v] 0 [] [] after (Forall_cons _ A (Forall_nil _)) ltac:(reflexivity)) as (m2 & E2 & _ & _ & _ & R). rewrite E in E2. injection E2 as <-. exact R. }
  assert (TL : mm_topic_length m = 0) by (vm_compute in E; injection E as <-; reflexivity).
  specialize (H (mk_config false false false false true big) 0 m [v] C ltac:(lia) HM (Forall_cons _ A (Forall_nil _)) []).
  unfold poll_callback, MSG_IS_ARRAY, CLASS_ARRAY in H. rewrite C in H. change (negb (11 =? 11)) with false in H. cbv iota in H. rewrite (HM []) in H.
  change (negb (0 =? 0)) with false in H. cbn [g_preserve_topic g_topic g_time g_original andb app] in H. cbv iota zeta in H. cbn [process_values] in H.
  unfold process_value in H. cbn [g_append_tag] in H. cbv zeta in H. replace (TOPIC_MAX <? zlen (big ++ c_string (v_tag v))) with true in H; [discriminate H|].
  rewrite zlen_app, LB. unfold TOPIC_MAX. reflexivity.
Qed.
