(** Properties of the exploder. *)
From Coq Require Import Strings.String.
From Coq Require Import ZArith List Bool Lia.
From Verif Require Import Common MsgModel TypeModel TypeSpec ArrayModel ArraySpec ArrayProofs ArrayProps ExpModel ExpSpec ExpProofs.
Import ListNotations.
Open Scope Z_scope.

(** C118: each value of a message becomes a message of its own with just this value, in the same order,
    with the topic and the time which are configured, and the message itself follows if wanted.  What
    is missing: values for which the topic becomes too long (exp_topic_refuted). *)
Theorem exp_values_partial : forall after c now m vs,
  MSG_CLASS m = 11 -> 0 <= mm_topic_length m -> holds m vs -> Forall (explodable c m) vs ->
  exists ms, poll_callback after c now m = (ms ++ (if g_original c then [m] else []), Goes_on) /\
    Forall2 (fun v m' => holds m' [v] /\ MSG_TOPIC m' = topic_for c m v /\ mm_timestamp m' = time_for c now m /\ MSG_CLASS m' = 11) vs ms.
Proof. exact exploded. Qed.
Print Assumptions exp_values_partial.
Definition ex_config : config := mk_config false true true true true (str_bytes "/new/").
Definition ex_value (tag data : string) : value := mk_value TYPE_STR 0 (str_bytes tag) (zlen (str_bytes data)) 1 (str_bytes data).
Definition ex_message : rrr_msg_msg :=
  match new_message_from_array [ex_value "a" "one"; ex_value "b" "two"] 1234 (str_bytes "top") with ROk m => m | _ => mk_mm (mk_msg 0 0 0 0 0) 0 0 0 0 [] end.
Example exp_values_ex :
  MSG_CLASS ex_message = 11 /\ append_to_array [] ex_message [] = ROk ([ex_value "a" "one"; ex_value "b" "two"], 0) /\
  topic_for ex_config ex_message (ex_value "b" "two") = str_bytes "top/new/b" /\
  map MSG_TOPIC (fst (poll_callback [] ex_config 99 ex_message)) = [str_bytes "top/new/a"; str_bytes "top/new/b"; str_bytes "top"] /\
  map mm_timestamp (fst (poll_callback [] (mk_config false false false false false []) 99 ex_message)) = [99; 99].
Proof. repeat apply conj; vm_compute; reflexivity. Qed.

(** C118: other messages pass unchanged if wanted, and otherwise nothing comes of them. *)
Theorem exp_others : forall after c now m, MSG_CLASS m <> 11 ->
  poll_callback after c now m = ((if g_non_array c then [m] else []), Goes_on).
Proof. exact not_array. Qed.
Print Assumptions exp_others.
Example exp_others_ex : MSG_CLASS (mk_mm (mk_msg 0 30 2 0 0) 5 0 0 0 []) <> 11.
Proof. vm_compute. discriminate. Qed.

(** C118: FINDING: an array message which is damaged ends the module, as the error is not told from an
    error of the module itself. *)
Theorem exp_damaged_refuted :
  ~ forall after c now m, whole_array_message m -> snd (poll_callback after c now m) = Goes_on.
Proof.
  intros H. specialize (H [] ex_config 0 damaged_message (proj1 array_iterate_in_bounds_ex)). vm_compute in H. discriminate H.
Qed.
Print Assumptions exp_damaged_refuted.
Example exp_damaged_ex : poll_callback [] ex_config 0 damaged_message = ([], Ended).
Proof. vm_compute. reflexivity. Qed.

(** C118: FINDING: a topic which becomes too long by its tag ends the module as well, after messages for
    the values before have been made. *)
Theorem exp_topic_refuted :
  ~ forall c now m vs, MSG_CLASS m = 11 -> 0 <= mm_topic_length m -> holds m vs -> Forall array_value vs ->
      forall after, snd (poll_callback after c now m) = Goes_on.
Proof. exact long_topic. Qed.
Print Assumptions exp_topic_refuted.
Example exp_topic_ex : forall t p v, process_value (mk_config false false false false true []) t p v =
  if TOPIC_MAX <? zlen (p ++ c_string (v_tag v)) then RErr 1 else new_message_from_array [v] t (p ++ c_string (v_tag v)).
Proof. reflexivity. Qed.
