(** Model of src/modules/p_exploder.c.  Locks, messages to the log, allocation failures and the
    configuration are left out; what is written to the output buffer is a list. *)
From Coq Require Import ZArith List Bool.
From Verif Require Import Common MsgModel TypeModel ArrayModel.
Import ListNotations.
Open Scope Z_scope.

(** p_exploder.c:43-52 [struct exploder_data]; no topic is the empty one *)
Record config : Type := mk_config { g_non_array : bool; g_original : bool; g_time : bool; g_preserve_topic : bool; g_append_tag : bool; g_topic : list Z }.

(** msg_msg_struct.h:100 *)
Definition TOPIC_MAX : Z := 65535.

(** What comes of a message: messages to the output buffer, and whether the module goes on, has
    ended with an error, or the program has crashed *)
Inductive how : Type := Goes_on | Ended | Crashed.

(** p_exploder.c:64-159 [exploder_process_value], with type.c:1673-1746 [rrr_type_value_clone], which
    makes an equal value.  The tag is a text and ends at a NUL. *)
Definition process_value (c : config) (timestamp : Z) (topic_prefix : list Z) (v : value) : res rrr_msg_msg :=
  let topic := if g_append_tag c then topic_prefix ++ c_string (v_tag v) else topic_prefix in
  if TOPIC_MAX <? zlen topic then RErr 1
  else new_message_from_array [v] timestamp topic.
(** p_exploder.c:212-224, the loop *)
Fixpoint process_values (c : config) (timestamp : Z) (topic_prefix : list Z) (vs : list value) : list rrr_msg_msg * how :=
  match vs with
  | [] => ([], Goes_on)
  | v :: r =>
      match process_value c timestamp topic_prefix v with
      | ROk m => let '(ms, h) := process_values c timestamp topic_prefix r in (m :: ms, h)
      | RErr _ => ([], Ended)
      | _ => ([], Crashed)
      end
  end.
(** p_exploder.c:161-243 [exploder_poll_callback]; [now] is the time on the clock *)
Definition poll_callback (after : list Z) (c : config) (now : Z) (m : rrr_msg_msg) : list rrr_msg_msg * how :=
  if negb (MSG_IS_ARRAY m) then ((if g_non_array c then [m] else []), Goes_on)
  else match append_to_array after m [] with
       | ROk (vs, code) =>
           if negb (code =? 0) then ([], Ended)
           else
             let topic_prefix := (if g_preserve_topic c && (0 <? mm_topic_length m) then MSG_TOPIC m else []) ++ g_topic c in
             let timestamp := if g_time c then mm_timestamp m else now in
             let '(ms, h) := process_values c timestamp topic_prefix vs in
             match h with Goes_on => (ms ++ (if g_original c then [m] else []), Goes_on) | _ => (ms, h) end
       | RErr _ => ([], Ended)
       | _ => ([], Crashed)
       end.
