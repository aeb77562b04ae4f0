(** What the exploder is supposed to do. *)
From Coq Require Import ZArith List Bool.
From Verif Require Import Common MsgModel TypeModel ArrayModel ArraySpec ExpModel.
Import ListNotations.
Open Scope Z_scope.

(** The message has these values, in this order. *)
Definition holds (m : rrr_msg_msg) (vs : list value) : Prop := forall after, append_to_array after m [] = ROk (vs, 0).
(** The topic of the message for a value: the topic of the message if wanted, the configured topic,
    and the tag if wanted. *)
Definition topic_for (c : config) (m : rrr_msg_msg) (v : value) : list Z :=
  (if g_preserve_topic c then MSG_TOPIC m else []) ++ g_topic c ++ (if g_append_tag c then v_tag v else []).
Definition time_for (c : config) (now : Z) (m : rrr_msg_msg) : Z := if g_time c then mm_timestamp m else now.
(** Values which can be in a message of their own: tags are texts, and topic and value are not too long. *)
Definition explodable (c : config) (m : rrr_msg_msg) (v : value) : Prop :=
  array_value v /\ ~ In 0 (v_tag v) /\ zlen (topic_for c m v) < 2^16 /\ 30 + zlen (topic_for c m v) + wire_size [v] < 2^32.
