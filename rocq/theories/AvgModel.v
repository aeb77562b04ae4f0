(** Model of the measurements in src/modules/p_averager.c.  Locks, references, messages to the log
    and allocation failures are left out, and what the module writes to its output buffer is taken
    to be written at once. *)
From Coq Require Import Strings.String.
From Coq Require Import ZArith List Bool.
From Verif Require Import Common MsgModel TypeModel ArrayModel ConvModel.
Import ListNotations.
Open Scope Z_scope.

(** p_averager.c:47-67 [struct averager_data], the configuration; no topic is [None] *)
Record config : Type := mk_config { g_preserve : bool; g_discard : bool; g_timespan : Z; g_topic : option (list Z) }.

(** What happens: a message arrives, or the interval has passed, at a time and with the time of
    the message made *)
Inductive op : Type := Receive (m : rrr_msg_msg) | Interval (now time : Z).
(** What comes of it: messages in the output buffer, the end of the module, or of the program *)
Inductive out : Type := Out (ms : list rrr_msg_msg) | Stopped | Crashed.

(** msg_msg_struct.h:55 [MSG_IS_MSG] and 76 [MSG_IS_ARRAY] *)
Definition is_measurement (m : rrr_msg_msg) : bool := (MSG_TYPE m =? TYPE_MSG_MSG) && MSG_IS_ARRAY m.

(** p_averager.c:76-141 [averager_poll_callback]: the list of measurements and the output *)
Definition poll_callback (c : config) (input : list rrr_msg_msg) (m : rrr_msg_msg) : list rrr_msg_msg * out :=
  if is_measurement m then
    (input ++ [m],
     if g_preserve c then
       match g_topic c with
       | None => Out [m]
       | Some topic => match msg_msg_topic_set m topic with Ok m' => Out [m'] | Abort => Crashed | _ => Out [m] end
       end
     else Out [])
  else if g_discard c then (input, Out [])
  else (input, Out [m]).

(** p_averager.c:143-158 [averager_maintain_buffer] *)
Definition maintain_buffer (c : config) (now : Z) (input : list rrr_msg_msg) : list rrr_msg_msg :=
  let min_time := u64 (now - u64 (g_timespan c * 1000000)) in
  filter (fun m => negb (mm_timestamp m <? min_time)) input.

(** p_averager.c:160-171 [struct averager_calculation], without the times of the extremes *)
Record calculation : Type := mk_calc { k_max : Z; k_min : Z; k_sum : Z; k_entries : Z; k_from : Z; k_to : Z }.

(** p_averager.c:173-197 [__averager_get_64_from_array]; reading past the data is undefined *)
Definition get_64 (vs : list value) (tag : list Z) : res (option Z) :=
  match get_by_tag vs tag with
  | None => ROk None
  | Some v => if negb (is_64 (v_type v)) then ROk None
              else if zlen (v_data v) <? 8 then RUb else ROk (Some (le_dec (firstn 8 (v_data v))))
  end.

(** p_averager.c:199-262 [averager_process_message] *)
Definition process_message (after : list Z) (k : calculation) (m : rrr_msg_msg) : res calculation :=
  if negb (MSG_IS_ARRAY m) then ROk k
  else rbind (append_to_array after m []) (fun r =>
  let '(vs, code) := r in
  if negb (code =? 0) then RErr 1
  else rbind (get_64 vs (str_bytes "measurement")) (fun x =>
       match x with None => ROk k | Some x =>
       rbind (get_64 vs (str_bytes "timestamp_from")) (fun from =>
       match from with None => ROk k | Some from =>
       rbind (get_64 vs (str_bytes "timestamp_to")) (fun to =>
       match to with None => ROk k | Some to =>
       ROk (mk_calc (if k_max k <=? x then x else k_max k) (if x <? k_min k then x else k_min k)
                    (u64 (k_sum k + x)) (u64 (k_entries k + 1))
                    (if from <? k_from k then from else k_from k) (if k_to k <? to then to else k_to k))
       end) end) end)).
(** p_averager.c:370-377, the loop of [averager_calculate_average] *)
Fixpoint process_all (after : list Z) (k : calculation) (ms : list rrr_msg_msg) : res calculation :=
  match ms with
  | [] => ROk k
  | m :: r => rbind (process_message after k m) (fun k => process_all after k r)
  end.

(** p_averager.c:299-363 [averager_spawn_message], with 269-297 [averager_spawn_message_callback] *)
Definition spawn_message (c : config) (time from to average max min : Z) : res rrr_msg_msg :=
  rbind (push_u64 [] (str_bytes "timestamp_from") from) (fun vs =>
  rbind (push_u64 vs (str_bytes "timestamp_to") to) (fun vs =>
  rbind (push_u64 vs (str_bytes "average") average) (fun vs =>
  rbind (push_u64 vs (str_bytes "max") max) (fun vs =>
  rbind (push_u64 vs (str_bytes "min") min) (fun vs =>
  new_message_from_array vs time (match g_topic c with Some t => t | None => [] end)))))).

(** p_averager.c:365-410 [averager_calculate_average] and 412-431 [averager_event_average]: all
    measurements are removed, whether or not they are younger than the timespan *)
Definition event_average (after : list Z) (c : config) (now time : Z) (input : list rrr_msg_msg) : out :=
  match process_all after (mk_calc 0 (2^64 - 1) 0 0 (2^64 - 1) 0) (maintain_buffer c now input) with
  | ROk k =>
      if k_entries k =? 0 then Out []
      else match spawn_message c time (k_from k) (k_to k) (k_sum k / k_entries k) (k_max k) (k_min k) with
           | ROk m => Out [m] | RErr _ => Stopped | _ => Crashed
           end
  | RErr _ => Stopped
  | _ => Crashed
  end.

(** A module which runs has a list of measurements. *)
Definition step (after : list Z) (c : config) (input : list rrr_msg_msg) (o : op) : list rrr_msg_msg * out :=
  match o with
  | Receive m => poll_callback c input m
  | Interval now time => ([], event_average after c now time input)
  end.
Fixpoint run (after : list Z) (c : config) (input : list rrr_msg_msg) (os : list op) : list out :=
  match os with
  | [] => []
  | o :: r => let '(input, x) := step after c input o in
              x :: match x with Out _ => run after c input r | _ => [] end
  end.
