(** Model of src/lib/util/increment.c and of the id handling of
    src/modules/p_incrementer.c. *)
From Coq Require Import ZArith List Bool.
From Verif Require Import Common Dec MapModel.
Import ListNotations.
Open Scope Z_scope.

(** increment.c:27-36 [__rrr_increment_calculate_bit_requirement]; the loop runs
    at most 64 times on a 64 bit number. *)
Fixpoint bits_loop (fuel : nat) (n : Z) : Z :=
  match fuel with
  | O => 0
  | S f => if n =? 0 then 0 else 1 + bits_loop f (n / 2)
  end.
Definition bit_requirement (n : Z) : Z := bits_loop 64 n.

(** increment.c:38-50 [rrr_increment_bits_to_max] *)
Fixpoint bits_to_max_loop (bits : nat) (max : Z) : Z :=
  match bits with
  | O => max
  | S b => bits_to_max_loop b (Z.lor (u64 (Z.shiftl max 1)) 1)
  end.
Definition bits_to_max (bits : nat) : Z := bits_to_max_loop bits 0.

(** increment.c:52-58 [rrr_increment_max_to_prefix_mask] *)
Definition max_to_prefix_mask (max : Z) : Z := u64 (Z.shiftl (2^64 - 1) (bit_requirement max)).

(** increment.c:60-76 [rrr_increment_verify_value_prefix] *)
Definition verify_value_prefix (value max prefix : Z) : Z :=
  if negb (u64 (Z.shiftl prefix (bit_requirement max)) =? Z.land value (max_to_prefix_mask max)) then 1 else 0.

(** increment.c:78-93 [rrr_increment_strip_prefix]: the prefix and the value;
    [None] is the failing assertion. *)
Definition strip_prefix (value max : Z) : option (Z * Z) :=
  let mask := max_to_prefix_mask max in
  let bits := bit_requirement max in
  let prefix := Z.shiftr (Z.land value mask) bits in
  let res := Z.land value (Z.lxor mask (2^64 - 1)) in
  if 0xffffffff <? res then None else Some (prefix, res).

(** increment.c:95-101 [rrr_increment_apply_prefix] *)
Definition apply_prefix (value max prefix : Z) : Z :=
  Z.lor value (u64 (Z.shiftl prefix (bit_requirement max))).

(** increment.c:103-153 [rrr_increment_verify]; the arguments are 64 bit. *)
Definition increment_verify (step_or_mod min max position prefix : Z) : Z :=
  if 0xff <? step_or_mod then 1
  else if 0xffffffff <? min then 1
  else if 0xffffffff <? max then 1
  else if 0xffffffff <? position then 1
  else if max <? min then 1
  else if step_or_mod =? 0 then 1
  else if u64 (max - min + 1) <? step_or_mod then 1
  else if u64 (step_or_mod - 1) <? position then 1
  else if 64 <? bit_requirement prefix + bit_requirement max then 1
  else 0.

(** increment.c:155-167 [rrr_increment_basic]; the sum is computed in 32 bits. *)
Definition increment_basic (value step min max : Z) : Z :=
  let t := u32 (value + step) in
  if (max <? t) || (t <? min) then u32 min else u32 t.

(** increment.c:169-185 [rrr_increment_mod], computed in 64 bits. *)
Definition increment_mod (value mod_ min max position : Z) : Z :=
  let t := u64 (value - value mod mod_ + mod_ + position) in
  if (max <? t) || (t <? min)
  then let t := u64 (min - min mod mod_ + position) in
       u32 (if t <? min then u64 (t + mod_) else t)
  else u32 t.

(** ** The module *)
(** p_incrementer.c:54-68, settings of one instance; [c_tag] tells whether
    incrementer_id_tag is set and [c_db] whether a message DB is configured. *)
Record inc_config := mk_cfg {
  c_min : Z; c_max : Z; c_mod : Z; c_pos : Z; c_prefix : Z; c_tag : bool; c_db : bool }.
(** p_incrementer.c:641-651: the settings are accepted *)
Definition cfg_accepted (c : inc_config) : bool :=
  increment_verify (c_mod c) (c_min c) (c_max c) (c_pos c) (c_prefix c) =? 0.

(** p_incrementer.c:66-67 [db_initial_ids], [db_used_ids]; [s_db] is the content
    of the message DB, a separate process which survives restarts.  Simplified:
    the DB stores the number instead of a message with a one-value array. *)
Record inc_state := mk_inc { s_initial : rmap; s_used : rmap; s_db : list (list Z * Z) }.
Fixpoint db_get (d : list (list Z * Z)) (topic : list Z) : option Z :=
  match d with
  | [] => None
  | (t, v) :: r => if str_eqb t topic then Some v else db_get r topic
  end.

(** What a DB operation does: done and acknowledged; refused; done but the
    acknowledgement is lost. *)
Inductive db_answer := DbOk | DbFail | DbLost.

(** p_incrementer.c:115-184 [incrementer_get_id_from_msgdb]: 0 when there is no
    DB or no such message; [None] when the DB cannot be reached. *)
Definition get_id_from_db (c : inc_config) (s : inc_state) (topic : list Z) (a : db_answer) : option Z :=
  if c_db c then
    match a with
    | DbOk => Some (match db_get (s_db s) topic with Some v => v | None => 0 end)
    | _ => None
    end
  else Some 0.

(** p_incrementer.c:191-233 [incrementer_get_id] *)
Definition get_id (c : inc_config) (s : inc_state) (topic : list Z) (a : db_answer) : option Z :=
  match map_get (s_used s) topic with
  | Some v => strtoull v
  | None =>
      match get_id_from_db c s topic a with
      | None => None
      | Some v =>
          if negb (v =? 0) then Some v
          else match map_get (s_initial s) topic with
               | None => Some 0
               | Some v => strtoull v
               end
      end
  end.

(** p_incrementer.c:232-351 [incrementer_update_id] and its callbacks: the DB
    first, then the map if the DB confirmed.  Result: success and the state. *)
Definition update_id (c : inc_config) (s : inc_state) (topic : list Z) (id : Z) (a : db_answer) : bool * inc_state :=
  let db' := if c_db c then match a with DbFail => s_db s | _ => (topic, id) :: s_db s end else s_db s in
  let confirm := if c_db c then match a with DbOk => 0 | _ => 1 end else 0 in
  let '(r, used') := map_replace_confirm (s_used s) topic (dec_str id) confirm in
  (r =? 0, mk_inc (s_initial s) used' db').

(** What happens to a message given to the module. *)
Inductive inc_out :=
| Emit (topic : list Z) (id : Z) (new_topic : list Z) (* written to output with the new topic *)
| Drop
| Assertion.

(** p_incrementer.c:353-484 [incrementer_process_subject]: message with this topic.
    The write to the output and the counters are not modelled. *)
Definition process_subject (c : inc_config) (s : inc_state) (topic : list Z) (get_a put_a : db_answer) : inc_state * inc_out :=
  match get_id c s topic get_a with
  | None => (s, Drop)
  | Some old_id =>
      let stripped :=
        if old_id =? 0 then
          if c_tag c && match map_get (s_used s) topic with None => true | _ => false end
                     && match map_get (s_initial s) topic with None => true | _ => false end
          then Some None
          else Some (Some (0, 0))
        else if (0 <? c_prefix c) && negb (verify_value_prefix old_id (c_max c) (c_prefix c) =? 0) then Some None
        else match strip_prefix old_id (c_max c) with
             | None => None
             | Some x => Some (Some x)
             end
      in
      match stripped with
      | None => (s, Assertion)
      | Some None => (s, Drop)
      | Some (Some (prefix, old_value)) =>
          let prefix := if prefix =? 0 then c_prefix c else prefix in
          let new_value := increment_mod (if 0xffffffff <? old_value then 0xffffffff else old_value)
                             (c_mod c) (c_min c) (c_max c) (c_pos c) in
          let new_id := apply_prefix new_value (c_max c) prefix in
          let topic_new := topic ++ [47] ++ dec_str new_id in
          if 65535 <? zlen topic_new then (s, Drop)
          else
            let '(ok, s') := update_id c s topic new_id put_a in
            (s', if ok then Emit topic new_id topic_new else Drop)
      end
  end.

(** p_incrementer.c:486-537 [incrementer_process_id]: message with an initial id. *)
Definition process_id (c : inc_config) (s : inc_state) (topic : list Z) (id : Z) : inc_state :=
  if (0 <? c_prefix c) && negb (verify_value_prefix id (c_max c) (c_prefix c) =? 0) then s
  else mk_inc (map_replace (s_initial s) topic (dec_str id)) (s_used s) (s_db s).

(** p_incrementer.c:539-596 [incrementer_poll_callback] for messages matching the
    topic filter; a restart loses the maps (p_incrementer.c:71-74). *)
Inductive inc_op :=
| Subject (topic : list Z) (get_a put_a : db_answer)
| Initial (topic : list Z) (id : Z)
| Restart.
Definition inc_step (c : inc_config) (s : inc_state) (o : inc_op) : inc_state * inc_out :=
  match o with
  | Subject t g p => process_subject c s t g p
  | Initial t id => (if c_tag c then process_id c s t id else s, Drop)
  | Restart => (mk_inc [] [] (s_db s), Drop)
  end.
Fixpoint inc_run (c : inc_config) (s : inc_state) (ops : list inc_op) : list inc_out :=
  match ops with
  | [] => []
  | o :: r => let '(s', out) := inc_step c s o in out :: inc_run c s' r
  end.
