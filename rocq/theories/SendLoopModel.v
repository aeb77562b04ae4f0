(** Send loops ([send_loop.c]): a queue of messages to be sent, with order, time to live,
    timeout and retries.  Used by the modules ip and file.
    Simplified: locks and reference counts are in [HolderModel]; the callbacks of the module are
    given by their answers and do not themselves add to the loop while it runs (the module adds
    messages back in other events); the events which start the runs are not modelled. *)
From Coq Require Import ZArith List Bool Lia.
From Verif Require Import Common.
Import ListNotations.
Open Scope Z_scope.

(** send_loop.h:32-36 [enum rrr_send_loop_action] *)
Inductive action := Retry | Drop | Return.
(** send_loop.c:36-58 [struct rrr_send_loop], the parameters; and whether the module sends
    messages in network order (p_ip.c:1153-1191, ip_send_rrr_message) *)
Record conf := mk_conf { c_order : bool; c_ttl : Z; c_timeout : Z; c_action : action; c_net : bool }.
(** message_holder_struct.h:62-90 [struct rrr_msg_holder]: the message (a number which tells
    it from others), its timestamp, whether its memory is in network order, the send index and
    the send time *)
Record entry := mk_e { e_msg : Z; e_ts : Z; e_net : bool; e_index : Z; e_time : Z }.
(** send_loop.c:36-58: the entries and the last index used *)
Record loop := mk_l { l_entries : list entry; l_pos : Z }.
Definition loop_new : loop := mk_l [] 0.

(** The octets of a 64 bit number turned around: what the field [timestamp] contains for a
    little endian host while the message is in network order (msg_msg.c, rrr_htobe64) *)
Definition swap64 (z : Z) : Z := be_dec (rev (be_enc 8 z)).
(** [message->timestamp] as read by msg_msg.c:505 *)
Definition timestamp (e : entry) : Z := if e_net e then swap64 (e_ts e) else e_ts e.
(** msg_msg.c:496-510 [rrr_msg_msg_ttl_ok] *)
Definition ttl_ok (now ts ttl : Z) : bool :=
  if now <? ttl then true else if ts <? u64 (now - ttl) then false else true.
(** message_holder_util.c:168-189 [rrr_msg_holder_util_timeout_check] *)
Inductive late := InTime | TtlReached | TimedOut.
Definition check (cf : conf) (now : Z) (e : entry) : late :=
  if (0 <? c_ttl cf) && negb (ttl_ok now (timestamp e) (c_ttl cf)) then TtlReached
  else if (0 <? c_timeout cf) && (0 <? e_time e) && (e_time e <? u64 (now - c_timeout cf)) then TimedOut
  else InTime.

(** message_holder_collection.c:44-80 [rrr_msg_holder_collection_sort] with
    message_holder_util.c:161-166 [rrr_msg_holder_util_index_compare]: the first of the
    smallest entries is taken out and appended *)
Fixpoint smallest (e : entry) (l : list entry) : entry :=
  match l with [] => e | x :: r => smallest (if e_index x <? e_index e then x else e) r end.
(** linked_list.h:184-197 [RRR_LL_REMOVE_NODE_NO_FREE]; the node is found by its index, of
    which it is the first *)
Fixpoint remove (i : Z) (l : list entry) : list entry :=
  match l with [] => [] | x :: r => if e_index x =? i then r else x :: remove i r end.
(** The loop of the sort; [n] is the number of entries *)
Fixpoint sort (n : nat) (l : list entry) : list entry :=
  match n, l with
  | O, _ | _, [] => []
  | S m, x :: r => let s := smallest x r in s :: sort m (remove (e_index s) l)
  end.

(** Return values of the callbacks (read_constants.h) *)
Inductive code := COk | CNotReady | CSoft | CHard.
(** What a run does with an entry: hands it to the push callback (with its answer), drops it
    for its age, drops it for its timeout, or hands it to the return callback (which succeeds
    or not) *)
Inductive ev := Pushed (e : entry) (c : code) | Expired (e : entry) | Dropped (e : entry) | Returned (e : entry) (ok : bool).
(** For an entry which is visited: the time, the answer of the push callback and whether the
    return callback succeeds *)
Record answer := mk_a { a_now : Z; a_code : code; a_ok : bool }.
Definition answer_ok (now : Z) : answer := mk_a now COk true.
(** p_ip.c:1153-1191: sending a message puts its memory in network order *)
Definition pushed (cf : conf) (e : entry) : entry := if c_net cf then mk_e (e_msg e) (e_ts e) true (e_index e) (e_time e) else e.
(** p_ip.c:1299-1309: and returning it puts it back *)
Definition returned (e : entry) : entry := mk_e (e_msg e) (e_ts e) false (e_index e) (e_time e).

(** send_loop.c:294-367: one entry.  The result is what stays of it, what was done and whether
    the loop goes on; [None]: it stops with an error. *)
Definition visit (cf : conf) (a : answer) (e : entry) : list entry * list ev * option bool :=
  match check cf (a_now a) e with
  | TtlReached => ([], [Expired e], Some true)
  | TimedOut =>
      match c_action cf with
      | Retry => ([e], [], Some true)
      | Drop => ([], [Dropped e], Some true)
      | Return => ([], [Returned (returned e) (a_ok a)], if a_ok a then Some true else None)
      end
  | InTime =>
      let e' := pushed cf e in
      match a_code a with
      | COk => ([], [Pushed e' COk], Some true)
      | CNotReady => ([e'], [Pushed e' CNotReady], Some (negb (c_order cf)))
      | CSoft => ([], [Pushed e' CSoft], Some true)
      | CHard => ([], [Pushed e' CHard], None)
      end
  end.
(** send_loop.c:294-367: the loop; the entries which stay, what was done and whether there was
    an error.  [ans] is the answer for the entry at a position. *)
Fixpoint visits (cf : conf) (ans : list answer) (last : answer) (l : list entry) : list entry * list ev * bool :=
  match l with
  | [] => ([], [], false)
  | e :: r =>
      let '(stay, evs, go) := visit cf (hd last ans) e in
      match go with
      | Some true => let '(k, evs', err) := visits cf (tl ans) last r in (stay ++ k, evs ++ evs', err)
      | Some false => (stay ++ r, evs, false)
      | None => (stay ++ r, evs, true)
      end
  end.
(** send_loop.c:281-384 [rrr_send_loop_run] *)
Definition run (cf : conf) (ans : list answer) (last : answer) (s : loop) : loop * list ev * bool :=
  let l := if c_order cf then sort (length (l_entries s)) (l_entries s) else l_entries s in
  let '(k, evs, err) := visits cf ans last l in
  (mk_l k (l_pos s), evs, err).
(** send_loop.c:197-208 [rrr_send_loop_entry_prepare] followed by send_loop.c:233-240
    [rrr_send_loop_push], as in p_ip.c:723-724 and p_file.c:1987-1988 *)
Definition push (now : Z) (m ts : Z) (s : loop) : loop :=
  let i := u64 (l_pos s + 1) in mk_l (l_entries s ++ [mk_e m ts false i now]) i.
(** send_loop.c:248-255 [rrr_send_loop_unshift] *)
Definition unshift (e : entry) (s : loop) : loop := mk_l (e :: l_entries s) (l_pos s).
(** send_loop.c:257-273 [rrr_send_loop_unshift_if_timed_out]; whether it was added *)
Definition unshift_if (cf : conf) (now : Z) (e : entry) (s : loop) : loop * bool :=
  match check cf now e with InTime => (s, false) | _ => (unshift e s, true) end.
(** send_loop.c:214-231 [rrr_send_loop_entry_touch_related]; [rel]: which entries the caller
    regards as related *)
Definition touch (now : Z) (rel : entry -> bool) (s : loop) : loop :=
  mk_l (map (fun e => if rel e then mk_e (e_msg e) (e_ts e) (e_net e) (e_index e) now else e) (l_entries s)) (l_pos s).
(** send_loop.c:275-279 [rrr_send_loop_clear] *)
Definition clear (s : loop) : loop := mk_l [] (l_pos s).

(** ** The module: what it has been given and is sending *)
(** p_ip.c:1515-1635, p_file.c:1567-1592: the messages handed over which are being sent *)
Record world := mk_w { w_loop : loop; w_flight : list entry }.
Definition world_new : world := mk_w loop_new [].
(** A message comes; the loop runs; the message which is [n]th of those being sent has been
    sent, could not be sent, or is looked at for its timeout; times are renewed *)
Inductive op :=
| Come (now m ts : Z) | Run (ans : list answer) (last : answer)
| Done (n : nat) | Failed (n : nat) | Check (now : Z) (n : nat) | Touch (now : Z) (rel : entry -> bool).
(** An entry leaves those being sent *)
Fixpoint take (n : nat) (l : list entry) : option (entry * list entry) :=
  match n, l with
  | _, [] => None
  | O, e :: r => Some (e, r)
  | S k, e :: r => match take k r with Some (x, r') => Some (x, e :: r') | None => None end
  end.
Definition accepted (evs : list ev) : list entry := flat_map (fun x => match x with Pushed e COk => [e] | _ => [] end) evs.
(** What is seen: what the run does, messages which are done, and whether the run failed *)
Definition step (cf : conf) (w : world) (o : op) : world * list ev * list entry * bool :=
  match o with
  | Come now m ts => (mk_w (push now m ts (w_loop w)) (w_flight w), [], [], false)
  | Run ans last => let '(s, evs, err) := run cf ans last (w_loop w) in (mk_w s (w_flight w ++ accepted evs), evs, [], err)
  | Done n => match take n (w_flight w) with Some (e, r) => (mk_w (w_loop w) r, [], [e], false) | None => (w, [], [], false) end
  | Failed n => match take n (w_flight w) with Some (e, r) => (mk_w (unshift e (w_loop w)) r, [], [], false) | None => (w, [], [], false) end
  | Check now n => match take n (w_flight w) with
      | Some (e, r) => let '(s, b) := unshift_if cf now e (w_loop w) in (mk_w s (if b then r else w_flight w), [], [], false)
      | None => (w, [], [], false) end
  | Touch now rel => (mk_w (touch now rel (w_loop w)) (map (fun e => if rel e then mk_e (e_msg e) (e_ts e) (e_net e) (e_index e) now else e) (w_flight w)), [], [], false)
  end.
Fixpoint steps (cf : conf) (w : world) (ops : list op) : world * list ev * list entry * bool :=
  match ops with
  | [] => (w, [], [], false)
  | o :: r => let '(w1, e1, d1, b1) := step cf w o in let '(w2, e2, d2, b2) := steps cf w1 r in (w2, e1 ++ e2, d1 ++ d2, b1 || b2)
  end.

(** p_ip.c:372-373, 1780: seconds in the configuration (ip_ttl_seconds, ip_send_timeout) to
    microseconds *)
Definition of_seconds (s : Z) : Z := u64 (s * 1000000).
