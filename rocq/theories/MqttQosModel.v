(** Model of the handshakes of QoS 1 and QoS 2 in an MQTT session, in both directions.

    The session is that of the broker for one client, or that of the client.  Modelled are
    the queue to the remote, the queue of messages from the remote, the queue of finished
    messages which wait to be forgotten, and the packet identifiers (IdPoolModel).  Not
    modelled: the reasons in acknowledgements received, the access check, subscriptions
    changed by SUBACK and UNSUBACK (MqttBrokerModel has the broker's side), failures to
    allocate memory, and errors when a message is handed on. *)
From Coq Require Import ZArith List Bool Lia.
From Verif Require Import Common IdPoolModel.
Import ListNotations.
Open Scope Z_scope.

(** mqtt_packet.h:163-180: what a session keeps for a packet in a queue.  [e_msg] names the
    contents of a message, [e_size] is the size of its payload.  [e_until]: when it expires,
    0 for never.  The acknowledgements are only kept as being there or not. *)
Inductive kind := KPub | KSub | KUnsub.
Record entry := mk_e {
  e_kind : kind; e_msg : Z; e_size : Z; e_qos : Z; e_id : Z; e_dup : bool; e_last : Z;
  e_out : bool; e_until : Z;
  e_puback : bool; e_pubrec : bool; e_pubrel : bool; e_pubcomp : bool; e_suback : bool }.

Inductive ack := Puback | Pubrec | Pubrel | Pubcomp | Suback | Unsuback.
(** Packets on the connection.  The number of an acknowledgement is its reason. *)
Inductive wire :=
| WPub (msg size qos id : Z) (dup : bool)
| WAck (a : ack) (id reason : Z)
| WSub (id : Z)
| WUnsub (id : Z).
(** What a session does: a packet is given to the connection, a message is delivered (to
    the application or to the sessions of subscribers). *)
Inductive ev := Sent (w : wire) | Deliver (msg : Z).

(** mqtt_session_ram.c:60-90 [struct rrr_mqtt_session_ram], the part modelled; the finished
    messages with the time at which they are forgotten. *)
Record sess := mk_s {
  s_to : list entry; s_delayed : list entry; s_from : list entry; s_grace : list (entry * Z);
  s_pool : id_pool }.
Definition sess_new : sess := mk_s [] [] [] [] pool_init.
(** The settings of a session: [max_in_flight], the Receive Maximum of the remote (0: none),
    [retry_interval_usec], [complete_publish_grace_time_s] in microseconds, and whether the
    connection is of version 5. *)
Record conf := mk_conf { c_max : Z; c_recv : Z; c_retry : Z; c_grace : Z; c_v5 : bool }.

Definition set_puback (e : entry) (b : bool) : entry :=
  mk_e (e_kind e) (e_msg e) (e_size e) (e_qos e) (e_id e) (e_dup e) (e_last e) (e_out e) (e_until e)
       b (e_pubrec e) (e_pubrel e) (e_pubcomp e) (e_suback e).
Definition set_pubrec (e : entry) (b : bool) : entry :=
  mk_e (e_kind e) (e_msg e) (e_size e) (e_qos e) (e_id e) (e_dup e) (e_last e) (e_out e) (e_until e)
       (e_puback e) b (e_pubrel e) (e_pubcomp e) (e_suback e).
Definition set_pubrel (e : entry) (b : bool) : entry :=
  mk_e (e_kind e) (e_msg e) (e_size e) (e_qos e) (e_id e) (e_dup e) (e_last e) (e_out e) (e_until e)
       (e_puback e) (e_pubrec e) b (e_pubcomp e) (e_suback e).
Definition set_pubcomp (e : entry) (b : bool) : entry :=
  mk_e (e_kind e) (e_msg e) (e_size e) (e_qos e) (e_id e) (e_dup e) (e_last e) (e_out e) (e_until e)
       (e_puback e) (e_pubrec e) (e_pubrel e) b (e_suback e).
Definition set_suback (e : entry) (b : bool) : entry :=
  mk_e (e_kind e) (e_msg e) (e_size e) (e_qos e) (e_id e) (e_dup e) (e_last e) (e_out e) (e_until e)
       (e_puback e) (e_pubrec e) (e_pubrel e) (e_pubcomp e) b.
Definition set_last (e : entry) (t : Z) : entry :=
  mk_e (e_kind e) (e_msg e) (e_size e) (e_qos e) (e_id e) (e_dup e) t (e_out e) (e_until e)
       (e_puback e) (e_pubrec e) (e_pubrel e) (e_pubcomp e) (e_suback e).
Definition set_id (e : entry) (i : Z) : entry :=
  mk_e (e_kind e) (e_msg e) (e_size e) (e_qos e) i (e_dup e) (e_last e) (e_out e) (e_until e)
       (e_puback e) (e_pubrec e) (e_pubrel e) (e_pubcomp e) (e_suback e).
Definition set_dup (e : entry) : entry :=
  mk_e (e_kind e) (e_msg e) (e_size e) (e_qos e) (e_id e) true (e_last e) (e_out e) (e_until e)
       (e_puback e) (e_pubrec e) (e_pubrel e) (e_pubcomp e) (e_suback e).

Definition is_pub (k : kind) : bool := match k with KPub => true | _ => false end.
Definition is_sub (k : kind) : bool := match k with KSub => true | _ => false end.
Definition is_unsub (k : kind) : bool := match k with KUnsub => true | _ => false end.

(** ** Acknowledgements *)
(** What the callback of a search returns: go on, stop ([RRR_FIFO_SEARCH_STOP]), or a soft
    error ([RRR_FIFO_CALLBACK_ERR], after which the search goes on). *)
Inductive flow := FGo | FStop | FErr.

(** mqtt_session_ram.c:1573-1605: the check which aborts *)
Definition ack_bug (a : ack) (out : bool) (e : entry) : bool :=
  Bool.eqb out (e_out e) &&
  match a with
  | Puback | Pubrec | Pubrel | Pubcomp => negb (is_pub (e_kind e))
  | Suback => negb (is_sub (e_kind e))
  | Unsuback => negb (is_unsub (e_kind e))
  end.
(** mqtt_session_ram.c:1607-1733: the entry is a PUBLISH.  The entry, the number of matches,
    the messages delivered and the return value. *)
Definition ack_publish (a : ack) (found : Z) (e : entry) : entry * Z * list Z * flow :=
  if match a with Pubcomp | Pubrec | Pubrel => negb (e_qos e =? 2) | _ => false end
  then (e, found, [], FErr)
  else match a with
  | Puback =>
      if negb (e_qos e =? 1) then (e, found, [], FErr)
      else
        let '(e1, del, fl) :=
          if e_puback e then (set_puback e false, [], FStop)
          else if e_out e then (e, [], FStop)
          else (e, [e_msg e], FGo) in
        if found =? 1 then (e1, found, del, if e_dup e then fl else FErr)
        else (set_puback e1 true, found + 1, del, fl)
  | Pubcomp =>
      if negb (e_pubrel e) || negb (e_pubrec e) then (set_pubcomp e false, found, [], FErr)
      else (set_pubcomp e true, found + 1, [], FStop)
  | Pubrec => (set_pubrec e true, found + 1, [], FStop)
  | Pubrel =>
      if negb (e_pubrec e) then (e, found, [], FErr)
      else (set_pubrel e true, found + 1,
            if e_pubrel e then [] else if e_out e then [] else [e_msg e], FStop)
  | _ => (e, found, [], FErr)
  end.
(** mqtt_session_ram.c:1530-1778 [__rrr_mqtt_session_ram_process_ack_callback]; [None]: abort *)
Definition ack_entry (a : ack) (id : Z) (out : bool) (found : Z) (e : entry)
  : option (entry * Z * list Z * flow) :=
  if negb (e_id e =? id) then Some (e, found, [], FGo)
  else if ack_bug a out e then None
  else match e_kind e with
  | KPub => Some (ack_publish a found e)
  | KSub => match a with Suback => Some (set_suback e true, found + 1, [], FGo) | _ => Some (e, found, [], FErr) end
  | KUnsub => match a with Unsuback => Some (set_suback e true, found + 1, [], FGo) | _ => Some (e, found, [], FErr) end
  end.
(** fifo.c [rrr_fifo_read] with this callback: the entries, the matches, the messages
    delivered and whether there was an error. *)
Fixpoint ack_loop (a : ack) (id : Z) (out : bool) (found : Z) (l : list entry)
  : option (list entry * Z * list Z * bool) :=
  match l with
  | [] => Some ([], found, [], false)
  | e :: r =>
      match ack_entry a id out found e with
      | None => None
      | Some (e', f, del, FStop) => Some (e' :: r, f, del, false)
      | Some (e', f, del, fl) =>
          match ack_loop a id out f r with
          | None => None
          | Some (r', f', del', err) =>
              Some (e' :: r', f', del ++ del', match fl with FErr => true | _ => err end)
          end
      end
  end.
(** mqtt_session_ram.c:2031-2096 [__rrr_mqtt_session_ram_process_ack] with 1778-1815
    [__rrr_mqtt_session_ram_process_iterate_ack] *)
Definition process_ack (s : sess) (a : ack) (id : Z) (out : bool) : option (sess * Z * list Z * bool) :=
  match ack_loop a id out 0 (if out then s_to s else s_from s) with
  | None => None
  | Some (l, found, del, err) =>
      if negb err && (1 <? found) then None
      else Some (if out then mk_s l (s_delayed s) (s_from s) (s_grace s) (s_pool s)
                 else mk_s (s_to s) (s_delayed s) l (s_grace s) (s_pool s), found, del, err)
  end.
(** mqtt_session_ram.c:3101-3121 in [__rrr_mqtt_session_ram_receive_packet]: the queue of an
    acknowledgement received; 2832-2867 [__rrr_mqtt_session_ram_send_packet_now_process_ack]:
    of one about to be sent. *)
Definition recv_out (a : ack) : bool := match a with Pubrel => false | _ => true end.
Definition send_out (a : ack) : bool := match a with Pubrel => true | _ => false end.

(** What a step yields: the session, what was done, and whether the connection is closed. *)
Definition step_res : Type := option (sess * list ev * bool).

(** mqtt_session_ram.c:2926-2953 [__rrr_mqtt_session_ram_send_packet_now].  The packet is
    given to the connection unless there was an error; [pre] was done before. *)
Definition send_now (s : sess) (a : ack) (id reason : Z) (pre : list ev) : step_res :=
  match process_ack s a id (send_out a) with
  | None => None
  | Some (s', _, del, true) => Some (s', pre ++ map Deliver del, true)
  | Some (s', _, del, false) => Some (s', pre ++ map Deliver del ++ [Sent (WAck a id reason)], false)
  end.

(** ** Packets received *)
(** fifo.c [rrr_fifo_write] with an ordered write: before the first entry which does not
    have a lower number (FifoModel). *)
Fixpoint insert_id (e : entry) (l : list entry) : list entry :=
  match l with
  | [] => [e]
  | x :: r => if e_id x <? e_id e then x :: insert_id e r else e :: l
  end.
(** mqtt_session_ram.c:2104-2142 [__rrr_mqtt_session_ram_find_qos2_publish_callback] in
    [rrr_fifo_read_minimum] from the identifier: the first entry with an identifier as high
    as the one received, if it is the same.  The aborts of the callback are for entries
    which are not in this queue: without an identifier or not PUBLISH. *)
Fixpoint find_qos2 (id : Z) (l : list entry) : option entry :=
  match l with
  | [] => None
  | x :: r => if e_id x <? id then find_qos2 id r else if e_id x =? id then Some x else None
  end.
Definition with_from (s : sess) (l : list entry) : sess :=
  mk_s (s_to s) (s_delayed s) l (s_grace s) (s_pool s).

(** mqtt_session_ram.c:2144-2253 [__rrr_mqtt_session_ram_receive_publish] and mqtt_common.c:
    817-953 [rrr_mqtt_common_handle_publish].  DUP with QoS 0 is refused by the parser. *)
Definition handle_publish (s : sess) (now msg size qos id : Z) (dup : bool) : step_res :=
  let e := mk_e KPub msg size qos id dup now false 0 false false false false false in
  if qos =? 0 then Some (s, [Deliver msg], false)
  else if qos =? 1 then send_now (with_from s (insert_id e (s_from s))) Puback id 0 []
  else match find_qos2 id (s_from s) with
       | None => send_now (with_from s (insert_id e (s_from s))) Pubrec id 0 []
       | Some x => if negb (e_size x =? size) || negb dup then Some (s, [], true)
                   else send_now s Pubrec id 0 []
       end.

(** mqtt_common.c:955-989 [__rrr_mqtt_common_handle_general_ack], 991-1027: PUBACK, PUBCOMP *)
Definition handle_final (s : sess) (a : ack) (id : Z) : step_res :=
  match process_ack s a id (recv_out a) with
  | None => None
  | Some (s', _, del, err) => Some (s', map Deliver del, err)
  end.
(** mqtt_common.c:1030-1098 [__rrr_mqtt_common_handle_pubrec_pubrel]: [next] is PUBREL or
    PUBCOMP; reasons 128 Unspecified error, 146 Packet identifier not found. *)
Definition handle_middle (cf : conf) (s : sess) (a next : ack) (id : Z) : step_res :=
  match process_ack s a id (recv_out a) with
  | None => None
  | Some (s', found, del, err) =>
      let reason := if negb (found =? 1) then 146 else if err then 128 else 0 in
      if err && negb (c_v5 cf) then Some (s', map Deliver del, true)
      else send_now s' next id reason (map Deliver del)
  end.

(** A packet received.  SUBSCRIBE and UNSUBSCRIBE do not concern the queues
    (MqttBrokerModel). *)
Definition receive (cf : conf) (now : Z) (s : sess) (w : wire) : step_res :=
  match w with
  | WPub msg size qos id dup => handle_publish s now msg size qos id dup
  | WAck Pubrec id _ => handle_middle cf s Pubrec Pubrel id
  | WAck Pubrel id _ => handle_middle cf s Pubrel Pubcomp id
  | WAck a id _ => handle_final s a id
  | WSub _ | WUnsub _ => Some (s, [], false)
  end.

(** ** Sending from the queues *)
(** mqtt_session_ram.c:2285-2361: whether an entry is finished.  (Other types of packets are
    not in the queues.) *)
Definition finished (e : entry) : bool :=
  match e_kind e with
  | KPub => ((e_qos e =? 0) && negb (e_last e =? 0)) || ((e_qos e =? 1) && e_puback e) || ((e_qos e =? 2) && e_pubcomp e)
  | _ => e_suback e
  end.
(** mqtt_session_ram.c:543-573 [__rrr_mqtt_session_ram_pretransmit_forward] *)
Definition drop (now : Z) (e : entry) : bool := negb (e_until e =? 0) && (e_until e <? now).
(** mqtt_session_ram.c:2441-2448: whether the entry is counted as being in flight.
    Simplified: planned_expiry_time is set only when an entry leaves its queue for the grace
    queue, hence it is 0 here. *)
Definition counted (e : entry) : bool :=
  e_out e && (0 <? e_qos e) && negb (e_pubcomp e) && negb (e_pubrec e).
(** mqtt_session_ram.c:2450-2458: [n] includes the entry itself *)
Definition limited (cf : conf) (n : Z) (e : entry) : bool :=
  (e_last e =? 0) && e_out e && ((c_max cf <=? n) || (negb (c_recv cf =? 0) && (c_recv cf <=? n))).
Definition as_wire (e : entry) : wire := WPub (e_msg e) (e_size e) (e_qos e) (e_id e) (e_dup e).
(** mqtt_session_ram.c:2483-2505: the packet to send, if any, and whether the entry is then
    deleted *)
Definition to_transmit (e : entry) : option wire * bool :=
  if ((e_qos e =? 0) || (e_qos e =? 1)) && e_out e then (Some (as_wire e), e_qos e =? 0)
  else if e_qos e =? 2 then
    if e_out e then
      (if negb (e_pubcomp e) && e_pubrel e then Some (WAck Pubrel (e_id e) 0)
       else if negb (e_pubrec e) then Some (as_wire e) else None, false)
    else (if negb (e_pubrel e) && e_pubrec e then Some (WAck Pubrec (e_id e) 0) else None, false)
  else (None, false).
(** mqtt_session_ram.c:2414-2509 [..process_publish]: the packet, whether the entry is
    deleted, the number in flight *)
Definition process_publish (cf : conf) (now n : Z) (e : entry) : option wire * bool * Z :=
  if drop now e then (None, false, n)
  else if e_puback e || e_pubcomp e then (None, false, n)
  else
    let n' := if counted e then n + 1 else n in
    if limited cf n' e then (None, false, n')
    else (to_transmit e, n').
(** mqtt_session_ram.c:2577-2593: the time of an attempt is forgotten after the interval *)
Definition check_retry (cf : conf) (now : Z) (e : entry) : entry :=
  if negb (e_last e =? 0) && (c_retry cf <? u64 (now - e_last e))
  then match e_kind e with KPub => set_dup (set_last e 0) | _ => set_last e 0 end
  else e.
(** The answer of the connection to a packet given to it: taken; taken, but no more now;
    failed.  mqtt_common.c:777-800 [rrr_mqtt_common_send_from_sessions_callback]. *)
Inductive took := TOk | TFull | TFail.

(** What a search of a queue yields: the entries left, those finished, the identifiers, the
    packets sent, the answers of the connection not used, and whether there was an error. *)
Record pass := mk_pass {
  p_keep : list entry; p_done : list entry; p_pool : id_pool; p_sent : list wire; p_err : bool }.
Definition keep_first (e : entry) (r : option pass) : option pass :=
  match r with
  | None => None
  | Some p => Some (mk_pass (e :: p_keep p) (p_done p) (p_pool p) (p_sent p) (p_err p))
  end.
Definition done_first (e : entry) (r : option pass) : option pass :=
  match r with
  | None => None
  | Some p => Some (mk_pass (p_keep p) (e :: p_done p) (p_pool p) (p_sent p) (p_err p))
  end.
Definition sent_first (w : wire) (r : option pass) : option pass :=
  match r with
  | None => None
  | Some p => Some (mk_pass (p_keep p) (p_done p) (p_pool p) (w :: p_sent p) (p_err p))
  end.

(** mqtt_session_ram.c:2363-2411 [__rrr_mqtt_session_ram_packet_identifier_ensure]: an entry
    without an identifier gets one; the outer [None] is an abort, the inner is that there is
    none left *)
Definition ensure_id (pool : id_pool) (e : entry) : option (option entry * id_pool) :=
  if negb (e_id e =? 0) then Some (Some e, pool)
  else match get_id pool with
       | None => None
       | Some (pool', id) => Some (if id =? 0 then None else Some (set_id e id), pool')
       end.
(** A packet which is freed gives back the identifier it got here: those of messages from
    the remote are not ours.  mqtt_packet.c [rrr_mqtt_p_standarized_usercount_decref]. *)
Definition free_id (pool : id_pool) (e : entry) : option id_pool := release_id pool (e_id e).

(** mqtt_session_ram.c:2599-2679 [__rrr_mqtt_session_ram_iterate_send_queue_callback] in
    [rrr_fifo_search].  The time is the same throughout.  [answers]: what the connection
    answers to the packets given to it, [TOk] when there are no more answers. *)
Fixpoint iterate (cf : conf) (now : Z) (answers : list took) (n : Z) (pool : id_pool) (l : list entry) : option pass :=
  match l with
  | [] => Some (mk_pass [] [] pool [] false)
  | e :: r =>
      if finished e then done_first e (iterate cf now answers n pool r)
      else match ensure_id pool e with
      | None => None
      | Some (None, pool1) => Some (mk_pass (set_last e 0 :: r) [] pool1 [] false)
      | Some (Some e1, pool1) =>
          let e2 := check_retry cf now e1 in
          let '(w, del, n') :=
            match e_kind e2 with
            | KPub => process_publish cf now n e2
            | KSub => (if e_suback e2 then None else Some (WSub (e_id e2)), false, n)
            | KUnsub => (if e_suback e2 then None else Some (WUnsub (e_id e2)), false, n)
            end in
          let skip := keep_first e2 (iterate cf now answers n' pool1 r) in
          match w with
          | None => skip
          | Some w =>
              if negb (e_last e2 =? 0) then skip
              else
                let e3 := set_last e2 now in
                match hd TOk answers with
                | TFail => Some (mk_pass (e3 :: r) [] pool1 [] true)
                | TFull =>
                    if del then
                      match free_id pool1 e3 with
                      | None => None
                      | Some pool2 => Some (mk_pass r [] pool2 [w] false)
                      end
                    else Some (mk_pass (e3 :: r) [] pool1 [w] false)
                | TOk =>
                    if del then
                      match free_id pool1 e3 with
                      | None => None
                      | Some pool2 => sent_first w (iterate cf now (tl answers) n' pool2 r)
                      end
                    else sent_first w (keep_first e3 (iterate cf now (tl answers) n' pool1 r))
                end
          end
      end
  end.

(** mqtt_session_ram.c:2265-2291 [__rrr_mqtt_session_ram_packet_ack_complete] *)
Definition to_grace (cf : conf) (now : Z) (l : list entry) : list (entry * Z) :=
  map (fun e => (e, now + c_grace cf)) l.
(** mqtt_session_ram.c:2681-2774 [__rrr_mqtt_session_ram_iterate_send_queue]; [a1] and [a2]
    are the answers of the connection for the two queues. *)
Definition round (cf : conf) (now : Z) (a1 a2 : list took) (s : sess) : step_res :=
  match iterate cf now a1 0 (s_pool s) (s_to s ++ s_delayed s) with
  | None => None
  | Some p =>
      let g1 := s_grace s ++ to_grace cf now (p_done p) in
      if p_err p then Some (mk_s (p_keep p) [] (s_from s) g1 (p_pool p), map Sent (p_sent p), true)
      else match iterate cf now a2 0 (p_pool p) (s_from s) with
      | None => None
      | Some q =>
          Some (mk_s (p_keep p) [] (p_keep q) (g1 ++ to_grace cf now (p_done q)) (p_pool q),
                map Sent (p_sent p ++ p_sent q), p_err q)
      end
  end.

(** The packets which got their identifier here *)
Definition own (e : entry) : bool := negb (is_pub (e_kind e)) || e_out e.
(** mqtt_session_ram.c:1097-1125 [__rrr_mqtt_session_ram_iterate_publish_grace_callback] in
    [rrr_fifo_search].  (The abort for an entry without a time is left out: [to_grace] gives
    one.) *)
Fixpoint grace_loop (now : Z) (pool : id_pool) (l : list (entry * Z)) : option (list (entry * Z) * id_pool) :=
  match l with
  | [] => Some ([], pool)
  | (e, t) :: r =>
      if t <? now then
        if own e then match free_id pool e with None => None | Some pool' => grace_loop now pool' r end
        else grace_loop now pool r
      else Some (l, pool)
  end.
Definition forget (now : Z) (s : sess) : step_res :=
  match grace_loop now (s_pool s) (s_grace s) with
  | None => None
  | Some (g, pool) => Some (mk_s (s_to s) (s_delayed s) (s_from s) g pool, [], false)
  end.

(** mqtt_session_ram.c:2873-2924 [__rrr_mqtt_session_ram_send_packet_queue], 330-385 for a
    message forwarded to a subscriber, 2979-3042 for a retained message (which is delayed).
    The flag [is_outbound] is set only for PUBLISH. *)
Definition new_entry (k : kind) (msg size qos until : Z) : entry :=
  mk_e k msg size qos 0 false 0 (is_pub k) until false false false false false.
Inductive op :=
| Queue (k : kind) (msg size qos until : Z)
| Later (msg size qos until : Z)
| Recv (now : Z) (w : wire)
| Round (now : Z) (a1 a2 : list took)
| Forget (now : Z).
Definition step (cf : conf) (s : sess) (o : op) : step_res :=
  match o with
  | Queue k msg size qos until =>
      Some (mk_s (s_to s ++ [new_entry k msg size qos until]) (s_delayed s) (s_from s) (s_grace s) (s_pool s), [], false)
  | Later msg size qos until =>
      Some (mk_s (s_to s) (s_delayed s ++ [new_entry KPub msg size qos until]) (s_from s) (s_grace s) (s_pool s), [], false)
  | Recv now w => receive cf now s w
  | Round now a1 a2 => round cf now a1 a2 s
  | Forget now => forget now s
  end.
(** Histories of a session, over any number of connections: when the connection is closed
    the session stays as it is. *)
Fixpoint run (cf : conf) (s : sess) (ops : list op) : option (sess * list (list ev * bool)) :=
  match ops with
  | [] => Some (s, [])
  | o :: r =>
      match step cf s o with
      | None => None
      | Some (s', evs, closed) =>
          match run cf s' r with
          | None => None
          | Some (s2, t) => Some (s2, (evs, closed) :: t)
          end
      end
  end.
