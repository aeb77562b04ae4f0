(** Model of assured single delivery over UDP-streams, src/lib/udpstream/udpstream_asd.c: any
    number of clients which send to one receiver.

    Simplified: memory is always granted.  The UDP-stream of a client is a channel which gives the
    receiver the messages in order and unchanged (what C66 proves about UDP-streams) and which may
    be lost as a whole; control frames are single datagrams, of those sent any may arrive at any
    time, any number of times, or never.  An end which both sends and receives is a client and a
    receiver: the two roles share nothing but the function which takes control frames, in which
    DACK and CACK belong to the sending and RACK and RST to the receiving role.  The regulation of
    window sizes and the counters for statistics are left out, as are hard errors of the UDP-stream,
    which end the program. *)
From Coq Require Import ZArith List Bool.
From Verif Require Import Common ReadModel.
Import ListNotations.
Open Scope Z_scope.

(** udpstream_asd.c:44-53, udpstream.h:73-77 *)
Definition ASD_BUFFER_MAX : Z := 500.
Definition ASD_RESEND_INTERVAL : Z := 4000000.
Definition ASD_RELEASE_QUEUE_MAX : Z := 4500.
Definition ASD_GRACE : Z := 1500.
(** udpstream_asd.c:58-62 *)
Definition RST : Z := 0.
Definition MSG : Z := 1.
Definition DACK : Z := 2.
Definition RACK : Z := 4.
Definition CACK : Z := 8.
Definition has (flags f : Z) : bool := negb (Z.land flags f =? 0).

(** The network message; here any octets *)
Definition message : Type := list Z.

(** udpstream_asd.c:132-139 [__rrr_udpstream_asd_control_msg_split], [..._join] *)
Definition ctl_split (app : Z) : Z * Z := (u32 (Z.shiftr app 32), Z.land app (2^32 - 1)).
Definition ctl_join (flags id : Z) : Z := Z.lor (Z.shiftl flags 32) id.

(** udpstream_asd.c:74-82 [struct rrr_udpstream_asd_queue_entry]: in the send queue ... *)
Record sent : Type := mk_sent { t_id : Z; t_msg : message; t_flags : Z; t_time : Z }.
(** ... and in a release queue, where a grace counter which is not zero means delivered.  The flag
    RACK which is set there is never read. *)
Record held : Type := mk_held { h_id : Z; h_msg : message; h_grace : Z }.

(** ** Queues, of both kinds *)
Section Queue.
Variable E : Type.
Variable id : E -> Z.

Definition first_above (q : list E) (i : Z) : bool := match q with e :: _ => i <? id e | [] => false end.
Fixpoint last_entry (q : list E) : option E := match q with [] => None | [e] => Some e | _ :: r => last_entry r end.
Definition last_below (q : list E) (i : Z) : bool := match last_entry q with Some e => id e <? i | None => false end.
Fixpoint find_loop (q : list E) (i : Z) : option E :=
  match q with
  | e :: r => if i <? id e then None else if id e =? i then Some e else find_loop r i
  | [] => None
  end.
(** udpstream_asd.c:159-180 [__rrr_udpstream_asd_queue_find_entry] *)
Definition q_find (q : list E) (i : Z) : option E :=
  if first_above q i || last_below q i then None else find_loop q i.
Fixpoint remove_loop (q : list E) (i : Z) : list E :=
  match q with
  | e :: r => if i <? id e then e :: r else if id e =? i then r else e :: remove_loop r i
  | [] => []
  end.
(** udpstream_asd.c:182-202 [__rrr_udpstream_asd_queue_remove_entry] *)
Definition q_remove (q : list E) (i : Z) : list E :=
  if first_above q i || last_below q i then q else remove_loop q i.
Fixpoint insert_loop (q : list E) (x : E) : option (list E) :=
  match q with
  | e :: r => if id x <? id e then Some (x :: e :: r) else match insert_loop r x with Some r' => Some (e :: r') | None => None end
  | [] => None
  end.
(** udpstream_asd.c:294-317 [__rrr_udpstream_asd_queue_insert_ordered]; [None]: RRR_BUG *)
Definition insert_ordered (q : list E) (x : E) : option (list E) :=
  match last_entry q with
  | None => Some [x]
  | Some l => if id l <? id x then Some (q ++ [x]) else insert_loop q x
  end.
(** udpstream_asd.c:319-351 [__rrr_udpstream_asd_queue_incref_and_insert_entry] *)
Definition q_insert (q : list E) (x : E) : option (list E) :=
  match q_find q (id x) with
  | Some _ => Some q
  | None => insert_ordered q x
  end.
(** A change of the entry which q_find points to *)
Fixpoint change (f : E -> E) (q : list E) (i : Z) : list E :=
  match q with
  | e :: r => if id e =? i then f e :: r else e :: change f r i
  | [] => []
  end.
Definition q_change (f : E -> E) (q : list E) (i : Z) : list E :=
  match q_find q i with Some _ => change f q i | None => q end.
End Queue.

(** ** The client *)

(** udpstream_asd.c:94-126 [struct rrr_udpstream_asd]: send_queue and message_id_pos *)
Record client : Type := mk_client { c_queue : list sent; c_pos : Z }.
Definition new_client : client := mk_client [] 0.

(** udpstream_asd.c:648-691 [rrr_udpstream_asd_queue_and_incref_message]: the id given, or [None]
    for RRR_UDPSTREAM_ASD_NOT_READY *)
Definition queue_message (c : client) (m : message) : res (client * option Z) :=
  if ASD_BUFFER_MAX <=? zlen (c_queue c) then Ok (c, None)
  else
    let p := u32 (c_pos c + 1) in
    let p := if p =? 0 then u32 (p + 1) else p in
    match q_find _ t_id (c_queue c) p with
    | Some _ => Bug
    | None =>
      match q_insert _ t_id (c_queue c) (mk_sent p m 0 0) with
      | Some q => Ok (mk_client q p, Some p)
      | None => Bug
      end
    end.

(** udpstream_asd.c:204-215 [__rrr_udpstream_asd_queue_reset_send_times], called when the
    connection has been made, 440-458 *)
Definition reset_send_times (now : Z) (q : list sent) : list sent :=
  map (fun e => if t_time e =? 0 then e else mk_sent (t_id e) (t_msg e) (t_flags e) (u64 (now - 2 * ASD_RESEND_INTERVAL))) q.

(** udpstream_asd.c:737-810 [__rrr_udpstream_asd_do_send_tasks] with [__rrr_udpstream_asd_send_message]
    (693-735); [room] messages fit in the send buffer of the UDP-stream.  Returned: the send queue,
    the messages given to the UDP-stream and the control frames sent. *)
Definition due (now : Z) (e : sent) : bool := (t_time e =? 0) || (ASD_RESEND_INTERVAL <? u64 (now - t_time e)).
Fixpoint send_tasks (now : Z) (room : nat) (q : list sent) : res (list sent * list (Z * message) * list Z) :=
  match q with
  | [] => Ok ([], [], [])
  | e :: r =>
    if has (t_flags e) CACK then Bug
    else if negb (due now e) then
      match send_tasks now room r with Ok (q', ms, cs) => Ok (e :: q', ms, cs) | Bug => Bug | Ub => Ub end
    else if (t_flags e =? 0) || (t_flags e =? MSG) then
      match room with
      | O =>
        match send_tasks now O r with
        | Ok (q', ms, cs) => Ok (mk_sent (t_id e) (t_msg e) (t_flags e) now :: q', ms, cs) | Bug => Bug | Ub => Ub end
      | S room' =>
        match send_tasks now room' r with
        | Ok (q', ms, cs) => Ok (mk_sent (t_id e) (t_msg e) (Z.lor (t_flags e) MSG) now :: q', (t_id e, t_msg e) :: ms, cs)
        | Bug => Bug | Ub => Ub end
      end
    else if has (t_flags e) DACK then
      match send_tasks now room r with
      | Ok (q', ms, cs) => Ok (mk_sent (t_id e) (t_msg e) (Z.lor (t_flags e) RACK) now :: q', ms, ctl_join RACK (t_id e) :: cs)
      | Bug => Bug | Ub => Ub end
    else Bug
  end.

(** udpstream_asd.c:549-646 [__rrr_udpstream_asd_control_frame_callback], DACK and CACK: the client
    and the replies *)
Definition client_control (c : client) (app : Z) : client * list Z :=
  let '(flags, i) := ctl_split app in
  if flags =? DACK then
    (mk_client (q_change _ t_id (fun e => mk_sent (t_id e) (t_msg e) (Z.lor (t_flags e) DACK) (t_time e)) (c_queue c) i) (c_pos c),
     [ctl_join RACK i])
  else if flags =? CACK then (mk_client (q_remove _ t_id (c_queue c) i) (c_pos c), [])
  else (c, []).

(** ** The receiver *)

(** udpstream_asd.c:84-98, 122: release_queues, each with its source_connect_handle, and
    delivery_grace_started_count *)
Record receiver : Type := mk_receiver { r_queues : list (Z * list held); r_started : Z }.
Definition new_receiver : receiver := mk_receiver [] 0.

Definition queue_of (r : receiver) (c : Z) : list held :=
  match find (fun p => fst p =? c) (r_queues r) with Some p => snd p | None => [] end.
(** udpstream_asd.c:282-292 [__rrr_udpstream_asd_queue_collection_count_entries], 932-939
    [__rrr_udpstream_asd_receive_messages_possible_callback] *)
Fixpoint count_entries (qs : list (Z * list held)) : Z :=
  match qs with (_, q) :: r => zlen q + count_entries r | [] => 0 end.
Definition possible (r : receiver) : bool := count_entries (r_queues r) <? ASD_RELEASE_QUEUE_MAX.
(** The queue with that handle replaced *)
Fixpoint set_queue (qs : list (Z * list held)) (c : Z) (q : list held) : list (Z * list held) :=
  match qs with
  | p :: r => if fst p =? c then (c, q) :: r else p :: set_queue r c q
  | [] => [(c, q)]
  end.
(** udpstream_asd.c:372-402 [__rrr_udpstream_asd_queue_collection_incref_and_insert_entry] *)
Definition collect (r : receiver) (c i : Z) (m : message) : option receiver :=
  match q_insert _ h_id (queue_of r c) (mk_held i m 0) with
  | Some q => Some (mk_receiver (set_queue (r_queues r) c q) (r_started r))
  | None => None
  end.
(** udpstream_asd.c:874-930 [__rrr_udpstream_asd_receive_messages_callback_final]: a message from
    the UDP-stream; the receiver and the control frame sent *)
Definition receive_message (r : receiver) (c app : Z) (m : message) : res (receiver * list Z) :=
  if 2^32 - 1 <? app then Ok (r, [])
  else match collect r c (u32 app) m with
       | Some r' => Ok (r', [ctl_join DACK (u32 app)])
       | None => Bug
       end.

(** udpstream_asd.c:217-248 [__rrr_udpstream_asd_queue_entry_deliver]; [accept] is what the
    callback of the application does *)
Definition deliver (accept : bool) (r : receiver) (c : Z) (e : held) : option (receiver * list (Z * message)) :=
  if negb (h_grace e =? 0) then Some (r, [])
  else if accept then
    Some (mk_receiver (set_queue (r_queues r) c (q_change _ h_id (fun e => mk_held (h_id e) (h_msg e) ASD_GRACE) (queue_of r c) (h_id e)))
                      (r_started r + 1),
          [(h_id e, h_msg e)])
  else None.
(** udpstream_asd.c:549-646 [__rrr_udpstream_asd_control_frame_callback], RACK and RST: the
    receiver, what is given to the application and the replies *)
Definition receiver_control (accept : bool) (r : receiver) (c app : Z) : receiver * list (Z * message) * list Z :=
  let '(flags, i) := ctl_split app in
  if flags =? RACK then
    match q_find _ h_id (queue_of r c) i with
    | Some e =>
      match deliver accept r c e with
      | Some (r', d) => (r', d, [ctl_join CACK i])
      | None => (r, [], [])
      end
    | None => (r, [], [ctl_join CACK i])
    end
  else if flags =? RST then
    (mk_receiver (map (fun p => if fst p =? c then (fst p, []) else p) (r_queues r)) (r_started r), [], [])
  else (r, [], []).

(** udpstream_asd.c:987-1010 [__rrr_udpstream_asd_queue_update_delivery_grace] *)
Fixpoint update_grace (q : list held) (n : Z) : list held :=
  match q with
  | e :: r =>
    if 0 <? h_grace e then
      if h_grace e - n <=? 0 then update_grace r n else mk_held (h_id e) (h_msg e) (h_grace e - n) :: update_grace r n
    else e :: update_grace r n
  | [] => []
  end.
(** udpstream_asd.c:1034-1102 [__rrr_udpstream_asd_deliver_and_maintain_queue], [..._queues] *)
Fixpoint maintain_queues (qs : list (Z * list held)) (n : Z) : list (Z * list held) * Z :=
  match qs with
  | (c, q) :: r => let '(r', n') := maintain_queues r 0 in ((c, update_grace q n) :: r', n')
  | [] => ([], n)
  end.
Definition maintain (r : receiver) : receiver :=
  let '(qs, n) := maintain_queues (r_queues r) (r_started r) in mk_receiver qs n.

(** ** Clients and a receiver *)

(** What is between them and what has been: messages in the UDP-stream of each client, control
    frames sent to the receiver and to the client; messages accepted from the application of the
    client; messages given to the application of the receiver, with the client and the id, the
    latest first. *)
Record system : Type := mk_system {
  s_client : Z -> client;
  s_channel : Z -> list (Z * message);
  s_up : Z -> list Z;
  s_down : Z -> list Z;
  s_accepted : Z -> list message;
  s_receiver : receiver;
  s_given : list (Z * (Z * message))
}.
Definition start : system := mk_system (fun _ => new_client) (fun _ => []) (fun _ => []) (fun _ => []) (fun _ => []) new_receiver [].
Definition set {A} (f : Z -> A) (c : Z) (x : A) : Z -> A := fun d => if d =? c then x else f d.

Inductive op : Type :=
  | Queue (c : Z) (m : message)             (* the application of a client hands over a message *)
  | Tick (c now : Z) (room : nat)           (* the periodic event of a client, connected or not *)
  | ToClient (c : Z) (n : nat)              (* a control frame arrives at a client *)
  | Data (c : Z)                            (* the receiver takes a message from a UDP-stream *)
  | ToReceiver (c : Z) (n : nat) (accept : bool)  (* a control frame arrives at the receiver *)
  | Maintain                                (* the periodic event of the receiver *)
  | Reconnect (c now : Z)                   (* the UDP-stream is lost with all in it, another set up *)
  | Restart (c : Z)                         (* a client is restarted: p_ipclient.c:385-414, with RST *)
  | RestartReceiver.                        (* the receiver is restarted, UDP-streams are lost *)

Definition step (s : system) (o : op) : res system :=
  match o with
  | Queue c m =>
    match queue_message (s_client s c) m with
    | Ok (k, Some _) => Ok (mk_system (set (s_client s) c k) (s_channel s) (s_up s) (s_down s) (set (s_accepted s) c (s_accepted s c ++ [m])) (s_receiver s) (s_given s))
    | Ok (k, None) => Ok s
    | Bug => Bug | Ub => Ub
    end
  | Tick c now room =>
    match send_tasks now room (c_queue (s_client s c)) with
    | Ok (q, ms, cs) =>
      Ok (mk_system (set (s_client s) c (mk_client q (c_pos (s_client s c)))) (set (s_channel s) c (s_channel s c ++ ms))
            (set (s_up s) c (s_up s c ++ cs)) (s_down s) (s_accepted s) (s_receiver s) (s_given s))
    | Bug => Bug | Ub => Ub
    end
  | ToClient c n =>
    match nth_error (s_down s c) n with
    | Some app =>
      let '(k, cs) := client_control (s_client s c) app in
      Ok (mk_system (set (s_client s) c k) (s_channel s) (set (s_up s) c (s_up s c ++ cs)) (s_down s) (s_accepted s) (s_receiver s) (s_given s))
    | None => Ok s
    end
  | Data c =>
    match s_channel s c with
    | (i, m) :: rest =>
      if possible (s_receiver s) then
        match receive_message (s_receiver s) c i m with
        | Ok (r, cs) => Ok (mk_system (s_client s) (set (s_channel s) c rest) (s_up s) (set (s_down s) c (s_down s c ++ cs)) (s_accepted s) r (s_given s))
        | Bug => Bug | Ub => Ub
        end
      else Ok s
    | [] => Ok s
    end
  | ToReceiver c n accept =>
    match nth_error (s_up s c) n with
    | Some app =>
      let '(r, d, cs) := receiver_control accept (s_receiver s) c app in
      Ok (mk_system (s_client s) (s_channel s) (s_up s) (set (s_down s) c (s_down s c ++ cs)) (s_accepted s) r (map (fun x => (c, x)) d ++ s_given s))
    | None => Ok s
    end
  | Maintain => Ok (mk_system (s_client s) (s_channel s) (s_up s) (s_down s) (s_accepted s) (maintain (s_receiver s)) (s_given s))
  | Reconnect c now =>
    Ok (mk_system (set (s_client s) c (mk_client (reset_send_times now (c_queue (s_client s c))) (c_pos (s_client s c))))
          (set (s_channel s) c []) (s_up s) (s_down s) (s_accepted s) (s_receiver s) (s_given s))
  | Restart c =>
    Ok (mk_system (set (s_client s) c new_client) (set (s_channel s) c []) (set (s_up s) c (s_up s c ++ [ctl_join RST 0])) (s_down s) (s_accepted s) (s_receiver s) (s_given s))
  | RestartReceiver => Ok (mk_system (s_client s) (fun _ => []) (s_up s) (s_down s) (s_accepted s) new_receiver (s_given s))
  end.
Fixpoint run (s : system) (os : list op) : res system :=
  match os with
  | [] => Ok s
  | o :: r => match step s o with Ok s' => run s' r | Bug => Bug | Ub => Ub end
  end.
