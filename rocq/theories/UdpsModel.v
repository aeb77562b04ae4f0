(** Model of UDP-streams, src/lib/udpstream/udpstream.c: an established stream between two ends,
    and the datagrams which carry its frames.

    Octets and numbers are [Z].  Simplified: memory is always granted; addresses are left out, the
    frames of a stream are those with its stream id; setting up streams (udpstream.c:910-1030) is
    left out, a stream is in the state it has after that; the sum of the window size adjustments
    does not wrap (it is an int); messages printed are left out.  What the socket accepts for
    sending is what was sent, the network decides what arrives. *)
From Coq Require Import ZArith List Bool.
From Verif Require Import Common MsgModel Crc32Model ReadModel.
Import ListNotations.
Open Scope Z_scope.

(** udpstream.c:47-77, udpstream.h:68-71 *)
Definition VERSION : Z := 3.
Definition VERSION_MINIMUM : Z := 2.
Definition BURST_SEND : Z := 100.
Definition DATA_SIZE_LIMIT : Z := 1024.
Definition FRAME_ID_LIMIT : Z := 50000000.
Definition RESEND_INTERVAL : Z := 1000000.
Definition UNACKNOWLEDGED_LIMIT : Z := 5.
Definition WINDOW_MIN : Z := 10.
Definition BUFFER_LIMIT : Z := 750.
Definition WINDOW_MAX : Z := 1500.
Definition WINDOW_INITIAL : Z := 375.
(** udpstream.h:58-61 *)
Definition NOT_READY : Z := READ_INCOMPLETE.

(** udpstream.c:83-109 *)
Definition FLAG_BOUNDARY : Z := 1.
Definition FLAG_WINDOW : Z := 2.
Definition TYPE_RESET : Z := 0.
Definition TYPE_CONNECT : Z := 1.
Definition TYPE_DATA : Z := 3.
Definition TYPE_ACK : Z := 4.
Definition TYPE_CONTROL : Z := 5.
(** udpstream.c:111-116, 171-185 *)
Definition ftype (ft : Z) : Z := Z.land ft 15.
Definition fflags (ft : Z) : Z := Z.shiftr ft 4.
Definition is_boundary (ft : Z) : bool := negb (Z.land (fflags ft) FLAG_BOUNDARY =? 0).
Definition has_window (ft : Z) : bool := negb (Z.land (fflags ft) FLAG_WINDOW =? 0).

(** udpstream.h:73-86, 119-127 [struct rrr_udpstream_frame_packed] without the checksums, in host
    order: [p_id] is frame_id, connect_handle or window_size, [p_app] application_data or both ack
    ids *)
Record packet : Type := mk_packet { p_ft : Z; p_version : Z; p_stream : Z; p_id : Z; p_app : Z; p_data : list Z }.
Definition ack_first (p : packet) : Z := p_app p / 2^32.
Definition ack_last (p : packet) : Z := p_app p mod 2^32.

(** ** Datagrams *)

(** sizeof(struct rrr_udpstream_frame_packed) - 1 *)
Definition HEADER_SIZE : Z := 26.
(** udpstream.c:369-471 [__rrr_udpstream_checksum_and_send_packed_frame]: the octets sent *)
Definition packed (p : packet) : list Z :=
  let n := zlen (p_data p) in
  let crc := if 0 <? n then crc32buf (p_data p) else 0 in
  let covered := [p_ft p; VERSION] ++ be_enc 2 (p_stream p) ++ be_enc 4 (p_id p) ++ be_enc 8 (p_app p) ++ be_enc 2 n ++ be_enc 4 crc in
  be_enc 4 (crc32buf covered) ++ covered ++ p_data p.
(** udpstream.c:760-796 [__rrr_udpstream_read_get_target_size] with
    [__rrr_udpstream_frame_packed_validate] *)
Definition udp_framer (buf : list Z) : framing :=
  if zlen buf <? HEADER_SIZE then FIncomplete
  else if negb (crc32cmp (sub_mem buf 4 22) (be_field buf 0 4) =? 0) then FError READ_SOFT
  else let n := be_field buf 20 2 in
       if DATA_SIZE_LIMIT <? n then FError READ_SOFT else FSize (HEADER_SIZE + n) false.
(** udpstream.c:1306-1366 [__rrr_udpstream_read_callback] and 234-275
    [__rrr_udpstream_frame_new_from_packed]: the frame, or [None] for SOFT ERROR; [Bug] if there is
    more data than a frame holds *)
Definition unpack (buf : list Z) : res (option packet) :=
  let n := be_field buf 20 2 in
  if negb (zlen buf =? HEADER_SIZE + n) then Ok None
  else
    let data := sub_mem buf 26 n in
    if (0 <? n) && negb (crc32cmp data (be_field buf 22 4) =? 0) then Ok None
    else if DATA_SIZE_LIMIT <? n then Bug
    else Ok (Some (mk_packet (be_field buf 4 1) (be_field buf 5 1) (be_field buf 6 2) (be_field buf 8 4) (be_field buf 12 8) data)).

(** ** Streams *)

(** udpstream.h:129-141 [struct rrr_udpstream_frame] *)
Record frame : Type := mk_frame {
  fr_id : Z; fr_ft : Z; fr_app : Z; fr_data : list Z; fr_sent : Z; fr_unack : Z; fr_grace : Z }.
(** udpstream.h:143-166 [struct rrr_udpstream_stream]: send buffer and its counter, receive buffer,
    its counter and frame_id_prev_boundary_pos; [s_pending] is whether the send event is pending *)
Record stream : Type := mk_stream {
  s_id : Z; s_send : list frame; s_send_counter : Z;
  s_recv : list frame; s_recv_counter : Z; s_prev : Z;
  s_to_remote : Z; s_from_remote : Z; s_regulation : Z; s_last_ack : Z; s_handle : Z; s_pending : bool }.
Definition set_send (s : stream) (l : list frame) : stream :=
  mk_stream (s_id s) l (s_send_counter s) (s_recv s) (s_recv_counter s) (s_prev s) (s_to_remote s) (s_from_remote s) (s_regulation s) (s_last_ack s) (s_handle s) (s_pending s).
Definition set_recv (s : stream) (l : list frame) : stream :=
  mk_stream (s_id s) (s_send s) (s_send_counter s) l (s_recv_counter s) (s_prev s) (s_to_remote s) (s_from_remote s) (s_regulation s) (s_last_ack s) (s_handle s) (s_pending s).
Definition set_recv_counter (s : stream) (c : Z) : stream :=
  mk_stream (s_id s) (s_send s) (s_send_counter s) (s_recv s) c (s_prev s) (s_to_remote s) (s_from_remote s) (s_regulation s) (s_last_ack s) (s_handle s) (s_pending s).
Definition set_last_ack (s : stream) (a : Z) : stream :=
  mk_stream (s_id s) (s_send s) (s_send_counter s) (s_recv s) (s_recv_counter s) (s_prev s) (s_to_remote s) (s_from_remote s) (s_regulation s) a (s_handle s) (s_pending s).
Definition set_windows (s : stream) (to_remote from_remote regulation : Z) : stream :=
  mk_stream (s_id s) (s_send s) (s_send_counter s) (s_recv s) (s_recv_counter s) (s_prev s) to_remote from_remote regulation (s_last_ack s) (s_handle s) (s_pending s).
Definition set_pending (s : stream) (b : bool) : stream :=
  mk_stream (s_id s) (s_send s) (s_send_counter s) (s_recv s) (s_recv_counter s) (s_prev s) (s_to_remote s) (s_from_remote s) (s_regulation s) (s_last_ack s) (s_handle s) b.
(** udpstream.c:303-323 [__rrr_udpstream_stream_new], when the ids are known *)
Definition new_stream (id handle : Z) : stream := mk_stream id [] 0 [] 0 0 WINDOW_INITIAL WINDOW_INITIAL 0 0 handle false.

(** ** Sending *)

(** udpstream.c:2031-2053, the loop of [rrr_udpstream_queue_outbound_data]: the data in pieces; the
    first piece has number [id] *)
Fixpoint make_frames (fuel : nat) (id app : Z) (data : list Z) : list frame :=
  match fuel, data with
  | S f, _ :: _ =>
      let rest := skipn (Z.to_nat DATA_SIZE_LIMIT) data in
      let ft := match rest with [] => Z.lor TYPE_DATA (Z.shiftl FLAG_BOUNDARY 4) | _ => TYPE_DATA end in
      mk_frame id ft app (firstn (Z.to_nat DATA_SIZE_LIMIT) data) 0 0 0 :: make_frames f (id + 1) app rest
  | _, _ => []
  end.
(** udpstream.c:2002-2065 [rrr_udpstream_queue_outbound_data] *)
Definition queue_data (s : stream) (app : Z) (data : list Z) : Z * stream :=
  if BUFFER_LIMIT <=? zlen (s_send s) then (NOT_READY, s)
  else if FRAME_ID_LIMIT <? s_send_counter s + (zlen data / DATA_SIZE_LIMIT + 1) then (NOT_READY, s)
  else
    let fs := make_frames (length data) (s_send_counter s + 1) app data in
    (0, mk_stream (s_id s) (s_send s ++ fs) (s_send_counter s + zlen fs) (s_recv s) (s_recv_counter s) (s_prev s)
          (s_to_remote s) (s_from_remote s) (s_regulation s) (s_last_ack s) (s_handle s) true).
(** udpstream.c:599-620 [__rrr_udpstream_send_frame] *)
Definition frame_packet (s : stream) (f : frame) : packet := mk_packet (fr_ft f) VERSION (s_id s) (fr_id f) (fr_app f) (fr_data f).
(** udpstream.c:622-638 [__rrr_udpstream_send_and_update_frame] *)
Definition sent_at (now : Z) (f : frame) : frame := mk_frame (fr_id f) (fr_ft f) (fr_app f) (fr_data f) now 0 (fr_grace f).
(** udpstream.c:1786-1843 [__rrr_udpstream_send_loop]: the buffer, the frames sent, and
    sending_complete.  [Bug] for a frame id of zero; times are 64 bit *)
Fixpoint send_loop (now window missing sent : Z) (l : list frame) : res (list frame * list frame * bool) :=
  match l with
  | [] => Ok ([], [], true)
  | f :: r =>
      if fr_id f =? 0 then Bug
      else
        let '(do_send, missing) :=
          if fr_sent f =? 0 then (missing + 1 <? window, missing + 1)
          else if (RESEND_INTERVAL <? u64 (now - fr_sent f)) || (UNACKNOWLEDGED_LIMIT <=? fr_unack f) then (true, missing)
          else (false, missing + 1) in
        if do_send then
          let f' := sent_at now f in
          if BURST_SEND <=? sent + 1 then Ok (f' :: r, [f'], false)
          else match send_loop now window missing (sent + 1) r with
               | Ok (r', out, complete) => Ok (f' :: r', f' :: out, complete)
               | Bug => Bug
               | Ub => Ub
               end
        else match send_loop now window missing sent r with
             | Ok (r', out, complete) => Ok (f :: r', out, complete)
             | Bug => Bug
             | Ub => Ub
             end
  end.
(** udpstream.c:2097-2121 [__rrr_udpstream_event_send] for one stream: the event is removed if
    sending is complete *)
Definition event_send (now : Z) (s : stream) : res (stream * list packet) :=
  match send_loop now (s_from_remote s) 0 0 (s_send s) with
  | Ok (l, out, complete) =>
      let s' := set_send s l in
      Ok (if complete then set_pending s' false else s', map (frame_packet s) out)
  | Bug => Bug
  | Ub => Ub
  end.

(** ** Receiving *)

(** udpstream.c:1102-1118 [__rrr_udpstream_regulate_window_size] *)
Definition regulate (s : stream) (adjust : Z) : stream :=
  set_windows s (Z.min WINDOW_MAX (Z.max WINDOW_MIN (s_to_remote s + adjust))) (s_from_remote s) (s_regulation s).
(** udpstream.c:1061-1098, the loop of [__rrr_udpstream_handle_received_frame_ack] *)
Fixpoint ack_loop (now first last nag : Z) (l : list frame) : list frame * list frame :=
  match l with
  | [] => ([], [])
  | f :: r =>
      let '(r', out) := ack_loop now first last nag r in
      if (first <=? fr_id f) && (fr_id f <=? last) then (r', out)
      else if fr_id f =? nag + 1 then (sent_at now f :: r', sent_at now f :: out)
      else (mk_frame (fr_id f) (fr_ft f) (fr_app f) (fr_data f) (fr_sent f) (fr_unack f + 1) (fr_grace f) :: r', out)
  end.
(** udpstream.c:1035-1104 [__rrr_udpstream_handle_received_frame_ack] *)
Definition handle_ack (now : Z) (s : stream) (p : packet) : stream * list packet :=
  let '(nag, s) :=
    if ack_first p =? ack_last p then
      if ack_last p =? s_last_ack s then (s_last_ack s, s) else (-1, set_last_ack s (ack_last p))
    else (-1, s) in
  let '(l, out) := ack_loop now (ack_first p) (ack_last p) nag (s_send s) in
  (set_send s l, map (frame_packet s) out).
(** udpstream.c:1261-1289: the place in the receive buffer; [None] is the order error *)
Fixpoint insert (f : frame) (max : Z) (l : list frame) : res (list frame) :=
  match l with
  | [] => Ok [f]
  | g :: r =>
      if fr_id g =? fr_id f then Ok l
      else if fr_id f <? fr_id g then Ok (f :: l)
      else if fr_id g <? max then Bug
      else match insert f (fr_id g) r with Ok r' => Ok (g :: r') | Bug => Bug | Ub => Ub end
  end.
Definition insert_frame (f : frame) (l : list frame) : res (list frame) :=
  if match rev l with [] => false | g :: _ => fr_id g <? fr_id f end then Ok (l ++ [f]) else insert f 0 l.
(** udpstream.c:553-569 [__rrr_udpstream_send_reset] *)
Definition reset_packet (id handle : Z) : packet := mk_packet TYPE_RESET VERSION id handle 0 [].

(** What a frame does to a stream: it lives on, perhaps with a control message for the application,
    or it is destroyed, after which its memory is used once more (udpstream.c:1296). *)
Inductive outcome : Type := Alive (s : stream) (out : list packet) (control : option Z) | Destroyed (out : list packet).
(** udpstream.c:1120-1304 [__rrr_udpstream_handle_received_frame] for a frame which is not CONNECT
    and has the id of the stream *)
Definition handle_frame (now : Z) (s : stream) (p : packet) : res outcome :=
  if p_version p <? VERSION_MINIMUM then Ok (Alive s [] None)
  else if ftype (p_ft p) =? TYPE_RESET then
    if p_id p =? 0 then Ok (Destroyed [])
    else if p_id p =? s_handle s then Ok (Destroyed []) else Ok (Alive s [] None)
  else
    let s := if has_window (p_ft p) then regulate (set_windows s (s_to_remote s) (p_id p) (s_regulation s)) 0 else s in
    if ftype (p_ft p) =? TYPE_ACK then let '(s, out) := handle_ack now s p in Ok (Alive s out None)
    else if ftype (p_ft p) =? TYPE_CONTROL then Ok (Alive s [] (Some (p_app p)))
    else if p_id p =? 0 then Ok (Alive s [] None)
    else if (s_recv_counter s =? 0) && negb (p_id p =? 1) then
      let r := reset_packet (p_stream p) (p_id p) in Ok (Destroyed [r; r; r])
    else
      let s := if p_id p =? u32 (s_recv_counter s + 1) then set_recv_counter s (u32 (s_recv_counter s + 1)) else s in
      match insert_frame (mk_frame (p_id p) (p_ft p) (p_app p) (p_data p) 0 0 0) (s_recv s) with
      | Ok l => Ok (Alive (set_recv s l) [] None)
      | Bug => Bug
      | Ub => Ub
      end.

(** udpstream.c:1522-1599: the ACK list; [adjust] is window_size_adjust.  The grace counter of the
    last frame is updated. *)
Fixpoint ack_list (prev first last adjust : Z) (l : list frame) : list frame * list (Z * Z) * Z :=
  match l with
  | [] => ([], [], adjust)
  | f :: r =>
      let id := fr_id f in
      let go first adjust f add :=
        let '(r', acks, adjust) := ack_list prev first id adjust r in (f :: r', add ++ acks, adjust) in
      let first' := if first =? 0 then id else first in
      if (first =? 0) && negb (prev =? 0) && (prev <? id) && (1 <? id - prev) then go first' (adjust - 2) f [(prev, prev)]
      else if negb (last =? 0) && (last <? id) && (1 <? id - last) then go id (adjust - 2) f [(first', last)]
      else match r with
           | [] =>
               let g := fr_grace f - 1 in
               if g <=? 0 then go first' (adjust + 1) (mk_frame id (fr_ft f) (fr_app f) (fr_data f) (fr_sent f) (fr_unack f) 50) [(first', id)]
               else go first' (adjust + 1) (mk_frame id (fr_ft f) (fr_app f) (fr_data f) (fr_sent f) (fr_unack f) g) []
           | _ => go first' adjust f []
           end
  end.
(** udpstream.c:525-551 [__rrr_udpstream_send_frame_ack] *)
Definition ack_packet (s : stream) (a : Z * Z) (window : Z) : packet :=
  mk_packet (if window =? 0 then TYPE_ACK else Z.lor TYPE_ACK (Z.shiftl FLAG_WINDOW 4)) VERSION (s_id s) window (fst a * 2^32 + snd a) [].
(** udpstream.c:1604-1637: sending them *)
Fixpoint send_acks (s : stream) (adjust : Z) (acks : list (Z * Z)) : stream * list packet :=
  match acks with
  | [] => (s, [])
  | a :: r =>
      let s := regulate s adjust in
      let p := ack_packet s a (if adjust =? 0 then 0 else s_to_remote s) in
      let '(s, out) := send_acks s adjust r in (s, p :: out)
  end.
(** udpstream.c:1654-1686: the frames of the next message, and the buffer without frames already
    delivered; [size] is accumulated_data_size *)
Fixpoint scan (prev count size : Z) (l : list frame) : res (list frame * option (list frame * list frame)) :=
  match l with
  | [] => Ok ([], None)
  | f :: r =>
      if prev <? fr_id f then
        if 1 + count <? fr_id f - prev then Ok (l, None)
        else if is_boundary (fr_ft f) then Ok (l, Some ([f], r))
        else match scan prev (count + 1) (u32 (size + zlen (fr_data f))) r with
             | Ok (r', Some (m, rest)) => Ok (f :: r', Some (f :: m, rest))
             | Ok (r', None) => Ok (f :: r', None)
             | Bug => Bug
             | Ub => Ub
             end
      else if negb (size =? 0) then Bug
      else scan prev count size r
  end.
(** Messages as queued and delivered: application data and data *)
Definition message : Type := Z * list Z.
Definition joined (m : list frame) : list Z := concat (map fr_data m).
(** udpstream.c:1639-1730 and 1390-1466 [__rrr_udpstream_process_receive_buffer_callback]: messages
    are delivered while the application takes them.  [possible] and [cb] are the answers of the
    application when so many messages have been delivered, [valid] is the validator.  [Ub] is more
    data than memory, the size being 32 bit.  Results: return value, buffer, last boundary,
    messages. *)
Fixpoint deliver (fuel : nat) (valid : list Z -> bool) (possible : Z -> bool) (cb : Z -> Z) (n prev : Z) (l : list frame)
  : res (Z * list frame * Z * list message) :=
  match fuel with
  | O => Ok (0, l, prev, [])
  | S fuel =>
      if negb (possible n) then Ok (0, l, prev, [])
      else match scan prev 0 0 l with
           | Bug => Bug
           | Ub => Ub
           | Ok (l, None) => Ok (0, l, prev, [])
           | Ok (_, Some (m, rest)) =>
               let data := joined m in
               let last := List.last m (mk_frame 0 0 0 [] 0 0 0) in
               if negb (u32 (zlen data) =? zlen data) then Ub
               else if negb (valid data) then deliver fuel valid possible cb n (fr_id last) rest
               else if negb (cb n =? 0) then Ok (1, rest, fr_id last, [(fr_app last, data)])
               else match deliver fuel valid possible cb (n + 1) (fr_id last) rest with
                    | Ok (ret, l, prev, out) => Ok (ret, l, prev, (fr_app last, data) :: out)
                    | Bug => Bug
                    | Ub => Ub
                    end
           end
  end.
(** udpstream.c:1495-1717 [__rrr_udpstream_process_receive_buffer], with the destruction of the
    stream after errors (1769-1772); a message takes at least one frame of the buffer *)
Definition event_deliver (valid : list Z -> bool) (possible : Z -> bool) (cb : Z -> Z) (s : stream) : res (option stream * list packet * list message) :=
  let '(l, acks, adjust) := ack_list (s_prev s) 0 0 (s_regulation s) (s_recv s) in
  let s := set_windows (set_recv s l) (s_to_remote s) (s_from_remote s) 0 in
  let '(s, out) := send_acks s adjust acks in
  match deliver (S (length l)) valid possible cb 0 (s_prev s) l with
  | Ok (ret, l, prev, ms) =>
      let s := mk_stream (s_id s) (s_send s) (s_send_counter s) l (s_recv_counter s) prev
                 (s_to_remote s) (s_from_remote s) (s_regulation s) (s_last_ack s) (s_handle s) (s_pending s) in
      Ok (if ret =? 0 then Some s else None, out, ms)
  | Bug => Bug
  | Ub => Ub
  end.
(** udpstream.c:1967-1999 [rrr_udpstream_send_control_frame] *)
Definition control_packet (s : stream) (app : Z) : packet := mk_packet TYPE_CONTROL VERSION (s_id s) 0 app [].
(** udpstream.c:1941-1964 [rrr_udpstream_regulate_window_size] *)
Definition regulate_by_application (s : stream) (change : Z) : stream :=
  set_windows s (s_to_remote s) (s_from_remote s) (s_regulation s + change).

(** ** Two ends and the network *)

(** One end: its stream until it is destroyed, all it has sent, what its application has queued,
    got as messages and as control messages.  [e_freed] tells that memory of the stream was read
    after it had been freed. *)
Record endpoint : Type := mk_endpoint {
  e_stream : option stream; e_out : list packet; e_queued : list message; e_delivered : list message; e_control : list Z; e_freed : bool }.
(** What may happen at an end.  [Receive now i] is the arrival of the datagram which was the [i]th
    sent by the other end: datagrams may be lost, doubled and reordered.  [Timeout] is
    udpstream.c:1757-1784 [__rrr_udpstream_maintain]. *)
Inductive label : Type :=
| Queue (app : Z) (data : list Z)
| Send (now : Z)
| Receive (now : Z) (i : nat)
| Deliver (possible : Z -> bool) (cb : Z -> Z)
| Control (app : Z)
| Regulate (change : Z)
| Timeout.
Definition on_stream (e : endpoint) (s : option stream) (out : list packet) : endpoint :=
  mk_endpoint s (e_out e ++ out) (e_queued e) (e_delivered e) (e_control e) (e_freed e).
(** udpstream.c:1186-1198: a frame for a stream which does not exist is answered by a reset. *)
Definition handle_unknown (p : packet) : list packet :=
  if (p_version p <? VERSION_MINIMUM) || (ftype (p_ft p) =? TYPE_RESET) then [] else repeat (reset_packet (p_stream p) 0) 3.
(** One step of the end [e] whose peer is [peer]; [None] if it cannot be taken *)
Definition end_step (valid : list Z -> bool) (e peer : endpoint) (l : label) : res (option endpoint) :=
  match e_stream e with
  | None =>
      match l with
      | Receive now i => match nth_error (e_out peer) i with None => Ok None | Some p => Ok (Some (on_stream e None (handle_unknown p))) end
      | _ => Ok None
      end
  | Some s =>
      match l with
      | Queue app data =>
          let '(ret, s) := queue_data s app data in
          Ok (Some (mk_endpoint (Some s) (e_out e) (if ret =? 0 then e_queued e ++ [(app, data)] else e_queued e) (e_delivered e) (e_control e) (e_freed e)))
      | Send now =>
          if negb (s_pending s) then Ok None
          else match event_send now s with
               | Ok (s, out) => Ok (Some (on_stream e (Some s) out))
               | Bug => Bug
               | Ub => Ub
               end
      | Receive now i =>
          match nth_error (e_out peer) i with
          | None => Ok None
          | Some p =>
              match handle_frame now s p with
              | Ok (Alive s out c) =>
                  Ok (Some (mk_endpoint (Some s) (e_out e ++ out) (e_queued e) (e_delivered e)
                              (match c with Some a => e_control e ++ [a] | None => e_control e end) (e_freed e)))
              | Ok (Destroyed out) => Ok (Some (mk_endpoint None (e_out e ++ out) (e_queued e) (e_delivered e) (e_control e) true))
              | Bug => Bug
              | Ub => Ub
              end
          end
      | Deliver possible cb =>
          match event_deliver valid possible cb s with
          | Ok (s, out, ms) => Ok (Some (mk_endpoint s (e_out e ++ out) (e_queued e) (e_delivered e ++ ms) (e_control e) (e_freed e)))
          | Bug => Bug
          | Ub => Ub
          end
      | Control app => Ok (Some (on_stream e (Some s) [control_packet s app]))
      | Regulate change => Ok (Some (on_stream e (Some (regulate_by_application s change)) []))
      | Timeout => Ok (Some (on_stream e None (repeat (reset_packet (s_id s) (s_handle s)) 3)))
      end
  end.
(** Both ends; a step of the first ([true]) or second *)
Definition system : Type := endpoint * endpoint.
Definition step (valid : list Z -> bool) (y : system) (who : bool) (l : label) : res (option system) :=
  let '(a, b) := y in
  if who then match end_step valid a b l with Ok (Some a) => Ok (Some (a, b)) | Ok None => Ok None | Bug => Bug | Ub => Ub end
  else match end_step valid b a l with Ok (Some b) => Ok (Some (a, b)) | Ok None => Ok None | Bug => Bug | Ub => Ub end.
Fixpoint run (valid : list Z -> bool) (y : system) (ls : list (bool * label)) : res (option system) :=
  match ls with
  | [] => Ok (Some y)
  | (who, l) :: r =>
      match step valid y who l with
      | Ok (Some y) => run valid y r
      | Ok None => Ok None
      | Bug => Bug
      | Ub => Ub
      end
  end.
Definition new_endpoint (id handle : Z) : endpoint := mk_endpoint (Some (new_stream id handle)) [] [] [] [] false.
Definition new_system (id handle : Z) : system := (new_endpoint id handle, new_endpoint id handle).
