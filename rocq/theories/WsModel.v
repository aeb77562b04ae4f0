(** Model of websocket frames, src/lib/websocket/websocket.c: sending, framing and reassembly of
    fragmented messages.

    Octets are [Z].  Reading the stream itself is done by ReadModel.v, for which [ws_framer] is the
    function giving the size of the next message.  Simplified: memory is always granted; random
    masking keys are given; messages printed are left out. *)
From Coq Require Import ZArith List Bool.
From Verif Require Import Common MsgModel ReadModel.
Import ListNotations.
Open Scope Z_scope.

(** websocket.h:30-35 *)
Definition OP_CONTINUATION : Z := 0.
Definition OP_TEXT : Z := 1.
Definition OP_BINARY : Z := 2.
Definition OP_CLOSE : Z := 8.
Definition OP_PING : Z := 9.
Definition OP_PONG : Z := 10.
Definition SSIZE_MAX : Z := 2^63 - 1.
Definition LENGTH_MAX : Z := 2^32 - 1.

(** websocket.h:43-56 [struct rrr_websocket_header]; the RSV bits are read and not used *)
Record header : Type := mk_header { h_fin : bool; h_opcode : Z; h_mask : bool; h_len : Z; h_payload : Z; h_key : Z }.
(** websocket.h:58-62 [struct rrr_websocket_frame], before sending *)
Record frame : Type := mk_frame { f_opcode : Z; f_mask : bool; f_payload : list Z }.
(** websocket.h:73-82 [struct rrr_websocket_state]; [w_fragments] is the fragment buffer *)
Record state : Type := mk_state {
  w_fragments : option (list Z); w_opcode : Z; w_received : Z; w_ping : Z; w_waiting : bool; w_client : bool; w_queue : list frame }.

(** ** Sending *)

(** websocket.c:105-136 [rrr_websocket_frame_enqueue] *)
Definition enqueue (s : state) (opcode : Z) (payload : list Z) : state :=
  mk_state (w_fragments s) (w_opcode s) (w_received s) (w_ping s) (w_waiting s) (w_client s) (w_queue s ++ [mk_frame opcode (w_client s) payload]).
(** websocket.c:138-157 [rrr_websocket_check_timeout]; the product is 32 bit *)
Definition check_timeout (now timeout : Z) (s : state) : Z * state :=
  if timeout =? 0 then (0, s)
  else
    let received := if w_received s =? 0 then now else w_received s in
    let s := mk_state (w_fragments s) (w_opcode s) received (w_ping s) (w_waiting s) (w_client s) (w_queue s) in
    let limit := u64 (now - u32 (timeout * 1000 * 1000)) in
    (if limit <? received then 0 else 1, s).
(** websocket.c:159-187 [rrr_websocket_enqueue_ping_if_needed] *)
Definition ping_if_needed (now interval : Z) (s : state) : state :=
  if interval =? 0 then s
  else if w_ping s =? 0 then mk_state (w_fragments s) (w_opcode s) (w_received s) now (w_waiting s) (w_client s) (w_queue s)
  else
    let limit := u64 (now - u32 (interval * 1000 * 1000)) in
    if (limit <? w_ping s) || w_waiting s then s
    else enqueue (mk_state (w_fragments s) (w_opcode s) (w_received s) now true (w_client s) (w_queue s)) OP_PING [].

(** websocket.c:189-203 [__rrr_websocket_payload_mask_unmask], from octet [i] on *)
Fixpoint mask_from (i : Z) (key : list Z) (payload : list Z) : list Z :=
  match payload with
  | [] => []
  | c :: r => Z.lxor c (nth (Z.to_nat (i mod 4)) key 0) :: mask_from (i + 1) key r
  end.
Definition mask_unmask (payload : list Z) (key : Z) : list Z := mask_from 0 (be_enc 4 key) payload.
(** websocket.c:208-276 [__rrr_websocket_transport_ctx_frame_send], with the random number *)
Definition frame_bytes (key : Z) (f : frame) : list Z :=
  let n := zlen (f_payload f) in
  let m := if f_mask f then 128 else 0 in
  let first := u8 (Z.lor (f_opcode f) 128) in
  let size :=
    if n <? 126 then [u8 (Z.lor m n)]
    else if n <=? 65535 then Z.lor m 126 :: be_enc 2 (u16 n)
    else Z.lor m 127 :: be_enc 8 n in
  first :: size ++ (if f_mask f then be_enc 4 key ++ mask_unmask (f_payload f) key else f_payload f).
(** websocket.c:604-619 [rrr_websocket_transport_ctx_send_frames]; all is accepted by the transport *)
Fixpoint send_frames (keys : Z -> Z) (i : Z) (fs : list frame) : list Z :=
  match fs with [] => [] | f :: r => frame_bytes (keys i) f ++ send_frames keys (i + 1) r end.

(** ** Receiving *)

(** websocket.c:310-377 [__rrr_websocket_get_target_size], the header: [None] is INCOMPLETE *)
Definition get_header (buf : list Z) : option header :=
  if zlen buf <? 2 then None
  else
    let flags := be_field buf 0 2 in
    let len := Z.land flags 127 in
    let flags := Z.shiftr flags 7 in
    let mask := Z.odd flags in
    let flags := Z.shiftr flags 1 in
    let opcode := Z.land flags 15 in
    let flags := Z.shiftr (Z.shiftr (Z.shiftr (Z.shiftr flags 4) 1) 1) 1 in
    let fin := Z.odd flags in
    let size :=
      if len =? 126 then if zlen buf <? 4 then None else Some (4, be_field buf 2 2)
      else if len =? 127 then if zlen buf <? 10 then None else Some (10, be_field buf 2 8)
      else Some (2, len) in
    match size with
    | None => None
    | Some (hlen, n) =>
        if mask then if zlen buf <? hlen + 4 then None else Some (mk_header fin opcode true (hlen + 4) n (be_field buf hlen 4))
        else Some (mk_header fin opcode false hlen n 0)
    end.
(** the same, the target size: the sum is 64 bit *)
Definition ws_framer (buf : list Z) : framing :=
  match get_header buf with
  | None => FIncomplete
  | Some h =>
      let target := u64 (h_len h + h_payload h) in
      if SSIZE_MAX <? target then FError READ_SOFT else FSize target false
  end.

(** websocket.c:55-60 [rrr_websocket_state_clear_receive] *)
Definition clear_receive (s : state) : state :=
  mk_state None (w_opcode s) (w_received s) (w_ping s) (w_waiting s) (w_client s) (w_queue s).
(** Messages given to the owner: opcode and payload *)
Definition message : Type := Z * list Z.
(** websocket.c:379-418 [__rrr_websocket_receive_callback_final_step]; [cb] is what the owner returns *)
Definition final_step (cb : message -> Z) (s : state) (payload : list Z) : Z * state * list message :=
  if w_opcode s =? OP_CLOSE then (READ_EOF, s, [])
  else if w_opcode s =? OP_PING then (0, enqueue s OP_PONG [], [])
  else if w_opcode s =? OP_PONG then
    (0, mk_state (w_fragments s) (w_opcode s) (w_received s) (w_ping s) false (w_client s) (w_queue s), [])
  else (cb (w_opcode s, payload), s, [(w_opcode s, payload)]).
(** websocket.c:433-486 [__rrr_websocket_receive_callback_fragmentation_step] *)
Definition fragmentation_step (cb : message -> Z) (s : state) (fin : bool) (payload : list Z) : Z * state * list message :=
  if w_opcode s =? 0 then (READ_SOFT, clear_receive s, [])
  else match w_fragments s, fin with
  | None, true => let '(ret, s, out) := final_step cb s payload in (ret, clear_receive s, out)
  | _, _ =>
      let buf := match w_fragments s with Some b => b | None => [] end in
      if 2^64 <=? zlen buf + zlen payload then (READ_SOFT, clear_receive s, [])
      else
        let buf := buf ++ payload in
        let s := mk_state (Some buf) (w_opcode s) (w_received s) (w_ping s) (w_waiting s) (w_client s) (w_queue s) in
        if fin then let '(ret, s, out) := final_step cb s buf in (ret, clear_receive s, out)
        else (0, s, [])
  end.
(** websocket.c:488-562 [__rrr_websocket_receive_callback_interpret_step]: [h] is the header found
    when the target size was asked for, [buf] the octets of the message.  [Ub] is unmasking outside
    of the buffer; the length is 64 bit. *)
Definition control (opcode : Z) : bool := (opcode =? OP_CLOSE) || (opcode =? OP_PING) || (opcode =? OP_PONG).
Definition interpret_step (cb : message -> Z) (s : state) (h : header) (buf : list Z) : res (Z * state * list message) :=
  let n := u64 (zlen buf - h_len h) in
  if h_mask h && negb (n =? zlen buf - h_len h) then Ub
  else
    let payload := skipn (Z.to_nat (h_len h)) buf in
    let payload := if h_mask h then mask_unmask payload (h_key h) else payload in
    let go s :=
      if LENGTH_MAX <? n then Ok (READ_SOFT, s, []) else Ok (fragmentation_step cb s (h_fin h) payload) in
    if h_opcode h =? 0 then go s
    else
      let s := clear_receive s in
      if control (h_opcode h) then
        if 125 <? n then Ok (READ_SOFT, s, [])
        else if negb (h_fin h) then Ok (READ_SOFT, s, [])
        else go (mk_state (w_fragments s) (h_opcode h) (w_received s) (w_ping s) (w_waiting s) (w_client s) (w_queue s))
      else if (h_opcode h =? OP_TEXT) || (h_opcode h =? OP_BINARY) then
        go (mk_state (w_fragments s) (h_opcode h) (w_received s) (w_ping s) (w_waiting s) (w_client s) (w_queue s))
      else Ok (READ_SOFT, s, []).
(** The complete callback for one frame after the other, each with the header found at its
    beginning in the stream, until one returns something else than 0.  Simplified: the time of
    reception, websocket.c:370, is that of the whole call. *)
Fixpoint receive_frames (cb : message -> Z) (now : Z) (s : state) (fs : list (header * list Z)) : res (Z * state * list message) :=
  match fs with
  | [] => Ok (0, s, [])
  | (h, buf) :: r =>
      let s := mk_state (w_fragments s) (w_opcode s) now (w_ping s) (w_waiting s) (w_client s) (w_queue s) in
      match interpret_step cb s h buf with
      | Ok (ret, s, out) =>
          if negb (ret =? 0) then Ok (ret, s, out)
          else match receive_frames cb now s r with
               | Ok (ret, s, out2) => Ok (ret, s, out ++ out2)
               | Bug => Bug
               | Ub => Ub
               end
      | Bug => Bug
      | Ub => Ub
      end
  end.
