(** Model of the read sessions of src/lib/read.c: reassembly of messages from the
    chunks which a socket or file delivers.

    Octets are [Z].  Simplified: memory is always granted; sums of buffer sizes do
    not wrap (they are 64 bit); the socket options callback succeeds; rate limiting
    (read.c:253-276), which makes a call return before it does anything, is left
    out. *)
From Coq Require Import ZArith List Bool.
From Verif Require Import Common MsgModel.
Import ListNotations.
Open Scope Z_scope.

(** read_constants.h:63-77 *)
Definition READ_OK : Z := 0.
Definition READ_HARD : Z := 1.
Definition READ_SOFT : Z := 2.
Definition READ_INCOMPLETE : Z := 4.
Definition READ_EOF : Z := 8.
(** read_constants.h:90-91 [RRR_READ_COMPLETE_METHOD_*]; [true] is ZERO_BYTES_READ *)

(** Outcome of a call: result, RRR_BUG or failed assert, or memory accessed outside
    of an allocation. *)
Inductive res (A : Type) : Type := Ok (a : A) | Bug | Ub.
Arguments Ok {A} a. Arguments Bug {A}. Arguments Ub {A}.

(** read.h:42-101 [struct rrr_read_session].  [s_buf] is rx_buf_ptr with the first
    rx_buf_wpos octets, [s_alloc] the true size of its memory, [s_size] rx_buf_size;
    [s_over] is rx_overshoot with rx_overshoot_size octets and [s_over_alloc] the
    true size of its memory. *)
Record session : Type := mk_session {
  s_addr : Z; s_time : Z;
  s_buf : option (list Z); s_alloc : Z; s_size : Z;
  s_over : option (list Z); s_over_alloc : Z;
  s_target : Z; s_zero_bytes : bool; s_eof_ok : bool; s_complete : bool }.

(** What the get target size function says about the buffer: a message of [n] octets
    starts here (and whether EOF is fine after it), more octets are needed, [k] octets
    are to be skipped, the message lasts until the connection is closed, or an error
    code. *)
Inductive framing : Type :=
| FSize (n : Z) (eof_ok : bool) | FIncomplete | FSkip (k : Z) | FToEnd | FError (code : Z).

(** Arguments of rrr_read_message_using_callbacks which stay the same from call to
    call, read.c:554-600.  [p_framer] is [None] if the function is NULL.
    [p_first_eof_ok] is the flag RRR_SOCKET_READ_FIRST_EOF_OK. *)
Record params : Type := mk_params {
  p_initial : Z; p_step : Z; p_max : Z; p_framer : option (list Z -> framing); p_first_eof_ok : bool }.

(** What the world does during one call: the octets, the sender and the return code
    of the read function, the time, and the answer of the complete callback if it is
    called: its code and whether it sets eof_ok_now. *)
Record world : Type := mk_world {
  w_addr : Z; w_time : Z; w_ret : Z; w_data : list Z; w_code : Z; w_eof_ok : bool }.

(** What happens to a sender: octets are read, a message is given to the complete
    callback, the session is removed because of a return code or, [None], its age. *)
Inductive event : Type := Recv (a : Z) (d : list Z) | Msg (a : Z) (m : list Z) | Drop (a : Z) (code : option Z).

(** read.c:45-66 [rrr_read_session_new] (memory is zeroed), with
    socket/rrr_socket_read.c:137-139 *)
Definition session_new (p : params) (a now : Z) : session :=
  mk_session a now None 0 0 None 0 0 false (p_first_eof_ok p) false.

(** read.c:96-105 [rrr_read_session_collection_get_session_with_overshoot] *)
Fixpoint with_overshoot (ss : list session) : option session :=
  match ss with
  | [] => None
  | s :: r => match s_over s with Some _ => Some s | None => with_overshoot r end
  end.

(** read.c:118-159 [rrr_read_session_collection_maintain_and_find_or_create]: old
    sessions are destroyed, then the one with the address is looked for. *)
Definition CLIENT_TIMEOUT : Z := 30 * 1000 * 1000.
Definition expired (now : Z) (s : session) : bool := s_time s <? u64 (now - CLIENT_TIMEOUT).
Fixpoint maintain (now : Z) (ss : list session) : list session * list event :=
  match ss with
  | [] => ([], [])
  | s :: r =>
      let '(k, e) := maintain now r in
      if expired now s then (k, Drop (s_addr s) None :: e) else (s :: k, e)
  end.
Definition with_addr (a : Z) (ss : list session) : list session := filter (fun s => s_addr s =? a) ss.
Definition find_or_create (p : params) (a now : Z) (ss : list session) : res (session * list session * list event) :=
  let '(k, e) := maintain now ss in
  match with_addr a k with
  | [] => let s := session_new p a now in Ok (s, s :: k, e)
  | [s] => Ok (s, k, e)
  | _ => Bug
  end.

(** The session is a pointer into the list: updating it in place, and read.c:161-171
    [rrr_read_session_collection_remove_session] *)
Definition put (s : session) (ss : list session) : list session :=
  map (fun t => if s_addr t =? s_addr s then s else t) ss.
Definition remove (s : session) (ss : list session) : list session :=
  filter (fun t => negb (s_addr t =? s_addr s)) ss.

(** read.c:352-378: the overshoot becomes the buffer, or a buffer is allocated. *)
Definition prepare (p : params) (s : session) (bytes : list Z) : session :=
  match s_buf s with
  | Some _ => s
  | None =>
      match s_over s with
      | Some o => mk_session (s_addr s) (s_time s) (Some o) (s_over_alloc s) (zlen o) None 0
                    0 (s_zero_bytes s) (s_eof_ok s) (s_complete s)
      | None => mk_session (s_addr s) (s_time s) (Some []) (Z.max (zlen bytes) (p_step p)) (p_step p) None (s_over_alloc s)
                  0 (s_zero_bytes s) (s_eof_ok s) (s_complete s)
      end
  end.

(** read.c:384-417: expansion of the buffer and copying; [None] if the copy would
    write past the memory. *)
Definition BIGALLOC_THRESHOLD : Z := 2 * 1024 * 1024.
Definition BIGALLOC_STEP : Z := 1 * 1024 * 1024.
Definition append (p : params) (now : Z) (s : session) (buf bytes : list Z) : option session :=
  if 0 <? zlen bytes then
    let wpos := zlen buf in
    let '(alloc, size) :=
      if s_size s <? zlen bytes + wpos then
        let exp := if (BIGALLOC_THRESHOLD <? s_target s) && (p_step p <? BIGALLOC_STEP) then BIGALLOC_STEP else p_step p in
        let exp := if s_target s <? s_size s + exp then 0 else exp in
        let new_size := s_size s + Z.max (zlen bytes) exp in
        (new_size, new_size)
      else (s_alloc s, s_size s) in
    if alloc <? wpos + zlen bytes then None
    else Some (mk_session (s_addr s) now (Some (buf ++ bytes)) alloc size (s_over s) (s_over_alloc s)
                 (s_target s) (s_zero_bytes s) (s_eof_ok s) (s_complete s))
  else Some s.

Definition set_target (s : session) (n : Z) : session :=
  mk_session (s_addr s) (s_time s) (s_buf s) (s_alloc s) (s_size s) (s_over s) (s_over_alloc s)
    n (s_zero_bytes s) (s_eof_ok s) (s_complete s).
Definition set_eof_ok (s : session) (b : bool) : session :=
  mk_session (s_addr s) (s_time s) (s_buf s) (s_alloc s) (s_size s) (s_over s) (s_over_alloc s)
    (s_target s) (s_zero_bytes s) b (s_complete s).
Definition set_zero_bytes (s : session) : session :=
  mk_session (s_addr s) (s_time s) (s_buf s) (s_alloc s) (s_size s) (s_over s) (s_over_alloc s)
    (s_target s) true (s_eof_ok s) (s_complete s).

(** read.c:429-494: the target size is asked for.  [inl]: go on, [inr]: leave with the
    code.  The skipped part (read.c:451-484) puts the rest of the buffer, if any, into
    the overshoot. *)
Definition ask_target (p : params) (s : session) (buf : list Z) : res (session + session * Z) :=
  match p_framer p with
  | None => Ok (inl (set_target s (p_initial p)))
  | Some f =>
      if (s_target s =? 0) && negb (s_zero_bytes s) then
        match f buf with
        | FError code => if (code =? READ_OK) || (code =? READ_INCOMPLETE) then Bug else Ok (inr (s, code))
        | FIncomplete => Ok (inr (s, READ_INCOMPLETE))
        | FSkip k =>
            if (k <=? 0) || (zlen buf <? k) then Bug
            else
              let rest := skipn (Z.to_nat k) buf in
              if (0 <? zlen rest) && (s_size s <? zlen rest) then Ub
              else
                let '(over, over_alloc) := if 0 <? zlen rest then (Some rest, s_size s) else (s_over s, s_over_alloc s) in
                Ok (inr (mk_session (s_addr s) (s_time s) None (s_alloc s) (s_size s) over over_alloc
                           (s_target s) (s_zero_bytes s) (s_eof_ok s) (s_complete s), READ_INCOMPLETE))
        | FToEnd => Ok (inl (set_zero_bytes s))
        | FSize n e =>
            if n =? 0 then Bug
            else Ok (inl (set_eof_ok (set_target s n) (e || s_eof_ok s)))
        end
      else Ok (inl s)
  end.

(** read.c:496-515: what was read past the message becomes the overshoot. *)
Definition cut (s : session) (buf : list Z) : res session :=
  if (s_target s <? zlen buf) && negb (s_zero_bytes s) then
    match s_over s with
    | Some _ => Bug
    | None =>
        let n := Z.to_nat (s_target s) in
        Ok (mk_session (s_addr s) (s_time s) (Some (firstn n buf)) (s_alloc s) (s_size s)
              (Some (skipn n buf)) (zlen buf - s_target s) (s_target s) (s_zero_bytes s) (s_eof_ok s) (s_complete s))
    end
  else Ok s.

(** read.c:517-544: completion. *)
Definition complete (w : world) (emit_eof : bool) (s : session) : session * Z * list event :=
  match s_buf s with
  | None => (s, READ_INCOMPLETE, [])
  | Some buf =>
      if (zlen buf =? s_target s) && (0 <? s_target s) then
        let e := [Msg (s_addr s) buf] in
        if negb (w_code w =? 0) then
          (mk_session (s_addr s) (s_time s) (s_buf s) (s_alloc s) (s_size s) (s_over s) (s_over_alloc s)
             (s_target s) (s_zero_bytes s) (w_eof_ok w || s_eof_ok s) true, w_code w, e)
        else
          (mk_session (s_addr s) (s_time s) None (s_alloc s) (s_size s) (s_over s) (s_over_alloc s)
             0 false (w_eof_ok w || s_eof_ok s) false, if emit_eof then READ_EOF else READ_OK, e)
      else (s, READ_INCOMPLETE, [])
  end.

(** read.c:350-544 from the label process_overshoot on *)
Definition process (p : params) (w : world) (emit_eof : bool) (s : session) (bytes : list Z) : res (session * Z * list event) :=
  let s := prepare p s bytes in
  if s_complete s then Bug
  else match s_buf s with
  | None => Bug
  | Some buf =>
      match append p (w_time w) s buf bytes with
      | None => Ub
      | Some s =>
          let buf := buf ++ bytes in
          if (0 <? p_max p) && (p_max p <? zlen buf) then Ok (s, READ_SOFT, [])
          else match ask_target p s buf with
          | Bug => Bug
          | Ub => Ub
          | Ok (inr (s, code)) => Ok (s, code, [])
          | Ok (inl s) =>
              match cut s buf with
              | Ok s => Ok (complete w emit_eof s)
              | Bug => Bug
              | Ub => Ub
              end
          end
      end
  end.

(** read.c:546-552, the label out: the session is removed unless the code is OK or
    INCOMPLETE. *)
Definition leave (ss : list session) (r : session * Z * list event) : list session * Z * list event :=
  let '(s, code, e) := r in
  if (code =? READ_OK) || (code =? READ_INCOMPLETE) then (put s ss, code, e)
  else (remove s ss, code, e ++ [Drop (s_addr s) (Some code)]).

Definition finish (ss : list session) (e0 : list event) (r : res (session * Z * list event)) : res (list session * Z * list event) :=
  match r with
  | Ok (s, code, e) => let '(ss, code, e) := leave ss (s, code, e) in Ok (ss, code, e0 ++ e)
  | Bug => Bug
  | Ub => Ub
  end.

(** read.c:173-552 [__rrr_read_message_using_callbacks]; [flush]: the read function is
    NULL. *)
Definition read_call (p : params) (flush : bool) (ss : list session) (w : world) : res (list session * Z * list event) :=
  match with_overshoot ss with
  | Some s => finish ss [] (process p w false s [])
  | None =>
      if flush then Ok (ss, READ_INCOMPLETE, [])
      else
        let bytes := w_data w in
        let ret := w_ret w in
        if p_step p <? zlen bytes then Ub
        else if negb (Z.land ret READ_HARD =? 0) then Ok (ss, READ_HARD, [])
        else if negb (Z.land ret READ_INCOMPLETE =? 0) then Bug
        else if negb (Z.land ret READ_EOF =? 0) && (0 <? zlen bytes) then Bug
        else match find_or_create p (w_addr w) (w_time w) ss with
        | Bug => Bug
        | Ub => Ub
        | Ok (s, ss, e) =>
            if (zlen bytes =? 0) || negb (ret =? 0) then
              if s_zero_bytes s then
                if 0 <? s_target s then Bug
                else
                  let wpos := match s_buf s with Some b => zlen b | None => 0 end in
                  finish ss e (process p w true (set_eof_ok (set_target s wpos) false) bytes)
              else if negb (Z.land ret READ_EOF =? 0) then
                let clean := s_eof_ok s && (match s_buf s with None => true | _ => false end)
                             && (match s_over s with None => true | _ => false end) in
                finish ss e (Ok (s, if clean then READ_EOF else READ_SOFT, []))
              else if negb (ret =? 0) then finish ss e (Ok (s, ret, []))
              else Ok (ss, READ_INCOMPLETE, e)
            else finish ss (e ++ [Recv (w_addr w) bytes]) (process p w false (set_eof_ok s false) bytes)
        end
  end.

(** read.c:554-652 [rrr_read_message_using_callbacks]: one call, and with the flag
    FLUSH_OVERSHOOT calls in flush mode as long as they give messages; [ws] has the
    answers of the complete callback for these. *)
Fixpoint flush_loop (p : params) (ss : list session) (ws : list world) (ev : list event) : res (list session * Z * list event) :=
  match ws with
  | [] => Ok (ss, READ_OK, ev)
  | w :: r =>
      match read_call p true ss w with
      | Ok (ss, code, e) =>
          if code =? READ_OK then flush_loop p ss r (ev ++ e)
          else Ok (ss, Z.ldiff code READ_INCOMPLETE, ev ++ e)
      | Bug => Bug
      | Ub => Ub
      end
  end.
Definition read_message (p : params) (flush : bool) (ss : list session) (w : world) (ws : list world) : res (list session * Z * list event) :=
  match read_call p false ss w with
  | Ok (ss, code, e) =>
      if negb (code =? READ_OK) then Ok (ss, code, e)
      else if flush then flush_loop p ss ws e
      else Ok (ss, READ_OK, e)
  | Bug => Bug
  | Ub => Ub
  end.

(** A history of calls from a state on. *)
Fixpoint run (p : params) (ss : list session) (ws : list world) : res (list session * list event) :=
  match ws with
  | [] => Ok (ss, [])
  | w :: r =>
      match read_call p false ss w with
      | Ok (ss', _, e) =>
          match run p ss' r with
          | Ok (ss'', e') => Ok (ss'', e ++ e')
          | Bug => Bug
          | Ub => Ub
          end
      | Bug => Bug
      | Ub => Ub
      end
  end.

(** read.c:700-760 [rrr_read_common_get_session_target_length_from_message_and_checksum]
    (the size is 32 bit) *)
Definition msg_framer (buf : list Z) : framing :=
  match get_target_size buf with
  | MsgModel.Ok n => FSize (u32 n) false
  | Err c => if c =? READ_INCOMPLETE then FIncomplete else FError c
  | Abort => FError READ_HARD
  end.
