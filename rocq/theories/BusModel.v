(** Model of the Modbus client, src/lib/modbus/rrr_modbus.c.  Allocation failures, failures of the
    function which makes the pointer of a request, and messages are left out.  [None] as a result is
    RRR_BUG or a failed assert. *)
From Coq Require Import ZArith List Bool.
From Verif Require Import Common BusTypes.
Import ListNotations.
Open Scope Z_scope.

(** rrr_modbus.h:30-35 and read_constants.h:63-77 *)
Definition BUS_OK : Z := 0.
Definition BUS_SOFT : Z := 2.
Definition BUS_BUSY : Z := 4.
Definition BUS_INCOMPLETE : Z := 4.
Definition BUS_DONE : Z := 8.

(** rrr_modbus.c:32-33 *)
Definition bus_max : nat := 32.
Definition bus_timeout : Z := 1000000.

(** rrr_modbus.c:109-115 [struct rrr_modbus_client_transaction]; of the request those octets are
    kept which count in req_size, the rest is zero *)
Record trans : Type := mk_trans { tr_id : Z; tr_req : list Z; tr_time : Z; tr_data : Z }.

(** rrr_modbus.c:117-123 [struct rrr_modbus_client]; [None] is a transaction of zeros *)
Record client : Type := mk_client { cl_id : Z; cl_slots : list (option trans); cl_write : nat; cl_transmit : nat }.

(** rrr_modbus.c:154-173 [rrr_modbus_client_new] *)
Definition client_new : client := mk_client 0 (repeat None bus_max) 0 0.

Fixpoint set_slot (l : list (option trans)) (j : nat) (x : option trans) : list (option trans) :=
  match l, j with
  | [], _ => []
  | _ :: r, O => x :: r
  | y :: r, S k => y :: set_slot r k x
  end.

Definition be16 (hi lo : Z) : Z := 256 * hi + lo.
Definition put16 (v : Z) : list Z := [v / 256 mod 256; v mod 256].
Definition at_ (l : list Z) (i : nat) : Z := nth i l 0.

(** rrr_modbus.c:144-152 [__rrr_modbus_client_transaction_reset]: the calls it makes *)
Definition reset (t : trans) : list call := if tr_data t =? 0 then [] else [Destroy (tr_data t)].

(** rrr_modbus.c:193-214 [__rrr_modbus_client_transaction_find_and_consume]: the first place of the
    transaction, from place [j] on *)
Fixpoint find_slot (l : list (option trans)) (id : Z) (j : nat) : option (nat * trans) :=
  match l with
  | [] => None
  | None :: r => find_slot r id (S j)
  | Some t :: r => if tr_time t =? 0 then find_slot r id (S j) else if id =? tr_id t then Some (j, t) else find_slot r id (S j)
  end.
Definition find_and_consume (c : client) (id : Z) : option (trans * client) :=
  match find_slot (cl_slots c) id 0 with
  | None => None
  | Some (j, t) => Some (t, mk_client (cl_id c) (set_slot (cl_slots c) j None) (cl_write c) (cl_transmit c))
  end.

(** rrr_modbus.c:216-265 [__rrr_modbus_client_receive_byte_count_and_status]; [m] is the memory of
    the received PDU *)
Definition receive_values (code : Z) (is_register : bool) (t : trans) (m : list Z) (pdu_size ret : Z) : Z * list call :=
  let byte_count := at_ m 1 in
  if byte_count =? 0 then (BUS_SOFT, [])
  else if negb (byte_count =? pdu_size - 2) then (BUS_SOFT, [])
  else
    let amount := be16 (at_ (tr_req t) 3) (at_ (tr_req t) 4) in
    let expected := u16 (if is_register then amount * 2 else (amount + 7) / 8) in
    if negb (byte_count =? expected) then (BUS_SOFT, [])
    else (ret, [Answered code (tr_id t) (Values (firstn (Z.to_nat byte_count) (skipn 2 m))) (tr_data t)]).

(** rrr_modbus.c:267-293 [__rrr_modbus_client_receive_starting_address_and_register_value] *)
Definition receive_value (code : Z) (t : trans) (m : list Z) (pdu_size ret : Z) : Z * list call :=
  if negb (pdu_size =? 5) then (BUS_SOFT, [])
  else (ret, [Answered code (tr_id t) (Written (be16 (at_ m 1) (at_ m 2)) [at_ m 3; at_ m 4]) (tr_data t)]).

(** rrr_modbus.c:295-321 [__rrr_modbus_client_receive_starting_address_and_quantity] *)
Definition receive_quantity (code : Z) (t : trans) (m : list Z) (pdu_size ret : Z) : Z * list call :=
  if negb (pdu_size =? 5) then (BUS_SOFT, [])
  else (ret, [Answered code (tr_id t) (Written_many (be16 (at_ m 1) (at_ m 2)) (be16 (at_ m 3) (at_ m 4))) (tr_data t)]).

(** rrr_modbus.c:424-429 VALIDATE_FRAME_SIZE; the header has 7 octets and [size] is that of the type
    (lines 72-89) *)
Definition too_big (frame_size size : Z) : bool := 7 + size + 1 <? frame_size.

(** rrr_modbus.c:455-515, the rest of [__rrr_modbus_client_receive] after the transaction is found:
    the return value and the calls made.  The macros of lines 424-436 return at once, without
    line 513. *)
Definition answer_to (t : trans) (m : list Z) (frame_size ret : Z) : option (Z * list call) :=
  let code := at_ m 0 in
  let asked := at_ (tr_req t) 0 in
  if 128 <? code then
    if too_big frame_size 1 then Some (BUS_SOFT, [])
    else if negb (code - 128 =? asked) then Some (BUS_SOFT, [])
    else Some (ret, Answered (code - 128) (tr_id t) (Failed (at_ m 1)) (tr_data t) :: reset t)
  else if negb (code =? asked) then Some (BUS_SOFT, [])
  else
    let pdu_size := frame_size - 7 in
    if 65534 <? pdu_size then None
    else
      let finish (r : Z * list call) := Some (fst r, snd r ++ reset t) in
      if code =? 1 then if too_big frame_size 251 then Some (BUS_SOFT, []) else finish (receive_values 1 false t m (u16 pdu_size) ret)
      else if code =? 2 then if too_big frame_size 251 then Some (BUS_SOFT, []) else finish (receive_values 2 false t m (u16 pdu_size) ret)
      else if code =? 3 then if too_big frame_size 251 then Some (BUS_SOFT, []) else finish (receive_values 3 true t m (u16 pdu_size) ret)
      else if code =? 4 then if too_big frame_size 251 then Some (BUS_SOFT, []) else finish (receive_values 4 true t m (u16 pdu_size) ret)
      else if code =? 6 then if too_big frame_size 4 then Some (BUS_SOFT, []) else finish (receive_value 6 t m (u16 pdu_size) ret)
      else if code =? 16 then if too_big frame_size 4 then Some (BUS_SOFT, []) else finish (receive_quantity 16 t m (u16 pdu_size) ret)
      else None.

(** rrr_modbus.c:438-515 [__rrr_modbus_client_receive] *)
Definition receive (c : client) (id : Z) (m : list Z) (frame_size ret : Z) : option (client * Z * list call) :=
  match find_and_consume c id with
  | None => Some (c, BUS_SOFT, [])
  | Some (t, c) => match answer_to t m frame_size ret with None => None | Some (r, calls) => Some (c, r, calls) end
  end.

(** rrr_modbus.c:91-99 [struct rrr_modbus_res] has 252 octets; what is not overwritten by the
    memcpy of line 584 is what was there before *)
Definition res_memory (pdu before : list Z) : list Z := pdu ++ skipn (length pdu) before.

(** rrr_modbus.c:517-596 [rrr_modbus_client_read]: the client, the return value, the new *data_size
    and the calls made *)
Definition client_read (c : client) (data before : list Z) (ret : Z) : option (client * Z * Z * list call) :=
  let data_size := zlen data in
  if data_size <? 7 then Some (c, BUS_INCOMPLETE, data_size, [])
  else
    let id := be16 (at_ data 0) (at_ data 1) in
    let length := be16 (at_ data 4) (at_ data 5) in
    let frame_size := 6 + length in
    if length <? 1 then Some (c, BUS_SOFT, data_size, [])
    else if data_size <? frame_size then Some (c, BUS_INCOMPLETE, data_size, [])
    else
      let pdu_size := frame_size - 7 in
      if pdu_size <? 1 then Some (c, BUS_SOFT, data_size, [])
      else if 252 <? pdu_size then Some (c, BUS_SOFT, data_size, [])
      else
        match receive c id (res_memory (firstn (Z.to_nat pdu_size) (skipn 7 data)) before) frame_size ret with
        | None => None
        | Some (c, r, calls) => Some (c, r, if r =? BUS_OK then 7 + pdu_size else data_size, calls)
        end.

Definition wrap_pos (p : nat) : nat := if Nat.eqb (S p) bus_max then O else S p.

(** rrr_modbus.c:598-640 [rrr_modbus_client_write], for a buffer which is big enough (it has 2048
    octets, p_modbus.c:1044): the client, the return value and what is written *)
Definition client_write (c : client) (now : Z) : option (client * Z * list Z) :=
  match nth (cl_transmit c) (cl_slots c) None with
  | None => Some (c, BUS_DONE, [])
  | Some t =>
      if (zlen (tr_req t) =? 0) || negb (tr_time t =? 0) then Some (c, BUS_DONE, [])
      else
        let length := zlen (tr_req t) + 1 in
        if negb ((length <=? 65535) && (1 <? length)) then None
        else Some (mk_client (cl_id c) (set_slot (cl_slots c) (cl_transmit c) (Some (mk_trans (tr_id t) (tr_req t) now (tr_data t)))) (cl_write c) (wrap_pos (cl_transmit c)),
                   BUS_OK, put16 (tr_id t) ++ put16 0 ++ put16 length ++ [255] ++ tr_req t)
  end.

(** rrr_modbus.c:642-675 [__rrr_modbus_client_transaction_reserve] and 677-714
    [__rrr_modbus_client_req_push] *)
Definition req_push (c : client) (req : list Z) (data now : Z) : client * Z * list call :=
  match nth (cl_write c) (cl_slots c) None with
  | Some t => (c, if (0 <? tr_time t) && (tr_time t <? u64 (now - bus_timeout)) then BUS_SOFT else BUS_BUSY, [Destroy data])
  | None => (mk_client (u16 (cl_id c + 1)) (set_slot (cl_slots c) (cl_write c) (Some (mk_trans (cl_id c) req 0 data))) (wrap_pos (cl_write c)) (cl_transmit c), BUS_OK, [])
  end.

(** rrr_modbus.c:716-731 [__rrr_modbus_client_read_req] *)
Definition read_req (code address amount : Z) : list Z := [code] ++ put16 address ++ put16 amount.
(** rrr_modbus.c:733-748 [__rrr_modbus_client_write_single_reg_req] *)
Definition write_single_req (address : Z) (contents : list Z) : list Z := [6] ++ put16 address ++ firstn 2 contents.
(** rrr_modbus.c:750-773 [__rrr_modbus_client_write_multiple_regs_req] *)
Definition write_multiple_req (address amount : Z) (contents : list Z) : list Z :=
  let byte_count := u8 (amount * 2) in [16] ++ put16 address ++ put16 amount ++ [byte_count] ++ firstn (Z.to_nat byte_count) contents.

(** rrr_modbus.c:775-876 [rrr_modbus_client_req_*]: the request, [None] for a failed assert *)
Definition request_octets (r : request) : option (list Z) :=
  match r with
  | Read_coils a n => if (1 <=? n) && (n <=? 2000) then Some (read_req 1 a n) else None
  | Read_discrete_inputs a n => if (1 <=? n) && (n <=? 2000) then Some (read_req 2 a n) else None
  | Read_holding_registers a n => if (1 <=? n) && (n <=? 125) then Some (read_req 3 a n) else None
  | Read_input_registers a n => if (1 <=? n) && (n <=? 125) then Some (read_req 4 a n) else None
  | Write_register a contents => Some (write_single_req a contents)
  | Write_registers a n contents => if (1 <=? n) && (n <=? 123) then Some (write_multiple_req a n contents) else None
  end.

(** One call of the client and a sequence of them *)
Definition bus_step (c : client) (o : op) : option (client * out) :=
  match o with
  | Ask r data now => match request_octets r with
                      | None => None
                      | Some req => let '(c, ret, calls) := req_push c req data now in Some (c, Asked ret calls)
                      end
  | Send now => match client_write c now with None => None | Some (c, ret, octets) => Some (c, Sent ret octets) end
  | Receive octets before ret => match client_read c octets before ret with None => None | Some (c, r, taken, calls) => Some (c, Received r taken calls) end
  end.
Fixpoint bus_run (c : client) (os : list op) : option (client * list out) :=
  match os with
  | [] => Some (c, [])
  | o :: os => match bus_step c o with
               | None => None
               | Some (c, x) => match bus_run c os with None => None | Some (c, xs) => Some (c, x :: xs) end
               end
  end.
