(** Model of src/lib/messages/msg.c, msg_checksum.c, msg_msg.c, msg_log.c and
    src/lib/stats/stats_message.c (unpacking).

    A message in host order is a record of its fields plus the octets after the
    fixed part; on the wire it is a list of octets, integers big endian.
    sizeof(struct rrr_msg) = 18, sizeof(struct rrr_msg_msg) - 1 = 30 (packed). *)
From Coq Require Import ZArith List Bool.
From Verif Require Import Common Crc32Model Utf8Model.
Import ListNotations.
Open Scope Z_scope.

(** Sub-block of memory: [n] octets from offset [off] (fewer if the block ends). *)
Definition sub_mem (l : list Z) (off n : Z) : list Z := firstn (Z.to_nat n) (skipn (Z.to_nat off) l).
(** A big endian field of a block (rrr_endian.h, be16toh and friends). *)
Definition be_field (l : list Z) (off n : Z) : Z := be_dec (sub_mem l off n).

(** msg_head.h:91-101 [struct rrr_msg], host order *)
Record rrr_msg := mk_msg {
  header_crc32 : Z; msg_size : Z; msg_type : Z; msg_value : Z; data_crc32 : Z
}.
Definition MSG_HEAD_SIZE : Z := 18.

(** msg_head.h:28-33 *)
Definition T_CTRL : Z := 1.
Definition T_MESSAGE : Z := 2.
Definition T_SETTING : Z := 4.
Definition T_STATS : Z := 6.
Definition T_ADDR : Z := 8.
Definition T_LOG : Z := 16.

(** msg_head.h:51-56 [RRR_MSG_CTRL_F_ALL]: bits 0, 2-5, 12-15 *)
Definition CTRL_F_ALL : Z := 1 + 4 + 8 + 16 + 32 + 61440.
(** msg_head.h:62-63 *)
Definition is_ctrl (t : Z) : bool := Z.land t T_CTRL =? T_CTRL.
(** msg_head.h:77-84 [RRR_MSG_TYPE_OK] *)
Definition type_ok (t : Z) : bool :=
  is_ctrl t || (t =? T_MESSAGE) || (t =? T_ADDR) || (t =? T_SETTING) || (t =? T_LOG) || (t =? T_STATS).

(** Outcomes: success, an error return, or RRR_BUG (the process aborts). *)
Inductive outcome (A : Type) : Type := Ok (a : A) | Err (code : Z) | Abort.
Arguments Ok {A} a. Arguments Err {A} code. Arguments Abort {A}.
(** read_constants.h via msg.h:30-33 *)
Definition SOFT_ERROR : Z := 2.
Definition INCOMPLETE : Z := 4.

(** Network octets of the header from [msg_size] on: the part covered by the
    header checksum (msg_checksum.c:54-65). *)
Definition head_tail_bytes (h : rrr_msg) : list Z :=
  be_enc 4 (msg_size h) ++ be_enc 2 (msg_type h) ++ be_enc 4 (msg_value h) ++ be_enc 4 (data_crc32 h).

(** msg_checksum.c:34-65 [rrr_msg_checksum_and_to_network_endian]: the octets of
    the whole message.  [data] is everything after the 18 octet header;
    [msg_size] is assumed to count it, so that the pointer arithmetic
    [msg_size - sizeof] covers exactly [data]. *)
Definition checksum_and_to_network (h : rrr_msg) (data : list Z) : list Z :=
  let dc := if 0 <? zlen data then crc32buf data else 0 in
  let h' := mk_msg 0 (msg_size h) (msg_type h) (msg_value h) dc in
  be_enc 4 (crc32buf (head_tail_bytes h')) ++ head_tail_bytes h' ++ data.

(** msg.c:125-147 [rrr_msg_get_target_size_and_check_checksum] on the octets
    received so far. *)
Definition get_target_size (buf : list Z) : outcome Z :=
  if zlen buf <? MSG_HEAD_SIZE then Err INCOMPLETE
  else if negb (crc32cmp (sub_mem buf 4 14) (be_field buf 0 4) =? 0) then Err SOFT_ERROR
  else Ok (be_field buf 4 4).

(** msg.c:71-105 [__rrr_msg_head_validate] *)
Definition head_validate (h : rrr_msg) (expected_size : Z) : bool :=
  if negb (msg_size h =? expected_size) then false
  else if is_ctrl (msg_type h) then Z.land (msg_type h) (Z.lxor CTRL_F_ALL 65535) =? 0
  else type_ok (msg_type h).

(** msg.c:107-123 [rrr_msg_head_to_host_and_verify] *)
Definition head_to_host_and_verify (buf : list Z) (expected_size : Z) : outcome rrr_msg :=
  let h := mk_msg 0 (be_field buf 4 4) (be_field buf 8 2) (be_field buf 10 4) (be_field buf 14 4) in
  if head_validate h expected_size then Ok h else Err 1.

(** msg.c:149-180 [rrr_msg_check_data_checksum_and_length]; the caller passes the
    size of the message, so the data is the block from octet 18 on. *)
Definition check_data_checksum_and_length (h : rrr_msg) (buf : list Z) (data_size : Z) : outcome rrr_msg :=
  if data_size <? MSG_HEAD_SIZE then Abort
  else if negb (msg_size h =? data_size) then Err 1
  else if negb (crc32cmp (sub_mem buf 18 (data_size - 18)) (data_crc32 h) =? 0) then Err 1
  else Ok (mk_msg 0 (msg_size h) (msg_type h) (msg_value h) 0).

(** msg_msg_struct.h:103-107 [struct rrr_msg_msg], host order; [mm_data] is the
    memory from the flexible member on (topic, then data). *)
Record rrr_msg_msg := mk_mm {
  mm_head : rrr_msg; mm_timestamp : Z; mm_type_and_class : Z; mm_version : Z; mm_topic_length : Z;
  mm_data : list Z
}.
Definition MSG_MSG_MIN : Z := 30.

(** msg_msg_struct.h:49-50 *)
Definition MSG_TYPE (m : rrr_msg_msg) : Z := Z.land (mm_type_and_class m) 15.
Definition MSG_CLASS (m : rrr_msg_msg) : Z := Z.shiftr (Z.land (mm_type_and_class m) 240) 4.
(** msg_msg_struct.h:69-73 *)
Definition MSG_CLASS_OK (m : rrr_msg_msg) : bool := (MSG_CLASS m =? 1) || (MSG_CLASS m =? 11).
Definition MSG_TYPE_OK (m : rrr_msg_msg) : bool := (1 <=? MSG_TYPE m) && (MSG_TYPE m <=? 5).
(** msg_msg_struct.h:85 [MSG_DATA_LENGTH], 32 bit unsigned arithmetic *)
Definition MSG_DATA_LENGTH (m : rrr_msg_msg) : Z :=
  u32 (u32 (msg_size (mm_head m) - MSG_MSG_MIN) - mm_topic_length m).

(** msg_msg_struct.h:90-92 [MSG_TO_BE] via msg_msg.c:308-326
    [rrr_msg_msg_prepare_for_network]: the octets after the common header. *)
Definition msg_msg_tail_bytes (m : rrr_msg_msg) : list Z :=
  be_enc 8 (mm_timestamp m) ++ [mm_type_and_class m] ++ [mm_version m] ++ be_enc 2 (mm_topic_length m) ++ mm_data m.

(** The sending side of a message, as in cmodule/ip/file senders: prepare, then
    checksum (msg_msg.c:308, msg_checksum.c:34). *)
Definition msg_msg_to_network (m : rrr_msg_msg) : list Z :=
  checksum_and_to_network (mm_head m) (msg_msg_tail_bytes m).

(** msg_msg.c:252-278 [__message_validate].  The topic validation reads
    [topic_length] octets from the start of [mm_data]; if the block is shorter it
    runs into the memory [after] it. *)
Definition message_validate (m : rrr_msg_msg) (after : list Z) : bool :=
  if msg_size (mm_head m) <? MSG_MSG_MIN then false
  else MSG_CLASS_OK m && MSG_TYPE_OK m &&
       match utf8_validate (sub_mem (mm_data m ++ after) 0 (mm_topic_length m)) with
       | Some 0 => true
       | _ => false
       end.

(** The fields of a [struct rrr_msg_msg] at the start of [buf]. *)
Definition read_msg_msg (h : rrr_msg) (buf : list Z) : rrr_msg_msg :=
  mk_mm h (be_field buf 18 8) (be_field buf 26 1) (be_field buf 27 1) (be_field buf 28 2)
        (sub_mem buf 30 (zlen buf - 30)).

(** msg_msg.c:280-306 [rrr_msg_msg_to_host_and_verify] *)
Definition msg_msg_to_host_and_verify (h : rrr_msg) (buf : list Z) (after : list Z) (expected_size : Z) : outcome rrr_msg_msg :=
  if expected_size <? MSG_MSG_MIN then Err 1
  else
    let m := read_msg_msg h buf in
    if negb (msg_size (mm_head m) =? expected_size) then Err 1
    else if message_validate m after then Ok m else Err 1.

(** msg_log.h:45-54 [struct rrr_msg_log], 155 octets before the strings.
    msg_log.h:37-38 [RRR_MSG_LOG_SIZE_OK]: the subtraction is in size_t. *)
Definition LOG_FIXED : Z := 155.
Definition log_size_ok (size prefix_size : Z) : bool :=
  negb (u64 (size - (LOG_FIXED + 1) - 1) <? prefix_size).

(** Reading one octet of the block; outside it is [None]. *)
Definition mem_octet (buf : list Z) (off : Z) : option Z :=
  if (0 <=? off) && (off <? zlen buf) then Some (nth (Z.to_nat off) buf 0) else None.

(** Outcome of the log verification: accepted, refused, or a read outside the
    received block. *)
Inductive log_outcome : Type := LogOk | LogRefused | LogOutOfBounds.

(** msg_log.c:38-58 [rrr_msg_msg_log_to_host] on a received block whose common
    header stated [size].  Fields read outside the block count as out of bounds. *)
Definition log_to_host (size : Z) (buf : list Z) : log_outcome :=
  if zlen buf <? LOG_FIXED then LogOutOfBounds
  else
  let prefix_size := be_field buf 153 2 in
  if negb (log_size_ok size prefix_size) then LogRefused
  else
    match (if 0 <? prefix_size then mem_octet buf (LOG_FIXED + prefix_size - 1) else Some 0) with
    | None => LogOutOfBounds
    | Some c =>
        if negb (c =? 0) then LogRefused
        else match mem_octet buf (size - 1) with
             | None => LogOutOfBounds
             | Some c => if c =? 0 then LogOk else LogRefused
             end
    end.

(** C string content of a memory area: octets up to the first NUL. *)
Fixpoint c_string (l : list Z) : list Z :=
  match l with [] => [] | c :: r => if c =? 0 then [] else c :: c_string r end.

(** msg_log.c:154-203 [rrr_msg_msg_log_to_str]: the two C strings the receiver
    gets out of a verified log message. *)
Definition log_to_str (size : Z) (buf : list Z) : list Z * list Z :=
  let prefix_size := be_field buf 153 2 in
  (c_string (sub_mem buf LOG_FIXED prefix_size),
   c_string (sub_mem buf (LOG_FIXED + prefix_size) (size - LOG_FIXED - prefix_size))).

(** msg_log.c:31 *)
Definition LOG_MESSAGE_MAX : Z := 65536.
(** msg_log.c:92-100: sizes with terminating NUL, truncated *)
Definition log_prefix_size (prefix : list Z) : Z := Z.min (zlen prefix + 1) 65535.
Definition log_message_size (message : list Z) : Z := Z.min (zlen message + 1) LOG_MESSAGE_MAX.

(** msg_log.c:78-152 [rrr_msg_msg_log_new] followed by msg_log.c:33-36
    [rrr_msg_msg_log_prepare_for_network]: the octets after the common header.
    [file] is the 128 octet file field. *)
Definition log_tail_bytes (file : list Z) (line is_stdout level_t level_o : Z) (prefix message : list Z) : list Z :=
  file ++ be_enc 4 line ++ [is_stdout; level_t; level_o] ++ be_enc 2 (log_prefix_size prefix)
  ++ sub_mem (prefix ++ [0]) 0 (log_prefix_size prefix)
  ++ sub_mem (message ++ [0]) 0 (log_message_size message).
(** msg_log.c:60-76, the head *)
Definition log_head (flags : Z) (prefix message : list Z) : rrr_msg :=
  mk_msg 0 (LOG_FIXED + log_prefix_size prefix + log_message_size message) T_LOG flags 0.
(** Complete sending side. *)
Definition log_to_network (flags : Z) (file : list Z) (line is_stdout level_t level_o : Z) (prefix message : list Z) : list Z :=
  checksum_and_to_network (log_head flags prefix message)
    (log_tail_bytes file line is_stdout level_t level_o prefix message).

(** stats_message.h:73-82: the packed struct has 18 + 1 + 4 + 2 = 25 octets before
    [path_and_data], which holds up to 513 + 512 octets; stats_message.h:62-70: the
    unpacked struct has [path] of 513 and [data] of 512 octets. *)
Definition STATS_FIXED : Z := 25.
Definition STATS_PATH_ROOM : Z := 513.
Definition STATS_DATA_ROOM : Z := 512.

(** Outcome of unpacking; [StatsOverflow] is a memcpy past a member. *)
Inductive stats_outcome : Type :=
| StatsOk (type flags : Z) (path data : list Z)
| StatsRefused
| StatsOverflow.

(** stats_message.c:37-119 [__rrr_msg_stats_unpack] with flipping. *)
Definition stats_unpack (buf : list Z) (expected_size : Z) : stats_outcome :=
  if expected_size <? STATS_FIXED then StatsRefused
  else if STATS_FIXED + STATS_PATH_ROOM + STATS_DATA_ROOM <? expected_size then StatsRefused
  else
    let type := be_field buf 18 1 in
    let flags := be_field buf 19 4 in
    let path_size := be_field buf 23 2 in
    if negb (Z.land flags (Z.lxor 15 (2^32 - 1)) =? 0) then StatsRefused
    else if negb ((0 <=? type) && (type <=? 3)) then StatsRefused
    else
      let actual := expected_size - STATS_FIXED in
      if actual <? path_size then StatsRefused
      else
        let data_size := actual - path_size in
        if STATS_DATA_ROOM <? data_size then StatsOverflow
        else if (0 <? path_size) && negb (nth (Z.to_nat (STATS_FIXED + path_size - 1)) buf 0 =? 0) then StatsRefused
        else if STATS_PATH_ROOM <? path_size then StatsOverflow
        else StatsOk type flags (sub_mem buf STATS_FIXED path_size) (sub_mem buf (STATS_FIXED + path_size) data_size).

(** stats_message.c:147-178 [rrr_msg_stats_pack_and_flip]: the octets after the
    common header; [path] is a C string, packed with its NUL. *)
Definition stats_tail_bytes (type flags : Z) (path data : list Z) : list Z :=
  [type] ++ be_enc 4 flags ++ be_enc 2 (u16 (zlen path + 1)) ++ (path ++ [0]) ++ data.
(** stats_message.c:158 [total_size] and the head set by stats_engine.c
    (type STATS, the value field carrying a time stamp). *)
Definition stats_to_network (type flags value : Z) (path data : list Z) : list Z :=
  checksum_and_to_network (mk_msg 0 (STATS_FIXED + (zlen path + 1) + zlen data) T_STATS value 0)
    (stats_tail_bytes type flags path data).

(** msg.c:182-289 [rrr_msg_to_host_and_verify_with_callback]: which handler the
    message is given to, with what content.  All callbacks are assumed present.
    Address messages are checked with msg_addr.h:38-39 (19 octets before the
    address). *)
Inductive delivery : Type :=
| DMsg (m : rrr_msg_msg)
| DCtrl (h : rrr_msg)
| DAddr (h : rrr_msg)
| DLog (h : rrr_msg) (prefix message : list Z)
| DStats (type flags : Z) (path data : list Z)
| DMemoryError.

Definition to_host_and_verify_with_callback (buf after : list Z) (expected_size : Z) : outcome delivery :=
  match head_to_host_and_verify buf expected_size with
  | Abort => Abort
  | Err _ => Err SOFT_ERROR
  | Ok h =>
    match check_data_checksum_and_length h buf expected_size with
    | Abort => Abort
    | Err _ => Err SOFT_ERROR
    | Ok h =>
      if msg_type h =? T_MESSAGE then
        match msg_msg_to_host_and_verify h buf after expected_size with
        | Ok m => Ok (DMsg m)
        | Err _ => Err SOFT_ERROR
        | Abort => Abort
        end
      else if is_ctrl (msg_type h) then Ok (DCtrl h)
      else if msg_type h =? T_ADDR then
        if 19 <=? msg_size h then Ok (DAddr h) else Err SOFT_ERROR
      else if msg_type h =? T_LOG then
        match log_to_host (msg_size h) buf with
        | LogOk => let '(p, t) := log_to_str (msg_size h) buf in Ok (DLog h p t)
        | LogRefused => Err SOFT_ERROR
        | LogOutOfBounds => Ok DMemoryError
        end
      else if msg_type h =? T_STATS then
        match stats_unpack buf expected_size with
        | StatsOk t f p d => Ok (DStats t f p d)
        | StatsRefused => Err SOFT_ERROR
        | StatsOverflow => Ok DMemoryError
        end
      else Err SOFT_ERROR
    end
  end.

(** A complete receive step: size and header checksum from the start of the
    block (read.c:700-735), then verification of the message of that size. *)
Definition receive (buf after : list Z) : outcome delivery :=
  match get_target_size buf with
  | Ok size => to_host_and_verify_with_callback (sub_mem buf 0 size) after size
  | Err e => Err e
  | Abort => Abort
  end.

(** msg_msg_struct.h:52-53 [MSG_SET_TYPE], [MSG_SET_CLASS] *)
Definition set_type (tc n : Z) : Z := u8 (Z.lor (Z.land tc 240) (Z.land n 15)).
Definition set_class (tc n : Z) : Z := u8 (Z.lor (Z.land tc 15) (Z.shiftl n 4)).

(** msg_msg.c:65-106 [rrr_msg_msg_new_empty] *)
Definition msg_msg_new_empty (type class timestamp topic_length data_length : Z) : outcome rrr_msg_msg :=
  let total := MSG_MSG_MIN + topic_length + data_length in
  if 2^32 - 1 <? total then Err 1
  else Ok (mk_mm (mk_msg 0 total T_MESSAGE 0 0) timestamp
             (set_class (set_type 0 type) class) 0 topic_length
             (repeat 0 (Z.to_nat (topic_length + data_length)))).

Definition with_data (m : rrr_msg_msg) (d : list Z) : rrr_msg_msg :=
  mk_mm (mm_head m) (mm_timestamp m) (mm_type_and_class m) (mm_version m) (mm_topic_length m) d.

(** msg_msg.c:108-137 [rrr_msg_msg_new_with_data]; [Abort] stands for a memcpy
    outside the allocation. *)
Definition msg_msg_new_with_data (type class timestamp : Z) (topic data : list Z) : outcome rrr_msg_msg :=
  match msg_msg_new_empty type class timestamp (zlen topic) (zlen data) with
  | Ok m =>
      match mem_store (mm_data m) 0 topic with
      | None => Abort
      | Some d =>
          match mem_store d (mm_topic_length m) data with
          | None => Abort
          | Some d => Ok (with_data m d)
          end
      end
  | e => e
  end.

(** msg_msg.c:328-352 [rrr_msg_msg_duplicate_no_data_with_size]: the fixed part is
    copied except its last octet, which belongs to the topic length set next. *)
Definition duplicate_no_data_with_size (m : rrr_msg_msg) (topic_length data_length : Z) : outcome rrr_msg_msg :=
  let total := MSG_MSG_MIN + topic_length + data_length in
  if 2^32 - 1 <? total then Abort
  else
    let h := mm_head m in
    Ok (mk_mm (mk_msg (header_crc32 h) total (msg_type h) (msg_value h) (data_crc32 h))
              (mm_timestamp m) (mm_type_and_class m) (mm_version m) topic_length
              (repeat 0 (Z.to_nat (topic_length + data_length)))).

(** Topic and data as the accessor macros see them (msg_msg_struct.h:83-86). *)
Definition MSG_TOPIC (m : rrr_msg_msg) : list Z := sub_mem (mm_data m) 0 (mm_topic_length m).
Definition MSG_DATA (m : rrr_msg_msg) : list Z := sub_mem (mm_data m) (mm_topic_length m) (MSG_DATA_LENGTH m).

(** msg_msg.c:380-403 [rrr_msg_msg_topic_set]; [Abort] is RRR_BUG or a memcpy
    outside a block. *)
Definition msg_msg_topic_set (m : rrr_msg_msg) (topic : list Z) : outcome rrr_msg_msg :=
  match duplicate_no_data_with_size m (zlen topic) (MSG_DATA_LENGTH m) with
  | Ok r =>
      if zlen (mm_data m) <? mm_topic_length m + MSG_DATA_LENGTH m then Abort
      else
      match mem_store (mm_data r) 0 topic with
      | None => Abort
      | Some d =>
          match mem_store d (mm_topic_length r) (MSG_DATA m) with
          | None => Abort
          | Some d => Ok (with_data r d)
          end
      end
  | e => e
  end.

(** msg_msg.c:435-452 [rrr_msg_msg_topic_equals], for a C string [topic]. *)
Definition msg_msg_topic_equals (m : rrr_msg_msg) (topic : list Z) : bool :=
  if negb (mm_topic_length m =? zlen topic) then false
  else if mm_topic_length m =? 0 then true
  else if list_eq_dec Z.eq_dec (MSG_TOPIC m) topic then true else false.
