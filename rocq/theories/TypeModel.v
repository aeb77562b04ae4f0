(** Model of src/lib/type.c: import, export, packing and unpacking of typed
    values, on a little endian host.

    A value's data is the memory block it points to (in host order); the buffer
    to import from is the list of octets from [start] to [end].  Lengths of
    buffers are below 2^32 (rrr_length).  Allocation never fails. *)
From Coq Require Import ZArith List Bool.
From Verif Require Import Common MsgModel HdlcModel FixpModel.
From Verif Require Dec.
Import ListNotations.
Open Scope Z_scope.

(** Result of a function: success, an error code, RRR_BUG/assert (the process
    aborts), or undefined behaviour (an access outside a block, division by
    zero). *)
Inductive res (A : Type) : Type := ROk (a : A) | RErr (code : Z) | RBug | RUb.
Arguments ROk {A} a. Arguments RErr {A} code. Arguments RBug {A}. Arguments RUb {A}.
Definition rbind {A B} (r : res A) (f : A -> res B) : res B :=
  match r with ROk a => f a | RErr c => RErr c | RBug => RBug | RUb => RUb end.

(** read_constants.h via type.h:41-44 *)
Definition PARSE_HARD : Z := 1.
Definition PARSE_SOFT : Z := 2.
Definition PARSE_INCOMPLETE : Z := 4.

(** type.h:48-68 *)
Definition TYPE_LE : Z := 2.
Definition TYPE_BE : Z := 3.
Definition TYPE_H : Z := 4.
Definition TYPE_BLOB : Z := 5.
Definition TYPE_USTR : Z := 6.
Definition TYPE_ISTR : Z := 7.
Definition TYPE_SEP : Z := 8.
Definition TYPE_MSG : Z := 9.
Definition TYPE_FIXP : Z := 10.
Definition TYPE_STR : Z := 11.
Definition TYPE_NSEP : Z := 12.
Definition TYPE_STX : Z := 13.
Definition TYPE_ERR : Z := 14.
Definition TYPE_VAIN : Z := 15.
Definition TYPE_HDLC : Z := 16.

(** type.h:88-102 and configure.ac:7 (blob): maximum import length. *)
Definition type_max_length (t : Z) : Z :=
  if (t =? TYPE_LE) || (t =? TYPE_BE) || (t =? TYPE_H) then 8
  else if t =? TYPE_BLOB then 1024
  else if (t =? TYPE_SEP) || (t =? TYPE_STX) then 64
  else 0.

(** type.h:253-265 [struct rrr_type_value] without links and references.
    [v_tag] stands for tag and tag_length, [v_data] for data and
    total_stored_length. *)
Record value := mk_value {
  v_type : Z; v_flags : Z; v_tag : list Z; v_import_length : Z; v_elements : Z; v_data : list Z
}.
Definition set_data (v : value) (d : list Z) : value :=
  mk_value (v_type v) (v_flags v) (v_tag v) (v_import_length v) (v_elements v) d.
Definition set_type_data (v : value) (t : Z) (d : list Z) : value :=
  mk_value t (v_flags v) (v_tag v) (v_import_length v) (v_elements v) d.
Definition set_flags (v : value) (f : Z) : value :=
  mk_value (v_type v) f (v_tag v) (v_import_length v) (v_elements v) (v_data v).
Definition set_import_length (v : value) (n : Z) : value :=
  mk_value (v_type v) (v_flags v) (v_tag v) n (v_elements v) (v_data v).
Definition set_elements (v : value) (n : Z) : value :=
  mk_value (v_type v) (v_flags v) (v_tag v) (v_import_length v) n (v_data v).

(** type.h:136-152 *)
Definition is_signed (flags : Z) : bool := Z.land flags 1 =? 1.
Definition flags_set_signed (flags : Z) : Z := Z.lor flags 1.
Definition flags_set_unsigned (flags : Z) : Z := Z.land flags 254.

(** Little endian memory of a number. *)
Definition le_enc (n : nat) (x : Z) : list Z := rev (be_enc n x).
Definition le_dec (l : list Z) : Z := be_dec (rev l).
Definition le_field (l : list Z) (off n : Z) : Z := le_dec (sub_mem l off n).

(** ** Import *)

(** type.c:78-124 [__rrr_type_expand_be]: the octets are placed at the end of an
    eight octet block filled with zero or sign bits, read as big endian. *)
Definition expand_be (src : list Z) (flags : Z) : res Z :=
  match src with
  | [] => RBug
  | c :: _ =>
      let fill := if is_signed flags && negb (Z.land c 128 =? 0) then 255 else 0 in
      ROk (be_dec (repeat fill (8 - length src) ++ src))
  end.
(** type.c:126-160 [__rrr_type_expand_le]; with length zero and the sign flag the
    octet before the buffer is read. *)
Definition expand_le (src : list Z) (flags : Z) : res Z :=
  match rev src with
  | [] => if is_signed flags then RUb else ROk 0
  | c :: _ =>
      let fill := if is_signed flags && negb (Z.land c 128 =? 0) then 255 else 0 in
      ROk (le_dec (src ++ repeat fill (8 - length src)))
  end.

(** type.c:185-193, the loop over the elements: [il] octets each, stored as eight
    octet host integers. *)
Fixpoint import_int_loop (expand : list Z -> Z -> res Z) (n : nat) (il : Z) (flags : Z) (src : list Z) : res (list Z) :=
  match n with
  | O => ROk []
  | S m =>
      rbind (expand (firstn (Z.to_nat il) src) flags) (fun x =>
      rbind (import_int_loop expand m il flags (skipn (Z.to_nat il) src)) (fun r =>
      ROk (le_enc 8 x ++ r)))
  end.

(** type.c:162-206 [__rrr_type_import_int].  Both products are 32 bit; if they wrap,
    the loop reads past the buffer or writes past the allocation. *)
Definition import_int (expand : list Z -> Z -> res Z) (v : value) (buf : list Z) : res (value * Z) :=
  let il := v_import_length v in
  if 8 <? il then RErr PARSE_SOFT
  else
    let total_size := u32 (v_elements v * il) in
    if zlen buf <? total_size then RErr PARSE_INCOMPLETE
    else
      let stored := u32 (v_elements v * 8) in
      if (zlen buf <? v_elements v * il) || (stored <? v_elements v * 8) then RUb
      else rbind (import_int_loop expand (Z.to_nat (v_elements v)) il (v_flags v) buf) (fun d =>
           ROk (set_type_data v TYPE_H d, total_size)).
(** type.c:203-216 *)
Definition import_le := import_int expand_le.
Definition import_be := import_int expand_be.
Definition import_host := import_le.

(** type.c:223-245 [__rrr_type_import_blob] *)
Definition import_blob (v : value) (buf : list Z) : res (value * Z) :=
  let total_size := u32 (v_import_length v * v_elements v) in
  if zlen buf <? total_size then RErr PARSE_INCOMPLETE
  else ROk (set_data v (sub_mem buf 0 total_size), total_size).

Fixpoint take_while (f : Z -> bool) (l : list Z) : list Z :=
  match l with [] => [] | c :: r => if f c then c :: take_while f r else [] end.

Definition is_digit (c : Z) : bool := (48 <=? c) && (c <=? 57).
(** Value of decimal digits. *)
Definition digits_value (ds : list Z) : Z := fold_left (fun a c => a * 10 + (c - 48)) ds 0.

(** strtoll and strtoull (C library) for base 10 on a text of digits and signs:
    sign, value of the digits, characters used; [None] if no number is found. *)
Definition strto_scan (s : list Z) : option (bool * Z * nat) :=
  let '(neg, slen, r) :=
    match s with
    | c :: r => if c =? 45 then (true, 1%nat, r) else if c =? 43 then (false, 1%nat, r) else (false, 0%nat, s)
    | [] => (false, 0%nat, s)
    end in
  let ds := take_while is_digit r in
  match ds with
  | [] => None
  | _ => Some (neg, digits_value ds, (slen + length ds)%nat)
  end.
(** Values out of range give the nearest limit (errno is not looked at). *)
Definition strtoll (s : list Z) : option (Z * nat) :=
  match strto_scan s with
  | None => None
  | Some (neg, x, n) => Some (if neg then Z.max (- x) (- 2^63) else Z.min x (2^63 - 1), n)
  end.
(** As above; a minus sign negates modulo 2^64, which is not reached here. *)
Definition strtoull (s : list Z) : option (Z * nat) :=
  match strto_scan s with
  | None => None
  | Some (neg, x, n) =>
      let x := Z.min x (2^64 - 1) in Some (if neg then u64 (- x) else x, n)
  end.

(** type.c:247-341 [__rrr_type_import_numeric_str_raw], with the conversion helpers
    of type.c:43-69: the 64 bit pattern and the octets used.  Characters beyond
    the 63rd are an error as soon as they are seen. *)
Definition number_char (sgn : bool) (c : Z) : bool := is_digit c || (c =? 43) || (sgn && (c =? 45)).
Definition is_blank (c : Z) : bool := (c =? 32) || (c =? 9).
Definition import_numeric_str_raw (sgn : bool) (buf : list Z) : res (Z * Z) :=
  if zlen buf <? 1 then RErr PARSE_INCOMPLETE
  else
    let blanks := take_while is_blank buf in
    let r := skipn (length blanks) buf in
    let number := take_while (number_char sgn) r in
    if 63 <? zlen number then RErr PARSE_SOFT
    else if zlen r <=? zlen number then RErr PARSE_INCOMPLETE
    else if zlen number =? 0 then RErr PARSE_SOFT
    else match (if sgn then strtoll number else strtoull number) with
         | None => RErr PARSE_SOFT
         | Some (x, n) =>
             if Nat.eqb n (length number) then ROk (u64 x, zlen number + zlen blanks)
             else RErr PARSE_SOFT
         end.

(** type.c:361-393 [__rrr_type_import_ustr], type.c:395-427 [__rrr_type_import_istr] *)
Definition import_num_str (sgn : bool) (v : value) (buf : list Z) : res (value * Z) :=
  if negb (v_elements v =? 1) then RBug
  else if negb (v_import_length v =? 0) then RBug
  else rbind (import_numeric_str_raw sgn buf) (fun '(x, n) =>
       ROk (set_flags (set_type_data v TYPE_H (le_enc 8 x))
              ((if sgn then flags_set_signed else flags_set_unsigned) (v_flags v)), n)).

(** type.h:154-178; octets from 128 on are negative chars and in no class. *)
Definition is_stx (c : Z) : bool := (1 <=? c) && (c <=? 2).
Definition is_sep_a (c : Z) : bool := (c =? 10) || (c =? 13) || (c =? 9).
Definition is_sep_f (c : Z) : bool := (c =? 0) || ((3 <=? c) && (c <=? 4)).
Definition is_sep (c : Z) : bool :=
  is_sep_a c || ((33 <=? c) && (c <=? 47)) || ((58 <=? c) && (c <=? 64))
  || ((91 <=? c) && (c <=? 96)) || ((123 <=? c) && (c <=? 126)) || is_sep_f c.

(** type.c:437-474 [__rrr_type_import_sep_stx] *)
Definition import_sep_stx (validate : Z -> bool) (v : value) (buf : list Z) : res (value * Z) :=
  let total_size := u32 (v_import_length v * v_elements v) in
  if zlen buf <? total_size then RErr PARSE_INCOMPLETE
  else
    let s := sub_mem buf 0 total_size in
    if forallb validate s then ROk (set_data v s, total_size) else RErr PARSE_SOFT.

(** type.c:1001-1041 [__get_import_length_str]: the scan after the opening quote
    counts octets until an unescaped quote. *)
Fixpoint str_scan (prev_was_backslash : bool) (s : list Z) (n : Z) : option Z :=
  match s with
  | [] => None
  | c :: r =>
      if negb prev_was_backslash && (c =? 34) then Some n
      else str_scan (negb prev_was_backslash && (c =? 92)) r (n + 1)
  end.
Definition get_import_length_str (buf : list Z) : res Z :=
  match buf with
  | [] => RErr PARSE_INCOMPLETE
  | c :: r =>
      if negb (c =? 34) then RErr PARSE_SOFT
      else match str_scan false r 1 with
           | None => RErr PARSE_INCOMPLETE
           | Some n => ROk (n + 1)
           end
  end.
(** type.c:1148-1165, stripping of escapes in place. *)
Fixpoint unescape (prev_was_backslash : bool) (s : list Z) : list Z :=
  match s with
  | [] => if prev_was_backslash then [92] else []
  | c :: r =>
      if negb prev_was_backslash && (c =? 92) then unescape true r
      else c :: unescape false r
  end.
(** type.c:1113-1168 [__rrr_type_import_str] *)
Definition import_str (v : value) (buf : list Z) : res (value * Z) :=
  if negb (v_elements v =? 1) then RBug
  else if negb (v_import_length v =? 0) then RBug
  else rbind (get_import_length_str buf) (fun il =>
       rbind (import_blob (set_import_length v (il - 2)) (skipn 1 buf)) (fun '(w, n) =>
       if negb (n + 2 =? il) then RBug
       else ROk (set_data (set_import_length w il) (unescape false (v_data w)), n + 2))).

(** type.c:1043-1073 [__get_import_length_nsep] *)
Fixpoint nsep_scan (s : list Z) (length : Z) : res Z :=
  match s with
  | [] => RErr PARSE_INCOMPLETE
  | c :: r =>
      if is_sep_a c || is_sep_f c then
        if length =? 0 then RErr PARSE_SOFT else ROk length
      else nsep_scan r (length + 1)
  end.
(** type.c:1075-1111 [__rrr_type_import_nsep] *)
Definition import_nsep (v : value) (buf : list Z) : res (value * Z) :=
  if negb (v_elements v =? 1) then RBug
  else if negb (v_import_length v =? 0) then RBug
  else rbind (nsep_scan buf 0) (fun il =>
       rbind (import_blob (set_import_length v il) buf) (fun '(w, n) =>
       if negb (n =? il) then RBug else ROk (w, n))).

(** Host memory of a message (struct rrr_msg_msg is packed). *)
Definition host_msg (m : rrr_msg_msg) : list Z :=
  let h := mm_head m in
  le_enc 4 (header_crc32 h) ++ le_enc 4 (msg_size h) ++ le_enc 2 (msg_type h) ++ le_enc 4 (msg_value h)
  ++ le_enc 4 (data_crc32 h) ++ le_enc 8 (mm_timestamp m) ++ [mm_type_and_class m] ++ [mm_version m]
  ++ le_enc 2 (mm_topic_length m) ++ mm_data m.
(** The message in host memory. *)
Definition read_host_msg (l : list Z) : rrr_msg_msg :=
  mk_mm (mk_msg (le_field l 0 4) (le_field l 4 4) (le_field l 8 2) (le_field l 10 4) (le_field l 14 4))
        (le_field l 18 8) (le_field l 26 1) (le_field l 27 1) (le_field l 28 2)
        (sub_mem l 30 (zlen l - 30)).

(** type.c:494-544 [__rrr_type_msg_to_host_single] on the rest of the block;
    [after] is the memory after the block, see [message_validate]. *)
Definition msg_to_host_single (data after : list Z) : res rrr_msg_msg :=
  match get_target_size data with
  | Ok size =>
      if zlen data <? size then RErr PARSE_SOFT
      else match head_to_host_and_verify data size with
      | Ok h =>
          match check_data_checksum_and_length h data size with
          | Ok h =>
              match msg_msg_to_host_and_verify h (sub_mem data 0 size) (skipn (Z.to_nat size) data ++ after) size with
              | Ok m => ROk m
              | Err _ => RErr PARSE_SOFT
              | Abort => RBug
              end
          | Err _ => RErr PARSE_SOFT
          | Abort => RBug
          end
      | Err _ => RErr PARSE_SOFT
      | Abort => RBug
      end
  | Err _ => RErr PARSE_SOFT
  | Abort => RBug
  end.
(** type.c:546-572 [__rrr_type_msg_unpack], the loop: block in host order and
    number of messages.  Every message is at least 30 octets, so the length of
    the block is enough fuel. *)
Fixpoint msg_unpack_loop (fuel : nat) (data after : list Z) : res (list Z * Z) :=
  match data with
  | [] => ROk ([], 0)
  | _ =>
      match fuel with
      | O => RBug
      | S f =>
          rbind (msg_to_host_single data after) (fun m =>
          rbind (msg_unpack_loop f (skipn (Z.to_nat (msg_size (mm_head m))) data) after) (fun '(d, n) =>
          ROk (host_msg m ++ d, n + 1)))
      end
  end.
Definition msg_unpack (after : list Z) (v : value) : res value :=
  rbind (msg_unpack_loop (length (v_data v)) (v_data v) after) (fun '(d, n) =>
  ROk (set_elements (set_data v d) (u32 n))).

(** type.c:592-623, the loop over [element_count] messages; the message pointer is
    not advanced in the code, so the same header is looked at every time. *)
Fixpoint import_msg_loop (n : nat) (buf : list Z) (remaining total : Z) (count : Z) : res (Z * Z) :=
  if remaining <=? 0 then ROk (total, count)
  else match n with
  | O => ROk (total, count)
  | S m =>
      if remaining <? MSG_MSG_MIN then RErr PARSE_INCOMPLETE
      else match get_target_size buf with
      | Ok size =>
          if zlen buf <? total + size then RErr PARSE_INCOMPLETE
          else import_msg_loop m buf (remaining - size) (total + size) (count + 1)
      | _ => RErr PARSE_SOFT
      end
  end.
(** type.c:574-657 [__rrr_type_import_msg].  The total is at most the buffer
    length, so the check against RRR_LENGTH_MAX never applies. *)
Definition import_msg (after : list Z) (v : value) (buf : list Z) : res (value * Z) :=
  rbind (import_msg_loop (Z.to_nat (v_elements v)) buf (zlen buf) 0 0) (fun '(total, count) =>
  if negb (count =? v_elements v) && negb (v_elements v =? 0) then RErr PARSE_SOFT
  else rbind (msg_unpack after (set_data v (sub_mem buf 0 total))) (fun w => ROk (w, total))).

(** type.c:659-667 [__rrr_type_import_vain] *)
Definition import_vain (v : value) (buf : list Z) : res (value * Z) := ROk (v, 0).

(** type.c:669-710 [__rrr_type_import_hdlc] *)
Definition import_hdlc (v : value) (buf : list Z) : res (value * Z) :=
  match hdlc_parse hdlc_init buf with
  | (HIncomplete, _, _) => RErr PARSE_INCOMPLETE
  | (HSoftError, _, _) => RErr PARSE_SOFT
  | (HOverflow, _, _) => RUb
  | (HOk, s, rest) =>
      if zlen (h_result s) =? 0 then RBug
      else ROk (set_elements (set_type_data v TYPE_HDLC (h_result s)) 1, zlen buf - zlen rest)
  end.

(** type.c:949-999 [__rrr_type_import_fixp] *)
Definition import_fixp (v : value) (buf : list Z) : res (value * Z) :=
  if negb (v_elements v =? 1) then RBug
  else if negb (v_import_length v =? 0) then RBug
  else match str_to_fixp buf with
  | FOk (x, used) =>
      if Z.of_nat used =? zlen buf then RErr PARSE_INCOMPLETE
      else ROk (set_data v (le_enc 8 (u64 x)), Z.of_nat used)
  | FErr _ => RErr PARSE_SOFT
  | FBug => RBug
  | FUb => RUb
  end.

(** type.c:1389-1404, the import column of the type table.  Type err always fails;
    an unknown type has no import function (array_tree.c:1351 aborts). *)
Definition do_import (after : list Z) (v : value) (buf : list Z) : res (value * Z) :=
  let t := v_type v in
  if t =? TYPE_BE then import_be v buf
  else if t =? TYPE_H then import_host v buf
  else if t =? TYPE_LE then import_le v buf
  else if t =? TYPE_BLOB then import_blob v buf
  else if t =? TYPE_USTR then import_num_str false v buf
  else if t =? TYPE_ISTR then import_num_str true v buf
  else if t =? TYPE_SEP then import_sep_stx is_sep v buf
  else if t =? TYPE_MSG then import_msg after v buf
  else if t =? TYPE_FIXP then import_fixp v buf
  else if t =? TYPE_STR then import_str v buf
  else if t =? TYPE_NSEP then import_nsep v buf
  else if t =? TYPE_STX then import_sep_stx is_stx v buf
  else if t =? TYPE_ERR then RErr PARSE_SOFT
  else if t =? TYPE_VAIN then import_vain v buf
  else if t =? TYPE_HDLC then import_hdlc v buf
  else RBug.

(** ** Pack and unpack *)

(** Reversal of every group of eight octets: conversion between host and network
    order of an array of 64 bit integers in place. *)
Fixpoint swap64 (n : nat) (l : list Z) : list Z :=
  match n with
  | O => []
  | S m => rev (firstn 8 l) ++ swap64 m (skipn 8 l)
  end.
(** type.c:712-729 [__rrr_type_64_unpack], type.c:741-760
    [__rrr_type_64_export_or_pack] *)
Definition conv64 (d : list Z) : res (list Z) :=
  if zlen d mod 8 =? 0 then ROk (swap64 (Z.to_nat (zlen d / 8)) d) else RErr 1.

(** type.c:827-870 [__rrr_type_msg_pack_or_export]; the addition is 32 bit. *)
Fixpoint msg_pack_loop (fuel : nat) (pos total : Z) (data : list Z) : res (list Z) :=
  match data with
  | [] => ROk []
  | _ =>
      match fuel with
      | O => RBug
      | S f =>
          if zlen data <? 8 then RUb
          else
            let size := le_field data 4 4 in
            if size <? MSG_MSG_MIN then RErr 1
            else if total <? u32 (pos + size) then RErr 1
            else if zlen data <? size then RUb
            else
              let m := read_host_msg (sub_mem data 0 size) in
              rbind (msg_pack_loop f (u32 (pos + size)) total (skipn (Z.to_nat size) data)) (fun r =>
              ROk (msg_msg_to_network m ++ r))
      end
  end.
Definition msg_pack (d : list Z) : res (list Z) := msg_pack_loop (length d) 0 (zlen d) d.

(** type.c:1389-1404, the pack column: new type id and octets written; a type
    without pack function makes the caller abort (array.c:851). *)
Definition pack (v : value) : res (Z * list Z) :=
  let t := v_type v in
  if t =? TYPE_H then rbind (conv64 (v_data v)) (fun d => ROk (TYPE_BE, d))
  else if t =? TYPE_FIXP then rbind (conv64 (v_data v)) (fun d => ROk (TYPE_FIXP, d))
  else if (t =? TYPE_BLOB) || (t =? TYPE_SEP) || (t =? TYPE_NSEP) || (t =? TYPE_STX) || (t =? TYPE_HDLC) then
    if zlen (v_data v) =? 0 then RErr 1 else ROk (t, v_data v)
  else if t =? TYPE_STR then ROk (t, v_data v)
  else if t =? TYPE_MSG then rbind (msg_pack (v_data v)) (fun d => ROk (TYPE_MSG, d))
  else if t =? TYPE_VAIN then ROk (TYPE_VAIN, [])
  else RBug.

(** type.c:1389-1404: types with an unpack function, and the function. *)
Definition has_unpack (t : Z) : bool :=
  (t =? TYPE_BE) || (t =? TYPE_BLOB) || (t =? TYPE_SEP) || (t =? TYPE_MSG) || (t =? TYPE_FIXP)
  || (t =? TYPE_STR) || (t =? TYPE_NSEP) || (t =? TYPE_STX) || (t =? TYPE_VAIN) || (t =? TYPE_HDLC).
Definition unpack (after : list Z) (v : value) : res value :=
  let t := v_type v in
  if t =? TYPE_BE then rbind (conv64 (v_data v)) (fun d => ROk (set_type_data v TYPE_H d))
  else if t =? TYPE_FIXP then rbind (conv64 (v_data v)) (fun d => ROk (set_type_data v TYPE_FIXP d))
  else if (t =? TYPE_BLOB) || (t =? TYPE_SEP) || (t =? TYPE_NSEP) || (t =? TYPE_STX) || (t =? TYPE_HDLC) then
    if zlen (v_data v) =? 0 then RErr 1 else ROk v
  else if (t =? TYPE_STR) || (t =? TYPE_VAIN) then ROk v
  else if t =? TYPE_MSG then msg_unpack after v
  else RErr 1.

(** type.c:1549-1600 [rrr_type_value_new_and_unpack]; the tag is the first part of
    the given memory, the data follows it. *)
Definition value_new_and_unpack (after : list Z) (type flags : Z) (tag data : list Z) (elements : Z) : res value :=
  unpack after (mk_value type flags tag (zlen data) elements data).

(** ** Export *)

(** type.c:876-899 [__rrr_type_str_get_export_length] *)
Definition needs_escape (c : Z) : bool := (c =? 92) || (c =? 34).
Definition str_export_length (d : list Z) : res Z :=
  let n := zlen d + 2 + zlen (filter needs_escape d) in
  if 2^32 - 1 <? n then RErr 1 else ROk n.
(** type.c:901-924 [__rrr_type_str_export] *)
Definition str_escape (d : list Z) : list Z :=
  flat_map (fun c => if needs_escape c then [92; c] else [c]) d.
Definition str_export (d : list Z) : list Z := [34] ++ str_escape d ++ [34].

(** type.c:1748-1761 [rrr_type_value_get_export_length] *)
Definition get_export_length (v : value) : res Z :=
  if v_type v =? TYPE_STR then str_export_length (v_data v)
  else if v_type v =? TYPE_HDLC then
    match hdlc_export_length (v_data v) with Some n => ROk n | None => RErr 1 end
  else ROk (zlen (v_data v)).
(** type.c:1389-1404, the export column; exporting a fixed point value aborts
    (type.c:776). *)
Definition do_export (v : value) : res (list Z) :=
  let t := v_type v in
  if t =? TYPE_H then conv64 (v_data v)
  else if (t =? TYPE_BLOB) || (t =? TYPE_SEP) || (t =? TYPE_NSEP) || (t =? TYPE_STX) then
    if zlen (v_data v) =? 0 then RErr 1 else ROk (v_data v)
  else if t =? TYPE_MSG then msg_pack (v_data v)
  else if t =? TYPE_STR then ROk (str_export (v_data v))
  else if t =? TYPE_VAIN then ROk []
  else if t =? TYPE_HDLC then ROk (hdlc_export (v_data v))
  else RBug.
(** type.c:1763-1799 [rrr_type_value_allocate_and_export]: writing more than the
    allocation is undefined. *)
Definition allocate_and_export (v : value) : res (list Z) :=
  rbind (get_export_length v) (fun size =>
  match do_export v with
  | ROk d => if size <? zlen d then RUb else ROk d
  | RErr _ => RErr 1
  | RBug => RBug
  | RUb => RUb
  end).

(** ** Conversions *)

(** Decimal text of a number (printf %lu, %li). *)
Definition dec_text (n : Z) : list Z := Dec.dec_str n.
Definition dec_text_signed (x : Z) : list Z := if x <? 0 then 45 :: dec_text (- x) else dec_text x.
(** Two's complement reading of a 64 bit pattern. *)
Definition as_signed (x : Z) : Z := if x <? 2^63 then x else x - 2^64.
(** The 64 bit numbers of a block. *)
Fixpoint numbers (n : nat) (d : list Z) : list Z :=
  match n with O => [] | S m => le_dec (firstn 8 d) :: numbers m (skipn 8 d) end.
(** type.c:1217-1229, the loop: each number is printed after the text so far, with
    its NUL; [room] is the space left. *)
Fixpoint h_to_str_loop (flags : Z) (first : bool) (xs : list Z) (room : Z) : res (list Z) :=
  match xs with
  | [] => ROk []
  | x :: r =>
      let t := (if first then [] else [44]) ++ (if is_signed flags then dec_text_signed (as_signed x) else dec_text x) in
      if room <? zlen t + 1 then RUb
      else rbind (h_to_str_loop flags false r (room - zlen t)) (fun s => ROk (t ++ s))
  end.
(** type.c:1212-1240 [__rrr_type_h_to_str].  A last group shorter than eight octets
    is read past the block. *)
Definition h_to_str (v : value) : res (list Z) :=
  let d := v_data v in
  let output_size := u32 (zlen d * 4) in
  if negb (zlen d mod 8 =? 0) then RUb
  else rbind (h_to_str_loop (v_flags v) true (numbers (Z.to_nat (zlen d / 8)) d) output_size) (fun s =>
       if output_size <=? u32 (output_size - 1) then RUb else ROk s).

(** type.c:1297-1306 [__rrr_type_blob_to_64]: the last eight octets *)
Definition blob_to_64 (d : list Z) : Z :=
  let n := Z.min (zlen d) 8 in
  if n =? 0 then 0 else be_dec (skipn (Z.to_nat (zlen d - n)) d).
(** type.c:1389-1404, the to_64 column *)
Definition to_64 (v : value) : res Z :=
  let t := v_type v in
  if (t =? TYPE_BE) || (t =? TYPE_H) || (t =? TYPE_LE) then
    if zlen (v_data v) <? 8 then RUb else ROk (le_dec (firstn 8 (v_data v)))
  else if t =? TYPE_VAIN then ROk 0
  else if t =? TYPE_HDLC then ROk 1
  else if t =? TYPE_ERR then RUb
  else ROk (blob_to_64 (v_data v)).

(** type.c:1321-1337 [__rrr_type_str_to_ull]: strtoull on at most 255 octets of the
    first element, up to a NUL; leading blanks are skipped by strtoull and no
    number gives 0. *)
Definition is_c_space (c : Z) : bool := (c =? 32) || ((9 <=? c) && (c <=? 13)).
Definition str_to_ull (v : value) : res Z :=
  let d := v_data v in
  if zlen d =? 0 then ROk 0
  else if v_elements v =? 0 then RUb
  else
    let element_size := zlen d / v_elements v in
    let length := if element_size <? 256 then element_size else 255 in
    let text := c_string (sub_mem d 0 length) in
    let text := skipn (List.length (take_while is_c_space text)) text in
    ROk (match strtoull text with Some (x, _) => x | None => 0 end).
