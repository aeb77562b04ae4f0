(** Model of src/lib/hdlc/hdlc.c. *)
From Coq Require Import ZArith List Bool.
From Verif Require Import Common.
Import ListNotations.
Open Scope Z_scope.

(** hdlc.c:29-31 *)
Definition BYTE_FRAME : Z := 126.
Definition BYTE_ESCAPE : Z := 125.
Definition BYTE_XOR : Z := 32.

(** hdlc.h:34 [RRR_HDLC_MAX], the size of the result buffer. *)
Definition HDLC_MAX : Z := 4096.

(** hdlc.h:36-41 *)
Inductive hdlc_flag : Type := HIdle | HFrame | HEscape | HDone.

(** hdlc.h:43-48; [h_result] is result[0 .. result_wpos-1].  The parse
    position is passed separately as the list of remaining octets. *)
Record hdlc_state : Type := { h_flag : hdlc_flag; h_result : list Z }.

(** hdlc.c:35-42 [rrr_hdlc_parse_state_init] *)
Definition hdlc_init : hdlc_state := {| h_flag := HIdle; h_result := [] |}.

(** Return values (hdlc.h:28-30).  [HOverflow] stands for a write outside
    result[], which the C code would perform if the check in PUSH failed. *)
Inductive hdlc_ret : Type := HOk | HIncomplete | HSoftError | HOverflow.

(** hdlc.c:44-52 [__rrr_hdlc_parse_frame_done_verify_size] *)
Definition hdlc_verify_size (s : hdlc_state) : hdlc_ret :=
  if zlen (h_result s) =? 0 then HSoftError else HOk.

(** hdlc.c:54-59 [PUSH] *)
Inductive push_result : Type := PushOk (s : hdlc_state) | PushFull | PushOverflow.
Definition hdlc_push (flag : hdlc_flag) (s : hdlc_state) (c : Z) : push_result :=
  if zlen (h_result s) =? HDLC_MAX - 1 then PushFull
  else if HDLC_MAX <=? zlen (h_result s) then PushOverflow
  else PushOk {| h_flag := flag; h_result := h_result s ++ [c] |}.

(** hdlc.c:63-101 [rrr_hdlc_parse_frame].  Result: return value, state, octets
    not consumed.  Every iteration consumes one octet or returns, so the loop is
    recursion on the remaining octets. *)
Fixpoint hdlc_parse (s : hdlc_state) (input : list Z) : hdlc_ret * hdlc_state * list Z :=
  match input with
  | [] => (HIncomplete, s, [])
  | c :: rest =>
      match h_flag s with
      | HIdle =>
          if c =? BYTE_FRAME then hdlc_parse {| h_flag := HFrame; h_result := h_result s |} rest
          else hdlc_parse s rest
      | HFrame =>
          if c =? BYTE_ESCAPE then hdlc_parse {| h_flag := HEscape; h_result := h_result s |} rest
          else if c =? BYTE_FRAME then
            if zlen (h_result s) =? 0 then hdlc_parse s rest
            else let s := {| h_flag := HDone; h_result := h_result s |} in
                 (hdlc_verify_size s, s, rest)
          else match hdlc_push HFrame s c with
               | PushOk s => hdlc_parse s rest
               | PushFull => (HSoftError, s, input)
               | PushOverflow => (HOverflow, s, input)
               end
      | HEscape =>
          match hdlc_push HFrame s (Z.lxor c BYTE_XOR) with
          | PushOk s => hdlc_parse s rest
          | PushFull => (HSoftError, s, input)
          | PushOverflow => (HOverflow, s, input)
          end
      | HDone => (hdlc_verify_size s, s, input)
      end
  end.

(** hdlc.c:33 [MUST_ESCAPE] *)
Definition must_escape (c : Z) : bool := (c =? BYTE_FRAME) || (c =? BYTE_ESCAPE).

(** hdlc.c:112-114, the counting loop *)
Fixpoint hdlc_count (data : list Z) : Z :=
  match data with
  | [] => 0
  | c :: r => (if must_escape c then 2 else 1) + hdlc_count r
  end.

(** hdlc.c:103-126 [rrr_hdlc_get_export_length]; [None] is the error return.
    The 64 bit accumulator cannot wrap since the data size is 32 bit. *)
Definition hdlc_export_length (data : list Z) : option Z :=
  let n := hdlc_count data + 2 in
  if HDLC_MAX <? n then None else Some n.

(** hdlc.c:139-147, the escaping loop *)
Fixpoint hdlc_escape (data : list Z) : list Z :=
  match data with
  | [] => []
  | c :: r => (if must_escape c then [BYTE_ESCAPE; Z.lxor c BYTE_XOR] else [c]) ++ hdlc_escape r
  end.

(** hdlc.c:129-152 [rrr_hdlc_export_frame]: everything written to [target]. *)
Definition hdlc_export (data : list Z) : list Z :=
  [BYTE_FRAME] ++ hdlc_escape data ++ [BYTE_FRAME].

(** type.c:669-710 [__rrr_type_import_hdlc]: the parser is initialised afresh for
    each value; this is the loop over [n] consecutive values of an array
    definition.  Stops when a frame is incomplete or invalid. *)
Fixpoint hdlc_parse_many (n : nat) (stream : list Z) : list (list Z) * list Z :=
  match n with
  | O => ([], stream)
  | S m =>
      match hdlc_parse hdlc_init stream with
      | (HOk, s, rest) => let '(ds, rest') := hdlc_parse_many m rest in (h_result s :: ds, rest')
      | (_, _, _) => ([], stream)
      end
  end.
