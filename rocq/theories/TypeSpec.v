(** What typed values are to look like, independent of the code. *)
From Coq Require Import ZArith List Bool.
From Verif Require Import Common MsgModel MsgProofs TypeModel.
Import ListNotations.
Open Scope Z_scope.

(** Value of a group of octets as an integer, given the order of the octets and
    whether the topmost bit is a sign (two's complement). *)
Definition group_value (big sgn : bool) (g : list Z) : Z :=
  let x := be_dec (if big then g else rev g) in
  if sgn && (2 ^ (8 * zlen g - 1) <=? x) then x - 2 ^ (8 * zlen g) else x.

(** Memory of 64 bit integers on a little endian host, two's complement. *)
Definition int64_memory (xs : list Z) : list Z := flat_map (fun x => rev (be_enc 8 (x mod 2^64))) xs.

(** A decimal number: optional sign and digits. *)
Inductive sign_of (sgn : bool) : bool -> list Z -> Prop :=
| SO_none : sign_of sgn false []
| SO_plus : sign_of sgn false [43]
| SO_minus : sgn = true -> sign_of sgn true [45].
Definition digit (c : Z) : Prop := 48 <= c <= 57.
Definition decimal_value (ds : list Z) : Z := fold_left (fun a c => a * 10 + (c - 48)) ds 0.
(** [decimal sgn text x]: the text denotes the integer [x]. *)
Definition decimal (sgn : bool) (text : list Z) (x : Z) : Prop :=
  exists neg s ds, sign_of sgn neg s /\ ds <> [] /\ Forall digit ds /\ text = s ++ ds /\
    x = if neg then - decimal_value ds else decimal_value ds.
(** Limits of the 64 bit types. *)
Definition clamp64 (sgn : bool) (x : Z) : Z :=
  if sgn then Z.max (- 2^63) (Z.min x (2^63 - 1)) else Z.min x (2^64 - 1).
(** A character which may belong to a number. *)
Definition in_number (sgn : bool) (c : Z) : Prop := digit c \/ c = 43 \/ (sgn = true /\ c = 45).

(** Content of a quoted string: quotes and backslashes stand behind a backslash,
    and a backslash takes the next octet literally. *)
Inductive quoted : list Z -> list Z -> Prop :=
| Q_nil : quoted [] []
| Q_plain c text data : c <> 34 -> c <> 92 -> quoted text data -> quoted (c :: text) (c :: data)
| Q_escape c text data : quoted text data -> quoted (92 :: c :: text) (c :: data).

(** Separator characters (type.h:154-178 lists them in comments): control
    characters NUL ETX EOT TAB LF CR and printable characters other than space,
    letters and digits. *)
Definition separator (c : Z) : Prop :=
  In c [0; 3; 4; 9; 10; 13] \/
  (33 <= c <= 126 /\ ~ digit c /\ ~ 65 <= c <= 90 /\ ~ 97 <= c <= 122).
(** Those ending a text field. *)
Definition field_end (c : Z) : Prop := In c [0; 3; 4; 9; 10; 13].

(** Numbers separated by commas. *)
Fixpoint comma_list (ts : list (list Z)) : list Z :=
  match ts with
  | [] => []
  | t :: r => match r with [] => t | _ => t ++ 44 :: comma_list r end
  end.
Definition number_list (sgn : bool) (xs : list Z) (out : list Z) : Prop :=
  exists texts, out = comma_list texts /\ Forall2 (decimal sgn) texts xs.
(** Range of the 64 bit types. *)
Definition int64_range (sgn : bool) (x : Z) : Prop :=
  if sgn then - 2^63 <= x < 2^63 else 0 <= x < 2^64.

(** Import definitions as the definition parser makes them (array_tree.c), with
    sizes that do not overflow. *)
Definition sane (v : value) : Prop :=
  let t := v_type v in
  (In t [TYPE_BE; TYPE_H; TYPE_LE] -> 1 <= v_import_length v <= 8 /\ 1 <= v_elements v /\ v_elements v * 8 < 2^32) /\
  (In t [TYPE_BLOB; TYPE_SEP; TYPE_STX] -> 1 <= v_import_length v * v_elements v < 2^32) /\
  (In t [TYPE_USTR; TYPE_ISTR; TYPE_FIXP; TYPE_STR; TYPE_NSEP] -> v_elements v = 1 /\ v_import_length v = 0) /\
  In t [TYPE_BE; TYPE_H; TYPE_LE; TYPE_BLOB; TYPE_USTR; TYPE_ISTR; TYPE_SEP; TYPE_FIXP; TYPE_STR; TYPE_NSEP;
        TYPE_STX; TYPE_ERR; TYPE_VAIN; TYPE_HDLC].

(** Values which array messages can carry: 64 bit numbers, fixed point numbers,
    octets, and messages. *)
Definition packable (v : value) : Prop :=
  bytes (v_data v) /\ zlen (v_data v) < 2^32 /\ v_import_length v = zlen (v_data v) /\
  ( (In (v_type v) [TYPE_H; TYPE_FIXP] /\ zlen (v_data v) mod 8 = 0) \/
    (In (v_type v) [TYPE_BLOB; TYPE_SEP; TYPE_NSEP; TYPE_STX; TYPE_HDLC] /\ v_data v <> []) \/
    v_type v = TYPE_STR \/
    (v_type v = TYPE_VAIN /\ v_data v = []) \/
    (v_type v = TYPE_MSG /\ exists ms, Forall (fun m => mm_ok m /\ header_crc32 (mm_head m) = 0 /\ data_crc32 (mm_head m) = 0) ms /\
       v_data v = concat (map host_msg ms) /\ v_elements v = zlen ms) ).
