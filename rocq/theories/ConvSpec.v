(** What the conversions of values are documented to do (misc/man/rrr.conf.5, mangler and CONVERSION
    METHODS).  Numbers, decimal texts and memory of integers are those of TypeSpec. *)
From Coq Require Import ZArith List Bool.
From Verif Require Import Common TypeModel TypeSpec ConvTypes.
Import ListNotations.
Open Scope Z_scope.

(** Blanks and a decimal number. *)
Definition blanked (sgn : bool) (t : list Z) (x : Z) : Prop :=
  exists blanks text, t = blanks ++ text /\ Forall (fun c => c = 32) blanks /\ decimal sgn text x.
(** As [h2str] writes numbers: one as it is, more than one each in 20 places. *)
Definition written (many sgn : bool) (t : list Z) (x : Z) : Prop :=
  if many then blanked sgn t x /\ zlen t = 20 else decimal sgn t x.

(** Reading hexadecimal text. *)
Definition hex_value (c : Z) : option Z :=
  if (48 <=? c) && (c <=? 57) then Some (c - 48) else if (97 <=? c) && (c <=? 102) then Some (c - 87) else None.
Fixpoint unhex (s : list Z) : option (list Z) :=
  match s with
  | [] => Some []
  | a :: b :: r => match hex_value a, hex_value b, unhex r with Some x, Some y, Some l => Some (16 * x + y :: l) | _, _, _ => None end
  | _ => None
  end.

(** The types of a value. *)
Definition integer_types : list Z := [TYPE_LE; TYPE_BE; TYPE_H; TYPE_USTR; TYPE_ISTR].
Definition blob_types (f : flags) : list Z :=
  if strict_blobs f then [TYPE_BLOB] else [TYPE_BLOB; TYPE_SEP; TYPE_MSG; TYPE_STR; TYPE_NSEP; TYPE_STX; TYPE_HDLC].
Definition string_types (f : flags) : list Z := if strict_strings f then [TYPE_STR] else [TYPE_STR; TYPE_SEP; TYPE_NSEP; TYPE_STX].

(** A value whose elements are equal parts of its data; of 8 octets each if they are integers. *)
Definition well_formed (v : value) : Prop :=
  bytes (v_data v) /\ 1 <= v_elements v /\ zlen (v_data v) mod v_elements v = 0 /\
  (In (v_type v) integer_types -> zlen (v_data v) = 8 * v_elements v).

(** A recipe: all conversions are applied from left to right, and one which is not possible (4) is
    skipped. *)
Fixpoint recipe (convert : method -> value -> res value) (ms : list method) (v : value) : res value :=
  match ms with
  | [] => ROk v
  | m :: r => match convert m v with
              | ROk w => recipe convert r w
              | RErr e => if e =? 4 then recipe convert r v else RErr e
              | x => x
              end
  end.
