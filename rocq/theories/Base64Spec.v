(** Independent specification of Base64 (RFC 4648, sections 4 and 5), in
    arithmetic on 24 bit groups and without tables. *)
From Coq Require Import ZArith List Bool.
From Verif Require Import Common.
Import ListNotations.
Open Scope Z_scope.

(** Character for a 6 bit value; [c62] and [c63] are the two scheme dependent
    characters ('+' and '/', or '-' and '_'). *)
Definition rfc_char (c62 c63 v : Z) : Z :=
  if v <? 26 then 65 + v
  else if v <? 52 then 97 + (v - 26)
  else if v <? 62 then 48 + (v - 52)
  else if v =? 62 then c62 else c63.

(** 6 bit value of a character, if it is in the alphabet. *)
Definition rfc_value (c62 c63 c : Z) : option Z :=
  if (65 <=? c) && (c <=? 90) then Some (c - 65)
  else if (97 <=? c) && (c <=? 122) then Some (c - 97 + 26)
  else if (48 <=? c) && (c <=? 57) then Some (c - 48 + 52)
  else if c =? c62 then Some 62
  else if c =? c63 then Some 63
  else None.

(** The four characters of a 24 bit group [n]. *)
Definition rfc_quad (c62 c63 n : Z) : list Z :=
  map (rfc_char c62 c63) [n / 2^18; (n / 2^12) mod 64; (n / 2^6) mod 64; n mod 64].

(** RFC 4648 encoding; [pad] is what is appended for a missing character. *)
Fixpoint rfc_encode (c62 c63 : Z) (pad : list Z) (src : list Z) : list Z :=
  match src with
  | a :: b :: c :: rest => rfc_quad c62 c63 (a * 2^16 + b * 2^8 + c) ++ rfc_encode c62 c63 pad rest
  | [a; b] => firstn 3 (rfc_quad c62 c63 (a * 2^16 + b * 2^8)) ++ pad
  | [a] => firstn 2 (rfc_quad c62 c63 (a * 2^16)) ++ pad ++ pad
  | [] => []
  end.

(** Text folded into lines of 72 characters, each ended by a line feed; only
    the last line may be shorter, no line is empty. *)
Fixpoint full_lines (lines : list (list Z)) : Prop :=
  match lines with
  | [] => True
  | [l] => 0 < zlen l <= 72
  | l :: r => zlen l = 72 /\ full_lines r
  end.
Definition folded (text out : list Z) : Prop :=
  exists lines, full_lines lines /\ text = concat lines /\
                out = concat (map (fun l => l ++ [10]) lines).

(** Decoding of groups of four characters.  [eq_pad]: '=' counts as a padding
    character with value zero.  Decoding stops at the first padded group. *)
Definition val_or_pad (c62 c63 : Z) (c : Z) : Z :=
  match rfc_value c62 c63 c with Some v => v | None => 0 end.
Definition is_pad (c : Z) : Z := if c =? 61 then 1 else 0.
Fixpoint rfc_decode (c62 c63 : Z) (cs : list Z) : option (list Z) :=
  match cs with
  | a :: b :: c :: d :: rest =>
      let v := val_or_pad c62 c63 in
      let n := v a * 2^18 + v b * 2^12 + v c * 2^6 + v d in
      let o := [n / 2^16; (n / 2^8) mod 256; n mod 256] in
      let pads := is_pad a + is_pad b + is_pad c + is_pad d in
      if pads =? 0 then
        match rfc_decode c62 c63 rest with Some r => Some (o ++ r) | None => None end
      else if pads =? 1 then Some (firstn 2 o)
      else if pads =? 2 then Some (firstn 1 o)
      else None
  | _ => Some []
  end.
(** Members of the alphabet; the standard alphabet includes the pad. *)
Definition std_alpha (c : Z) : bool :=
  match rfc_value 43 47 c with Some _ => true | None => c =? 61 end.
Definition url_alpha (c : Z) : bool :=
  match rfc_value 45 95 c with Some _ => true | None => false end.
