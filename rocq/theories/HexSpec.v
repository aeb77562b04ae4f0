(** What a lower case hexadecimal dump is. *)
From Coq Require Import ZArith List.
From Verif Require Import Common.
Import ListNotations.
Open Scope Z_scope.

Definition hex_digits : list Z := str_bytes "0123456789abcdef".
(** Digit character for 0..15. *)
Definition hex_digit (d : Z) : Z := nth (Z.to_nat d) hex_digits 0.
(** Two digits per octet, high nibble first. *)
Definition hex_string (s : list Z) : list Z :=
  flat_map (fun b => [hex_digit (b / 16); hex_digit (b mod 16)]) s.
