(** Vocabulary for the message properties, independent of the code. *)
From Coq Require Import ZArith List.
From Verif Require Import Common Crc32Spec.
Import ListNotations.
Open Scope Z_scope.

(** [y] is [x] with some bits inside a window of at most 32 bits changed. *)
Definition burst_error (x y : list Z) : Prop :=
  exists before w w' after,
    bits_of x = before ++ w ++ after /\ bits_of y = before ++ w' ++ after /\
    length w = length w' /\ (length w <= 32)%nat /\ w <> w'.

(** A C string: octets without NUL. *)
Definition c_text (s : list Z) : Prop := bytes s /\ ~ In 0 s.
