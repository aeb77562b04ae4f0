(** Independent specification of HDLC-like framing with octet stuffing. *)
From Coq Require Import ZArith List.
From Verif Require Import Common.
Import ListNotations.
Open Scope Z_scope.

(** [stuffed body data]: [body] is a stuffed form of [data].  0x7e never occurs
    unescaped, 0x7d only as the escape octet; the octet after an escape is the
    data octet with bit 5 inverted. *)
Inductive stuffed : list Z -> list Z -> Prop :=
| stuffed_nil : stuffed [] []
| stuffed_plain : forall c body data, c <> 126 -> c <> 125 -> stuffed body data ->
    stuffed (c :: body) (c :: data)
| stuffed_esc : forall c body data, stuffed body data ->
    stuffed (125 :: c :: body) (Z.lxor c 32 :: data).

(** [framed stream data rest]: [stream] consists of octets other than 0x7e, at
    least one opening 0x7e, a stuffed body for [data], the closing 0x7e, and
    [rest]. *)
Definition framed (stream data rest : list Z) : Prop :=
  exists noise k body,
    ~ In 126 noise /\ stuffed body data /\
    stream = noise ++ repeat 126 (S k) ++ body ++ [126] ++ rest.
