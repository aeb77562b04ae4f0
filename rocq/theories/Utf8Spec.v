(** UTF-8 as defined by RFC 3629, section 3. *)
From Coq Require Import ZArith List Bool.
From Verif Require Import Common.
Import ListNotations.
Open Scope Z_scope.

(** Unicode scalar values: 0..10FFFF without the surrogates D800..DFFF. *)
Definition scalar (c : Z) : Prop := 0 <= c < 55296 \/ 57344 <= c <= 1114111.

(** The shortest encoding of a code point. *)
Definition utf8_encode (c : Z) : list Z :=
  if c <? 128 then [c]
  else if c <? 2048 then [192 + c / 64; 128 + c mod 64]
  else if c <? 65536 then [224 + c / 4096; 128 + (c / 64) mod 64; 128 + c mod 64]
  else [240 + c / 262144; 128 + (c / 4096) mod 64; 128 + (c / 64) mod 64; 128 + c mod 64].

Definition utf8_encode_all (cs : list Z) : list Z := flat_map utf8_encode cs.

(** Well formed octet strings. *)
Definition utf8_well_formed (s : list Z) : Prop := exists cs, Forall scalar cs /\ s = utf8_encode_all cs.

(** Running a callback over code points until it returns non-zero. *)
Fixpoint cb_run {A} (cb : A -> Z -> Z * A) (st : A) (cs : list Z) : Z * A :=
  match cs with
  | [] => (0, st)
  | c :: r => let '(ret, st') := cb st c in if ret =? 0 then cb_run cb st' r else (ret, st')
  end.
