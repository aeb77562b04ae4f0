(** Independent specification of CRC-32 (ISO-HDLC / IEEE 802.3): remainder of
    polynomial division over GF(2).  A polynomial is a non-negative [Z] whose bit
    [i] is the coefficient of x^i; addition is exclusive or; multiplication by
    x^k is a left shift. *)
From Coq Require Import ZArith List Bool.
From Verif Require Import Common.
Import ListNotations.
Open Scope Z_scope.

(** x^32+x^26+x^23+x^22+x^16+x^12+x^11+x^10+x^8+x^7+x^5+x^4+x^2+x+1 *)
Definition crc_generator : Z :=
  fold_left (fun a e => Z.lxor a (2^e)) [32; 26; 23; 22; 16; 12; 11; 10; 8; 7; 5; 4; 2; 1; 0] 0.

(** Congruence modulo the generator: differing by a sum of shifted generators. *)
Inductive poly_cong : Z -> Z -> Prop :=
| pc_refl : forall a, poly_cong a a
| pc_step : forall a b k, 0 <= k -> poly_cong a b ->
    poly_cong a (Z.lxor b (Z.shiftl crc_generator k)).

(** Bits of an octet string in transmission order: least significant bit of
    each octet first. *)
Definition byte_bits (b : Z) : list bool :=
  map (fun i => Z.testbit b (Z.of_nat i)) (seq 0 8).
Definition bits_of (m : list Z) : list bool := flat_map byte_bits m.

(** The message polynomial: the first bit is the highest coefficient. *)
Definition msg_poly (bits : list bool) : Z :=
  fold_left (fun a b => 2 * a + Z.b2z b) bits 0.

(** Reversal of a 32 bit word. *)
Definition rev32 (c : Z) : Z :=
  fold_left (fun a i => 2 * a + Z.b2z (Z.testbit c (Z.of_nat i))) (seq 0 32) 0.
