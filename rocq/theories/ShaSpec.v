(** Specification of SHA-256 and SHA-1, from FIPS 180-4.  Nothing here refers to
    the program.  Words are integers in [0, 2^32). *)
From Coq Require Import ZArith List Bool.
From Verif Require Import Common.
Import ListNotations.
Open Scope Z_scope.

Definition w32 (x : Z) : Prop := 0 <= x < 2^32.

(** FIPS 180-4, 2.2.2: rotations move the low [n] bits of a word to its other
    end (written as arithmetic); a shift drops them. *)
Definition rotr (n x : Z) : Z := x / 2^n + (x mod 2^n) * 2^(32 - n).
Definition rotl (n x : Z) : Z := rotr (32 - n) x.
Definition shr (n x : Z) : Z := x / 2^n.
(** Addition modulo 2^32 of any number of words. *)
Definition plus (l : list Z) : Z := fold_right Z.add 0 l mod 2^32.
Definition xor3 (x y z : Z) : Z := Z.lxor x (Z.lxor y z).

(** 4.1.1 and 4.1.2.  [Z.ldiff z x] is "z and not x". *)
Definition Ch (x y z : Z) : Z := Z.lxor (Z.land x y) (Z.ldiff z x).
Definition Maj (x y z : Z) : Z := xor3 (Z.land x y) (Z.land x z) (Z.land y z).
Definition Sigma0 (x : Z) : Z := xor3 (rotr 2 x) (rotr 13 x) (rotr 22 x).
Definition Sigma1 (x : Z) : Z := xor3 (rotr 6 x) (rotr 11 x) (rotr 25 x).
Definition sigma0 (x : Z) : Z := xor3 (rotr 7 x) (rotr 18 x) (shr 3 x).
Definition sigma1 (x : Z) : Z := xor3 (rotr 17 x) (rotr 19 x) (shr 10 x).

(** 4.2.2 and 5.3.3: the constants are the first 32 bits of the fractional parts
    of roots of primes.  The largest [r] with [r^3 <= x] is found bit by bit. *)
Definition primes (up_to : nat) : list Z :=
  filter (fun p => forallb (fun d => negb (p mod d =? 0)) (map Z.of_nat (seq 2 (Z.to_nat p - 2))))
         (map Z.of_nat (seq 2 (up_to - 1))).
Fixpoint cbrt_bits (n : nat) (r x : Z) : Z :=
  match n with
  | O => r
  | S m => let r' := r + 2 ^ Z.of_nat m in cbrt_bits m (if r' * r' * r' <=? x then r' else r) x
  end.
Definition cbrt (x : Z) : Z := cbrt_bits 40 0 x.
Definition K256 : list Z := map (fun p => cbrt (p * 2^96) mod 2^32) (primes 311).
Definition H256 : list Z := map (fun p => Z.sqrt (p * 2^64) mod 2^32) (primes 19).

(** 4.2.1: the four constants of SHA-1 are 2^30 times the square roots of 2, 3,
    5 and 10. *)
Definition K1 (t : nat) : Z :=
  Z.sqrt ((if (t <? 20)%nat then 2 else if (t <? 40)%nat then 3 else if (t <? 60)%nat then 5 else 10) * 2^60).
(** 5.3.1 *)
Definition H1 : list Z := [0x67452301; 0xefcdab89; 0x98badcfe; 0x10325476; 0xc3d2e1f0].
(** 4.1.1, [f_t]. *)
Definition f1 (t : nat) (x y z : Z) : Z :=
  if (t <? 20)%nat then Ch x y z
  else if (t <? 40)%nat then xor3 x y z
  else if (t <? 60)%nat then Maj x y z
  else xor3 x y z.

(** 5.1.1: the octet 0x80 (a one and seven zero bits), the fewest zero octets
    that make the whole a multiple of 64 octets, and the length in bits. *)
Definition pad (m : list Z) : list Z :=
  m ++ [128] ++ repeat 0 (Z.to_nat ((55 - zlen m) mod 64)) ++ be_enc 8 (8 * zlen m).

(** 5.2.1: a block of 64 octets is sixteen big endian words. *)
Definition words (b : list Z) : list Z := map (fun t => be_dec (firstn 4 (skipn (4 * t) b))) (seq 0 16).

(** 6.1.2 and 6.2.2, step 1: the message schedule grows word by word.  [ago k w]
    is W_{t-k} when [w] is W_0 .. W_{t-1}. *)
Definition ago (k : nat) (w : list Z) : Z := nth (length w - k) w 0.
Fixpoint schedule (next : list Z -> Z) (more : nat) (w : list Z) : list Z :=
  match more with
  | O => w
  | S m => schedule next m (w ++ [next w])
  end.
Definition next256 (w : list Z) : Z := plus [sigma1 (ago 2 w); ago 7 w; sigma0 (ago 15 w); ago 16 w].
Definition next1 (w : list Z) : Z := rotl 1 (Z.lxor (ago 3 w) (Z.lxor (ago 8 w) (Z.lxor (ago 14 w) (ago 16 w)))).
Definition W256 (b : list Z) : list Z := schedule next256 48 (words b).
Definition W1 (b : list Z) : list Z := schedule next1 64 (words b).

(** 6.2.2, step 3: one round. *)
Definition round256 (w v : list Z) (t : nat) : list Z :=
  match v with
  | [a; b; c; d; e; f; g; h] =>
      let T1 := plus [h; Sigma1 e; Ch e f g; nth t K256 0; nth t w 0] in
      let T2 := plus [Sigma0 a; Maj a b c] in
      [plus [T1; T2]; a; b; c; plus [d; T1]; e; f; g]
  | _ => []
  end.
(** 6.1.2, step 3. *)
Definition round1 (w v : list Z) (t : nat) : list Z :=
  match v with
  | [a; b; c; d; e] => [plus [rotl 5 a; f1 t b c d; e; K1 t; nth t w 0]; a; rotl 30 b; c; d]
  | _ => []
  end.

(** Steps 2 to 4: all rounds, and the addition to the hash value so far. *)
Definition add_words (x y : list Z) : list Z := map (fun p => plus [fst p; snd p]) (combine x y).
Definition compress256 (h b : list Z) : list Z := add_words h (fold_left (round256 (W256 b)) (seq 0 64) h).
Definition compress1 (h b : list Z) : list Z := add_words h (fold_left (round1 (W1 b)) (seq 0 80) h).

(** The blocks one after another. *)
Fixpoint absorb (compress : list Z -> list Z -> list Z) (n : nat) (h m : list Z) : list Z :=
  match n with
  | O => h
  | S k => absorb compress k (compress h (firstn 64 m)) (skipn 64 m)
  end.
Definition digest (compress : list Z -> list Z -> list Z) (h0 m : list Z) : list Z :=
  concat (map (be_enc 4) (absorb compress (length (pad m) / 64) h0 (pad m))).

(** The message digests, 32 and 20 octets. *)
Definition SHA256 (m : list Z) : list Z := digest compress256 H256 m.
Definition SHA1 (m : list Z) : list Z := digest compress1 H1 m.
