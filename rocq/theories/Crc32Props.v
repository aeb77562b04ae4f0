(** Property C07: CRC-32. *)
From Coq Require Import ZArith List Bool Lia.
From Verif Require Import Common Crc32Model Crc32Spec Crc32Proofs.
Import ListNotations.
Open Scope Z_scope.

(** C07. The checksum is the CRC-32 remainder: with the preset of 32 one bits in
    front, the message polynomial times x^32 is congruent, modulo the generator,
    to the bit reversed complement of the checksum, a polynomial of degree < 32. *)
Theorem crc32_is_polynomial_remainder : forall m, bytes m ->
  0 <= crc32buf m < 2^32 /\
  poly_cong
    (Z.lxor (Z.shiftl (2^32 - 1) (8 * zlen m)) (Z.shiftl (msg_poly (bits_of m)) 32))
    (rev32 (Z.lxor (crc32buf m) (2^32 - 1))).
Proof. intros. split; [ apply crc32buf_bound; auto | apply crc32_poly_lemma; auto ]. Qed.
Print Assumptions crc32_is_polynomial_remainder.

(** The standard check value: "123456789" gives 0xCBF43926. *)
Example crc32_check_value : bytes (str_bytes "123456789") /\ crc32buf (str_bytes "123456789") = 3421780262.
Proof. split; [ apply Forall_forall; intros x H; apply byteb_iff; revert x H; apply forallb_forall; reflexivity | reflexivity ]. Qed.

(** C07. Two messages of the same length whose bit strings differ only inside a
    window of at most 32 bits have different checksums; no bound on the message. *)
Theorem crc32_detects_bursts : forall m m' before w w' after,
  bytes m -> bytes m' ->
  bits_of m = before ++ w ++ after -> bits_of m' = before ++ w' ++ after ->
  length w = length w' -> (length w <= 32)%nat -> w <> w' ->
  crc32buf m <> crc32buf m'.
Proof. exact crc32_burst_lemma. Qed.
Print Assumptions crc32_detects_bursts.

(** A burst across octet boundaries: bits 7..15 of the message. *)
Example crc32_detects_bursts_ex :
  bits_of [3; 128; 77] = firstn 7 (bits_of [3; 128; 77]) ++ [false; false; false; false; false; false; false; false; true] ++ bits_of [77] /\
  bits_of [131; 0; 77] = firstn 7 (bits_of [3; 128; 77]) ++ [true; false; false; false; false; false; false; false; false] ++ bits_of [77] /\
  crc32buf [3; 128; 77] <> crc32buf [131; 0; 77].
Proof. repeat split; vm_compute; discriminate. Qed.

(** C07, octet form: changing up to four consecutive octets. *)
Theorem crc32_detects_octet_changes : forall before w w' after,
  bytes (before ++ w ++ after) -> bytes w' ->
  length w = length w' -> (length w <= 4)%nat -> w <> w' ->
  crc32buf (before ++ w ++ after) <> crc32buf (before ++ w' ++ after).
Proof. exact crc32_burst_octets. Qed.
Print Assumptions crc32_detects_octet_changes.

Example crc32_detects_octet_changes_ex :
  crc32buf ([1; 2] ++ [9; 9; 9; 9] ++ [5]) <> crc32buf ([1; 2] ++ [9; 0; 0; 9] ++ [5]).
Proof. vm_compute. discriminate. Qed.

(** C07. The verification routine accepts exactly the checksum of the data. *)
Theorem crc32_verify_exact : forall m c, bytes m -> 0 <= c < 2^32 ->
  (crc32cmp m c = 0 <-> crc32buf m = c).
Proof. exact crc32cmp_zero. Qed.
Print Assumptions crc32_verify_exact.

Example crc32_verify_exact_ex : crc32cmp [1; 2; 3] (crc32buf [1; 2; 3]) = 0 /\ crc32cmp [1; 2; 3] 5 <> 0.
Proof. vm_compute. split; [ reflexivity | discriminate ]. Qed.
