(** Property C08: hexadecimal encoding. *)
From Coq Require Import ZArith List Bool Lia.
From Verif Require Import Common HexModel HexSpec HexProofs.
Import ListNotations.
Open Scope Z_scope.

(** C08. For sources below 2^31 octets and whatever the fresh allocation holds,
    no store leaves the allocation, and it starts with two digits per octet
    followed by a NUL; the reported length is the number of digits. *)
Theorem hex_encode_exact : forall mem source,
  bytes source -> zlen source < 2^31 -> zlen mem = hex_alloc_size (zlen source) ->
  exists rest, bin_to_hex mem source = Some (hex_string source ++ [0] ++ rest, 2 * zlen source)
    /\ zlen (hex_string source) = 2 * zlen source.
Proof.
  intros mem source H1 H2 H3. destruct (bin_to_hex_lemma mem source H1 H2 H3) as [r E].
  exists r. split; [ exact E | apply hex_string_len ].
Qed.
Print Assumptions hex_encode_exact.

Example hex_encode_exact_ex :
  option_map fst (bin_to_hex (repeat 170 32) [0; 127; 255])
  = Some (str_bytes "007fff" ++ [0] ++ repeat 170 25).
Proof. reflexivity. Qed.

(** C08. Different sources give different digit strings. *)
Theorem hex_encode_injective : forall s s', bytes s -> bytes s' -> s <> s' -> hex_string s <> hex_string s'.
Proof. intros s s' H H' Hne E. apply Hne. apply hex_string_inj; auto. Qed.
Print Assumptions hex_encode_injective.

Example hex_encode_injective_ex : hex_string [16; 1] = str_bytes "1001" /\ hex_string [1; 1] = str_bytes "0101".
Proof. split; reflexivity. Qed.

(** C08, finding: from 2^31 octets on, the size wraps in 32 bits and the loop
    always writes outside the allocation. *)
Theorem hex_encode_large_overflow_refuted : forall mem source,
  2^31 <= zlen source < 2^32 -> zlen mem = hex_alloc_size (zlen source) ->
  bin_to_hex mem source = None.
Proof. exact bin_to_hex_overflow. Qed.
Print Assumptions hex_encode_large_overflow_refuted.

(** Such sources are accepted by the interface: 2^31 zero octets get 32 octets
    of memory. *)
Example hex_encode_large_overflow_ex : hex_alloc_size (2^31) = 32 /\ hex_alloc_size (2^31 + 100) = 201.
Proof. split; reflexivity. Qed.
