(** Properties C01-C04: Base64. *)
From Coq Require Import ZArith List Bool Lia.
From Verif Require Import Common Base64Model Base64Spec Base64Proofs.
Import ListNotations.
Open Scope Z_scope.

(** C01. Decoding what the encoder produced returns the original octets. *)
Theorem base64_roundtrip : forall src,
  bytes src -> src <> [] -> zlen src < 2^62 ->
  exists text, base64_encode src = B64Ok text /\ base64_decode text = B64Ok src.
Proof. exact base64_roundtrip_lemma. Qed.
Print Assumptions base64_roundtrip.

(** 56 octets: 19 groups, folded over two lines, with padding. *)
Example base64_roundtrip_ex :
  let src := map (fun n => Z.of_nat (n * 37) mod 256) (seq 0 56) in
  (bytes src /\ src <> [] /\ zlen src < 2^62) /\
  exists text, base64_encode src = B64Ok text /\ zlen text = 78 /\ base64_decode text = B64Ok src.
Proof.
  split; [ split; [ | split; [ discriminate | reflexivity ] ] | ].
  - apply Forall_forall. intros x Hx. apply in_map_iff in Hx as (n & <- & _). unfold byte. apply Z.mod_pos_bound. lia.
  - eexists. vm_compute. repeat split.
Qed.

(** C01. What the encoder produces is the RFC 4648 encoding folded into lines
    of 72 characters. *)
Theorem base64_encode_is_rfc4648 : forall src,
  bytes src -> zlen src < 2^62 ->
  exists text, base64_encode src = B64Ok text /\ folded (rfc_encode 43 47 [61] src) text.
Proof. exact base64_encode_ok. Qed.
Print Assumptions base64_encode_is_rfc4648.

Example base64_encode_is_rfc4648_ex :
  base64_encode (str_bytes "Many hands make light work.!") =
  B64Ok (str_bytes "TWFueSBoYW5kcyBtYWtlIGxpZ2h0IHdvcmsuIQ==" ++ [10]) /\
  rfc_encode 43 47 [61] (str_bytes "Many hands make light work.!") =
  str_bytes "TWFueSBoYW5kcyBtYWtlIGxpZ2h0IHdvcmsuIQ==".
Proof. vm_compute. split; reflexivity. Qed.

(** C01, finding: for the empty string the decoder reports failure. *)
Theorem base64_roundtrip_empty_refuted :
  exists src text, bytes src /\ base64_encode src = B64Ok text /\ base64_decode text = B64Null.
Proof. exists [], []. repeat split. constructor. Qed.
Print Assumptions base64_roundtrip_empty_refuted.

(** C02. The encoders never write outside their allocation, for any length a
    64 bit size can express; they give up (NULL) exactly from 2^62 octets on. *)
Theorem base64_encode_in_buffer : forall src,
  bytes src -> zlen src < 2^64 ->
  base64_encode src <> B64Overflow /\ base64url_encode src <> B64Overflow /\
  (base64_encode src = B64Null <-> 2^62 <= zlen src) /\
  (base64url_encode src = B64Null <-> 2^62 <= zlen src).
Proof.
  intros src HB HL. destruct (Z.ltb_spec (zlen src) (2^62)) as [H|H].
  - destruct (base64_encode_ok src HB H) as (o & -> & _).
    rewrite base64url_encode_ok by auto.
    repeat split; try discriminate; lia.
  - destruct (base64_encode_null src ltac:(lia)) as [-> ->].
    repeat split; try discriminate; auto.
Qed.
Print Assumptions base64_encode_in_buffer.

Example base64_encode_in_buffer_ex :
  base64_encode (repeat 255 54) = B64Ok (repeat 47 72 ++ [10]) /\
  b64_alloc_size 54 = Some 78 /\ b64_alloc_size (2^62) = None /\ b64_alloc_size (2^64 - 1) = None.
Proof. vm_compute. repeat split. Qed.

(** C03, finding: Base64url does not round trip; the decoder rejects what the
    encoder produced for every length that is not a multiple of three. *)
Theorem base64url_roundtrip_refuted :
  exists src text, bytes src /\ src <> [] /\ zlen src < 2^62 /\
    base64url_encode src = B64Ok text /\ base64url_decode text = B64Null.
Proof.
  exists [1], [65; 81]. repeat split; try discriminate.
  repeat constructor; unfold byte; lia.
Qed.
Print Assumptions base64url_roundtrip_refuted.

Theorem base64url_decode_rejects_unpadded : forall src,
  bytes src -> zlen src < 2^62 -> zlen src mod 3 <> 0 ->
  exists text, base64url_encode src = B64Ok text /\ base64url_decode text = B64Null.
Proof. exact base64url_null. Qed.
Print Assumptions base64url_decode_rejects_unpadded.

(** C03. What does hold: round trip for non-empty multiples of three octets. *)
Theorem base64url_roundtrip_partial : forall src,
  bytes src -> src <> [] -> zlen src < 2^62 -> zlen src mod 3 = 0 ->
  exists text, base64url_encode src = B64Ok text /\ base64url_decode text = B64Ok src.
Proof. exact base64url_roundtrip_lemma. Qed.
Print Assumptions base64url_roundtrip_partial.

Example base64url_roundtrip_ex :
  let src := [251; 255; 191; 0; 1; 2] in
  zlen src mod 3 = 0 /\
  base64url_encode src = B64Ok (str_bytes "-_-_AAEC") /\
  base64url_decode (str_bytes "-_-_AAEC") = B64Ok src.
Proof. vm_compute. repeat split. Qed.

(** C03. The Base64url encoder produces the RFC 4648 section 5 encoding
    without padding. *)
Theorem base64url_encode_is_rfc4648 : forall src,
  bytes src -> zlen src < 2^62 -> base64url_encode src = B64Ok (rfc_encode 45 95 [] src).
Proof. exact base64url_encode_ok. Qed.
Print Assumptions base64url_encode_is_rfc4648.

(** C04. The decoders compute the RFC decoding of the alphabet characters in
    their input, ignore all other characters, and never write outside the
    output buffer. *)
Theorem base64_decode_is_rfc4648 : forall src, bytes src ->
  let cs := filter std_alpha src in
  base64_decode src =
    (if (zlen cs =? 0) || negb (zlen cs mod 4 =? 0) then B64Null
     else match rfc_decode 43 47 cs with Some o => B64Ok o | None => B64Null end).
Proof. exact base64_decode_correct. Qed.
Print Assumptions base64_decode_is_rfc4648.

Theorem base64url_decode_is_rfc4648 : forall src, bytes src ->
  let cs := filter url_alpha src in
  base64url_decode src =
    (if (zlen cs =? 0) || negb (zlen cs mod 4 =? 0) then B64Null
     else match rfc_decode 45 95 cs with Some o => B64Ok o | None => B64Null end).
Proof. exact base64url_decode_correct. Qed.
Print Assumptions base64url_decode_is_rfc4648.

Theorem base64_decode_in_buffer : forall src, bytes src ->
  base64_decode src <> B64Overflow /\ base64url_decode src <> B64Overflow.
Proof.
  intros src H. rewrite base64_decode_correct, base64url_decode_correct by auto. unfold decode_spec.
  split.
  - destruct (_ || _); [ discriminate | ]. destruct (rfc_decode _ _ _); discriminate.
  - destruct (_ || _); [ discriminate | ]. destruct (rfc_decode _ _ _); discriminate.
Qed.
Print Assumptions base64_decode_in_buffer.

(** Padding in the middle: decoding stops there; foreign characters ignored. *)
Example base64_decode_ex :
  base64_decode (str_bytes "Q*U J=QUJD") = B64Ok [65; 66] /\
  base64_decode (str_bytes "A===") = B64Null /\
  base64_decode (str_bytes "QUJ") = B64Null.
Proof. vm_compute. repeat split. Qed.
