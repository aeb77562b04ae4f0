(** C101, C102, C103: SHA-256, SHA-1 and the WebSocket accept string. *)
From Coq Require Import Strings.String.
From Coq Require Import ZArith List Bool.
From Verif Require Import Common ShaSpec ShaModel ShaCalls ShaWs ShaStream Base64Spec.
Import ListNotations.
Open Scope Z_scope.

(** C101. For every message shorter than 2^61 octets, in any parts, and whatever
    the uninitialised memory holds, the stream functions of SHA-256 write inside
    of their buffers, end, and give the digest of FIPS 180-4. *)
Theorem sha256_is_fips : forall junk chunk parts,
  length junk = 16%nat -> length chunk = 64%nat -> Forall bytes parts -> zlen (concat parts) < 2^61 ->
  sha_256_stream junk chunk parts = Some (SHA256 (concat parts)).
Proof. exact sha256_stream_proof. Qed.
Print Assumptions sha256_is_fips.

(** The two block message of FIPS 180-2 (B.2) in three parts, and its digest. *)
Example sha256_is_fips_ex :
  let m := str_bytes "abcdbcdecdefdefgefghfghighijhijkijkljklmklmnlmnomnopnopq" in
  let parts := [firstn 50 m; []; skipn 50 m] in
  zlen m = 56 /\ zlen (concat parts) < 2^61 /\
  sha_256_stream (repeat 1 16) (repeat 2 64) parts = Some (SHA256 m) /\
  firstn 8 (SHA256 m) = [0x24; 0x8d; 0x6a; 0x61; 0xd2; 0x06; 0x38; 0xb8].
Proof. repeat split; vm_compute; reflexivity. Qed.

(** C101. The function the library exports. *)
Theorem sha256_calculate_is_fips : forall junk chunk input,
  length junk = 16%nat -> length chunk = 64%nat -> bytes input -> zlen input < 2^61 ->
  rrr_sha256_calculate junk chunk input = Some (SHA256 input) /\ zlen (SHA256 input) = 32.
Proof.
  intros junk chunk input J C B L. split; [ | apply SHA256_len ].
  unfold rrr_sha256_calculate. rewrite <- (app_nil_r input) at 2. apply (sha256_stream_proof junk chunk [input]); auto.
  cbn [concat]. rewrite app_nil_r. exact L.
Qed.
Print Assumptions sha256_calculate_is_fips.

Example sha256_calculate_is_fips_ex :
  rrr_sha256_calculate (repeat 0 16) (repeat 0 64) (str_bytes "abc") = Some (SHA256 (str_bytes "abc")) /\
  SHA256 (str_bytes "abc") =
  [0xba; 0x78; 0x16; 0xbf; 0x8f; 0x01; 0xcf; 0xea; 0x41; 0x41; 0x40; 0xde; 0x5d; 0xae; 0x22; 0x23;
   0xb0; 0x03; 0x61; 0xa3; 0x96; 0x17; 0x7a; 0x9c; 0xb4; 0x10; 0xff; 0x61; 0xf2; 0x00; 0x15; 0xad].
Proof. split; vm_compute; reflexivity. Qed.

(** C102. For every history of inputs and results after a reset of a SHA-1 context:
    no write is outside of the block, and every result is the digest (FIPS 180-4)
    of all the data, or a failure if data came after a result or the data had 2^64
    bits or more. *)
Theorem sha1_is_fips : forall junk c l,
  length junk = 80%nat -> length (c_block c) = 64%nat -> Forall (fun x => bytes (octets_of x)) l ->
  exists out, sha1_calls junk (rrr_SHA1Reset c) l = Some out /\ map answer out = expected [] false false l.
Proof. exact sha1_calls_proof. Qed.
Print Assumptions sha1_is_fips.

(** Two inputs, two results, another input, and a result that must fail. *)
Example sha1_is_fips_ex :
  let m := str_bytes "abcdbcdecdefdefgefghfghighijhijkijkljklmklmnlmnomnopnopq" in
  let c := mk_sha1 [] 7 7 (repeat 9 64) 70 true true in
  let l := [Input (firstn 20 m); Input (skipn 20 m); Result; Input []; Result; Input [1]; Result] in
  option_map (map answer) (sha1_calls (repeat 5 80) (rrr_SHA1Reset c) l) = Some [Some (SHA1 m); Some (SHA1 m); None] /\
  expected [] false false l = [Some (SHA1 m); Some (SHA1 m); None] /\
  firstn 4 (SHA1 m) = [0x84; 0x98; 0x3e; 0x44].
Proof. repeat split; vm_compute; reflexivity. Qed.

(** C103. A server answers the text of a key (shorter than 256 octets, without
    NUL) with the value RFC 6455 prescribes. *)
Theorem websocket_server_accept : forall junk c text,
  length junk = 80%nat -> length (c_block c) = 64%nat ->
  bytes text -> zlen text < 256 -> Forall (fun x => x <> 0) text ->
  server_accept junk c text = Some (rfc6455_accept text).
Proof. exact server_accept_proof. Qed.
Print Assumptions websocket_server_accept.

(** The example of RFC 6455, section 1.3. *)
Example websocket_server_accept_ex :
  server_accept (repeat 5 80) (mk_sha1 [] 7 7 (repeat 9 64) 70 true true) (str_bytes "dGhlIHNhbXBsZSBub25jZQ==") =
  Some (str_bytes "s3pPLMBiTxaQ9kYGzzhZRbK+xOo=").
Proof. vm_compute. reflexivity. Qed.

(** C103. A client with any key takes exactly the value RFC 6455 prescribes for
    the text of its key, among all values without NUL octets. *)
Theorem websocket_client_takes : forall junk c key value,
  length junk = 80%nat -> length (c_block c) = 64%nat ->
  bytes key -> zlen key = 16 -> Forall (fun x => x <> 0) value ->
  exists b, client_takes junk c key value = Some b /\
    (b = true <-> value = rfc6455_accept (rfc_encode 43 47 [61] key)).
Proof. exact client_takes_proof. Qed.
Print Assumptions websocket_client_takes.

Example websocket_client_takes_ex :
  let key := str_bytes "the sample nonce" in
  let c := mk_sha1 [] 7 7 (repeat 9 64) 70 true true in
  rfc_encode 43 47 [61] key = str_bytes "dGhlIHNhbXBsZSBub25jZQ==" /\
  client_takes (repeat 5 80) c key (str_bytes "s3pPLMBiTxaQ9kYGzzhZRbK+xOo=") = Some true /\
  client_takes (repeat 5 80) c key (str_bytes "s3pPLMBiTxaQ9kYGzzhZRbK+xOp=") = Some false /\
  client_takes (repeat 5 80) c key (str_bytes "s3pPLMBiTxaQ9kYGzzhZRbK+xOo=x") = Some false.
Proof. repeat split; vm_compute; reflexivity. Qed.

(** C103. So a client and a server of this library agree on every key, and the
    server finds the sixteen octets it asks for in the text. *)
Theorem websocket_accept_agree : forall junk c junk' c' key,
  length junk = 80%nat -> length (c_block c) = 64%nat -> length junk' = 80%nat -> length (c_block c') = 64%nat ->
  bytes key -> zlen key = 16 ->
  exists text value, get_key_base64 key = Some text /\ rfc_decode 43 47 text = Some key /\
    server_accept junk c text = Some value /\ client_takes junk' c' key value = Some true.
Proof. exact agree_proof. Qed.
Print Assumptions websocket_accept_agree.

Example websocket_accept_agree_ex :
  let key := [0; 1; 2; 3; 4; 5; 6; 7; 8; 9; 250; 251; 252; 253; 254; 255] in
  let c := mk_sha1 [] 7 7 (repeat 9 64) 70 true true in
  match get_key_base64 key with
  | Some text =>
      match server_accept (repeat 5 80) c text with
      | Some value => zlen value = 28 /\ client_takes (repeat 0 80) c key value = Some true
      | None => False
      end
  | None => False
  end.
Proof. vm_compute. split; reflexivity. Qed.
