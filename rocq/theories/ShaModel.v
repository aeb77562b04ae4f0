(** Model of src/lib/util/sha256.c, src/lib/sha1/sha1.c and of the WebSocket
    accept string of src/lib/http/http_application_http1.c. *)
From Coq Require Import Strings.String.
From Coq Require Import ZArith List Bool.
From Verif Require Import Common Base64Model.
Import ListNotations.
Open Scope Z_scope.

(** [l[i] = v] in an array. *)
Fixpoint upd (l : list Z) (i : nat) (v : Z) : list Z :=
  match l, i with
  | [], _ => []
  | _ :: r, O => v :: r
  | x :: r, S j => x :: upd r j v
  end.
Definition at_ (l : list Z) (i : nat) : Z := nth i l 0.
(** [~x] on a [uint32_t]. *)
Definition not32 (x : Z) : Z := 2^32 - 1 - x.

(** ** SHA-256 *)

(** sha256.c:138-144 [right_rot]. *)
Definition right_rot (value count : Z) : Z :=
  Z.lor (Z.shiftr value count) (u32 (Z.shiftl value (32 - count))).

(** sha256.c:200-210, [k]. *)
Definition k : list Z :=
  [0x428a2f98; 0x71374491; 0xb5c0fbcf; 0xe9b5dba5; 0x3956c25b; 0x59f111f1; 0x923f82a4;
   0xab1c5ed5; 0xd807aa98; 0x12835b01; 0x243185be; 0x550c7dc3; 0x72be5d74; 0x80deb1fe;
   0x9bdc06a7; 0xc19bf174; 0xe49b69c1; 0xefbe4786; 0x0fc19dc6; 0x240ca1cc; 0x2de92c6f;
   0x4a7484aa; 0x5cb0a9dc; 0x76f988da; 0x983e5152; 0xa831c66d; 0xb00327c8; 0xbf597fc7;
   0xc6e00bf3; 0xd5a79147; 0x06ca6351; 0x14292967; 0x27b70a85; 0x2e1b2138; 0x4d2c6dfc;
   0x53380d13; 0x650a7354; 0x766a0abb; 0x81c2c92e; 0x92722c85; 0xa2bfe8a1; 0xa81a664b;
   0xc24b8b70; 0xc76c51a3; 0xd192e819; 0xd6990624; 0xf40e3585; 0x106aa070; 0x19a4c116;
   0x1e376c08; 0x2748774c; 0x34b0bcb5; 0x391c0cb3; 0x4ed8aa4a; 0x5b9cca4f; 0x682e6ff3;
   0x748f82ee; 0x78a5636f; 0x84c87814; 0x8cc70208; 0x90befffa; 0xa4506ceb; 0xbef9a3f7;
   0xc67178f2].

(** sha256.c:181-183 and sha1.c:254-257: four octets of a block as a word.  The
    octets of block [p] from [4 * j] on; sha256.c moves [p] by four each time. *)
Definition load (p : list Z) (j : nat) : Z :=
  Z.lor (Z.lor (Z.lor (Z.shiftl (at_ p (4 * j)) 24) (Z.shiftl (at_ p (4 * j + 1)) 16))
               (Z.shiftl (at_ p (4 * j + 2)) 8)) (at_ p (4 * j + 3)).

(** sha256.c:180-192, the new value of [w[j]] in turn [i].  Sums of [uint32_t]
    are reduced once, at the end of the sum. *)
Definition new_w (p w : list Z) (i j : nat) : Z :=
  if (i =? 0)%nat then load p j
  else
    let x := at_ w (Nat.land (j + 1) 15) in
    let y := at_ w (Nat.land (j + 14) 15) in
    let s0 := Z.lxor (Z.lxor (right_rot x 7) (right_rot x 18)) (Z.shiftr x 3) in
    let s1 := Z.lxor (Z.lxor (right_rot y 17) (right_rot y 19)) (Z.shiftr y 10) in
    u32 (at_ w j + s0 + at_ w (Nat.land (j + 9) 15) + s1).

(** sha256.c:193-224, the rest of the inner loop: from [ah] and the word [wj] to
    the new [ah], assignment by assignment. *)
Definition mix (ah : list Z) (wj : Z) (i j : nat) : list Z :=
  let s1 := Z.lxor (Z.lxor (right_rot (at_ ah 4) 6) (right_rot (at_ ah 4) 11)) (right_rot (at_ ah 4) 25) in
  let ch := Z.lxor (Z.land (at_ ah 4) (at_ ah 5)) (Z.land (not32 (at_ ah 4)) (at_ ah 6)) in
  let temp1 := u32 (at_ ah 7 + s1 + ch + at_ k (Nat.lor (Nat.shiftl i 4) j) + wj) in
  let s0 := Z.lxor (Z.lxor (right_rot (at_ ah 0) 2) (right_rot (at_ ah 0) 13)) (right_rot (at_ ah 0) 22) in
  let maj := Z.lxor (Z.lxor (Z.land (at_ ah 0) (at_ ah 1)) (Z.land (at_ ah 0) (at_ ah 2)))
                    (Z.land (at_ ah 1) (at_ ah 2)) in
  let temp2 := u32 (s0 + maj) in
  let ah := upd ah 7 (at_ ah 6) in
  let ah := upd ah 6 (at_ ah 5) in
  let ah := upd ah 5 (at_ ah 4) in
  let ah := upd ah 4 (u32 (at_ ah 3 + temp1)) in
  let ah := upd ah 3 (at_ ah 2) in
  let ah := upd ah 2 (at_ ah 1) in
  let ah := upd ah 1 (at_ ah 0) in
  upd ah 0 (u32 (temp1 + temp2)).

(** sha256.c:153-231 [consume_chunk].  [junk] is what the uninitialised array [w]
    holds when the function is entered. *)
Definition inner (p : list Z) (i : nat) (st : list Z * list Z) (j : nat) : list Z * list Z :=
  let '(w, ah) := st in
  let w := upd w j (new_w p w i j) in
  (w, mix ah (at_ w j) i j).
Definition consume_chunk (junk h p : list Z) : list Z :=
  let '(_, ah) := fold_left (fun st i => fold_left (inner p i) (seq 0 16) st) (seq 0 4) (junk, h) in
  map (fun x => u32 (fst x + snd x)) (combine h ah).

(** sha256.c:52-59 [struct Sha_256]; the position in [chunk] is an index. *)
Record sha256 := mk_sha256 {
  s_chunk : list Z;
  s_pos : Z;
  s_left : Z;
  s_total : Z;
  s_h : list Z
}.

(** sha256.c:237-255 [sha_256_init].  [chunk] is what the array holds already. *)
Definition sha_256_init (chunk : list Z) : sha256 :=
  mk_sha256 chunk 0 64 0
    [0x6a09e667; 0xbb67ae85; 0x3c6ef372; 0xa54ff53a; 0x510e527f; 0x9b05688c; 0x1f83d9ab; 0x5be0cd19].

(** sha256.c:263-287, the loop of [sha_256_write].  [None]: a write outside of
    the chunk, or no end ([fuel] turns are enough, the theorems show). *)
Fixpoint write_loop (fuel : nat) (junk : list Z) (s : sha256) (p : list Z) : option sha256 :=
  match p, fuel with
  | [], _ => Some s
  | _, O => None
  | _, S n =>
      if (s_left s =? 64) && (64 <=? zlen p)
      then write_loop n junk (mk_sha256 (s_chunk s) (s_pos s) (s_left s) (s_total s)
                                (consume_chunk junk (s_h s) (firstn 64 p))) (skipn 64 p)
      else
        let consumed := if zlen p <? s_left s then zlen p else s_left s in
        match mem_store (s_chunk s) (s_pos s) (firstn (Z.to_nat consumed) p) with
        | None => None
        | Some chunk =>
            let room := s_left s - consumed in
            let rest := skipn (Z.to_nat consumed) p in
            if room =? 0
            then write_loop n junk (mk_sha256 chunk 0 64 (s_total s) (consume_chunk junk (s_h s) chunk)) rest
            else write_loop n junk (mk_sha256 chunk (s_pos s + consumed) room (s_total s) (s_h s)) rest
        end
  end.
(** sha256.c:257-288 [sha_256_write]; [size_t] has 64 bits. *)
Definition sha_256_write (junk : list Z) (s : sha256) (data : list Z) : option sha256 :=
  write_loop (length data) junk
    (mk_sha256 (s_chunk s) (s_pos s) (s_left s) (u64 (s_total s + zlen data)) (s_h s)) data.

(** sha256.c:317-324: the eight octets of the length; [pos[7]] first, then
    [pos[6]] down to [pos[0]]. *)
Fixpoint len_octets (n : nat) (len : Z) (acc : list Z) : list Z :=
  match n with
  | O => acc
  | S m => len_octets m (Z.shiftr len 8) (u8 len :: acc)
  end.
Definition sha_256_len (total : Z) : list Z :=
  len_octets 7 (Z.shiftr total 5) [u8 (u64 (Z.shiftl total 3))].

(** sha256.c:290-336 [sha_256_close]: the 32 octets of [hash]. *)
Definition sha_256_close (junk : list Z) (s : sha256) : option (list Z) :=
  match mem_store (s_chunk s) (s_pos s) [128] with
  | None => None
  | Some chunk =>
      let pos := s_pos s + 1 in
      let room := s_left s - 1 in
      let next :=
        if room <? 8
        then match mem_store chunk pos (repeat 0 (Z.to_nat room)) with
             | None => None
             | Some chunk => Some (chunk, 0, 64, consume_chunk junk (s_h s) chunk)
             end
        else Some (chunk, pos, room, s_h s) in
      match next with
      | None => None
      | Some (chunk, pos, room, h) =>
          match mem_store chunk pos (repeat 0 (Z.to_nat (room - 8))) with
          | None => None
          | Some chunk =>
              match mem_store chunk (pos + (room - 8)) (sha_256_len (s_total s)) with
              | None => None
              | Some chunk =>
                  Some (flat_map (fun x => [u8 (Z.shiftr x 24); u8 (Z.shiftr x 16); u8 (Z.shiftr x 8); u8 x])
                          (consume_chunk junk h chunk))
              end
          end
      end
  end.

(** Any number of writes between [sha_256_init] and [sha_256_close]. *)
Fixpoint sha_256_writes (junk : list Z) (s : sha256) (parts : list (list Z)) : option sha256 :=
  match parts with
  | [] => Some s
  | d :: r => match sha_256_write junk s d with Some s' => sha_256_writes junk s' r | None => None end
  end.
Definition sha_256_stream (junk chunk : list Z) (parts : list (list Z)) : option (list Z) :=
  match sha_256_writes junk (sha_256_init chunk) parts with
  | Some s => sha_256_close junk s
  | None => None
  end.
(** sha256.c:338-348 [calc_sha_256] and [rrr_sha256_calculate]. *)
Definition rrr_sha256_calculate (junk chunk input : list Z) : option (list Z) :=
  sha_256_stream junk chunk [input].

(** ** SHA-1 *)

(** sha1.c:52-54 [SHA1CircularShift]. *)
Definition circular_shift (bits word : Z) : Z :=
  Z.lor (Z.land (Z.shiftl word bits) (2^32 - 1)) (Z.shiftr word (32 - bits)).

(** sha1.h:38-52 [rrr_SHA1Context]. *)
Record sha1 := mk_sha1 {
  c_digest : list Z;
  c_low : Z;
  c_high : Z;
  c_block : list Z;
  c_index : Z;
  c_computed : bool;
  c_corrupted : bool
}.

(** sha1.c:77-91 [rrr_SHA1Reset].  The block keeps its content. *)
Definition rrr_SHA1Reset (c : sha1) : sha1 :=
  mk_sha1 [0x67452301; 0xEFCDAB89; 0x98BADCFE; 0x10325476; 0xC3D2E1F0] 0 0 (c_block c) 0 false false.

(** sha1.c:237-243, [K]. *)
Definition K : list Z := [0x5A827999; 0x6ED9EBA1; 0x8F1BBCDC; 0xCA62C1D6].

(** sha1.c:252-263: the two loops which fill [W]. *)
Definition fill_W (block W : list Z) : list Z :=
  let W := fold_left (fun W t => upd W t (load block t)) (seq 0 16) W in
  fold_left (fun W t =>
    upd W t (circular_shift 1 (Z.lxor (Z.lxor (Z.lxor (at_ W (t - 3)) (at_ W (t - 8))) (at_ W (t - 14))) (at_ W (t - 16)))))
    (seq 16 64) W.

(** sha1.c:271-315: the body common to the four loops.  [f] is the value of the
    function of B, C and D in it, [K[i]] its constant. *)
Definition turn (f : Z -> Z -> Z -> Z) (i : nat) (W : list Z) (v : Z * Z * Z * Z * Z) (t : nat) : Z * Z * Z * Z * Z :=
  let '(A, B, C, D, E) := v in
  let temp := u32 (circular_shift 5 A + f B C D + E + at_ W t + at_ K i) in
  (temp, A, circular_shift 30 B, C, D).
(** sha1.c:274, 285, 297 and 308. *)
Definition f_ch (B C D : Z) : Z := Z.lor (Z.land B C) (Z.land (not32 B) D).
Definition f_parity (B C D : Z) : Z := Z.lxor (Z.lxor B C) D.
Definition f_maj (B C D : Z) : Z := Z.lor (Z.lor (Z.land B C) (Z.land B D)) (Z.land C D).

(** sha1.c:235-329 [rrr_SHA1ProcessMessageBlock]: the new [Message_Digest].
    [junk]: what the uninitialised [W] holds. *)
Definition process_digest (junk digest block : list Z) : list Z :=
  let W := fill_W block junk in
  let v := (at_ digest 0, at_ digest 1, at_ digest 2, at_ digest 3, at_ digest 4) in
  let v := fold_left (turn f_ch 0 W) (seq 0 20) v in
  let v := fold_left (turn f_parity 1 W) (seq 20 20) v in
  let v := fold_left (turn f_maj 2 W) (seq 40 20) v in
  let '(A, B, C, D, E) := fold_left (turn f_parity 3 W) (seq 60 20) v in
  [u32 (at_ digest 0 + A); u32 (at_ digest 1 + B); u32 (at_ digest 2 + C);
   u32 (at_ digest 3 + D); u32 (at_ digest 4 + E)].
Definition rrr_SHA1ProcessMessageBlock (junk : list Z) (c : sha1) : sha1 :=
  mk_sha1 (process_digest junk (c_digest c) (c_block c)) (c_low c) (c_high c) (c_block c) 0
    (c_computed c) (c_corrupted c).

(** [context->Message_Block[context->Message_Block_Index++] = x]; [None] when
    that is outside of the block. *)
Definition put (c : sha1) (x : Z) : option sha1 :=
  match mem_store (c_block c) (c_index c) [x] with
  | None => None
  | Some b => Some (mk_sha1 (c_digest c) (c_low c) (c_high c) b (c_index c + 1) (c_computed c) (c_corrupted c))
  end.

(** sha1.c:186-212, the loop of [rrr_SHA1Input]. *)
Definition count (c : sha1) : sha1 :=
  let low := u32 (c_low c + 8) in
  let high := if low =? 0 then u32 (c_high c + 1) else c_high c in
  mk_sha1 (c_digest c) low high (c_block c) (c_index c) (c_computed c)
    (c_corrupted c || ((low =? 0) && (high =? 0))).
Fixpoint input_loop (junk : list Z) (c : sha1) (data : list Z) : option sha1 :=
  match data with
  | [] => Some c
  | x :: r =>
      if c_corrupted c then Some c
      else
        match put c (Z.land x 255) with
        | None => None
        | Some c =>
            let c := count c in
            let c := if c_index c =? 64 then rrr_SHA1ProcessMessageBlock junk c else c in
            input_loop junk c r
        end
  end.
(** sha1.c:171-213 [rrr_SHA1Input]. *)
Definition rrr_SHA1Input (junk : list Z) (c : sha1) (data : list Z) : option sha1 :=
  match data with
  | [] => Some c
  | _ =>
      if c_computed c || c_corrupted c
      then Some (mk_sha1 (c_digest c) (c_low c) (c_high c) (c_block c) (c_index c) (c_computed c) true)
      else input_loop junk c data
  end.

(** sha1.c:365-368, 372-375 and 380-383: zero octets up to [stop]. *)
Fixpoint zeros (n : nat) (c : sha1) (stop : Z) : option sha1 :=
  match n with
  | O => Some c
  | S m =>
      if c_index c <? stop
      then match put c 0 with Some c => zeros m c stop | None => None end
      else Some c
  end.
(** sha1.c:389-396: the length, octet by octet. *)
Definition length_octets (c : sha1) : list Z :=
  map (fun p => u8 (Z.land (Z.shiftr (fst p) (snd p)) 255))
    [(c_high c, 24); (c_high c, 16); (c_high c, 8); (c_high c, 0);
     (c_low c, 24); (c_low c, 16); (c_low c, 8); (c_low c, 0)].
Definition store_length (c : sha1) : option sha1 :=
  match mem_store (c_block c) 56 (length_octets c) with
  | None => None
  | Some b => Some (mk_sha1 (c_digest c) (c_low c) (c_high c) b (c_index c) (c_computed c) (c_corrupted c))
  end.
(** sha1.c:354-399 [rrr_SHA1PadMessage].  64 turns are enough for each loop. *)
Definition rrr_SHA1PadMessage (junk : list Z) (c : sha1) : option sha1 :=
  let c :=
    if 55 <? c_index c
    then match put c 128 with
         | None => None
         | Some c =>
             match zeros 64 c 64 with
             | None => None
             | Some c => zeros 64 (rrr_SHA1ProcessMessageBlock junk c) 56
             end
         end
    else match put c 128 with
         | None => None
         | Some c => zeros 64 c 56
         end in
  match c with
  | None => None
  | Some c =>
      match store_length c with
      | None => None
      | Some c => Some (rrr_SHA1ProcessMessageBlock junk c)
      end
  end.

(** sha1.c:110-125 [rrr_SHA1Result]: the context and the value returned. *)
Definition rrr_SHA1Result (junk : list Z) (c : sha1) : option (sha1 * bool) :=
  if c_corrupted c then Some (c, false)
  else if c_computed c then Some (c, true)
  else
    match rrr_SHA1PadMessage junk c with
    | None => None
    | Some c => Some (mk_sha1 (c_digest c) (c_low c) (c_high c) (c_block c) (c_index c) true (c_corrupted c), true)
    end.

(** sha1.c:143-147 [rrr_SHA1toBE] on (a copy of) a context: the twenty octets in
    memory at [Message_Digest] afterwards, on a host of either byte order. *)
Definition digest_octets (c : sha1) : list Z :=
  flat_map (fun x => [u8 (Z.shiftr x 24); u8 (Z.shiftr x 16); u8 (Z.shiftr x 8); u8 x]) (c_digest c).

(** Any history of calls on a context after a reset. *)
Inductive call := Input (data : list Z) | Result.
(** What the calls of [Result] gave: 0 or 1, and the octets of the digest. *)
Fixpoint sha1_calls (junk : list Z) (c : sha1) (l : list call) : option (list (bool * list Z)) :=
  match l with
  | [] => Some []
  | Input d :: r =>
      match rrr_SHA1Input junk c d with None => None | Some c => sha1_calls junk c r end
  | Result :: r =>
      match rrr_SHA1Result junk c with
      | None => None
      | Some (c, ok) =>
          match sha1_calls junk c r with
          | None => None
          | Some out => Some ((ok, digest_octets c) :: out)
          end
      end
  end.

(** ** The WebSocket accept string *)

(** http_common.h:69 *)
Definition websocket_guid : list Z := str_bytes "258EAFA5-E914-47DA-95CA-C5AB0DC85B11".

(** [*strchr(s, '\n') = '\0'] if there is one. *)
Fixpoint cut_newline (s : list Z) : list Z :=
  match s with
  | [] => []
  | x :: r => if x =? 10 then [] else x :: cut_newline r
  end.

(** http_application_http1.c:317-368
    [__rrr_http_application_http1_websocket_make_accept_string].  [key] is a C
    string.  [None]: an error or a write outside of a buffer.  [c] is the context
    before the reset.  The length given to [rrr_SHA1Input] is an [unsigned int]. *)
Definition make_accept_string (junk : list Z) (c : sha1) (key : list Z) : option (list Z) :=
  let s := key ++ websocket_guid in
  match rrr_SHA1Input junk (rrr_SHA1Reset c) (firstn (Z.to_nat (u32 (zlen s))) s) with
  | None => None
  | Some c =>
      match rrr_SHA1Result junk c with
      | None => None
      | Some (c, ok) =>
          if negb ok || c_corrupted c || negb (c_computed c) then None
          else match base64_encode (digest_octets c) with
               | B64Ok out => Some (cut_newline out)
               | _ => None
               end
      end
  end.

(** websocket.c:70-103 [rrr_websocket_state_get_key_base64], for a key that has
    been made: the text of its 16 octets. *)
Definition get_key_base64 (key : list Z) : option (list Z) :=
  match base64_encode key with
  | B64Ok out => Some (cut_newline out)
  | _ => None
  end.

(** nullsafe_str.c:682-717 [rrr_nullsafe_str_output_strip_null_append_null_trim],
    into [char name[256]], http_util.h:32-33: at most 255 octets, and the letter
    N for each NUL. *)
Definition tmp_name (value : list Z) : list Z := map (fun x => if x =? 0 then 78 else x) (firstn 255 value).

(** http_application_http1.c:688-694: the value of Sec-WebSocket-Accept in the
    answer of a server to a request with this Sec-WebSocket-Key. *)
Definition server_accept (junk : list Z) (c : sha1) (key_value : list Z) : option (list Z) :=
  make_accept_string junk c (tmp_name key_value).

(** http_application_http1.c:394-410: does a client take this value of
    Sec-WebSocket-Accept?  [key] is the key it has made. *)
Definition list_eqb (a b : list Z) : bool := if list_eq_dec Z.eq_dec a b then true else false.
Definition client_takes (junk : list Z) (c : sha1) (key value : list Z) : option bool :=
  match get_key_base64 key with
  | None => None
  | Some text =>
      match make_accept_string junk c text with
      | None => None
      | Some want => Some (list_eqb want (tmp_name value))
      end
  end.
