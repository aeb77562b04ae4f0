(** Model of src/lib/util/base64.c. *)
From Coq Require Import ZArith List Bool.
From Verif Require Import Common.
Import ListNotations.
Open Scope Z_scope.

(** base64.c:23-24, [base64_table]. *)
Definition base64_table : list Z :=
  Eval compute in str_bytes "ABCDEFGHIJKLMNOPQRSTUVWXYZabcdefghijklmnopqrstuvwxyz0123456789+/".
(** base64.c:166-167, [base64url_table]. *)
Definition base64url_table : list Z :=
  Eval compute in str_bytes "ABCDEFGHIJKLMNOPQRSTUVWXYZabcdefghijklmnopqrstuvwxyz0123456789-_".

Definition chr_nl : Z := 10.
Definition chr_eq : Z := 61.

(** [table[i]] *)
Definition tbl_at (tbl : list Z) (i : Z) : Z := nth (Z.to_nat i) tbl 0.

(** What the encoders and decoders can do: return a buffer, return NULL, or
    write outside the allocated buffer. *)
Inductive b64_result : Type :=
| B64Null
| B64Ok (out : list Z)
| B64Overflow.

(** base64.c:46-50 and 179-183, the allocation size in 64 bit arithmetic.
    [None]: the overflow check fired and NULL is returned. *)
Definition b64_alloc_size (len : Z) : option Z :=
  let olen := u64 (u64 (len * 4) / 3 + 4) in
  let olen := u64 (olen + olen / 72) in
  let olen := u64 (olen + 1) in
  if olen <? len then None else Some olen.

(** The four sextets written for a complete group, base64.c:60-63 and 192-195. *)
Definition b64_group (tbl : list Z) (a b c : Z) : list Z :=
  [ tbl_at tbl (Z.shiftr a 2);
    tbl_at tbl (Z.lor (Z.shiftl (Z.land a 3) 4) (Z.shiftr b 4));
    tbl_at tbl (Z.lor (Z.shiftl (Z.land b 15) 2) (Z.shiftr c 6));
    tbl_at tbl (Z.land c 63) ].

(** base64.c:59-87, the loop, the tail and the last line feed.  [line] is
    [line_len].  The result is everything written before the final NUL. *)
Fixpoint b64_enc_loop (line : Z) (src : list Z) : list Z :=
  match src with
  | a :: b :: c :: rest =>
      b64_group base64_table a b c ++
      (let line := line + 4 in
       if 72 <=? line then chr_nl :: b64_enc_loop 0 rest else b64_enc_loop line rest)
  | [a; b] =>
      [ tbl_at base64_table (Z.shiftr a 2);
        tbl_at base64_table (Z.lor (Z.shiftl (Z.land a 3) 4) (Z.shiftr b 4));
        tbl_at base64_table (Z.shiftl (Z.land b 15) 2);
        chr_eq; chr_nl ]
  | [a] =>
      [ tbl_at base64_table (Z.shiftr a 2);
        tbl_at base64_table (Z.shiftl (Z.land a 3) 4);
        chr_eq; chr_eq; chr_nl ]
  | [] => if line =? 0 then [] else [chr_nl]
  end.

(** base64.c:38-93 [rrr_base64_encode].  Allocation is assumed to succeed.
    [B64Overflow] is the outcome of writing (including the NUL) more than
    the allocated size; since the write position only moves forward this is
    decided by the total number of octets written. *)
Definition base64_encode (src : list Z) : b64_result :=
  match b64_alloc_size (zlen src) with
  | None => B64Null
  | Some olen =>
      let out := b64_enc_loop 0 src in
      if zlen out + 1 <=? olen then B64Ok out else B64Overflow
  end.

(** base64.c:191-208, loop and tail of [rrr_base64url_encode]. *)
Fixpoint b64url_enc_loop (src : list Z) : list Z :=
  match src with
  | a :: b :: c :: rest => b64_group base64url_table a b c ++ b64url_enc_loop rest
  | [a; b] =>
      [ tbl_at base64url_table (Z.shiftr a 2);
        tbl_at base64url_table (Z.lor (Z.shiftl (Z.land a 3) 4) (Z.shiftr b 4));
        tbl_at base64url_table (Z.shiftl (Z.land b 15) 2) ]
  | [a] =>
      [ tbl_at base64url_table (Z.shiftr a 2);
        tbl_at base64url_table (Z.shiftl (Z.land a 3) 4) ]
  | [] => []
  end.

(** base64.c:172-214 [rrr_base64url_encode]. *)
Definition base64url_encode (src : list Z) : b64_result :=
  match b64_alloc_size (zlen src) with
  | None => B64Null
  | Some olen =>
      let out := b64url_enc_loop src in
      if zlen out + 1 <=? olen then B64Ok out else B64Overflow
  end.

(** [memset(dtable, 0x80, 256)] and the loop filling it, base64.c:113-115 and
    222-224: a list of 256 entries updated in place. *)
Fixpoint list_set (l : list Z) (i : nat) (v : Z) : list Z :=
  match l, i with
  | [], _ => []
  | _ :: r, O => v :: r
  | x :: r, S j => x :: list_set r j v
  end.

Fixpoint dtable_fill (dt : list Z) (i : Z) (tbl : list Z) : list Z :=
  match tbl with
  | [] => dt
  | c :: r => dtable_fill (list_set dt (Z.to_nat c) i) (i + 1) r
  end.

Definition dtable_init (tbl : list Z) : list Z := dtable_fill (repeat 128 256) 0 tbl.

(** base64.c:113-116: also [dtable['='] = 0]. *)
Definition dtable_std : list Z := Eval compute in list_set (dtable_init base64_table) 61 0.
(** base64.c:222-224. *)
Definition dtable_url : list Z := Eval compute in dtable_init base64url_table.

(** [dtable[src[i]]] *)
Definition dt_at (dt : list Z) (c : Z) : Z := nth (Z.to_nat c) dt 128.

(** base64.c:118-122 and 226-230: number of characters of the alphabet. *)
Fixpoint dt_count (dt : list Z) (src : list Z) : Z :=
  match src with
  | [] => 0
  | c :: r => (if dt_at dt c =? 128 then 0 else 1) + dt_count dt r
  end.

(** base64.c:143-145 and 249-251: the three octets of a complete block,
    each truncated to [unsigned char]. *)
Definition b64_unblock (b0 b1 b2 b3 : Z) : list Z :=
  [ u8 (Z.lor (Z.shiftl b0 2) (Z.shiftr b1 4));
    u8 (Z.lor (Z.shiftl b1 4) (Z.shiftr b2 2));
    u8 (Z.lor (Z.shiftl b2 6) b3) ].

(** [pos -= k] *)
Definition drop_last (k : nat) (l : list Z) : list Z := firstn (length l - k) l.

(** base64.c:132-162 and 240-256.  [cap] is the allocated size, [out] what has
    been written so far, [block] the characters of the block being filled,
    [handle_pad] selects the padding branch which only the standard decoder
    has. *)
Fixpoint b64_dec_loop (dt : list Z) (handle_pad : bool) (cap : Z)
    (src : list Z) (block : list Z) (pad : Z) (out : list Z) : b64_result :=
  match src with
  | [] => B64Ok out
  | c :: rest =>
      let tmp := dt_at dt c in
      if tmp =? 128 then b64_dec_loop dt handle_pad cap rest block pad out
      else
        let pad := if handle_pad && (c =? chr_eq) then pad + 1 else pad in
        match block with
        | [b0; b1; b2] =>
            let out := out ++ b64_unblock b0 b1 b2 tmp in
            if cap <? zlen out then B64Overflow
            else if pad =? 0 then b64_dec_loop dt handle_pad cap rest [] pad out
            else if pad =? 1 then B64Ok (drop_last 1 out)
            else if pad =? 2 then B64Ok (drop_last 2 out)
            else B64Null
        | _ => b64_dec_loop dt handle_pad cap rest (block ++ [tmp]) pad out
        end
  end.

(** base64.c:106-164 [rrr_base64_decode]. *)
Definition base64_decode (src : list Z) : b64_result :=
  let count := dt_count dtable_std src in
  if (count =? 0) || negb (count mod 4 =? 0) then B64Null
  else b64_dec_loop dtable_std true (count / 4 * 3) src [] 0 [].

(** base64.c:216-258 [rrr_base64url_decode]. *)
Definition base64url_decode (src : list Z) : b64_result :=
  let count := dt_count dtable_url src in
  if (count =? 0) || negb (count mod 4 =? 0) then B64Null
  else b64_dec_loop dtable_url false (count / 4 * 3) src [] 0 [].
