(** What a history of calls on a SHA-1 context must give, and the digest a
    WebSocket server must send; specification only. *)
From Coq Require Import Strings.String.
From Coq Require Import ZArith List Bool.
From Verif Require Import Common ShaSpec ShaModel Base64Spec.
Import ListNotations.
Open Scope Z_scope.

(** [m]: everything taken so far.  [asked]: there has been a result.  [bad]: data
    came after a result, or 2^64 bits or more.  For each [Result]: nothing if
    [bad], and else the SHA-1 of [m]. *)
Fixpoint expected (m : list Z) (asked bad : bool) (l : list call) : list (option (list Z)) :=
  match l with
  | [] => []
  | Input [] :: r => expected m asked bad r
  | Input d :: r =>
      if asked then expected m asked true r
      else expected (m ++ d) asked (bad || (2^64 <=? 8 * zlen (m ++ d))) r
  | Result :: r => (if bad then None else Some (SHA1 m)) :: expected m true bad r
  end.
(** What a caller learns from one result. *)
Definition answer (o : bool * list Z) : option (list Z) := if fst o then Some (snd o) else None.
Definition octets_of (c : call) : list Z := match c with Input d => d | Result => [] end.

(** RFC 6455, 1.3 and 4.2.2 (5.4): base64 of the SHA-1 of key and GUID. *)
Definition rfc6455_accept (key : list Z) : list Z :=
  rfc_encode 43 47 [61] (SHA1 (key ++ str_bytes "258EAFA5-E914-47DA-95CA-C5AB0DC85B11")).
