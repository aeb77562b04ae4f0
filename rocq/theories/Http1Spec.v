(** What the octets of HTTP/1 messages mean, after RFC 7230. *)
From Coq Require Import Strings.String.
From Coq Require Import ZArith List Bool.
From Verif Require Import Common HttpUtilSpec.
Import ListNotations.
Open Scope Z_scope.

Definition CRLF : list Z := [13; 10].
Definition blank (c : Z) : Prop := c = 32 \/ c = 9.
Definition small (c : Z) : Z := if (65 <=? c) && (c <=? 90) then c + 32 else c.

(** ** Header fields *)

(** A line of the header: name, colon, blanks, value *)
Record sfield : Type := mk_sf { sf_name : list Z; sf_space : list Z; sf_value : list Z }.
Definition field_line (f : sfield) : list Z := sf_name f ++ [58] ++ sf_space f ++ sf_value f ++ CRLF.
Definition field_lines (fs : list sfield) : list Z := concat (map field_line fs).
(** Names have no case *)
Definition named (s : string) (f : sfield) : Prop := map small (sf_name f) = str_bytes s.
(** A number in decimal notation without leading zeros *)
Definition number (ds : list Z) : Prop := ds <> [] /\ Forall digit ds /\ (ds = [48] \/ hd 0 ds <> 48) /\ decimal ds < 2^64.
(** A value is not empty, has no line end and no blanks at its ends *)
Definition value_text (v : list Z) : Prop :=
  v <> [] /\ Forall (fun c => c <> 13 /\ c <> 10) v /\ ~ blank (hd 0 v) /\ ~ blank (last v 0).
(** Value which is not a list and has no parameters: without comma, semicolon and equal sign *)
Definition plain_text (v : list Z) : Prop := Forall (fun c => c <> 44 /\ c <> 59 /\ c <> 61) v.
(** Names of fields the values of which the implementation does not take apart *)
Definition whole_fields : list string :=
  ["host"; "access-control-request-headers"; "upgrade"; "content-length"; "content-encoding"; "date"; "location";
   "transfer-encoding"; "user-agent"; "x-clue"; "sec-websocket-version"; "http2-settings"]%string.
(** Fields with plain values, or with any value if it is not taken apart and blanks precede it *)
Definition simple_field (f : sfield) : Prop :=
  sf_name f <> [] /\ Forall token_char (sf_name f) /\ Forall blank (sf_space f) /\ value_text (sf_value f) /\
  (plain_text (sf_value f) \/ (sf_space f <> [] /\ exists s, In s whole_fields /\ named s f)) /\
  (named "content-length" f -> number (sf_value f)) /\
  (named "content-type" f -> map small (sf_value f) <> str_bytes "charset" /\ map small (sf_value f) <> str_bytes "boundary") /\
  ~ named "link" f /\ ~ named "alt-svc" f /\ ~ named "sec-websocket-key" f /\ ~ named "sec-websocket-accept" f.

(** The length which the header tells for the body *)
Definition without (s : string) (fs : list sfield) : Prop := Forall (fun f => ~ named s f) fs.
Definition has_length (fs : list sfield) (n : Z) : Prop :=
  exists a f b, fs = a ++ f :: b /\ without "content-length" a /\ without "content-length" b /\
                named "content-length" f /\ decimal (sf_value f) = n.

(** ** Messages *)

Definition versions : list (list Z) := [str_bytes "HTTP/1.1"; str_bytes "HTTP/1.0"].
Definition methods : list (list Z) := map str_bytes ["GET"; "OPTIONS"; "POST"; "PUT"; "PATCH"; "HEAD"; "DELETE"]%string.
(** The methods for which the implementation takes no body *)
Definition bodyless : list (list Z) := map str_bytes ["GET"; "OPTIONS"; "HEAD"; "DELETE"]%string.
Definition uri_text (u : list Z) : Prop := u <> [] /\ Forall (fun c => c <> 13 /\ ~ blank c) u.
Definition request_line (m u v : list Z) : list Z := m ++ [32] ++ u ++ [32] ++ v ++ CRLF.
Definition status_code (ds : list Z) : Prop := zlen ds = 3 /\ Forall digit ds.
Definition status_line (v code phrase : list Z) : list Z := v ++ [32] ++ code ++ [32] ++ phrase ++ CRLF.
(** Everything up to the empty line *)
Definition head (first : list Z) (fs : list sfield) : list Z := first ++ field_lines fs ++ CRLF.

(** ** Chunks *)

(** A number in hexadecimal notation *)
Inductive hex_number : list Z -> Z -> Prop :=
| hn_one c x : hex c x -> hex_number [c] x
| hn_more t n c x : hex_number t n -> hex c x -> hex_number (t ++ [c]) (16 * n + x).
(** The text of a chunk: size and octets; no extensions *)
Definition chunk_text (c : list Z * list Z) : list Z := fst c ++ CRLF ++ snd c ++ CRLF.
Definition chunk (c : list Z * list Z) : Prop := hex_number (fst c) (zlen (snd c)) /\ zlen (fst c) <= 63 /\ snd c <> [].
(** A body made of chunks, without trailer *)
Definition chunked_text (cs : list (list Z * list Z)) (zero : list Z) : list Z := concat (map chunk_text cs) ++ zero ++ CRLF ++ CRLF.
Definition chunked_body (cs : list (list Z * list Z)) : list Z := concat (map snd cs).

(** [a] is the beginning of [b] *)
Definition prefix_of (a b : list Z) : Prop := exists r, b = a ++ r.

(** ** Whole messages *)

(** Whether the connection is kept open after the message *)
Definition persists (v : list Z) (fs : list sfield) (k : bool) : Prop :=
  (without "connection" fs /\ (k = true <-> v = str_bytes "HTTP/1.1")) \/
  exists a f b, fs = a ++ f :: b /\ without "connection" a /\ named "connection" f /\
    ((map small (sf_value f) = str_bytes "close" /\ k = false) \/
     (In (map small (sf_value f)) (map str_bytes ["keep-alive"; "upgrade"]%string) /\ k = true) \/
     (~ In (map small (sf_value f)) (map str_bytes ["close"; "keep-alive"; "upgrade"]%string) /\ (k = true <-> v = str_bytes "HTTP/1.1"))).
(** The length of the body as told by the header; without it there is no body *)
Definition body_length (fs : list sfield) (n : Z) : Prop := has_length fs n \/ (without "content-length" fs /\ n = 0).
(** The body is told to be made of chunks *)
Definition has_chunks (fs : list sfield) : Prop :=
  without "content-length" fs /\
  exists a f b, fs = a ++ f :: b /\ without "transfer-encoding" a /\ named "transfer-encoding" f /\ map small (sf_value f) = str_bytes "chunked".
(** The octets which have arrived; each arrival is an address and octets *)
Definition octets_of (arrivals : list (Z * list Z)) : list Z := concat (map snd arrivals).
Definition is_arrival (a : Z * list Z) : Prop := zlen (snd a) < 2^31.
