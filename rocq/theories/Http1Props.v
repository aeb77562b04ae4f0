(** Properties C75 to C77: receiving of HTTP/1 requests and responses. *)
From Coq Require Import Strings.String.
From Coq Require Import ZArith List Bool Lia.
From Verif Require Import Common ReadModel HttpUtilSpec Http1Model Http1Spec Http1Proofs Http1MsgProofs Http1BodyProofs Http1ThmProofs.
Import ListNotations.
Open Scope Z_scope.

(** What is told about a message to those who use it: the fields of the header in their order, names
    in small letters, and whether the connection persists. *)
Definition tells (p : part) (v : list Z) (fs : list sfield) : Prop :=
  map (fun h => (h_name h, h_full h)) (p_headers p) = map (fun f => (map small (sf_name f), Some (sf_value f))) fs /\
  exists k, p_keepalive p = Some k /\ persists v fs k.
(** A message as text, for the examples *)
Definition msg (l : list string) : list Z := lines l ++ CRLF.
Definition outcome (server : bool) (t : list Z) : res (option verdict) :=
  match receive 20 server (new_part, 0) [] [(4096, t)] with Ok (Some (v, _)) => Ok (Some v) | Ok None => Ok None | Bug => Bug | Ub => Ub end.

Lemma tells_ok p v fs : p_headers p = map stored fs -> (exists k, p_keepalive p = Some k /\ persists v fs k) -> tells p v fs.
Proof. intros H K. split; [ apply (shown_stored fs p H) | exact K ]. Qed.

(** Fields for the examples *)
Definition ex_fields : list sfield :=
  [mk_sf (str_bytes "Host") [32] (str_bytes "x.org:80"); mk_sf (str_bytes "X-Note") [] (str_bytes "a b"); mk_sf (str_bytes "content-length") [32; 9] (str_bytes "5")].
Definition ex_chunked : list sfield := [mk_sf (str_bytes "TRANSFER-encoding") [32] (str_bytes "Chunked"); mk_sf (str_bytes "Connection") [] (str_bytes "close")].
(** ** C75: messages with a length told *)

(** However the octets of a request arrive, in whichever pieces and at whichever addresses, the server
    waits until the last octet of the header is there; then it takes precisely the header and the
    body as the message, and tells the method, the URI, the fields, whether the connection persists,
    and the octets of the body. *)
Theorem http_request_partial : forall m u v fs body fuel arrivals,
  In m methods -> uri_text u -> In v versions -> Forall simple_field fs -> zlen (head (request_line m u v) fs) <= 65536 ->
  without "transfer-encoding" fs -> body_length fs (zlen body) -> zlen body < 2^63 ->
  (In m bodyless -> body = [] /\ without "content-type" fs) ->
  Forall is_arrival arrivals -> (1 <= fuel)%nat ->
  (prefix_of (octets_of arrivals) (head (request_line m u v) fs) -> zlen (octets_of arrivals) < zlen (head (request_line m u v) fs) ->
   exists p, receive fuel true (new_part, 0) [] arrivals = Ok (Some (NeedMore, p))) /\
  (prefix_of (head (request_line m u v) fs) (octets_of arrivals) ->
   exists p, receive fuel true (new_part, 0) [] arrivals = Ok (Some (Message (zlen (head (request_line m u v) fs ++ body)), p)) /\
     p_method_str p = m /\ p_uri p = u /\ tells p v fs /\
     forall base, request_body base p (head (request_line m u v) fs ++ body) = Ok (Some body)).
Proof.
  intros m u v fs body fuel arrivals M U V F S T L B Bl A Fu. pose proof (zlen_nonneg _ body) as B0. split.
  - intros P N. apply (request_incomplete m u v fs M U V F S fuel arrivals P N Fu).
  - intros P. destruct (request_complete m u v fs M U V F S fuel arrivals (zlen body) T L (conj B0 B) P A Fu) as (p & R & E).
    + intros I. destruct (Bl I) as [-> W]. split; [ reflexivity | exact W ].
    + exists p. rewrite zlen_app. split; [ exact E | ]. destruct R as (R1 & R2 & R3 & R4 & R5 & R6 & R7 & R8). split; [ exact R1 | ]. split; [ exact R2 | ]. split; [ apply (tells_ok p v fs R4 R8) | ].
      intros base. apply (request_body_ok m u v fs base p body). repeat split; assumption.
Qed.
Print Assumptions http_request_partial.
Example http_request_ex : Forall simple_field ex_fields /\ body_length ex_fields 5 /\ without "transfer-encoding" ex_fields /\
  head (request_line (str_bytes "POST") (str_bytes "/a?b") (str_bytes "HTTP/1.1")) ex_fields =
    lines ["POST /a?b HTTP/1.1"; "Host: x.org:80"; "X-Note:a b"]%string ++ str_bytes "content-length: " ++ [9] ++ lines ["5"; ""]%string.
Proof.
  split; [ now apply fieldsb_ok | ]. split; [ | split; [ now apply withoutb_ok | now vm_compute ] ].
  left. exists (firstn 2 ex_fields), (nth 2 ex_fields (mk_sf [] [] [])), []. split; [ reflexivity | ]. split; [ now apply withoutb_ok | ]. split; [ constructor | now vm_compute ].
Qed.

(** A body is not taken with a method which has none, like GET: the request is answered as bad. *)
Theorem http_request_body_forbidden_partial : forall m u v fs n fuel arrivals,
  In m bodyless -> uri_text u -> In v versions -> Forall simple_field fs -> zlen (head (request_line m u v) fs) <= 65536 ->
  without "transfer-encoding" fs -> has_length fs n -> 0 < n < 2^63 -> Forall is_arrival arrivals -> (1 <= fuel)%nat ->
  prefix_of (head (request_line m u v) fs) (octets_of arrivals) ->
  exists p, receive fuel true (new_part, 0) [] arrivals = Ok (Some (BadRequest (zlen (head (request_line m u v) fs)), p)).
Proof.
  intros m u v fs n fuel arrivals M U V F S T L B A Fu P. apply (request_refused m u v fs) with (n := n); try assumption; try lia.
  - revert M. clear. intros M. cbn [bodyless methods map In] in *. tauto.
  - now left.
Qed.
Print Assumptions http_request_body_forbidden_partial.
Example http_request_body_forbidden_ex : outcome true (msg ["GET / HTTP/1.1"; "Content-Length: 5"]%string) = Ok (Some (BadRequest 37)).
Proof. now vm_compute. Qed.

(** Likewise for responses of which the length of the body is told, or which have none by their code
    204 or 101. *)
Theorem http_response_partial : forall v c ph fs body fuel arrivals,
  In v versions -> status_code c -> Forall (fun x => x <> 13) ph -> Forall simple_field fs -> zlen (head (status_line v c ph) fs) <= 65536 ->
  without "transfer-encoding" fs ->
  (has_length fs (zlen body) \/ (without "content-length" fs /\ In c (map str_bytes ["204"; "101"]%string) /\ body = [])) -> zlen body < 2^63 ->
  Forall is_arrival arrivals -> (1 <= fuel)%nat ->
  (prefix_of (octets_of arrivals) (head (status_line v c ph) fs) -> zlen (octets_of arrivals) < zlen (head (status_line v c ph) fs) ->
   exists p, receive fuel false (new_part, 0) [] arrivals = Ok (Some (NeedMore, p))) /\
  (prefix_of (head (status_line v c ph) fs) (octets_of arrivals) ->
   exists p, receive fuel false (new_part, 0) [] arrivals = Ok (Some (Message (zlen (head (status_line v c ph) fs ++ body)), p)) /\
     p_code p = decimal c /\ tells p v fs /\
     forall base, 0 <= base -> base + zlen (head (status_line v c ph) fs ++ body) < 2^64 ->
       chunks_iterate base p (head (status_line v c ph) fs ++ body) = Ok body).
Proof.
  intros v c ph fs body fuel arrivals V C Ph F S T L B A Fu. pose proof (zlen_nonneg _ body) as B0. split.
  - intros P N. apply (response_incomplete v c ph fs V C Ph F S fuel arrivals P N Fu).
  - intros P. destruct (response_complete v c ph fs V C Ph F S fuel arrivals (zlen body) T) as (p & R & E); try assumption; [ | lia | ].
    + destruct L as [L | (L1 & L2 & ->)]; [ now left | right ]. split; [ exact L1 | ]. split; [ | reflexivity ]. cbn [map In] in L2. unfold no_body_code. destruct L2 as [<-|[<-|[]]]; [ now left | now right ].
    + exists p. rewrite zlen_app. split; [ exact E | ]. pose proof R as R'. destruct R as (R1 & R2 & R3 & R4 & R5 & R6 & R7). split; [ exact R1 | ]. split; [ apply (tells_ok p v fs R3 R7) | ].
      intros base B1 B2. rewrite <- zlen_app in B2. apply (response_body_ok v c ph fs base p body R' B1 B2).
Qed.
Print Assumptions http_response_partial.
Example http_response_ex : has_length ex_fields 5 /\ status_code (str_bytes "200") /\
  outcome false (msg ["HTTP/1.1 200 OK"; "Host: x"; "Content-Length: 5"]%string) = Ok (Some (Message 52)) /\ zlen (msg ["HTTP/1.1 200 OK"; "Host: x"; "Content-Length: 5"]%string) = 47.
Proof.
  split; [ exists (firstn 2 ex_fields), (nth 2 ex_fields (mk_sf [] [] [])), []; split; [ reflexivity | ]; split; [ now apply withoutb_ok | ]; split; [ constructor | now vm_compute ] | ].
  split; [ split; [ reflexivity | change (str_bytes "200") with [50; 48; 48]; repeat apply Forall_cons; try apply Forall_nil; unfold digit; lia ] | now vm_compute ].
Qed.

(** ** C76: bodies made of chunks *)

(** A response with a body made of chunks is complete precisely when the last octet is there, however
    the octets arrive, and the body is what is inside the chunks. *)
Theorem http_response_chunked_partial : forall v c ph fs cs zero fuel arrivals,
  In v versions -> status_code c -> Forall (fun x => x <> 13) ph -> Forall simple_field fs -> zlen (head (status_line v c ph) fs) <= 65536 ->
  has_chunks fs -> Forall chunk cs -> hex_number zero 0 /\ zlen zero <= 63 ->
  let full := head (status_line v c ph) fs ++ chunked_text cs zero in
  zlen full < 2^63 -> (Datatypes.length cs + 1 < fuel)%nat -> Forall (placed (zlen full)) arrivals ->
  (prefix_of (octets_of arrivals) full -> zlen (octets_of arrivals) < zlen full ->
   exists p, receive fuel false (new_part, 0) [] arrivals = Ok (Some (NeedMore, p))) /\
  (prefix_of full (octets_of arrivals) ->
   exists p, receive fuel false (new_part, 0) [] arrivals = Ok (Some (Message (zlen full), p)) /\
     p_code p = decimal c /\ tells p v fs /\
     forall base, 0 <= base -> base + zlen full < 2^64 -> chunks_iterate base p full = Ok (chunked_body cs)).
Proof.
  intros v c ph fs cs zero fuel arrivals V C Ph F S Hc Hcs Hz full L Fu A. destruct (response_chunked v c ph fs cs zero V C Ph F S Hc Hcs Hz L fuel arrivals Fu A) as [X Y]. split; [ exact X | ].
  intros P. destruct (Y P) as (p & E & R1 & R2 & R3 & R4). exists p. split; [ exact E | ]. split; [ exact R1 | ]. split; [ apply (tells_ok p v fs R2 R3) | exact R4 ].
Qed.
Print Assumptions http_response_chunked_partial.
Definition ex_chunks : list (list Z * list Z) := [(str_bytes "5", str_bytes "hello"); (str_bytes "00a", str_bytes "0123456789")].
Example http_response_chunked_ex : Forall simple_field ex_chunked /\ has_chunks ex_chunked /\ Forall chunk ex_chunks /\ hex_number (str_bytes "00") 0 /\
  chunked_text ex_chunks (str_bytes "00") = lines ["5"; "hello"; "00a"; "0123456789"; "00"; ""]%string /\ chunked_body ex_chunks = str_bytes "hello0123456789".
Proof.
  split; [ now apply fieldsb_ok | ]. split; [ split; [ now apply withoutb_ok | ] | ].
  { exists [], (nth 0 ex_chunked (mk_sf [] [] [])), (skipn 1 ex_chunked). split; [ reflexivity | ]. split; [ constructor | now vm_compute ]. }
  assert (Z0 : hex 48 0) by (apply (hex_digit_ 48); lia).
  split. { constructor; [ | constructor; [ | constructor ] ]; (split; [ | split; [ vm_compute; congruence | discriminate ] ]).
    - apply (hn_one 53 5). apply (hex_digit_ 53). lia.
    - apply (hn_more [48; 48] 0 97 10); [ apply (hn_more [48] 0 48 0); [ now apply hn_one | exact Z0 ] | apply (hex_lower 97); lia ]. }
  split; [ apply (hn_more [48] 0 48 0); [ now apply hn_one | exact Z0 ] | now vm_compute ].
Qed.

(** FINDING: the end of a request with a body made of chunks is found rightly, but the body handed to
    the program is the octets of the body together with as many octets beyond their end as the header is
    long: the length of the merged data is stored as the length of the body (http_part.c:762). *)
Theorem http_request_chunked_refuted : forall m u v fs cs zero fuel arrivals,
  In m methods -> ~ In m bodyless -> uri_text u -> In v versions -> Forall simple_field fs -> zlen (head (request_line m u v) fs) <= 65536 ->
  has_chunks fs -> Forall chunk cs -> hex_number zero 0 /\ zlen zero <= 63 ->
  let full := head (request_line m u v) fs ++ chunked_text cs zero in
  zlen full < 2^63 -> (Datatypes.length cs + 1 < fuel)%nat -> Forall (placed (zlen full)) arrivals ->
  (prefix_of (octets_of arrivals) full -> zlen (octets_of arrivals) < zlen full ->
   exists p, receive fuel true (new_part, 0) [] arrivals = Ok (Some (NeedMore, p))) /\
  (prefix_of full (octets_of arrivals) ->
   exists p, receive fuel true (new_part, 0) [] arrivals = Ok (Some (Message (zlen full), p)) /\
     p_method_str p = m /\ p_uri p = u /\ tells p v fs /\
     forall base, 0 <= base -> base + zlen full < 2^64 -> request_body base p full = Ub).
Proof.
  intros m u v fs cs zero fuel arrivals M NM U V F S Hc Hcs Hz full L Fu A. destruct (request_chunked m u v fs cs zero M NM U V F S Hc Hcs Hz L fuel arrivals Fu A) as [X Y]. split; [ exact X | ].
  intros P. destruct (Y P) as (p & E & R0 & R1 & R2 & R3 & R4). exists p. split; [ exact E | ]. split; [ exact R0 | ]. split; [ exact R1 | ]. split; [ apply (tells_ok p v fs R2 R3) | exact R4 ].
Qed.
Print Assumptions http_request_chunked_refuted.
Example http_request_chunked_ex : In (str_bytes "POST") methods /\ ~ In (str_bytes "POST") bodyless /\
  outcome true (msg ["POST / HTTP/1.1"; "Transfer-Encoding: chunked"]%string ++ lines ["5"; "hello"; "0"; ""]%string) = Ok (Some (Message 62)).
Proof. vm_compute. intuition congruence. Qed.

(** FINDING: a response of 107 octets from a server keeps the client busy for ever: a chunk length near
    2^64 makes the position of the next chunk wrap around to a chunk read before (http_part_parse.c:374-408).
    No number of rounds is enough. *)
Theorem http_chunk_endless_refuted : exists text base, zlen text < 110 /\
  forall fuel, receive fuel false (new_part, 0) [] [(base, text)] = Ok None.
Proof. exists endless_text, endless_base. split; [ now vm_compute | exact endless_receive ]. Qed.
Print Assumptions http_chunk_endless_refuted.
Example http_chunk_endless_ex : endless_text = msg ["HTTP/1.1 200 OK"; "Transfer-Encoding: chunked"]%string ++ lines ["1"; "xFFFFFFFFFFFFFFEA"; "0"]%string.
Proof. now vm_compute. Qed.

(** FINDING: chunk extensions, which a recipient must ignore, are refused (http_part_parse.c:262-298). *)
Theorem http_chunk_extension_refuted : exists t, t = msg ["HTTP/1.1 200 OK"; "Transfer-Encoding: chunked"]%string ++ lines ["5;a=b"; "hello"; "0"; ""]%string /\
  outcome false t = Ok (Some Refused).
Proof. eexists. split; [ reflexivity | now vm_compute ]. Qed.
Print Assumptions http_chunk_extension_refuted.

(** ** C77: the end of a message *)

(** FINDING: a response without Content-Length is read until the connection is closed, but the length of
    its body is not stored then: whatever the body is, the program gets an empty one (http_part_parse.c:727-730,
    http_part.c:326-372). *)
Theorem http_response_until_close_refuted : forall v c ph fs fuel arrivals,
  In v versions -> status_code c -> Forall (fun x => x <> 13) ph -> Forall simple_field fs -> zlen (head (status_line v c ph) fs) <= 65536 ->
  without "transfer-encoding" fs -> without "content-length" fs -> ~ In c (map str_bytes ["204"; "101"]%string) ->
  prefix_of (head (status_line v c ph) fs) (octets_of arrivals) -> Forall is_arrival arrivals -> (1 <= fuel)%nat ->
  exists p, receive fuel false (new_part, 0) [] arrivals = Ok (Some (UntilClose, p)) /\
    forall body base, 0 <= base -> base + zlen (head (status_line v c ph) fs ++ body) < 2^64 ->
      chunks_iterate base p (head (status_line v c ph) fs ++ body) = Ok [].
Proof.
  intros v c ph fs fuel arrivals V C Ph F S T L N P A Fu. destruct (response_until_close v c ph fs V C Ph F S fuel arrivals T L) as (p & R & E); try assumption.
  - intros X. apply N. unfold no_body_code in X. cbn [map In]. intuition.
  - exists p. split; [ exact E | ]. intros body base B1 B2. apply (response_body_lost v c ph fs base p body R B1 B2).
Qed.
Print Assumptions http_response_until_close_refuted.
Example http_response_until_close_ex : outcome false (msg ["HTTP/1.0 200 OK"; "Connection: close"]%string ++ str_bytes "hello") = Ok (Some UntilClose).
Proof. now vm_compute. Qed.

(** FINDING: responses which have no body by their code (1xx other than 101, and 304) are taken to last until
    the connection is closed (http_part_parse.c:720-730). *)
Theorem http_response_bodyless_refuted : forall c, In c ["100 Continue"; "103 Early Hints"; "304 Not Modified"]%string ->
  outcome false (msg [String.append "HTTP/1.1 " c; "Server: x"]%string ++ msg ["HTTP/1.1 200 OK"; "Content-Length: 0"]%string) = Ok (Some UntilClose).
Proof. intros c I. cbn [In] in I. destruct I as [<-|[<-|[<-|[]]]]; now vm_compute. Qed.
Print Assumptions http_response_bodyless_refuted.

(** FINDING: requests the length of which is not clear or not understood, which must be refused because other
    recipients in front of the server may see another end, are accepted: with both a length and chunks
    the chunks are ignored, of several lengths the first is used, a list of encodings and a name with a
    blank before the colon are taken as no body (http_part_parse.c:702-725), and a field after a comma at
    the end of a line is swallowed (http_header_fields.c). *)
Theorem http_request_end_refuted :
  outcome true (msg ["POST / HTTP/1.1"; "Content-Length: 5"; "Transfer-Encoding: chunked"]%string) = Ok (Some (Message (66 + 5))) /\
  outcome true (msg ["POST / HTTP/1.1"; "Content-Length: 5"; "Content-Length: 6"]%string) = Ok (Some (Message (57 + 5))) /\
  outcome true (msg ["POST / HTTP/1.1"; "Transfer-Encoding: gzip, chunked"]%string) = Ok (Some (Message (53 + 0))) /\
  outcome true (msg ["POST / HTTP/1.1"; "Content-Length : 5"]%string) = Ok (Some (Message (39 + 0))) /\
  outcome true (msg ["POST / HTTP/1.1"; "Accept:a,"; "Content-Length: 5"]%string) = Ok (Some (Message (49 + 0))).
Proof. repeat apply conj; vm_compute; reflexivity. Qed.
Print Assumptions http_request_end_refuted.

(** FINDING: the sum of the length of the header and a length told near 2^64 wraps around, so the message is
    taken to end within its header (http_part_parse.c:707). *)
Theorem http_length_wrap_refuted : exists t, zlen t = 57 /\ outcome false t = Ok (Some (Message 56)).
Proof. exists (msg ["HTTP/1.1 200 OK"; "Content-Length: 18446744073709551615"]%string). now vm_compute. Qed.
Print Assumptions http_length_wrap_refuted.

(** FINDING: a request with a Link field aborts the program (http_header_fields.c). *)
Theorem http_link_abort_refuted : exists t, t = msg ["GET / HTTP/1.1"; "Link: <a> ;b"]%string /\ outcome true t = Bug.
Proof. eexists. split; [ reflexivity | now vm_compute ]. Qed.
Print Assumptions http_link_abort_refuted.

(** FINDING: correct requests are refused when a field has an empty value or a value which ends in an equal
    sign, like many addresses in Referer fields. *)
Theorem http_correct_field_refuted :
  outcome true (msg ["GET / HTTP/1.1"; "Referer: http://x/?q="]%string) = Ok (Some Refused) /\
  outcome true (msg ["GET / HTTP/1.1"; "Host:"]%string) = Ok (Some Refused).
Proof. now vm_compute. Qed.
Print Assumptions http_correct_field_refuted.
