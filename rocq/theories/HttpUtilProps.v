(** Properties C71 to C74: URL encoding, form fields, quoted header values and URIs. *)
From Coq Require Import Strings.String.
From Coq Require Import ZArith List Bool Lia.
From Verif Require Import Common ReadModel HttpUtilModel HttpUtilSpec HttpUtilProofs HttpUriProofs.
Import ListNotations.
Open Scope Z_scope.

(** ** C71: URL encoding *)

(** What is written stands for the octets given, and consists of characters which may appear in a
    URI, no more than three for each. *)
Theorem url_encode_standard_partial : forall s, Forall octet s -> 3 * zlen s < 2^32 ->
  exists t, uri_encode s = Ok t /\ encodes t s /\ Forall safe t /\ zlen s <= zlen t <= 3 * zlen s.
Proof. intros s O L. destruct (uri_encode_ok s O L) as (t & E & _ & H). eauto. Qed.
Print Assumptions url_encode_standard_partial.
Example url_encode_ex : uri_encode (str_bytes "a b/100%") = Ok (str_bytes "a%20b%2F100%25") /\ uri_encode [0; 255] = Ok (str_bytes "%00%FF").
Proof. now vm_compute. Qed.

(** FINDING: encoding more than a third of 4 GB aborts the program (http_util.c:345). *)
Theorem url_encode_size_refuted : forall s, 2^32 <= 3 * zlen s -> uri_encode s = Bug.
Proof. intros s H. unfold uri_encode. replace (2^32 - 1 <? zlen s * 3) with true by lia. reflexivity. Qed.
Print Assumptions url_encode_size_refuted.
Example url_encode_size_ex : exists s : list Z, 2^32 <= 3 * zlen s.
Proof. exists (repeat 97 (Z.to_nat 1431655766)). unfold zlen. rewrite repeat_length, Z2Nat.id by lia. lia. Qed.

(** Every correct text is read as what it stands for, with capital or small hexadecimal digits and
    whichever characters are encoded. *)
Theorem url_decode_standard : forall t s, encodes t s -> url_decode t = Ok (Some s).
Proof. exact decode_encodes. Qed.
Print Assumptions url_decode_standard.
Example url_decode_ex : encodes (str_bytes "%61%2f+") [97; 47; 43] /\ url_decode (str_bytes "%61%2f+") = Ok (Some [97; 47; 43]).
Proof.
  split; [ | reflexivity ]. apply (enc_percent 54 49 6 1); [ apply (hex_digit_ 54); lia | apply (hex_digit_ 49); lia | ].
  apply (enc_percent 50 102 2 15); [ apply (hex_digit_ 50); lia | apply (hex_lower 102); lia | ]. apply enc_plain; [ lia | constructor ].
Qed.
(** So what has been encoded is read back. *)
Theorem url_round_trip : forall s, Forall octet s -> 3 * zlen s < 2^32 -> exists t, uri_encode s = Ok t /\ url_decode t = Ok (Some s).
Proof. intros s O L. destruct (uri_encode_ok s O L) as (t & E & _ & H & _). eauto using decode_encodes. Qed.
Print Assumptions url_round_trip.
(** No text at all makes decoding abort or write more than it was given. *)
Theorem url_decode_safe : forall t, exists r, url_decode t = Ok r /\ match r with Some s => zlen s <= zlen t | None => True end.
Proof. exact decode_total. Qed.
Print Assumptions url_decode_safe.
Example url_decode_safe_ex : url_decode (str_bytes "abc%4") = Ok None /\ url_decode (str_bytes "%zz") = Ok None.
Proof. now vm_compute. Qed.

(** FINDING: an escape with one hexadecimal digit is taken, and the character after the digit is
    lost: "%1z" is read as the single octet 1, although it stands for nothing. *)
Theorem url_decode_malformed_refuted : exists t s, url_decode t = Ok (Some s) /\ forall s', ~ encodes t s'.
Proof.
  exists (str_bytes "%1z"), [1]. split; [ reflexivity | ]. intros s' H. inversion H as [ | | ? ? ? ? ? ? H1 H2 ]; subst; [ congruence | ]. inversion H2; lia.
Qed.
Print Assumptions url_decode_malformed_refuted.

(** The endpoint of a request is what stands before the first question mark, decoded, and the query
    string is the rest, not decoded. *)
Theorem url_endpoint_and_query : forall t e q, encodes t e -> ~ In 63 t ->
  endpoint_and_query (t ++ [63] ++ q) = Ok (Some (e, q)) /\ endpoint_and_query t = Ok (Some (e, [])).
Proof.
  intros t e q H N. unfold endpoint_and_query. change ([63] ++ q) with (63 :: q). rewrite (split_query_app t q N), (split_query_none t N). rewrite (decode_encodes t e H). auto.
Qed.
Print Assumptions url_endpoint_and_query.
Example url_endpoint_ex : endpoint_and_query (str_bytes "/a%20b?x=%20?y") = Ok (Some (str_bytes "/a b", str_bytes "x=%20?y")).
Proof. now vm_compute. Qed.

(** ** C72: form fields *)

(** Any text of fields is read as these fields, in their order, whatever is encoded how.  Missing:
    values which start with a zero octet ([form_value_zero_refuted]) and spaces which are not
    encoded. *)
Theorem form_parse_partial : forall fs t, form_text fs t -> Forall (fun f => forall v, snd f <> 0 :: v) fs -> zlen t < 2^32 - 1 -> query_parse t = Ok (Some fs).
Proof.
  intros fs t H V L. apply query_form; [ exact H | | exact L ]. rewrite Forall_forall in *. intros f I. specialize (V f I). unfold value_ok. destruct (snd f) as [ | c v ]; [ exact Logic.I | ]. intros ->. now apply (V v). 
Qed.
Print Assumptions form_parse_partial.
(** An ampersand at the end makes no difference. *)
Theorem form_trailing_partial : forall fs t, form_text fs t -> fs <> [] -> Forall (fun f => forall v, snd f <> 0 :: v) fs -> zlen t < 2^32 - 2 -> query_parse (t ++ [38]) = Ok (Some fs).
Proof.
  intros fs t H NE V L. apply query_form_amp; [ exact H | exact NE | | exact L ]. rewrite Forall_forall in *. intros f I. specialize (V f I). unfold value_ok. destruct (snd f) as [ | c v ]; [ exact Logic.I | ]. intros ->. now apply (V v).
Qed.
Print Assumptions form_trailing_partial.
Example form_trailing_ex : query_parse (str_bytes "a=1&b=2&") = Ok (Some [(str_bytes "a", str_bytes "1"); (str_bytes "b", str_bytes "2")]).
Proof. now vm_compute. Qed.
(** The query string of a request is read the same way. *)
Theorem form_uri_partial : forall fs e t, ~ In 63 e -> form_text fs t -> Forall (fun f => forall v, snd f <> 0 :: v) fs -> zlen t < 2^32 - 1 -> uri_fields (e ++ [63] ++ t) = Ok (Some fs).
Proof.
  intros fs e t N H V L. unfold uri_fields. cbn [app]. rewrite (split_query_app e t N). cbn [snd]. destruct t as [ | c t' ]; [ | apply form_parse_partial; auto ].
  destruct fs as [ | f fs ]; [ reflexivity | ]. exfalso. assert (G : forall f, ~ field_text f []) by (intros f0 F; inversion F as [ ? ? _ NT | ? ? tn tv _ NT _ Q ]; subst; [ congruence | destruct tn; discriminate ]).
  inversion H as [ | ? ? F | ? t1 ? ? F _ _ Q ]; subst; [ now apply G in F | destruct t1; discriminate ].
Qed.
Print Assumptions form_uri_partial.
(** What is written for fields with names is read back as the same fields. *)
Theorem form_round_trip_partial : forall fs, Forall (fun f => fst f <> [] /\ (forall v, snd f <> 0 :: v) /\ Forall octet (fst f) /\ Forall octet (snd f)) fs ->
  (forall t, form_data true fs = Ok t -> zlen t < 2^32 - 1) -> Forall (fun f => 3 * zlen (fst f) < 2^32 /\ 3 * zlen (snd f) < 2^32) fs ->
  exists t, form_data true fs = Ok t /\ form_text fs t /\ query_parse t = Ok (Some fs).
Proof.
  intros fs H L B. destruct (form_data_tail fs) as (t & E & T & _).
  - rewrite Forall_forall in *. intros f I. destruct (H f I) as (_ & _ & O1 & O2), (B f I). unfold small. auto.
  - eapply Forall_impl; [ | exact H ]. now intros f (N & _).
  - exists t. repeat split; [ exact E | exact T | ]. apply form_parse_partial; [ exact T | | now apply L ]. eapply Forall_impl; [ | exact H ]. now intros f (_ & V & _).
Qed.
Print Assumptions form_round_trip_partial.
Example form_ex : form_data true [(str_bytes "a", str_bytes "1 & 2"); (str_bytes "b=", []); (str_bytes "c", [255; 0])] = Ok (str_bytes "a=1%20%26%202&b%3D&c=%FF%00")
  /\ query_parse (str_bytes "a=1%20%26+2&b%3d&c=%FF%00") = Ok (Some [(str_bytes "a", str_bytes "1 & 2"); (str_bytes "b=", []); (str_bytes "c", [255; 0])]).
Proof. now vm_compute. Qed.
(** Nothing makes the parser abort. *)
Theorem form_parse_safe : forall t, exists r, query_parse t = Ok r.
Proof. exact query_total. Qed.
Print Assumptions form_parse_safe.
Example form_safe_ex : query_parse (str_bytes "&&=%4") = Ok None /\ query_parse (str_bytes "&&=1&") = Ok (Some [(str_bytes "1", [])]).
Proof. vm_compute. split; reflexivity. Qed.

(** FINDING: a value which starts with a zero octet is lost, as the field's value is set as for a
    zero terminated string (http_fields.c:128 [*value == '\0']). *)
Theorem form_value_zero_refuted : exists t, form_text [([97], [0; 1])] t /\ form_data true [([97], [0; 1])] = Ok t /\ query_parse t = Ok (Some [([97], [])]).
Proof.
  exists (str_bytes "a=%00%01"). split; [ | now vm_compute ]. apply form_last. apply (ft_value [97] [0; 1] [97] (str_bytes "%00%01")).
  - apply fenc_plain; [ cbn; lia | lia | lia | lia | constructor ].
  - discriminate.
  - apply (fenc_percent 48 48 0 0); [ apply (hex_digit_ 48); lia | apply (hex_digit_ 48); lia | ]. apply (fenc_percent 48 49 0 1); [ apply (hex_digit_ 48); lia | apply (hex_digit_ 49); lia | constructor ].
Qed.
Print Assumptions form_value_zero_refuted.
(** FINDING: the space which ends the text becomes part of the last value, and what follows is
    dropped without notice: the fields after it are lost. *)
Theorem form_space_refuted : query_parse (str_bytes "a=b c&d=e") = Ok (Some [(str_bytes "a", str_bytes "b ")]).
Proof. now vm_compute. Qed.
Print Assumptions form_space_refuted.
(** FINDING: a value with an equals sign, which other implementations accept (only the first
    separates), makes the request fail. *)
Theorem form_equals_refuted : query_parse (str_bytes "a=1=2") = Ok None.
Proof. now vm_compute. Qed.
Print Assumptions form_equals_refuted.

(** ** C73: quoted header values *)

(** A value which can be written is written as a token or as a quoted string which stands for it.
    Missing: slash, equals sign, question mark and braces ([quote_token_refuted]), values of 2 GB
    ([quote_size_refuted]). *)
Theorem quote_standard_partial : forall s, s <> [] -> Forall (fun c => 32 <= c <= 126 \/ c = 9 \/ c = 13) s -> Forall (fun c => ~ In c (str_bytes "/=?{}")) s -> zlen s < 2^31 - 1 ->
  exists t, header_value_quote s 34 34 = Ok (Some t) /\ header_value t s.
Proof. exact quote_standard_ok. Qed.
Print Assumptions quote_standard_partial.
(** All other values are refused. *)
Theorem quote_refused : forall s ds de, Exists (fun c => ~ (32 <= c <= 126 \/ c = 9 \/ c = 13)) s -> header_value_quote s ds de = Ok None.
Proof.
  intros s ds de H. unfold header_value_quote. destruct (zlen s =? 0); [ reflexivity | ]. cbv zeta. replace (forallb quotable s) with false; [ reflexivity | ]. symmetry. apply not_true_iff_false. intros F. rewrite forallb_forall in F.
  apply Exists_exists in H as (c & I & N). apply N. apply quotable_good. auto.
Qed.
Print Assumptions quote_refused.
(** Without backslash and carriage return it is read back as it was. *)
Theorem quote_round_trip_partial : forall s, s <> [] -> Forall (fun c => 32 <= c <= 126 \/ c = 9 \/ c = 13) s -> Forall (fun c => c <> 92 /\ c <> 13) s -> zlen s < 2^31 - 1 ->
  exists t, header_value_quote s 34 34 = Ok (Some t) /\ unquote t = s.
Proof. exact quote_unquote. Qed.
Print Assumptions quote_round_trip_partial.
Example quote_ex : header_value_quote (str_bytes "a (""b"")") 34 34 = Ok (Some (str_bytes """a (\""b\"")""")) /\ unquote (str_bytes """a (\""b\"")""") = str_bytes "a (""b"")" /\ header_value_quote (str_bytes "abc") 34 34 = Ok (Some (str_bytes "abc")).
Proof. vm_compute. repeat split. Qed.

(** The text of a comment is what is between the parentheses. *)
Theorem unquote_comment_partial : forall b, ~ In 41 b -> ~ In 92 b -> unquote ([40] ++ b ++ [41]) = b.
Proof. exact unquote_comment_ok. Qed.
Print Assumptions unquote_comment_partial.
Example unquote_comment_ex : unquote (str_bytes "(a ""b"" c)") = str_bytes "a ""b"" c".
Proof. now vm_compute. Qed.

(** FINDING: values like "a=b" or "a/b" are written without quotes, although these characters may
    not appear in a token (RFC 7230 3.2.6); a receiver takes the value to end there. *)
Theorem quote_token_refuted : exists s t, header_value_quote s 34 34 = Ok (Some t) /\ forall s', ~ header_value t s'.
Proof.
  exists (str_bytes "a=b"), (str_bytes "a=b"). split; [ reflexivity | ]. intros s' [ (E & F) | (b & E & _) ]; [ | discriminate ]. subst s'. inversion F as [ | ? ? _ F2 ]; subst. inversion F2 as [ | ? ? H _ ]; subst. unfold token_char, letter, digit in H. cbn in H. lia.
Qed.
Print Assumptions quote_token_refuted.
(** FINDING: a backslash is doubled when written, but not undone when read: each time a value is
    passed on it gets another. *)
Theorem quote_backslash_refuted : exists s t, header_value_quote s 34 34 = Ok (Some t) /\ header_value t s /\ unquote t <> s.
Proof.
  exists (str_bytes "a\b"), (str_bytes """a\\b"""). split; [ reflexivity | ]. split; [ | vm_compute; discriminate ]. right. exists (str_bytes "a\\b"). split; [ reflexivity | ].
  change (quoted [97; 92; 92; 98] [97; 92; 98]). apply quoted_char; [ lia | lia | ]. apply quoted_pair. apply quoted_char; [ lia | lia | constructor ].
Qed.
Print Assumptions quote_backslash_refuted.
(** FINDING: the size of the result is computed with 32 bits; quoting two gigabytes writes behind
    the allocated memory (http_util.c:464). *)
Theorem quote_size_refuted : forall s ds de, Forall (fun c => 32 <= c <= 126 \/ c = 9 \/ c = 13) s -> 2^31 - 1 <= zlen s < 2^32 - 4 -> header_value_quote s ds de = Ub.
Proof. exact quote_overflow. Qed.
Print Assumptions quote_size_refuted.
Example quote_size_ex : exists s : list Z, Forall (fun c => 32 <= c <= 126 \/ c = 9 \/ c = 13) s /\ 2^31 - 1 <= zlen s < 2^32 - 4.
Proof. exists (repeat 97 (Z.to_nat (2^31))). split; [ apply Forall_forall; intros c I; apply repeat_spec in I; lia | ]. unfold zlen. rewrite repeat_length, Z2Nat.id by lia. lia. Qed.

(** ** C74: URIs *)

(** An absolute URI is taken apart into protocol, host, port and what follows; the port is that of
    the protocol if none is given.  [after] is what stands behind the text in memory.  Missing: the
    protocol wss ([uri_wss_refuted]), and where the host ends the text the program looks behind it. *)
Theorem uri_absolute_partial : forall after w t h p e,
  In w [str_bytes "http"; str_bytes "https"; str_bytes "ws"] -> spelled w t -> host h ->
  match p with Some ds => Forall digit ds /\ 0 < zlen ds <= 63 /\ 1 <= decimal ds <= 65535 | None => True end -> path e ->
  let text := t ++ str_bytes "://" ++ h ++ match p with Some ds => 58 :: ds | None => [] end ++ e in
  zlen text < 2^32 -> (p = None -> e = [] -> exists c a, after = c :: a /\ c <> 58) ->
  uri_parse after text = Ok (Some (mk_uri (Some w) (Some h) match p with Some ds => decimal ds | None => if list_eq_dec Z.eq_dec w (str_bytes "https") then 443 else 80 end (Some e))).
Proof.
  intros after w t h p e W S H P E text L A. assert (W' : w = str_bytes "http" \/ w = str_bytes "https" \/ w = str_bytes "ws") by (cbn in W; intuition).
  unfold text in *. unshelve epose proof (uri_ok after w t h p e W' S H _ E _ A) as R; [ exact P | exact L | ]. unfold port_text in R. fold sep. rewrite R. do 3 f_equal. destruct p; [ reflexivity | ].
  destruct W' as [ -> | [ -> | -> ] ]; reflexivity.
Qed.
Print Assumptions uri_absolute_partial.
Example uri_ex : uri_parse [] (str_bytes "HTTPs://a-1.example:8443/x?y=1#z") = Ok (Some (mk_uri (Some (str_bytes "https")) (Some (str_bytes "a-1.example")) 8443 (Some (str_bytes "/x?y=1#z"))))
  /\ uri_parse [0] (str_bytes "https://h") = Ok (Some (mk_uri (Some (str_bytes "https")) (Some (str_bytes "h")) 443 (Some []))).
Proof. now vm_compute. Qed.
(** A relative reference is taken as it is.  Missing: references with a colon at certain places
    ([uri_relative_refuted]). *)
Theorem uri_relative_partial : forall after l, l <> [] -> Forall path_char l -> zlen l < 2^32 ->
  ~ contains (str_bytes "://") l -> (forall a, l <> a ++ str_bytes ":") -> (forall a, l <> a ++ str_bytes ":/") -> (forall r, l <> str_bytes "//" ++ r) ->
  uri_parse after l = Ok (Some (mk_uri None None 0 (Some l))).
Proof.
  intros after l N F L C N2 N3 N4. apply relative_ok; auto; [ intros (a & E); now apply (N2 a) | intros (a & E); now apply (N3 a) ].
Qed.
Print Assumptions uri_relative_partial.
Example uri_relative_ex : uri_parse [] (str_bytes "/a:b//c?d=e&f") = Ok (Some (mk_uri None None 0 (Some (str_bytes "/a:b//c?d=e&f")))).
Proof. now vm_compute. Qed.
(** Host and port, as in Alt-Svc header fields of responses; the host may be empty. *)
Theorem uri_host_port : forall after h ds, h = [] \/ host h -> Forall digit ds -> 0 < zlen ds <= 63 -> 1 <= decimal ds <= 65535 -> zlen (h ++ [58] ++ ds) < 2^32 ->
  uri_host_parse after (h ++ [58] ++ ds) = Ok (Some (mk_uri None (match h with [] => None | _ => Some h end) (decimal ds) None)).
Proof. intros after h ds H F B V L. apply host_port_ok; [ exact H | repeat split; try exact F; lia | exact L ]. Qed.
Print Assumptions uri_host_port.
Example uri_host_ex : uri_host_parse [] (str_bytes "a.b:00080") = Ok (Some (mk_uri None (Some (str_bytes "a.b")) 80 None)) /\ uri_host_parse [] (str_bytes "a.b:65536") = Ok None.
Proof. now vm_compute. Qed.
(** No text makes the program abort as long as an octet other than a colon stands behind it. *)
Theorem uri_safe_partial : forall c a l, l <> [] -> c <> 58 -> (exists r, uri_parse (c :: a) l = Ok r) /\ (exists r, uri_host_parse (c :: a) l = Ok r).
Proof. exact uri_total. Qed.
Print Assumptions uri_safe_partial.
Example uri_safe_ex : uri_parse [0] (str_bytes "http://-") = Ok None /\ uri_parse [0] (str_bytes "http://h:") = Ok None.
Proof. now vm_compute. Qed.

(** Whatever is accepted: a host which is found is a legal one, and the flags follow the protocol. *)
Theorem uri_host_legal : forall after l u h, uri_parse after l = Ok (Some u) -> u_host u = Some h -> host h.
Proof. intros after l u h H. exact (proj1 (uri_parse_facts after l u H) h). Qed.
Print Assumptions uri_host_legal.
Theorem uri_flags_right : forall after l u, uri_parse after l = Ok (Some u) ->
  (u_protocol u = None /\ uri_flags u = Ok (false, false, false)) \/
  (u_protocol u = Some (str_bytes "http") /\ uri_flags u = Ok (true, false, false)) \/
  (u_protocol u = Some (str_bytes "https") /\ uri_flags u = Ok (true, false, true)) \/
  (u_protocol u = Some (str_bytes "ws") /\ uri_flags u = Ok (false, true, false)) \/
  (u_protocol u = Some (str_bytes "wss") /\ uri_flags u = Ok (false, true, true)).
Proof. intros after l u H. destruct (proj2 (uri_parse_facts after l u H)) as [ E | (p & E & P) ]; unfold uri_flags; rewrite E; [ now left | ]. destruct P as [ -> | [ -> | [ -> | -> ] ] ]; vm_compute; tauto. Qed.
Print Assumptions uri_flags_right.
Example uri_flags_ex : exists u, uri_parse [0] (str_bytes "https://a-b/") = Ok (Some u) /\ uri_flags u = Ok (true, false, true) /\ u_host u = Some (str_bytes "a-b").
Proof. eexists. split; [ vm_compute; reflexivity | ]. vm_compute. auto. Qed.
(** FINDING: a reference which starts with two slashes and a host (RFC 3986 4.2, "//host/path") is
    accepted, but the host is taken for the path. *)
Theorem uri_network_path_refuted : uri_parse [0] (str_bytes "//host/path") = Ok (Some (mk_uri None None 0 (Some (str_bytes "host/path")))).
Proof. now vm_compute. Qed.
Print Assumptions uri_network_path_refuted.

(** FINDING: a URI for an encrypted websocket, "wss://", is taken for one without encryption and
    connected to port 80, as "ws" is compared before "wss" (http_util.c:1153-1158). *)
Theorem uri_wss_refuted : exists u, uri_parse [0] (str_bytes "wss://h/") = Ok (Some u) /\ u_protocol u = Some (str_bytes "ws") /\ u_port u = 80 /\ uri_flags u = Ok (false, true, false).
Proof. eexists. split; [ vm_compute; reflexivity | ]. vm_compute. repeat split. Qed.
Print Assumptions uri_wss_refuted.
(** FINDING: where the text ends with the host, the octet behind it is read, which may not be
    there, and if it is a colon the program aborts (http_util.c:1023). *)
Theorem uri_behind_refuted : uri_parse [] (str_bytes "http://h") = Ub /\ uri_parse (str_bytes ":") (str_bytes "http://h") = Bug.
Proof. now vm_compute. Qed.
Print Assumptions uri_behind_refuted.
(** FINDING: paths which end with a colon or have "://" inside are refused, since the end of the
    text is taken for a complete match when searching. *)
Theorem uri_relative_refuted : uri_parse [0] (str_bytes "/topic:") = Ok None /\ uri_parse [0] (str_bytes "/?u=http://h/") = Ok None /\ Forall path_char (str_bytes "/topic:") /\ Forall path_char (str_bytes "/?u=http://h/").
Proof.
  split; [ now vm_compute | ]. split; [ now vm_compute | ]. assert (G : forall l, forallb (fun c => is_alnum c || one_of (str_bytes "-._~!$&'*+,;=:@%/?#") c) l = true -> Forall path_char l).
  { intros l H. rewrite forallb_forall in H. apply Forall_forall. intros c I. apply H, orb_true_iff in I. unfold path_char. destruct I as [ I | I ]; [ apply alnum_iff in I; tauto | apply one_of_iff in I; tauto ]. }
  split; apply G; now vm_compute.
Qed.
Print Assumptions uri_relative_refuted.
(** FINDING: a query directly behind the host is refused (RFC 3986 allows an empty path). *)
Theorem uri_query_refuted : uri_parse [0] (str_bytes "http://h?x=1") = Ok None.
Proof. now vm_compute. Qed.
Print Assumptions uri_query_refuted.
(** Prepending a path to the endpoint leaves one slash between both. *)
Theorem uri_prepend_partial : forall before u prefix e, prefix <> [] -> u_endpoint u = Some e ->
  endpoint_prepend before u prefix = Ok (mk_uri (u_protocol u) (u_host u) (u_port u) (Some
    match prefix, e with
    | _, 47 :: r => if last prefix 0 =? 47 then prefix ++ r else prefix ++ e
    | _, _ => if last prefix 0 =? 47 then prefix ++ e else prefix ++ str_bytes "/" ++ e
    end)).
Proof. exact prepend_ok. Qed.
Print Assumptions uri_prepend_partial.
Example uri_prepend_ex : endpoint_prepend 0 (mk_uri None None 0 (Some (str_bytes "/b"))) (str_bytes "/a/") = Ok (mk_uri None None 0 (Some (str_bytes "/a/b"))).
Proof. now vm_compute. Qed.
(** FINDING: with an empty prefix the octet before the allocation is read, and overwritten if it
    is a slash (http_util.c:934). *)
Theorem uri_prepend_refuted : endpoint_prepend 47 (mk_uri None None 0 (Some (str_bytes "/b"))) [] = Ub.
Proof. now vm_compute. Qed.
Print Assumptions uri_prepend_refuted.
