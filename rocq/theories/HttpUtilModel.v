(** Model of the text helpers of the HTTP implementation: src/lib/http/http_util.c, the query
    string parser of src/lib/http/http_part.c and the form data writer of src/lib/http/http_fields.c.

    Octets and numbers are [Z].  Simplified: memory is always granted; messages printed are left
    out.  A text is a list of octets; where the code reads behind its end, the octets there are
    the parameter [after], which is empty if that memory cannot be read. *)
From Coq Require Import Strings.String.
From Coq Require Import ZArith List Bool.
From Verif Require Import Common MsgModel ReadModel.
Import ListNotations.
Open Scope Z_scope.

(** ** Characters *)

(** http_util.c:60-68 [__rrr_http_util_is_alphanumeric] *)
Definition is_alnum (c : Z) : bool := ((97 <=? c) && (c <=? 122)) || ((65 <=? c) && (c <=? 90)) || ((48 <=? c) && (c <=? 57)).
(** http_util.c:70-72 [__rrr_http_util_is_lwsp] *)
Definition is_lwsp (c : Z) : bool := (c =? 32) || (c =? 9).
Definition one_of (l : list Z) (c : Z) : bool := existsb (Z.eqb c) l.
(** http_util.c:74-99 [__rrr_http_util_is_uri_unreserved_rfc2396]: [-_.!~*'()] *)
Definition is_unreserved (c : Z) : bool := one_of [45; 95; 46; 33; 126; 42; 39; 40; 41] c.
(** http_util.c:101-127 [__rrr_http_util_is_uri_reserved]: [;/?:@&=+$,] *)
Definition is_reserved (c : Z) : bool := one_of [59; 47; 63; 58; 64; 38; 61; 43; 36; 44] c.
(** http_util.c:129-162 [__rrr_http_util_is_header_special_rfc822]: brackets of all kinds but
    braces, at sign, comma, semicolon, colon, backslash, quote, stop *)
Definition is_special (c : Z) : bool := one_of [40; 41; 60; 62; 64; 44; 59; 58; 92; 34; 46; 91; 93] c.
(** http_util.c:164-201 [__rrr_http_util_is_header_nonspecial_rfc7230]: [!#$%&'*+-.^_`|~] *)
Definition is_nonspecial (c : Z) : bool := one_of [33; 35; 36; 37; 38; 39; 42; 43; 45; 46; 94; 95; 96; 124; 126] c.
(** http_util.c:203-205 [__rrr_http_util_is_ascii_non_ctl] *)
Definition is_printable (c : Z) : bool := (31 <? c) && (c <? 127).

(** ** Numbers *)

(** http_util.c:623-641, the characters counted *)
Definition is_digit (base c : Z) : bool :=
  if base =? 10 then (48 <=? c) && (c <=? 57)
  else ((48 <=? c) && (c <=? 57)) || ((97 <=? c) && (c <=? 102)) || ((65 <=? c) && (c <=? 70)).
Definition digit_value (c : Z) : Z := if c <=? 57 then c - 48 else if c <=? 70 then c - 55 else c - 87.
Fixpoint digits (base : Z) (l : list Z) : list Z :=
  match l with c :: r => if is_digit base c then c :: digits base r else [] | [] => [] end.
(** strtoull of the C library on digits: numbers too large become the largest *)
Definition strtoull (base : Z) (ds : list Z) : Z := Z.min (2^64 - 1) (fold_left (fun a c => a * base + digit_value c) ds 0).
(** http_util.c:609-674 [rrr_http_util_strtoull_raw] for a text which starts before its end: the
    number and the count of digits, or [None] for return value 1 *)
Definition strtoull_raw (base : Z) (l : list Z) : option (Z * Z) :=
  let ds := digits base l in
  if (zlen ds =? 0) || (63 <? zlen ds) then None else Some (strtoull base ds, zlen ds).

(** ** URL encoding *)

(** http_util.c:247-299 [__rrr_http_util_decode_urlencoded_string]: the string is overwritten from
    its start, which is behind the reading position.  [None]: return value 1 *)
Fixpoint url_decode (l : list Z) : res (option (list Z)) :=
  match l with
  | [] => Ok (Some [])
  | c :: r =>
      if c =? 37 then
        match r with
        | a :: b :: r' =>
            match strtoull_raw 16 [a; b] with
            | None => Ok None
            | Some (n, _) =>
                if 255 <? n then Bug
                else match url_decode r' with Ok (Some t) => Ok (Some (n :: t)) | x => x end
            end
        | _ => Ok None
        end
      else match url_decode r with Ok (Some t) => Ok (Some (c :: t)) | x => x end
  end.
(** sprintf %02X *)
Definition hex_digit (n : Z) : Z := if n <? 10 then 48 + n else 55 + n.
(** http_util.c:320-333 [__rrr_http_util_uri_encode_foreach_byte_callback] *)
Definition url_char (c : Z) : list Z := if is_alnum c || is_unreserved c then [c] else [37; hex_digit (c / 16); hex_digit (c mod 16)].
(** http_util.c:336-382 [rrr_http_util_uri_encode]: [Bug] for more than RRR_LENGTH_MAX octets
    (rrr_types.h:83); [Ub] if the memory allocated does not hold the result and the zero written
    after it *)
Definition uri_encode (s : list Z) : res (list Z) :=
  let max := zlen s * 3 in
  if 2^32 - 1 <? max then Bug
  else let t := concat (map url_char s) in if max + 1 <? zlen t + 1 then Ub else Ok t.

(** ** Quoted header values *)

(** http_util.c:409-426, inside of a quotation: the text unquoted and what follows the end quote *)
Fixpoint unquote_inner (endquote : Z) (l : list Z) : list Z * list Z :=
  match l with
  | [] => ([], [])
  | c :: r =>
      if c =? 92 then
        match r with
        | d :: r' =>
            if d =? endquote then let '(t, rest) := unquote_inner endquote r' in (d :: t, rest)
            else let '(t, rest) := unquote_inner endquote r in (c :: t, rest)
        | [] => ([c], [])
        end
      else if c =? endquote then ([], r)
      else let '(t, rest) := unquote_inner endquote r in (c :: t, rest)
  end.
(** http_util.c:384-439 [__rrr_http_util_unquote_string_callback]; each round takes an octet *)
Fixpoint unquote_loop (fuel : nat) (l : list Z) : list Z :=
  match fuel, l with
  | S f, c :: r =>
      if (c =? 34) || (c =? 40) then
        let '(t, rest) := unquote_inner (if c =? 34 then 34 else 41) r in t ++ unquote_loop f rest
      else c :: unquote_loop f r
  | _, _ => []
  end.
Definition unquote (l : list Z) : list Z := unquote_loop (length l) l.

(** http_util.c:479-497: the octets a header value may have, and those for which it is quoted *)
Definition needs_quote (c : Z) : bool := negb (is_alnum c || is_nonspecial c) && (is_special c || is_lwsp c || (c =? 13) || (c =? 92)).
Definition quotable (c : Z) : bool := is_alnum c || is_nonspecial c || (is_special c || is_lwsp c || (c =? 13) || (c =? 92)) || is_printable c.
Definition quote_char (ds de c : Z) : list Z := if (c =? ds) || (c =? de) || (c =? 13) || (c =? 92) then [92; c] else [c].
(** http_util.c:448-534 [rrr_http_util_header_value_quote]: the zero terminated result, [None] for
    NULL.  The size is computed with 32 bits.  [Ub] if the octets written do not fit into what has
    been allocated (the check at line 522 comes after writing). *)
Definition header_value_quote (s : list Z) (ds de : Z) : res (option (list Z)) :=
  if zlen s =? 0 then Ok None
  else
    let size := u32 (zlen s * 2 + 2 + 1) in
    if negb (forallb quotable s) then Ok None
    else if existsb needs_quote s then
      let t := [ds] ++ concat (map (quote_char ds de) s) ++ [de] in
      if size + 1 <? zlen t then Ub else if size <? zlen t then Bug else Ok (Some t)
    else if size + 1 <? zlen s then Ub else Ok (Some s).

(** ** Searching *)

(** tolower of the C library for ASCII *)
Definition lower (c : Z) : Z := if (65 <=? c) && (c <=? 90) then c + 32 else c.
Fixpoint common_prefix (a b : list Z) : Z :=
  match a, b with x :: a', y :: b' => if lower x =? lower y then 1 + common_prefix a' b' else 0 | _, _ => 0 end.
(** http_util.c:733-760, the loop of [rrr_http_util_strcasestr]; the octets compared from one start
    are taken together.  After a mismatch within the needle the search goes on two octets after the
    start (revert_position is one octet after it, and the loop increments), and the end of the text
    is taken for the end of the needle.  Result: position and length. *)
Fixpoint search (needle : list Z) (p : Z) (l : list Z) : option (Z * Z) :=
  match l with
  | [] => None
  | _ :: r =>
      let k := common_prefix l needle in
      if k =? 0 then search needle (p + 1) r
      else if (k =? zlen needle) || (k =? zlen l) then Some (p, k)
      else match r with _ :: r' => search needle (p + 2) r' | [] => None end
  end.
(** http_util.c:705-765 [rrr_http_util_strcasestr] *)
Definition strcasestr (l needle : list Z) : option (Z * Z) := if zlen l <? zlen needle then None else search needle 0 l.
(** strncasecmp(l, name, strlen(name)) == 0; [name] is lower case and without colon, [l] has a
    colon or does not end before *)
Definition starts_with (l name : list Z) : bool := common_prefix l name =? zlen name.

(** ** URIs *)

(** http_util.h [struct rrr_http_uri] *)
Record uri : Type := mk_uri { u_protocol : option (list Z); u_host : option (list Z); u_port : Z; u_endpoint : option (list Z) }.
Definition no_uri : uri := mk_uri None None 0 None.
(** http_util.c:851-871 [__rrr_http_util_uri_validate_characters_foreach_byte_callback] *)
Definition uri_octet (c : Z) : bool :=
  is_alnum c || ((33 <=? c) && (c <=? 47) && negb (c =? 34)) || one_of [95; 126; 58; 63; 91; 93; 64; 59; 61] c.
(** http_util.c:979-1004: the host and what follows; [None] for return value 1; [n] octets have
    been taken *)
Fixpoint host_loop (slash : bool) (n : Z) (l : list Z) : option (list Z * list Z) :=
  match l with
  | [] => Some ([], [])
  | c :: r =>
      if is_alnum c || (c =? 46) then match host_loop slash (n + 1) r with Some (h, t) => Some (c :: h, t) | None => None end
      else if c =? 45 then
        if n =? 0 then None else match host_loop slash (n + 1) r with Some (h, t) => Some (c :: h, t) | None => None end
      else if (slash && (c =? 47)) || (c =? 58) then Some ([], l)
      else None
  end.
(** http_util.c:957-1044 [__rrr_http_util_uri_parse_hostname_and_port]: the URI and the text which
    is left.  Line 1022 looks at the octet after the text if nothing is left; if there is a colon,
    the port is looked for behind the end, which is the abort of rrr_types.h:298-301. *)
Definition hostname_and_port (after : list Z) (slash force : bool) (u : uri) (l : list Z) : res (option (uri * list Z)) :=
  if zlen l =? 0 then Ok None
  else
    match host_loop slash 0 l with
    | None => Ok None
    | Some (h, t) =>
        let u := mk_uri (u_protocol u) (match h with [] => u_host u | _ => Some h end) (u_port u) (u_endpoint u) in
        match t with
        | [] =>
            match after with
            | [] => Ub
            | c :: _ => if c =? 58 then Bug else if force then Ok None else Ok (Some (u, []))
            end
        | c :: r =>
            if c =? 58 then
              match strtoull_raw 10 r with
              | None => Ok None
              | Some (port, n) =>
                  if (port <? 1) || (65535 <? port) then Ok None
                  else Ok (Some (mk_uri (u_protocol u) (u_host u) port (u_endpoint u), skipn (Z.to_nat n) r))
              end
            else if force then Ok None else Ok (Some (u, t))
        end
    end.
(** http_util.c:1197-1215: octets of endpoints *)
Definition endpoint_octet (c : Z) : bool := is_alnum c || is_nonspecial c || is_reserved c.
(** http_util.c:1139-1172: the protocol, and what follows; [None] for return value 1 *)
Definition protocol (l : list Z) : option (option (list Z) * list Z) :=
  let no := match strcasestr l (str_bytes "//") with Some (p, _) => p =? 0 | None => false end in
  if no then Some (None, skipn 2 l)
  else
    match strcasestr l (str_bytes "://") with
    | Some (p, n) =>
        let rest := skipn (Z.to_nat (p + n)) l in
        if p <=? 0 then None
        else if starts_with l (str_bytes "https") then Some (Some (str_bytes "https"), rest)
        else if starts_with l (str_bytes "http") then Some (Some (str_bytes "http"), rest)
        else if starts_with l (str_bytes "ws") then Some (Some (str_bytes "ws"), rest)
        else if starts_with l (str_bytes "wss") then Some (Some (str_bytes "wss"), rest)
        else None
    | None => Some (None, l)
    end.
(** http_util.c:1123-1240 [__rrr_http_util_uri_parse_callback] *)
Definition uri_parse_callback (after l : list Z) : res (option uri) :=
  if 2^32 - 1 <? zlen l then Ok None
  else
    match protocol l with
    | None => Ok None
    | Some (proto, rest) =>
        let u := mk_uri proto None 0 None in
        let r := match proto with Some _ => hostname_and_port after true false u rest | None => Ok (Some (u, rest)) end in
        match r with
        | Ok (Some (u, e)) =>
            if forallb endpoint_octet e then Ok (Some (mk_uri (u_protocol u) (u_host u) (u_port u) (Some e))) else Ok None
        | Ok None => Ok None
        | Bug => Bug
        | Ub => Ub
        end
    end.
(** http_util.c:1242-1302 [__rrr_http_util_uri_host_parse_callback] *)
Definition uri_host_parse_callback (after l : list Z) : res (option uri) :=
  if 2^32 - 1 <? zlen l then Ok None
  else
    match strcasestr l (str_bytes "://"), strcasestr l (str_bytes "//") with
    | Some _, _ | _, Some _ => Ok None
    | None, None =>
        match hostname_and_port after false true no_uri l with
        | Ok (Some (u, rest)) => if u_port u =? 0 then Ok None else if zlen rest =? 0 then Ok (Some u) else Ok None
        | Ok None => Ok None
        | Bug => Bug
        | Ub => Ub
        end
    end.
Definition same_text (a b : list Z) : bool := (zlen a =? zlen b) && forallb (fun p => fst p =? snd p) (combine a b).
(** http_util.c:1304-1342 [__rrr_http_util_uri_parse_final] for a string which is set: the default
    port of the protocol *)
Definition default_port (u : uri) : uri :=
  match u_protocol u with
  | Some p =>
      if negb (u_port u =? 0) then u
      else if same_text p (str_bytes "https") || same_text p (str_bytes "wss") then mk_uri (u_protocol u) (u_host u) 443 (u_endpoint u)
      else if same_text p (str_bytes "http") || same_text p (str_bytes "ws") then mk_uri (u_protocol u) (u_host u) 80 (u_endpoint u)
      else u
  | None => u
  end.
Definition parse_final (f : list Z -> list Z -> res (option uri)) (after l : list Z) : res (option uri) :=
  if zlen l =? 0 then Bug
  else if negb (forallb uri_octet l) then Ok None
  else match f after l with
       | Ok (Some u) => Ok (Some (default_port u))
       | x => x
       end.
(** http_util.c:1376-1381 [rrr_http_util_uri_parse], 1375-1391 [rrr_http_util_uri_host_parse] *)
Definition uri_parse : list Z -> list Z -> res (option uri) := parse_final uri_parse_callback.
Definition uri_host_parse : list Z -> list Z -> res (option uri) := parse_final uri_host_parse_callback.
(** http_util.c:881-907 [rrr_http_util_uri_flags_get]: is_http, is_websocket, is_tls *)
Definition uri_flags (u : uri) : res (bool * bool * bool) :=
  match u_protocol u with
  | None => Ok (false, false, false)
  | Some p =>
      if same_text p (str_bytes "http") then Ok (true, false, false)
      else if same_text p (str_bytes "https") then Ok (true, false, true)
      else if same_text p (str_bytes "ws") then Ok (false, true, false)
      else if same_text p (str_bytes "wss") then Ok (false, true, true)
      else Bug
  end.
(** http_util.c:909-955 [rrr_http_util_uri_endpoint_prepend]: an empty prefix makes it look at the
    octet before the allocation (line 934), which is [before]; [Ub] if that octet is a slash and
    would be overwritten *)
Definition endpoint_prepend (before : Z) (u : uri) (prefix : list Z) : res uri :=
  match u_endpoint u with
  | None => Ok (mk_uri (u_protocol u) (u_host u) (u_port u) (Some prefix))
  | Some e =>
      let ends := last prefix before =? 47 in
      let starts := match e with c :: _ => c =? 47 | [] => false end in
      let join :=
        if ends then if starts then match prefix with [] => None | _ => Some (removelast prefix ++ e) end else Some (prefix ++ e)
        else if starts then Some (prefix ++ e) else Some (prefix ++ [47] ++ e) in
      match join with
      | Some e' => Ok (mk_uri (u_protocol u) (u_host u) (u_port u) (Some e'))
      | None => Ub
      end
  end.
(** http_util.c:1055-1085 [__rrr_http_util_uri_endpoint_clean_callback] *)
Fixpoint endpoint_clean (l : list Z) : list Z :=
  match l with c :: r => if (c =? 63) || (c =? 35) then [] else c :: endpoint_clean r | [] => [] end.
(** http_util.c:1436-1485 [__rrr_http_util_uri_endpoint_and_query_string_split_callback]: the
    endpoint decoded and the query string; [None] for return value 1 *)
Fixpoint split_query (l : list Z) : list Z * list Z :=
  match l with
  | [] => ([], [])
  | c :: r => if c =? 63 then ([], r) else let '(e, q) := split_query r in (c :: e, q)
  end.
Definition endpoint_and_query (l : list Z) : res (option (list Z * list Z)) :=
  let '(e, q) := split_query l in
  match url_decode e with
  | Ok (Some e) => Ok (Some (e, q))
  | Ok None => Ok None
  | Bug => Bug
  | Ub => Ub
  end.

(** ** Form fields *)

(** http_fields.h [struct rrr_http_field] as far as used here: name and value, empty if not set
    (nullsafe_str.c:625-629) *)
Definition field : Type := list Z * list Z.
(** http_fields.c:413-469 [__rrr_http_field_collection_to_form_data_field_callback] with URL
    encoding *)
Definition bind {A B} (x : res A) (f : A -> res B) : res B := match x with Ok a => f a | Bug => Bug | Ub => Ub end.
Definition form_field (f : field) : res (list Z) :=
  bind (match fst f with [] => Ok [] | n => uri_encode n end) (fun n =>
  bind (match snd f with [] => Ok [] | v => uri_encode v end) (fun v =>
  Ok (n ++ (match snd f, fst f with _ :: _, _ :: _ => [61] | _, _ => [] end) ++ v))).
(** http_fields.c:506-511 [rrr_http_field_collection_to_urlencoded_form_data]; [first] is whether
    no field has been written *)
Fixpoint form_data (first : bool) (fs : list field) : res (list Z) :=
  match fs with
  | [] => Ok []
  | f :: r => bind (form_field f) (fun t => bind (form_data false r) (fun rest => Ok ((if first then [] else [38]) ++ t ++ rest)))
  end.

Definition is_space (c : Z) : bool := (c =? 32) || (c =? 9) || (c =? 13) || (c =? 10).
(** http_part.c:387-393 *)
Fixpoint skip_spaces (l : list Z) : list Z := match l with c :: r => if is_space c then skip_spaces r else l | [] => [] end.
(** The fields, the last one first; [q_value] is whether value_target is set, which then is the
    last field *)
Record qstate : Type := mk_q { q_fields : list field; q_buf : list Z; q_value : bool }.
(** http_fields.c:125-142 [rrr_http_field_value_set]: nothing happens if the value starts with a
    zero octet *)
Definition value_set (fs : list field) (v : list Z) : list field :=
  match fs, v with
  | (n, _) :: r, c :: _ => if c =? 0 then fs else (n, v) :: r
  | _, _ => fs
  end.
(** http_part.c:478-508, store_value, push_new_field_no_value and push_new_field *)
Definition store_value (s : qstate) : qstate := mk_q (value_set (q_fields s) (q_buf s)) [] false.
Definition push_field (s : qstate) (with_value : bool) : qstate :=
  match q_buf s with
  | [] => mk_q (q_fields s) [] (q_value s)
  | b => mk_q ((b, []) :: q_fields s) [] (if with_value then true else q_value s)
  end.
Definition finish (s : qstate) : qstate := if q_value s then store_value s else push_field s false.
(** http_part.c:411-519, the loop; [None] for a soft error.  Each round takes an octet. *)
Fixpoint query_loop (fuel : nat) (s : qstate) (l : list Z) : res (option (list field)) :=
  match fuel, l with
  | S fuel, c :: r =>
      let near := match r with [] => true | _ => is_space c end in
      let put (c : Z) (near : bool) (r : list Z) :=
        let s := mk_q (q_fields s) (q_buf s ++ [c]) (q_value s) in
        if near then Ok (Some (rev (q_fields (finish s)))) else query_loop fuel s r in
      if c =? 43 then put 32 near r
      else if c =? 37 then
        match r with
        | a :: b :: r' =>
            match strtoull_raw 16 [a; b] with
            | None => Ok None
            | Some (n, _) =>
                if 255 <? n then Bug
                else put n (near || match r' with [] => true | d :: _ => is_space d end) r'
            end
        | _ => Ok None
        end
      else if c =? 61 then
        if q_value s then Ok None
        else let s := push_field s true in if near then Ok (Some (rev (q_fields s))) else query_loop fuel s r
      else if c =? 38 then
        let s := finish s in if near then Ok (Some (rev (q_fields s))) else query_loop fuel s r
      else put c near r
  | _, _ => Ok (Some (rev (q_fields s)))
  end.
(** http_part.c:374-525 [__rrr_http_part_query_string_parse], for a part without fields *)
Definition query_parse (l : list Z) : res (option (list field)) :=
  let l := skip_spaces l in
  if 2^32 - 1 <? zlen l + 1 then Ok None else query_loop (length l) (mk_q [] [] false) l.
(** http_part.c:554-558 [__rrr_http_part_fields_from_uri_extract] with [rrr_nullsafe_str_chr]
    (nullsafe_str.c): the query string of a request URI *)
Definition uri_fields (l : list Z) : res (option (list field)) :=
  match snd (split_query l) with [] => Ok (Some []) | q => query_parse q end.
