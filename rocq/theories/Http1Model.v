(** Model of the receiving of HTTP/1 messages: src/lib/http/http_part_parse.c,
    src/lib/http/http_header_fields.c, the loop and the check of requests in
    src/lib/http/http_application_http1.c, and the delivery of the body in src/lib/http/http_part.c.

    Octets and numbers are [Z].  Simplified: memory is always granted; messages printed are left
    out; requests to continue with HTTP/2 are left out (the code is built without nghttp2).
    The functions which read the header get the octets from the position of reading up to the end of
    what has been received, and positions in them are relative to that.  The positions of chunks, which
    the peer chooses, are computed with 64 bits; [base] is the address of the received data. *)
From Coq Require Import Strings.String.
From Coq Require Import ZArith List Bool.
From Verif Require Import Common MsgModel ReadModel Base64Model Dec HttpUtilModel.
Import ListNotations.
Open Scope Z_scope.

(** http_common.h, RRR_HTTP_PARSE_OK, RRR_HTTP_PARSE_INCOMPLETE, RRR_HTTP_PARSE_SOFT_ERR and
    RRR_HTTP_PARSE_HARD_ERR *)
Inductive ret : Type := ROk | RIncomplete | RSoft | RHard.

Definition take (n : Z) (l : list Z) : list Z := firstn (Z.to_nat n) l.
Definition drop (n : Z) (l : list Z) : list Z := skipn (Z.to_nat n) l.
Fixpoint count_while (p : Z -> bool) (l : list Z) : Z :=
  match l with c :: r => if p c then 1 + count_while p r else 0 | [] => 0 end.
Fixpoint find_at (p : Z -> bool) (l : list Z) : option Z :=
  match l with c :: r => if p c then Some 0 else option_map (Z.add 1) (find_at p r) | [] => None end.

(** http_util.c:583-594 [rrr_http_util_find_crlf] *)
Fixpoint find_crlf (l : list Z) : option Z :=
  match l with
  | a :: r =>
      match r with
      | b :: _ => if (a =? 13) && (b =? 10) then Some 0 else option_map (Z.add 1) (find_crlf r)
      | [] => None
      end
  | [] => None
  end.
(** http_util.c:596-607 [rrr_http_util_find_whsp]: the last octet is not looked at *)
Fixpoint find_whsp (l : list Z) : option Z :=
  match l with
  | a :: r =>
      match r with
      | [] => None
      | _ => if is_lwsp a then Some 0 else option_map (Z.add 1) (find_whsp r)
      end
  | [] => None
  end.
(** http_util.c:767-779 [rrr_http_util_strchr] *)
Definition strchr (l : list Z) (c : Z) : option Z := find_at (Z.eqb c) l.
(** http_util.c:781-795 [rrr_http_util_count_whsp] *)
Definition count_whsp (l : list Z) : Z := count_while is_lwsp l.
(** nullsafe_str.c:657-680 [rrr_nullsafe_str_cmpto] and nullsafe_str.c:631-655
    [rrr_nullsafe_str_cmpto_case], whether they return 0 *)
Definition same_case (a b : list Z) : bool := same_text (map lower a) (map lower b).

(** ** Request line and status line *)

(** http_common.h [RRR_HTTP_VERSION_10] and [RRR_HTTP_VERSION_11] *)
Inductive version : Type := V10 | V11.
(** http_part_parse.c:64-76 and http_part_parse.c:189-201: the version named at the start of the
    text and the count of octets taken for it *)
Definition http_version (l : list Z) : option (version * Z) :=
  match strcasestr l (str_bytes "HTTP/1.1") with
  | Some (0, n) => Some (V11, n)
  | _ => match strcasestr l (str_bytes "HTTP/1.0") with Some (0, n) => Some (V10, n) | _ => None end
  end.

(** http_part_parse.c:32-107 [__rrr_http_part_parse_response_code]: the return value, the octets
    parsed, and version and code if everything was fine *)
Definition parse_response_code (l : list Z) : res (ret * Z * option (version * Z)) :=
  match find_crlf l with
  | None => Ok (RIncomplete, 0, None)
  | Some crlf =>
      if crlf =? 0 then Ok (RSoft, 0, None)
      else if crlf <? 12 then Ok (RIncomplete, 0, None)
      else
        match http_version (take crlf l) with
        | None => Ok (RSoft, 0, None)
        | Some (v, n) =>
            let p := n + count_whsp (drop n l) in
            match strtoull_raw 10 (take (crlf - p) (drop p l)) with
            | None => Ok (RSoft, 0, None)
            | Some (code, k) =>
                if 999 <? code then Ok (RSoft, 0, None)
                else
                  let q := p + k + count_whsp (drop (p + k) l) in
                  if crlf <? q then Bug else Ok (ROk, crlf + 2, Some (v, code))
            end
        end
  end.

(** http_part_parse.c:109-217 [__rrr_http_part_parse_request]: the return value, the octets parsed,
    and method, URI and version if everything was fine.  Method and URI set before a failure are
    not used after it. *)
Definition parse_request (l : list Z) : ret * Z * option (list Z * list Z * version) :=
  match find_crlf l with
  | None => (RIncomplete, 0, None)
  | Some crlf =>
      if crlf =? 0 then (RSoft, 0, None)
      else
        match find_whsp l with
        | None => (RSoft, 0, None)
        | Some n =>
            if (10 <? n) || (n =? 0) then (RSoft, 0, None)
            else
              let p := n + count_whsp (drop n l) in
              match find_whsp (drop p l) with
              | None => (RSoft, 0, None)
              | Some k =>
                  if 2^32 - 1 <? k then (RSoft, 0, None)
                  else
                    let q := p + k + count_whsp (drop (p + k) l) in
                    match http_version (take (crlf - q) (drop q l)) with
                    | None => (RSoft, 0, None)
                    | Some (v, m) =>
                        if negb (q + m =? crlf) then (RSoft, 0, None)
                        else (ROk, crlf + 2, Some (take n l, take k (drop p l), v))
                    end
              end
        end
  end.

(** ** Header fields *)

(** http_header_fields.h, [RRR_HTTP_HEADER_FIELD_ALLOW_MULTIPLE], [RRR_HTTP_HEADER_FIELD_NO_PAIRS],
    [RRR_HTTP_HEADER_FIELD_ANGLED_QUOTE_NAME] and [RRR_HTTP_HEADER_FIELD_TRIM] *)
Record flags : Type := mk_flags { f_multi : bool; f_nopairs : bool; f_angled : bool; f_trim : bool }.
(** The parse function of a definition: none, or one of http_header_fields.c:78-113, 115-140,
    155-201, 203-237, 280-309, 311-352 and 354-381 *)
Inductive parser : Type := PNone | PUnsigned | PString | PBase64 | PFirst | PContentType | PDisposition | PAltSvc.
Definition no_flags : flags := mk_flags false false false false.
Definition fmulti : flags := mk_flags true false false false.
Definition fnopairs : flags := mk_flags false true false false.
(** http_header_fields.c:383-422 [definitions] *)
Definition definitions : list (list Z * (flags * parser)) :=
  [ (str_bytes ":status", (fnopairs, PUnsigned));
    (str_bytes ":method", (fnopairs, PString));
    (str_bytes ":path", (fnopairs, PString));
    (str_bytes ":authority", (fnopairs, PString));
    (str_bytes "host", (fnopairs, PString));
    (str_bytes "accept", (fmulti, PNone));
    (str_bytes "accept-language", (fmulti, PNone));
    (str_bytes "accept-encoding", (fmulti, PString));
    (str_bytes "access-control-request-headers", (fnopairs, PString));
    (str_bytes "cache-control", (fmulti, PNone));
    (str_bytes "connection", (fmulti, PString));
    (str_bytes "upgrade", (fnopairs, PString));
    (str_bytes "content-disposition", (no_flags, PDisposition));
    (str_bytes "content-length", (mk_flags false true false true, PUnsigned));
    (str_bytes "content-type", (mk_flags false false false true, PContentType));
    (str_bytes "content-encoding", (fnopairs, PString));
    (str_bytes "date", (fnopairs, PString));
    (str_bytes "link", (mk_flags true false true false, PNone));
    (str_bytes "location", (fnopairs, PString));
    (str_bytes "server", (no_flags, PString));
    (str_bytes "server-timing", (fmulti, PFirst));
    (str_bytes "transfer-encoding", (fnopairs, PString));
    (str_bytes "user-agent", (fnopairs, PNone));
    (str_bytes "vary", (fmulti, PString));
    (str_bytes "x-clue", (fnopairs, PNone));
    (str_bytes "sec-websocket-key", (fnopairs, PBase64));
    (str_bytes "sec-websocket-accept", (fnopairs, PBase64));
    (str_bytes "sec-websocket-version", (fnopairs, PString));
    (str_bytes "http2-settings", (fnopairs, PString));
    (str_bytes "alt-svc", (fmulti, PAltSvc)) ].
(** http_header_fields.c:424-453 [__rrr_http_header_field_definition_get] *)
Fixpoint definition_in (ds : list (list Z * (flags * parser))) (name : list Z) : option (flags * parser) :=
  match ds with
  | [] => None
  | (n, d) :: r =>
      match strcasestr name n with
      | Some (0, _) => if zlen name =? zlen n then Some d else definition_in r name
      | _ => definition_in r name
      end
  end.
Definition definition_get (name : list Z) : option (flags * parser) := definition_in definitions name.
Definition flags_of (d : option (flags * parser)) : flags := match d with Some (f, _) => f | None => no_flags end.

(** http_header_fields.h [struct rrr_http_header_field] *)
Record hfield : Type := mk_hf {
  h_name : list Z; h_def : option (flags * parser); h_fields : list field;
  h_value : option (list Z); h_unsigned : Z; h_binary : list Z; h_full : option (list Z) }.
(** http_header_fields.c:599-635 [rrr_http_header_field_new_raw] *)
Definition new_field (name : list Z) : hfield := mk_hf (map lower name) (definition_get name) [] None 0 [] None.
Definition set_fields (h : hfield) (fs : list field) : hfield :=
  mk_hf (h_name h) (h_def h) fs (h_value h) (h_unsigned h) (h_binary h) (h_full h).
Definition set_value (h : hfield) (v : list Z) : hfield :=
  mk_hf (h_name h) (h_def h) (h_fields h) (Some v) (h_unsigned h) (h_binary h) (h_full h).
Definition set_unsigned (h : hfield) (n : Z) : hfield :=
  mk_hf (h_name h) (h_def h) (h_fields h) (h_value h) n (h_binary h) (h_full h).
Definition set_binary (h : hfield) (b : list Z) : hfield :=
  mk_hf (h_name h) (h_def h) (h_fields h) (h_value h) (h_unsigned h) b (h_full h).
Definition set_full (h : hfield) (v : list Z) : hfield :=
  mk_hf (h_name h) (h_def h) (h_fields h) (h_value h) (h_unsigned h) (h_binary h) (Some v).

(** nullsafe_str.c:995-1014 [rrr_nullsafe_str_trim] and nullsafe_str.c:1016-1039
    [rrr_nullsafe_str_trim_set] *)
Definition trim_right (p : Z -> bool) (l : list Z) : list Z := rev (drop (count_while p (rev l)) (rev l)).
Definition trim (l : list Z) : list Z := trim_right (Z.eqb 32) l.

(** http_header_fields.c:33-47 [__rrr_http_header_field_trim_name_if_required]; [None]: return value
    RRR_HTTP_PARSE_SOFT_ERR *)
Definition trim_name (fl : flags) (fs : list field) : option (list field) :=
  match fs with
  | (n, v) :: r => let n' := if f_trim fl then trim n else n in if zlen n' =? 0 then None else Some ((n', v) :: r)
  | [] => None
  end.
(** http_header_fields.c:49-76 [__rrr_http_header_parse_single_value_verify] *)
Definition single_value (fl : flags) (fs : list field) : option (list Z) :=
  match fs with
  | [(n, [])] => Some (if f_trim fl then trim n else n)
  | _ => None
  end.
(** http_header_fields.c:78-113 [__rrr_http_header_parse_single_unsigned_value]; the return value of
    the trimming is not looked at *)
Definition parse_unsigned (fl : flags) (h : hfield) : option hfield :=
  match single_value fl (h_fields h) with
  | None => None
  | Some n =>
      match strtoull_raw 10 n with
      | None => None
      | Some (v, _) => if zlen (dec_str v) =? zlen n then Some (set_unsigned (set_fields h [(n, [])]) v) else None
      end
  end.
(** http_header_fields.c:115-140 [__rrr_http_header_parse_single_string_value] *)
Definition parse_string (fl : flags) (h : hfield) : option hfield :=
  match single_value fl (h_fields h) with
  | None => None
  | Some n => if zlen n =? 0 then None else Some (set_value (set_fields h [(n, [])]) n)
  end.
(** http_header_fields.c:155-201 [__rrr_http_header_parse_base64_value] *)
Definition parse_base64 (fl : flags) (h : hfield) : res (option hfield) :=
  match parse_string fl h with
  | None => Ok None
  | Some h' =>
      match base64_decode (match h_value h' with Some v => v | None => [] end) with
      | B64Null => Ok None
      | B64Ok b => if 2^32 - 1 <? zlen b then Ok None else Ok (Some (set_binary h' b))
      | B64Overflow => Ub
      end
  end.
(** http_header_fields.c:203-237 [__rrr_http_header_parse_first_string_value] *)
Definition parse_first (fl : flags) (h : hfield) : option hfield :=
  match h_fields h with
  | (n, []) :: _ => match trim_name fl (h_fields h) with
                    | Some ((n', v) :: r) => Some (set_value (set_fields h ((n', v) :: r)) n')
                    | _ => None
                    end
  | _ => None
  end.
(** http_header_fields.c:252-278 [__rrr_http_header_parse_unquote_fields]: the value after it;
    empty if the length is zero *)
Definition unquote_value (v : list Z) : res (list Z) :=
  match v with
  | [] => Ok []
  | _ => match url_decode (unquote v) with Ok (Some t) => Ok t | Ok None => Ok [] | Bug => Bug | Ub => Ub end
  end.
(** The loops of http_header_fields.c:289-305, 320-348 and 359-377: the values with the given names
    are unquoted and must not be empty *)
Fixpoint unquote_fields (names : list (list Z)) (fs : list field) : res (option (list field)) :=
  match fs with
  | [] => Ok (Some [])
  | (n, v) :: r =>
      if existsb (same_case n) names then
        match unquote_value v with
        | Ok [] => Ok None
        | Ok t => match unquote_fields names r with Ok (Some r') => Ok (Some ((n, t) :: r')) | x => x end
        | Bug => Bug | Ub => Ub
        end
      else match unquote_fields names r with Ok (Some r') => Ok (Some ((n, v) :: r')) | x => x end
  end.
Definition with_fields (h : hfield) (x : res (option (list field))) : res (option hfield) :=
  match x with Ok (Some fs) => Ok (Some (set_fields h fs)) | Ok None => Ok None | Bug => Bug | Ub => Ub end.
(** http_header_fields.c:280-309 [__rrr_http_header_parse_content_type_value] *)
Definition parse_content_type (fl : flags) (h : hfield) : res (option hfield) :=
  match parse_first fl h with
  | None => Ok None
  | Some h' => with_fields h' (unquote_fields [str_bytes "charset"; str_bytes "boundary"] (h_fields h'))
  end.
(** http_header_fields.c:311-352 [__rrr_http_header_parse_content_disposition_value] *)
Definition parse_disposition (fl : flags) (h : hfield) : res (option hfield) :=
  match parse_first fl h with
  | None => Ok None
  | Some h' =>
      match h_fields h' with
      | f :: r =>
          if existsb (same_case (fst f)) [str_bytes "form-data"; str_bytes "attachment"; str_bytes "inline"] then
            match unquote_fields [str_bytes "name"; str_bytes "filename"] r with
            | Ok (Some r') => Ok (Some (set_fields h' (f :: r'))) | Ok None => Ok None | Bug => Bug | Ub => Ub
            end
          else Ok (Some h')
      | [] => Ok (Some h')
      end
  end.
(** http_header_fields.c:354-381 [__rrr_http_header_parse_alt_svc_value] *)
Definition parse_alt_svc (h : hfield) : res (option hfield) :=
  with_fields h (unquote_fields [str_bytes "h2"; str_bytes "h3"; str_bytes "h3-29"; str_bytes "h3-32"; str_bytes "ma"; str_bytes "persist"] (h_fields h)).
(** http_header_fields.c:1108-1113: the parse function of the definition, if any *)
Definition parse_value (h : hfield) : res (option hfield) :=
  match h_def h with
  | None => Ok (Some h)
  | Some (fl, p) =>
      match p with
      | PNone => Ok (Some h)
      | PUnsigned => Ok (parse_unsigned fl h)
      | PString => Ok (parse_string fl h)
      | PBase64 => parse_base64 fl h
      | PFirst => Ok (parse_first fl h)
      | PContentType => parse_content_type fl h
      | PDisposition => parse_disposition fl h
      | PAltSvc => parse_alt_svc h
      end
  end.

Definition is_some {A} (o : option A) : bool := match o with Some _ => true | None => false end.
Definition eqo (o : option Z) (n : Z) : bool := match o with Some x => x =? n | None => false end.
(** http_header_fields.c:747-766 [__rrr_http_header_field_parse_get_first_position] *)
Definition first_position (a b c : option Z) (line_end : Z) : Z :=
  let f1 := match a with Some x => x | None => line_end end in
  let f2 := match b with Some x => if x <? f1 then x else f1 | None => f1 end in
  match c with Some x => if x <? f2 then x else f2 | None => f2 end.
(** http_fields.c:125-142 [rrr_http_field_value_set] for a field without value *)
Definition value_of (v : list Z) : list Z := match v with c :: _ => if c =? 0 then [] else v | [] => [] end.

(** http_header_fields.c:803-947 [__rrr_http_header_field_parse_subvalue] where lines end with CRLF.
    The check of the size, which compares a number of 32 bits with the largest one, never fires.
    Result: return value, octets parsed and the subvalue found. *)
Definition parse_subvalue (fl : flags) (nowhite : bool) (l : list Z) : res (ret * Z * option field) :=
  let sep := count_while (fun c => (c =? 59) || (c =? 44)) l in
  let w := count_whsp (drop sep l) in
  if negb nowhite && (w =? 0) then Ok (ROk, sep, None)
  else
    let p := sep + (if nowhite then 0 else w) in
    match find_crlf (drop p l) with
    | None => Ok (RIncomplete, 0, None)
    | Some e =>
        let sp := count_while (Z.eqb 32) (drop p l) in
        let start := p + sp in
        let line := take (e - sp) (drop start l) in
        let line_end := zlen line in
        if line_end =? 0 then Ok (ROk, 0, None)
        else
          let quote := if f_angled fl && (match line with c :: _ => c =? 60 | [] => false end) then strchr line 62 else None in
          let from := match quote with Some q => q + 1 | None => 0 end in
          let find (c : Z) : option Z := option_map (Z.add from) (strchr (drop from line) c) in
          let equal := if f_nopairs fl then None else find 61 in
          let semicolon := if f_nopairs fl then None else find 59 in
          let comma := if f_multi fl then find 44 else None in
          let name_end := match quote with Some q => q + 1 | None => first_position comma semicolon equal line_end end in
          if name_end <=? 0 then Ok (RSoft, 0, None)
          else
            let name := take name_end line in
            if name_end =? line_end then Ok (ROk, start + name_end + 2, Some (name, []))
            else if eqo comma name_end || eqo semicolon name_end then Ok (ROk, start + name_end, Some (name, []))
            else
              let s := name_end + 1 + count_whsp (drop name_end line) in
              if line_end <=? s then Ok (RSoft, 0, None)
              else
                let value_end := first_position comma semicolon None line_end in
                if value_end <? s then Bug
                else Ok (ROk, start + value_end, Some (name, value_of (take (value_end - s) (drop s line))))
    end.

(** http_header_fields.c:949-1021 [__rrr_http_header_field_parse_subvalues]; each round but the last
    finds a subvalue, which takes an octet at least.  [pos] octets have been parsed.  Result: return
    value, octets parsed, whether a comma starts another field of the same name, the subvalues. *)
Fixpoint parse_subvalues (fuel : nat) (fl : flags) (nowhite : bool) (l : list Z) (pos : Z) (fs : list field)
  : res (ret * Z * bool * list field) :=
  match parse_subvalue fl nowhite l with
  | Bug => Bug | Ub => Ub
  | Ok (r, n, f) =>
      match r with
      | ROk =>
          let fs' := fs ++ match f with Some x => [x] | None => [] end in
          let l' := drop n l in
          match l' with
          | [] => Ok (RIncomplete, 0, false, fs')
          | c :: rest =>
              if c =? 44 then Ok (ROk, pos + n, true, fs')
              else if c =? 59 then
                match rest with
                | [] => Ok (RIncomplete, 0, false, fs')
                | d :: _ =>
                    if d =? 44 then Ok (ROk, pos + n + 1, true, fs')
                    else
                      let bad := negb ((d =? 32) || (d =? 9) || (d =? 13)) in
                      match f, fuel with
                      | Some _, S k => parse_subvalues k fl bad l' (pos + n) fs'
                      | _, _ => Ok (ROk, pos + n, false, fs')
                      end
                end
              else
                match f, fuel with
                | Some _, S k => parse_subvalues k fl false l' (pos + n) fs'
                | _, _ => Ok (ROk, pos + n, false, fs')
                end
          end
      | _ => Ok (r, 0, false, fs)
      end
  end.

(** http_header_fields.c:1245-1297
    [__rrr_http_header_field_parse_name_and_value_field_create_callback]; [name] is the name of the
    field before the comma, if any *)
Definition field_create (name : option (list Z)) (l : list Z) : ret * Z * hfield :=
  match find_crlf l with
  | None => (RIncomplete, 0, new_field [])
  | Some crlf =>
      if crlf <=? 0 then (RSoft, 0, new_field [])
      else
        match name with
        | None =>
            match strchr (take crlf l) 58 with
            | None => (RSoft, 0, new_field [])
            | Some colon => (ROk, colon + 1, new_field (take colon l))
            end
        | Some n =>
            let k := match l with c :: _ => if c =? 44 then 1 else 0 | [] => 0 end in
            if zlen l <=? k then (RIncomplete, 0, new_field n) else (ROk, k, new_field n)
        end
  end.
(** http_header_fields.c:1299-1333
    [__rrr_http_header_field_parse_name_and_value_whitespace_check_callback]: return value, octets
    parsed and whether missing_space_after_comma is set *)
Definition whitespace_check (l : list Z) : ret * Z * bool :=
  match find_crlf l with
  | None => (RIncomplete, 0, false)
  | Some crlf =>
      let w := count_whsp (take crlf l) in
      let n := if w =? crlf then crlf + 2 else 0 in
      let missing := negb (w =? crlf) && (w =? 0) in
      match find_crlf (drop n l) with None => (RIncomplete, 0, missing) | Some _ => (ROk, n, missing) end
  end.

(** http_header_fields.c:1064-1117, the loop of [__rrr_http_header_field_parse].  Each round but the
    first takes a comma.  [pos] octets have been parsed, [vstart] is value_start; the fields found
    are [acc].  Result: return value, octets parsed, value_start, fields. *)
Fixpoint field_loop (fuel : nat) (name : option (list Z)) (missing : bool) (empty : Z) (l : list Z) (pos vstart : Z) (acc : list hfield)
  : res (ret * Z * Z * list hfield) :=
  match field_create name l with
  | (ROk, n, h) =>
      let l1 := drop n l in
      match l1 with
      | [] => Ok (RSoft, 0, 0, [])
      | _ =>
          let vstart' := match name with None => pos + n | Some _ => vstart end in
          match whitespace_check l1 with
          | (ROk, k, m) =>
              let missing' := missing || m in
              match parse_subvalues (length l) (flags_of (h_def h)) missing' (drop k l1) 0 [] with
              | Bug => Bug | Ub => Ub
              | Ok (r, j, more, fs) =>
                  match r with
                  | ROk =>
                      let empty' := if j =? 0 then empty + 1 else empty in
                      if (j =? 0) && (empty' =? 4) then Ok (RSoft, 0, 0, [])
                      else
                        match parse_value (set_fields h fs) with
                        | Bug => Bug | Ub => Ub
                        | Ok None => Ok (RSoft, 0, 0, [])
                        | Ok (Some h') =>
                            match more, fuel with
                            | true, S f => field_loop f (Some (h_name h)) missing' empty' (drop (k + j) l1) (pos + n + k + j) vstart' (acc ++ [h'])
                            | _, _ => Ok (ROk, pos + n + k + j, vstart', acc ++ [h'])
                            end
                        end
                  | RIncomplete => Ok (RIncomplete, 0, 0, [])
                  | _ => Ok (RSoft, 0, 0, [])
                  end
              end
          | (r, _, _) => Ok (r, 0, 0, [])
          end
      end
  | (r, _, _) => Ok (r, 0, 0, [])
  end.
(** http_header_fields.c:1040-1147 [__rrr_http_header_field_parse] and
    http_header_fields.c:1335-1359 [rrr_http_header_field_parse_name_and_value]: return value,
    octets parsed and the fields added *)
Definition field_parse (l : list Z) : res (ret * Z * list hfield) :=
  if 2^32 - 1 <? zlen l then Ok (RSoft, 0, [])
  else
    match field_loop (length l) None false 0 l 0 0 [] with
    | Bug => Bug | Ub => Ub
    | Ok (ROk, n, vstart, hs) =>
        let raw := take (n - vstart) (drop vstart l) in
        let v := trim_right (fun c => (c =? 13) || (c =? 10) || (c =? 9) || (c =? 32)) (drop (count_whsp raw) raw) in
        Ok (ROk, n, match hs with h :: r => set_full h v :: r | [] => [] end)
    | Ok (r, _, _, _) => Ok (r, 0, [])
    end.

(** http_part_parse.c:314-362 [__rrr_http_part_header_fields_parse]: return value, octets parsed,
    fields with those added.  Each round takes the colon of a field. *)
Fixpoint header_fields_parse (fuel : nat) (l : list Z) (total : Z) (hs : list hfield) : res (ret * Z * list hfield) :=
  match find_crlf l with
  | None => Ok (RIncomplete, total, hs)
  | Some crlf =>
      if crlf =? 0 then Ok (ROk, total + 2, hs)
      else
        match field_parse l with
        | Bug => Bug | Ub => Ub
        | Ok (ROk, n, new) =>
            let k := if n =? crlf then n + 2 else n in
            match fuel with
            | S f => header_fields_parse f (drop k l) (total + k) (hs ++ new)
            | O => Ok (RIncomplete, total + k, hs ++ new)
            end
        | Ok (r, _, _) => Ok (r, total, hs)
        end
  end.

(** ** Parts *)

(** http_common.h [enum rrr_http_method] *)
Inductive method : Type := MGet | MOptions | MPost | MPut | MPatch | MHead | MDelete.
(** [p_app] is whether parsed_application_type is set; chunks are pairs of start and length *)
Record part : Type := mk_part {
  p_app : bool; p_version : version; p_code : Z; p_method_str : list Z; p_uri : list Z; p_method : option method;
  p_headers : list hfield; p_complete : bool; p_chunked : bool; p_unknown : bool; p_keepalive : option bool;
  p_headroom : Z; p_header : Z; p_data : Z; p_chunks : list (Z * Z) }.
(** http_part.c:95-113 [rrr_http_part_new] *)
Definition new_part : part := mk_part false V11 0 [] [] None [] false false false None 0 0 0 [].
Definition set_request (p : part) (m u : list Z) (v : version) (n : Z) : part :=
  mk_part true v (p_code p) m u (p_method p) (p_headers p) (p_complete p) (p_chunked p) (p_unknown p) (p_keepalive p) n (p_header p) (p_data p) (p_chunks p).
Definition set_response (p : part) (v : version) (c : Z) (n : Z) : part :=
  mk_part true v c (p_method_str p) (p_uri p) (p_method p) (p_headers p) (p_complete p) (p_chunked p) (p_unknown p) (p_keepalive p) n (p_header p) (p_data p) (p_chunks p).
Definition set_headers (p : part) (hs : list hfield) (n : Z) (complete : bool) : part :=
  mk_part (p_app p) (p_version p) (p_code p) (p_method_str p) (p_uri p) (p_method p) hs complete (p_chunked p) (p_unknown p) (p_keepalive p) (p_headroom p) (u64 (p_header p + n)) (p_data p) (p_chunks p).
Definition set_method (p : part) (m : option method) : part :=
  mk_part (p_app p) (p_version p) (p_code p) (p_method_str p) (p_uri p) m (p_headers p) (p_complete p) (p_chunked p) (p_unknown p) (p_keepalive p) (p_headroom p) (p_header p) (p_data p) (p_chunks p).
Definition set_keepalive (p : part) (k : bool) : part :=
  mk_part (p_app p) (p_version p) (p_code p) (p_method_str p) (p_uri p) (p_method p) (p_headers p) (p_complete p) (p_chunked p) (p_unknown p) (Some k) (p_headroom p) (p_header p) (p_data p) (p_chunks p).
Definition set_data (p : part) (n : Z) : part :=
  mk_part (p_app p) (p_version p) (p_code p) (p_method_str p) (p_uri p) (p_method p) (p_headers p) (p_complete p) (p_chunked p) (p_unknown p) (p_keepalive p) (p_headroom p) (p_header p) n (p_chunks p).
Definition set_unknown (p : part) : part :=
  mk_part (p_app p) (p_version p) (p_code p) (p_method_str p) (p_uri p) (p_method p) (p_headers p) (p_complete p) (p_chunked p) true (p_keepalive p) (p_headroom p) (p_header p) (p_data p) (p_chunks p).
Definition set_chunks (p : part) (chunked : bool) (cs : list (Z * Z)) (n : Z) : part :=
  mk_part (p_app p) (p_version p) (p_code p) (p_method_str p) (p_uri p) (p_method p) (p_headers p) (p_complete p) chunked (p_unknown p) (p_keepalive p) (p_headroom p) (p_header p) n cs.

(** http_header_fields.c:472-486 [rrr_http_header_field_collection_get] *)
Fixpoint header_get (hs : list hfield) (name : list Z) : res (option hfield) :=
  match hs with
  | [] => Ok None
  | h :: r =>
      if same_case (h_name h) name then
        match h_def h with Some (_, PNone) | None => Bug | Some _ => Ok (Some h) end
      else header_get r name
  end.
(** nullsafe_str.c:631-655 [rrr_nullsafe_str_cmpto_case] for a value which may be missing *)
Definition value_is (h : hfield) (s : list Z) : bool := match h_value h with Some v => same_case v s | None => false end.

(** http_part_parse.c:444-470: the method named by the request line *)
Definition method_of (s : list Z) : option method :=
  if same_text s (str_bytes "GET") then Some MGet
  else if same_text s (str_bytes "OPTIONS") then Some MOptions
  else if same_text s (str_bytes "POST") then Some MPost
  else if same_text s (str_bytes "PUT") then Some MPut
  else if same_text s (str_bytes "PATCH") then Some MPatch
  else if same_text s (str_bytes "HEAD") then Some MHead
  else if same_text s (str_bytes "DELETE") then Some MDelete
  else None.

(** ** Chunks *)

(** http_part_parse.c:219-312 [__rrr_http_part_parse_chunk_header] from the octets at the position:
    return value, octets parsed and length of the chunk *)
Definition chunk_header (l : list Z) : ret * Z * Z :=
  let first := find_crlf l in
  let p := if eqo first 0 then 2 else 0 in
  match find_crlf (drop p l) with
  | None => (RIncomplete, 0, 0)
  | Some crlf =>
      match strtoull_raw 16 (take crlf (drop p l)) with
      | None => (RSoft, 0, 0)
      | Some (len, n) =>
          if negb (n =? crlf) then (RSoft, 0, 0)
          else
            let q := p + n + 2 in
            if zlen l <=? q + 1 then (RIncomplete, 0, 0) else (ROk, q, len)
      end
  end.
(** RRR_LL_LAST *)
Definition last_chunk (cs : list (Z * Z)) : option (Z * Z) := match rev cs with c :: _ => Some c | [] => None end.
(** The position of an address computed as [base + x], relative to [base] *)
Definition offset (base x : Z) : Z := u64 (base + x) - base.

(** http_part_parse.c:364-432 [__rrr_http_part_parse_chunk]; [Ub] where memory before the received
    data is read.  Result: return value, octets parsed and chunks. *)
Definition parse_chunk (base : Z) (buf : list Z) (pos : Z) (cs : list (Z * Z)) : res (ret * Z * list (Z * Z)) :=
  let last := last_chunk cs in
  let over := match last with Some (s, n) => zlen buf <? offset base (s + n) | None => false end in
  if over then Ok (RIncomplete, 0, cs)
  else
    let prev := match last with Some (_, n) => n | None => 0 end in
    let at_ := offset base (pos + prev) in
    if zlen buf <=? at_ then Ok (RIncomplete, 0, cs)
    else if at_ <? 0 then Ub
    else
      match chunk_header (drop at_ buf) with
      | (ROk, n, len) =>
          Ok (if len =? 0 then ROk else RIncomplete, u64 (n + prev), cs ++ [(at_ + n, len)])
      | (RIncomplete, _, _) => Ok (RIncomplete, 0, cs)
      | _ => Ok (RHard, 0, cs)
      end.
(** http_part_parse.c:491-537 [__rrr_http_part_parse_chunked] for requests and responses: return
    value, part, target size and octets parsed *)
Definition parse_chunked (base : Z) (p : part) (buf : list Z) (pos : Z) : res (ret * part * Z * Z) :=
  match parse_chunk base buf pos (p_chunks p) with
  | Bug => Bug | Ub => Ub
  | Ok (ROk, n, cs) =>
      let start := match last_chunk cs with Some (s, _) => s | None => 0 end in
      Ok (ROk, set_chunks p true cs (u64 (start + 2 - p_header p - p_headroom p)), u64 (start + 2), n)
  | Ok (r, n, cs) => Ok (r, set_chunks p true cs (p_data p), 0, n)
  end.

(** http_part_parse.c:670-700: what is known about keeping the connection open *)
Definition connection_set (p : part) : res part :=
  match header_get (p_headers p) (str_bytes "connection") with
  | Bug => Bug | Ub => Ub
  | Ok c =>
      let k := match c with
               | None => None
               | Some h => if value_is h (str_bytes "close") then Some false
                           else if value_is h (str_bytes "keep-alive") then Some true
                           else if value_is h (str_bytes "upgrade") then Some true
                           else None
               end in
      Ok (set_keepalive p (match k with Some x => x | None => match p_version p with V10 => false | V11 => true end end))
  end.

(** http_part_parse.c:702-750, how the end of the body is found *)
Definition body_framing (base : Z) (request : bool) (p : part) (buf : list Z) (pos total : Z) : res (ret * part * Z * Z) :=
  match header_get (p_headers p) (str_bytes "content-length"), header_get (p_headers p) (str_bytes "transfer-encoding") with
  | Ok (Some cl), Ok _ =>
      Ok (ROk, set_data p (h_unsigned cl), u64 (p_headroom p + p_header p + h_unsigned cl), total)
  | Ok None, Ok te =>
      if (match te with Some h => value_is h (str_bytes "chunked") | None => false end) then
        match parse_chunked base p buf (u64 (pos + total)) with
        | Ok (r, p', t, n) => Ok (r, p', t, u64 (total + n))
        | Bug => Bug | Ub => Ub
        end
      else if request || (p_code p =? 204) || (p_code p =? 101) then
        Ok (ROk, set_data p 0, u64 (p_headroom p + p_header p), total)
      else Ok (RIncomplete, set_unknown p, 0, total)
  | Ub, _ | _, Ub => Ub
  | _, _ => Bug
  end.

(** http_part_parse.c:609-668 and what follows: the header fields from [pos + total] on *)
Definition parse_header (base : Z) (request : bool) (p : part) (buf : list Z) (pos total : Z) : res (ret * part * Z * Z) :=
  if p_complete p then Ok (if total =? 0 then RIncomplete else ROk, p, 0, total)
  else if 64 * 1024 <? u64 (pos + total - p_headroom p) then Ok (RSoft, p, 0, total)
  else
    match header_fields_parse (length buf) (drop (pos + total) buf) 0 (p_headers p) with
    | Bug => Bug | Ub => Ub
    | Ok (ROk, n, hs) =>
        let p1 := set_headers p hs n true in
        let go (p2 : part) : res (ret * part * Z * Z) :=
          match connection_set p2 with
          | Bug => Bug | Ub => Ub
          | Ok p3 => body_framing base request p3 buf pos (total + n)
          end in
        if request then
          match method_of (p_method_str p1), header_get hs (str_bytes "content-type") with
          | None, _ => Ok (RSoft, p1, 0, total + n)
          | Some m, Ok _ => go (set_method p1 (Some m))
          | Some _, Bug => Bug
          | Some _, Ub => Ub
          end
        else go p1
    | Ok (r, n, hs) => Ok (r, set_headers p hs n false, 0, total + n)
    end.

(** http_part_parse.c:539-756 [rrr_http_part_parse] for requests and responses: return value, part,
    target size and octets parsed *)
Definition part_parse (base : Z) (request : bool) (p : part) (buf : list Z) (pos : Z) : res (ret * part * Z * Z) :=
  if p_chunked p then parse_chunked base p buf pos
  else if p_app p then parse_header base request p buf pos 0
  else
    let x : res (ret * Z * part) :=
      if request then
        match parse_request (drop pos buf) with
        | (r, n, Some (m, u, v)) => Ok (r, n, set_request p m u v n)
        | (r, n, None) => Ok (r, n, p)
        end
      else
        match parse_response_code (drop pos buf) with
        | Ok (r, n, Some (v, c)) => Ok (r, n, set_response p v c n)
        | Ok (r, n, None) => Ok (r, n, p)
        | Bug => Bug | Ub => Ub
        end in
    match x with
    | Bug => Bug | Ub => Ub
    | Ok (ROk, n, p') => parse_header base request p' buf pos n
    | Ok (RIncomplete, n, p') => Ok (if 1024 * 1024 <? zlen buf then RSoft else RIncomplete, p', 0, n)
    | Ok (r, n, p') => Ok (r, p', 0, n)
    end.

(** ** Receiving *)

(** http_application_http1.c:1163-1175, the loop over what has been received; [None]: it has not
    ended after [fuel] rounds.  Result: return value, part, target size and parse position. *)
Fixpoint parse_loop (fuel : nat) (base : Z) (request : bool) (p : part) (buf : list Z) (pos : Z)
  : res (option (ret * part * Z * Z)) :=
  match part_parse base request p buf pos with
  | Bug => Bug | Ub => Ub
  | Ok (r, p', t, n) =>
      let pos' := u64 (pos + n) in
      match r with
      | RIncomplete =>
          if n =? 0 then Ok (Some (r, p', t, pos'))
          else match fuel with S f => parse_loop f base request p' buf pos' | O => Ok None end
      | _ => Ok (Some (r, p', t, pos'))
      end
  end.

(** http_application_http1.c:1022-1061
    [__rrr_http_application_http1_receive_get_target_size_validate_request], whether the request is
    fine *)
Definition validate_request (p : part) : res bool :=
  match header_get (p_headers p) (str_bytes "content-type"), header_get (p_headers p) (str_bytes "content-length"),
        header_get (p_headers p) (str_bytes "transfer-encoding") with
  | Ok ct, Ok cl, Ok te =>
      match p_method p with
      | None => Bug
      | Some (MGet | MOptions | MHead | MDelete) =>
          Ok (negb (is_some ct || is_some te || match cl with Some h => negb (h_unsigned h =? 0) | None => false end))
      | Some _ => Ok true
      end
  | Ub, _, _ | _, Ub, _ | _, _, Ub => Ub
  | _, _, _ => Bug
  end.

(** What is known of the message after more of it has arrived: it needs more octets, it lasts until
    the connection is closed, it has [n] octets from the start of what has been received, it has [n]
    octets but will not be taken (the answer is 400), or it is refused and the connection closed. *)
Inductive verdict : Type := NeedMore | UntilClose | Message (n : Z) | BadRequest (n : Z) | Refused.

(** http_application_http1.c:1063-1227 [__rrr_http_application_http1_receive_get_target_size] with
    part and parse position; a server starts with an empty part at position 0.  [None]: does not end
    within [fuel] rounds. *)
Definition get_target_size (fuel : nat) (base : Z) (server : bool) (s : part * Z) (buf : list Z) : res (option (verdict * (part * Z))) :=
  let p := if server && (snd s =? 0) then new_part else fst s in
  match parse_loop fuel base server p buf (snd s) with
  | Bug => Bug | Ub => Ub
  | Ok None => Ok None
  | Ok (Some (r, p', t, pos)) =>
      match r with
      | ROk =>
          if server then
            match validate_request p' with
            | Bug => Bug | Ub => Ub
            | Ok true => Ok (Some (Message t, (p', 0)))
            | Ok false => Ok (Some (BadRequest (u64 (p_headroom p' + p_header p')), (new_part, 0)))
            end
          else Ok (Some (Message t, (p', 0)))
      | RIncomplete => if p_unknown p' then Ok (Some (UntilClose, (p', 0))) else Ok (Some (NeedMore, (p', pos)))
      | _ => Ok (Some (Refused, (p', 0)))
      end
  end.

(** read.c calls the function each time octets have arrived, with all octets of the message so far
    at an address which may change; [arrivals] are the addresses and the octets which arrive *)
Fixpoint receive (fuel : nat) (server : bool) (s : part * Z) (buf : list Z) (arrivals : list (Z * list Z)) : res (option (verdict * part)) :=
  match arrivals with
  | [] => Ok (Some (NeedMore, fst s))
  | (base, d) :: r =>
      match get_target_size fuel base server s (buf ++ d) with
      | Bug => Bug | Ub => Ub
      | Ok None => Ok None
      | Ok (Some (NeedMore, s')) => receive fuel server s' (buf ++ d) r
      | Ok (Some (v, s')) => Ok (Some (v, fst s'))
      end
  end.

(** ** The body *)

(** The octets at the position, or [Ub] if they are not all within the data *)
Definition region (data : list Z) (at_ n : Z) : res (list Z) :=
  if (at_ <? 0) || (n <? 0) || (zlen data <? at_ + n) then Ub else Ok (take n (drop at_ data)).
Fixpoint chunk_data (base data_end : Z) (data : list Z) (cs : list (Z * Z)) : res (list Z) :=
  match cs with
  | [] => Ok []
  | (s, n) :: r =>
      if data_end <? offset base (s + n) then Bug
      else
        match region data (offset base s) n, chunk_data base data_end data r with
        | Ok a, Ok b => Ok (a ++ b)
        | Ok _, x => x
        | x, _ => x
        end
  end.
(** http_part.c:326-372 [rrr_http_part_chunks_iterate]: the octets which the callback gets in all,
    used for responses *)
Definition chunks_iterate (base : Z) (p : part) (data : list Z) : res (list Z) :=
  let data_start := offset base (p_headroom p + p_header p) in
  let data_end := offset base (p_headroom p + p_header p + p_data p) in
  match p_chunks p with
  | [] => if data_end <? data_start then Bug else region data data_start (data_end - data_start)
  | cs => chunk_data base data_end data cs
  end.

(** http_part.c:725-759, the octets of the chunks one after another; [None]: return value 1 *)
Fixpoint merged (base : Z) (data : list Z) (size : Z) (cs : list (Z * Z)) : res (option (list Z)) :=
  match cs with
  | [] => Ok (Some [])
  | (s, n) :: r =>
      if u64 (size + n) <? n then Ok None
      else
        match merged base data (u64 (size + n)) r, region data (offset base s) n with
        | Ok None, _ => Ok None
        | Ok (Some b), Ok a => Ok (Some (a ++ b))
        | Ok (Some _), Bug => Bug
        | Ok (Some _), Ub => Ub
        | x, _ => x
        end
  end.
(** http_part.c:710-770 [rrr_http_part_chunks_merge]: the data to use and the part after it *)
Definition chunks_merge (base : Z) (p : part) (data : list Z) : res (option (list Z * part)) :=
  if negb (p_chunked p) then Ok (Some (data, p))
  else
    let top := p_headroom p + p_header p in
    match merged base data top (p_chunks p), region data 0 top with
    | Ok None, _ => Ok None
    | Ok (Some b), Ok t =>
        let data_new := t ++ b in
        Ok (Some (data_new, set_chunks p false [] (zlen data_new)))
    | Ok (Some _), Bug => Bug
    | Ok (Some _), Ub => Ub
    | Bug, _ => Bug
    | Ub, _ => Ub
    end.
(** http_part.h:50-54 [RRR_HTTP_PART_BODY_LENGTH] and [RRR_HTTP_PART_BODY_PTR] as used in
    p_httpserver.c:900-901, after http_application_http1.c:903: the body of a request *)
Definition request_body (base : Z) (p : part) (data : list Z) : res (option (list Z)) :=
  match chunks_merge base p data with
  | Bug => Bug | Ub => Ub
  | Ok None => Ok None
  | Ok (Some (d, p')) =>
      match region d (p_headroom p' + p_header p') (p_data p') with Ok b => Ok (Some b) | Bug => Bug | Ub => Ub end
  end.
