(** Model of the reader of access lists, src/lib/mqtt/mqtt_acl.c.  What is in the file is followed
    by a zero octet in memory (socket/rrr_socket.c:599-614).  Messages and allocation failures are
    left out. *)
From Coq Require Import Strings.String.
From Coq Require Import ZArith List Bool.
From Verif Require Import Common ParseModel TopicModel.
Import ListNotations.
Open Scope Z_scope.

(** mqtt_acl.c:143-156 [__rrr_mqtt_acl_parse_spaces_and_comments]; [Bug] is a loop which does not
    end (never) *)
Fixpoint gap (fuel : nat) (t : text) (p : pos) : res pos :=
  match fuel with
  | O => Bug
  | S f =>
      bind (ignore_spaces t p) (fun p =>
      if eof t p then Ok p
      else bind (rd t (p_pos p)) (fun c => if c =? 35 then bind (comment t p) (gap f t) else ignore_spaces t p))
  end.
Definition spaces_and_comments (t : text) (p : pos) : res pos := gap (S (length (t_data t))) t p.

(** mqtt_acl.c:158-185 [__rrr_mqtt_acl_parse_require_newline_or_eof]: true is 0 *)
Definition require_newline_or_eof (t : text) (p : pos) : res (bool * pos) :=
  bind (ignore_spaces t p) (fun p' =>
  if eof t p' then Ok (true, p')
  else if p_pos p =? p_pos p' then Ok (false, p')
  else Ok (negb (p_line p =? p_line p'), p')).

(** mqtt_acl.c:187-204 [__rrr_mqtt_acl_parse_require_space_then_non_newline]: true is 0 *)
Definition require_space (t : text) (p : pos) : res (bool * pos) :=
  bind (ignore_spaces t p) (fun p' => Ok (negb ((p_pos p =? p_pos p') || negb (p_line p =? p_line p')), p')).

(** mqtt_acl.c:206-231 [__rrr_mqtt_acl_parse_acl_action] *)
Definition parse_action (t : text) (p : pos) : res (option Z * pos) :=
  bind (match_word_case t (str_bytes "DENY") p) (fun '(b, p) =>
  if b then Ok (Some acl_deny, p)
  else bind (match_word_case t (str_bytes "READ") p) (fun '(b, p) =>
  if b then Ok (Some acl_ro, p)
  else bind (match_word_case t (str_bytes "WRITE") p) (fun '(b, p) =>
  if b then Ok (Some acl_rw, p) else Ok (None, p)))).

(** The action after a keyword and what follows it: mqtt_acl.c:239-252 and 294-304 *)
Definition action_value (t : text) (p : pos) : res (option Z * pos) :=
  bind (require_space t p) (fun '(ok, p) =>
  if negb ok then Ok (None, p)
  else bind (parse_action t p) (fun '(a, p) =>
    match a with
    | None => Ok (None, p)
    | Some a => bind (require_newline_or_eof t p) (fun '(ok, p) => Ok (if ok then Some a else None, p))
    end)).

(** mqtt_acl.c:233-259 [__rrr_mqtt_acl_parse_keyword_default] *)
Definition keyword_default (t : text) (p : pos) : res (option Z * pos) := action_value t p.

(** mqtt_acl.c:261-321 [__rrr_mqtt_acl_parse_keyword_user] *)
Definition keyword_user (t : text) (p : pos) : res (option (list Z * Z) * pos) :=
  bind (ignore_space_and_tab t p) (fun p =>
  bind (match_letters t p MATCH_TAG) (fun '(start, end_, p) =>
  if end_ <? start then Ok (None, p)
  else bind (name_length start end_) (fun n =>
  bind (str_extract t start n) (fun name =>
  bind (action_value t p) (fun '(a, p) =>
  match a with
  | None => Ok (None, p)
  | Some a => if zlen (cstr name) =? 0 then Bug else Ok (Some (cstr name, a), p)
  end))))).

(** mqtt_acl.c:323-370 [__rrr_mqtt_acl_parse_topic_block_body]: the entry, if there was no error,
    and the position.  [is_set] is default_action_is_set. *)
Fixpoint block_body (fuel : nat) (t : text) (p : pos) (e : acl_entry) (is_set : bool) : res (option acl_entry * pos) :=
  match fuel with
  | O => Bug
  | S f =>
      if eof t p then Ok (Some e, p)
      else bind (spaces_and_comments t p) (fun q =>
        if eof t q then Ok (Some e, q)
        else bind (match_word_case t (str_bytes "DEFAULT") q) (fun '(b, q) =>
          if b then
            if is_set then Ok (None, q)
            else bind (keyword_default t q) (fun '(a, q) =>
              match a with None => Ok (None, q) | Some a => block_body f t q (mk_acl (acl_tokens e) a (acl_users e)) true end)
          else bind (match_word_case t (str_bytes "USER") q) (fun '(b, q) =>
            if b then bind (keyword_user t q) (fun '(u, q) =>
              match u with None => Ok (None, q) | Some u => block_body f t q (mk_acl (acl_tokens e) (acl_default e) (acl_users e ++ [u])) is_set end)
            else bind (match_word_case t (str_bytes "TOPIC") q) (fun '(b, q) =>
              if b then Ok (Some e, set_pos q (p_pos p)) else Ok (None, q)))))
  end.

(** mqtt_acl.c:372-459 [__rrr_mqtt_acl_parse_topic_blocks]: the entries, if there was no error *)
Fixpoint topic_blocks (fuel : nat) (t : text) (p : pos) (acc : list acl_entry) : res (option (list acl_entry)) :=
  match fuel with
  | O => Bug
  | S f =>
      bind (spaces_and_comments t p) (fun p =>
      if eof t p then Ok (Some acc)
      else bind (match_word_case t (str_bytes "TOPIC") p) (fun '(b, p) =>
      if negb b then Ok None
      else bind (require_space t p) (fun '(ok, p) =>
      if negb ok then Ok None
      else bind (non_newline t p) (fun '(start, end_, p) =>
      if end_ <? start then Ok None
      else bind (name_length start end_) (fun n =>
      bind (str_extract t start n) (fun topic =>
      match filter_validate (cstr topic) with
      | None => Bug
      | Some r =>
          if negb (r =? 0) then Ok None
          else bind (block_body (S (length (t_data t))) t p (mk_acl (tokenize (cstr topic)) acl_deny []) false) (fun '(e, p) =>
            match e with None => Ok None | Some e => topic_blocks f t p (acc ++ [e]) end)
      end))))))
  end.

(** mqtt_acl.c:461-507 [rrr_mqtt_acl_entry_collection_populate_from_file], for a new collection:
    what is read from a file with these contents, [None] for an error *)
Definition acl_file (contents : list Z) : res (option (list acl_entry)) :=
  match contents with
  | [] => Ok (Some [])
  | _ => if 2^32 - 1 <? zlen contents then Ok None
         else topic_blocks (S (length contents)) (mk_text contents true) pos_init []
  end.
