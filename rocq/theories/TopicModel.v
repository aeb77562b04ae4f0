(** Model of src/lib/mqtt/mqtt_topic.c and of the access check of
    src/lib/mqtt/mqtt_acl.c.

    A character is a [Z].  A C string is the list of its characters without the
    terminating NUL.  A token chain is a list of strings, the NULL pointer being
    the empty list. *)
From Coq Require Import ZArith List Bool.
From Verif Require Import Common Utf8Model.
Import ListNotations.
Open Scope Z_scope.

Definition ch_slash : Z := 47.
Definition ch_hash : Z := 35.
Definition ch_plus : Z := 43.
Definition ch_dollar : Z := 36.

(** Characters up to the first NUL: what strcmp, strlen and friends see. *)
Fixpoint cstr (s : list Z) : list Z :=
  match s with
  | [] => []
  | c :: r => if c =? 0 then [] else c :: cstr r
  end.

(** strcmp (a, b) == 0. *)
Fixpoint str_same (a b : list Z) : bool :=
  match a, b with
  | [], [] => true
  | x :: a, y :: b => (x =? y) && str_same a b
  | _, _ => false
  end.

(** [*data] of a C string: its first character or the terminating NUL. *)
Definition first_char (s : list Z) : Z := match s with [] => 0 | c :: _ => c end.

(** mqtt_topic.c:40-66 [__rrr_mqtt_topic_filter_char_is_ok] with [seq->c1] and
    [seq->c2] as the state. *)
Definition filter_char_is_ok (seq : Z * Z) (c : Z) : Z * (Z * Z) :=
  let c1 := snd seq in
  let c2 := c in
  let seq' := (c1, c2) in
  if (c2 =? ch_hash) && negb (c1 =? ch_slash) && negb (c1 =? 0) then (1, seq')
  else if (c2 =? ch_plus) && negb (c1 =? ch_slash) && negb (c1 =? 0) then (1, seq')
  else if c1 =? ch_hash then (1, seq')
  else if (c1 =? ch_plus) && negb (c2 =? ch_slash) && negb (c1 =? 0) then (1, seq')
  else (0, seq').

(** mqtt_topic.c:68-81 [__rrr_mqtt_topic_name_char_is_ok]. *)
Definition name_char_is_ok (seq : Z * Z) (c : Z) : Z * (Z * Z) :=
  if (c =? ch_hash) || (c =? ch_plus) then (1, seq) else (0, seq).

(** mqtt_topic.c:83-99 [rrr_mqtt_topic_filter_validate_name]; the argument is a C
    string.  [None] stands for a validator which does not terminate (never). *)
Definition filter_validate (s : list Z) : option Z :=
  if 65535 <? zlen s then Some 1
  else option_map fst (utf8_validate_and_iterate filter_char_is_ok (0, 0) s).

(** mqtt_topic.c:101-117 [rrr_mqtt_topic_validate_name_with_end]. *)
Definition name_validate_with_end (s : list Z) : option Z :=
  match s with
  | [] => Some 1
  | _ => option_map fst (utf8_validate_and_iterate name_char_is_ok (0, 0) s)
  end.

(** mqtt_topic.c:119-130 [rrr_mqtt_topic_validate_name]. *)
Definition name_validate (s : list Z) : option Z :=
  match s with [] => Some 1 | _ => name_validate_with_end s end.

(** mqtt_topic.c:386-397 [__rrr_mqtt_topic_strnchr] together with the memcpy of
    the token: the characters before the first separator and, if there is a
    separator, what follows it. *)
Fixpoint cut_token (s : list Z) : list Z * option (list Z) :=
  match s with
  | [] => ([], None)
  | c :: r => if c =? ch_slash then ([], Some r)
              else let '(t, rest) := cut_token r in (c :: t, rest)
  end.

(** mqtt_topic.c:399-461 [rrr_mqtt_topic_tokenize_with_end] on the characters
    from [topic] to [end]; allocations succeed.  [fuel] bounds the recursion.
    When the separator is the last character (line 431) the function recurses on
    one NUL character, which makes an empty token. *)
Fixpoint tokenize_loop (fuel : nat) (s : list Z) : list (list Z) :=
  match fuel with
  | O => []
  | S fuel =>
      match s with
      | [] => []
      | _ =>
          match cut_token s with
          | (t, None) => [cstr t]
          | (t, Some []) => cstr t :: tokenize_loop fuel [0]
          | (t, Some rest) => cstr t :: tokenize_loop fuel rest
          end
      end
  end.
Definition tokenize (s : list Z) : list (list Z) := tokenize_loop (S (S (length s))) s.

(** mqtt_topic.h: the answers of the matchers, RRR_BUG being an abort. *)
Inductive tmatch : Type := TMatch | TMismatch | TBug.

(** mqtt_topic.c:133-171 [rrr_mqtt_topic_match_tokens_recursively]. *)
Fixpoint match_tokens (sub pub : list (list Z)) {struct sub} : tmatch :=
  match sub, pub with
  | s :: sub', p :: pub' =>
      if first_char s =? ch_hash then
        if negb (zlen s =? 1) then TBug
        else if first_char p =? ch_dollar then TMismatch
        else TMatch
      else
      let continue :=
        match sub', pub' with
        | [], [] => TMatch
        | _, _ => match_tokens sub' pub'
        end in
      if first_char s =? ch_plus then
        if negb (zlen s =? 1) then TBug
        else if first_char p =? ch_dollar then TMismatch
        else continue
      else if negb (str_same s p) then TMismatch
      else continue
  | _, _ => TMismatch
  end.

(** mqtt_topic.c:245-273 [rrr_mqtt_topic_match_str_with_end] and
    [rrr_mqtt_topic_match_str]; the tokenizer does not fail. *)
Definition match_str (filter topic : list Z) : tmatch :=
  match_tokens (tokenize filter) (tokenize topic).

(** Answers of the linear matcher: also a failed assertion and a read outside of
    the strings. *)
Inductive lmatch : Type := LMatch | LMismatch | LAssert | LOob.

(** mqtt_topic.c:208-213: move on to the next separator; tells whether there was
    one. *)
Fixpoint skip_to_slash (topic : list Z) : bool * list Z :=
  match topic with
  | [] => (false, [])
  | c :: r => if c =? ch_slash then (true, topic) else skip_to_slash r
  end.

(** mqtt_topic.c:189-242, the loop of
    [rrr_mqtt_topic_match_topic_and_linear_with_end].  [filter] and [topic] are
    the unread parts, [tp] and [fp] the token positions.  [tafter] and [fafter]
    are the octets at [topic_end] and [filter_end], [None] when these are outside
    of readable memory. *)
Fixpoint linear_loop (tafter fafter : option Z) (filter topic : list Z) (tp fp : Z) : lmatch :=
  match filter with
  | [] =>
      match topic with
      | [] => match fafter with Some _ => LMatch | None => LOob end
      | _ => LMismatch
      end
  | f :: filter' =>
      let tread := match topic with [] => tafter | c :: _ => Some c end in
      if f =? ch_hash then
        if negb (tp =? 0) then LAssert else
        if negb (fp =? 0) then LAssert else
        match tread with
        | None => LOob
        | Some c => if c =? ch_dollar then LMismatch else LMatch
        end
      else if f =? ch_plus then
        if negb (tp =? 0) then LAssert else
        if negb (fp =? 0) then LAssert else
        match tread with
        | None => LOob
        | Some c =>
            if c =? ch_dollar then LMismatch
            else let '(found, topic') := skip_to_slash topic in
                 linear_loop tafter fafter filter' topic' ((if found then -1 else tp) + 1) (fp + 1)
        end
      else
        match topic with
        | [] => LMismatch
        | c :: topic' =>
            if negb (f =? c) then LMismatch
            else if f =? ch_slash then linear_loop tafter fafter filter' topic' 0 0
            else linear_loop tafter fafter filter' topic' (tp + 1) (fp + 1)
        end
  end.

(** mqtt_topic.c:174-243 [rrr_mqtt_topic_match_topic_and_linear_with_end]. *)
Definition linear_match (topic : list Z) (tafter : option Z) (filter : list Z) (fafter : option Z) : lmatch :=
  match topic, filter with
  | [], _ => LAssert
  | _, [] => LAssert
  | _, _ => linear_loop tafter fafter filter topic 0 0
  end.

(** mqtt_topic.c:289-329 [rrr_mqtt_topic_match_tokens_recursively_acl]. *)
Fixpoint match_tokens_acl (master slave : list (list Z)) {struct master} : tmatch :=
  match master, slave with
  | m :: master', s :: slave' =>
      if first_char m =? ch_hash then TMatch
      else if first_char s =? ch_hash then TMismatch
      else
      let continue :=
        match master', slave' with
        | [], [] => TMatch
        | _, _ => match_tokens_acl master' slave'
        end in
      if (first_char m =? ch_plus) || (first_char s =? ch_plus) then
        if first_char m =? ch_dollar then TMismatch else continue
      else if negb (str_same m s) then TMismatch
      else continue
  | _, _ => TMismatch
  end.

(** mqtt_acl.h:27-30 and 32-35. *)
Definition acl_deny : Z := 0.
Definition acl_ro : Z := 1.
Definition acl_rw : Z := 2.
Definition acl_result_allow : Z := 0.
Definition acl_result_deny : Z := 2.

(** mqtt_acl.h:39-52: user names with their actions, in file order. *)
Record acl_entry : Type := mk_acl {
  acl_tokens : list (list Z);
  acl_default : Z;
  acl_users : list (list Z * Z)
}.

(** mqtt_acl.c:509-533 [rrr_mqtt_acl_entry_collection_push_allow_all]. *)
Definition acl_allow_all : acl_entry := mk_acl (tokenize [ch_hash]) acl_rw [].

(** mqtt_acl.c:535-572 [__rrr_mqtt_acl_check_access_single]; [None] is the
    RRR_BUG for an unknown access level. *)
Definition acl_check_single (action requested : Z) : option Z :=
  let allow_write := action =? acl_rw in
  let allow_read := (action =? acl_rw) || (action =? acl_ro) in
  if requested =? acl_ro then Some (if allow_read then acl_result_allow else acl_result_deny)
  else if requested =? acl_rw then Some (if allow_write then acl_result_allow else acl_result_deny)
  else None.

(** mqtt_acl.c:596-605, the loop over the users of a matching entry.  [username]
    is [None] for the NULL pointer. *)
Fixpoint acl_users_loop (users : list (list Z * Z)) (name : list Z) (requested : Z) (ret : option Z) : option Z :=
  match users with
  | [] => ret
  | (u, a) :: r =>
      match ret with
      | None => None
      | Some _ => acl_users_loop r name requested (if str_same u name then acl_check_single a requested else ret)
      end
  end.

(** mqtt_acl.c:574-610 [rrr_mqtt_acl_check_access]; [None] is an abort. *)
Fixpoint acl_check_loop (mf : list (list Z) -> list (list Z) -> tmatch) (acl : list acl_entry)
    (tokens : list (list Z)) (requested : Z) (username : option (list Z)) (ret : Z) : option Z :=
  match acl with
  | [] => Some ret
  | e :: r =>
      match mf (acl_tokens e) tokens with
      | TBug => None
      | TMismatch => acl_check_loop mf r tokens requested username ret
      | TMatch =>
          let d := acl_check_single (acl_default e) requested in
          let d' := match username with
                    | Some (c :: n) => acl_users_loop (acl_users e) (c :: n) requested d
                    | _ => d
                    end in
          match d' with
          | None => None
          | Some ret' => acl_check_loop mf r tokens requested username ret'
          end
      end
  end.
Definition acl_check_access mf acl tokens requested username : option Z :=
  acl_check_loop mf acl tokens requested username acl_result_deny.

(** mqtt_broker.c:1054-1080 [__rrr_mqtt_broker_acl_handler_subscribe], for one
    subscription filter: is it granted? *)
Definition broker_acl_subscribe acl filter username : option Z :=
  acl_check_access match_tokens_acl acl (tokenize filter) acl_ro username.

(** mqtt_broker.c:1082-1100 [__rrr_mqtt_broker_acl_handler_publish] (without the
    translation of a denial to a disconnect for old protocol versions). *)
Definition broker_acl_publish acl topic username : option Z :=
  acl_check_access match_tokens acl (tokenize topic) acl_rw username.
