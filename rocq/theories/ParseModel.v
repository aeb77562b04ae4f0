(** Model of the text parsing helpers, src/lib/parse.c and parse.h.

    A text is the buffer given to rrr_parse_pos_init.  [t_nul] says if the octet after the
    text belongs to the buffer and is zero, which is so when the text comes from
    rrr_socket_open_and_read_file (socket/rrr_socket.c:599-614) or is a string, but
    not when it comes from rrr_readfile_read (util/readfile.c:90).  Reading any other
    octet outside the text is [Ub].

    Simplified: memory allocation succeeds; positions are integers, as they never exceed
    the size of the text, which is a 32 bit number. *)
From Coq Require Import ZArith List Bool.
From Verif Require Import Common.
Import ListNotations.
Open Scope Z_scope.

Inductive res (A : Type) : Type := Ok (a : A) | Ub | Bug.
Arguments Ok {A}. Arguments Ub {A}. Arguments Bug {A}.
Definition bind {A B : Type} (r : res A) (f : A -> res B) : res B :=
  match r with Ok a => f a | Ub => Ub | Bug => Bug end.

Record text : Type := mk_text { t_data : list Z; t_nul : bool }.
Definition t_size (t : text) : Z := zlen (t_data t).

(** parse.h:77-83 [struct rrr_parse_pos], without the text *)
Record pos : Type := mk_pos { p_pos : Z; p_line : Z; p_begin : Z }.
Definition set_pos (p : pos) (x : Z) : pos := mk_pos x (p_line p) (p_begin p).

(** parse.c:32-42 [rrr_parse_pos_init] *)
Definition pos_init : pos := mk_pos 0 1 0.

(** parse.h:45-46 [RRR_PARSE_CHECK_EOF] *)
Definition eof (t : text) (p : pos) : bool := t_size t <=? p_pos p.

(** Reading the octet at [i]. *)
Definition rd (t : text) (i : Z) : res Z :=
  if (0 <=? i) && (i <? t_size t) then Ok (nth (Z.to_nat i) (t_data t) 0)
  else if (i =? t_size t) && t_nul t then Ok 0 else Ub.

(** parse.h:48-75, characters.  [signed] is the value of an octet in a char. *)
Definition signed (c : Z) : Z := if c <? 128 then c else c - 256.
Definition is_space_tab (c : Z) : bool := (c =? 32) || (c =? 9).
Definition is_newline (c : Z) : bool := (c =? 13) || (c =? 10).
Definition is_comma (c : Z) : bool := (c =? 44) || (c =? 59).
Definition is_dash (c : Z) : bool := c =? 45.
Definition is_letter (c : Z) : bool := ((97 <=? c) && (c <=? 122)) || ((65 <=? c) && (c <=? 90)) || (c =? 95).
Definition is_hex (c : Z) : bool := ((97 <=? c) && (c <=? 102)) || ((65 <=? c) && (c <=? 70)) || ((48 <=? c) && (c <=? 57)).
Definition is_number (c : Z) : bool := (48 <=? c) && (c <=? 57).
Definition is_null (c : Z) : bool := c =? 0.
Definition is_control (c : Z) : bool := c <=? 31.
(** parse.c:50-54 [__rrr_parse_is_spaces] *)
Definition is_spaces (c : Z) : bool := is_space_tab c || is_newline c.

(** parse.c:62-102 [__rrr_parse_ignore_and_increment_line], the loop; [c] is the octet at the
    position *)
Fixpoint ignore_loop (fuel : nat) (t : text) (cond : Z -> bool) (c : Z) (p : pos) : res pos :=
  match fuel with
  | O => Ok p
  | S f =>
      if cond c && (p_pos p <? t_size t) then
        bind (if p_pos p + 1 <? t_size t then rd t (p_pos p + 1) else Ok 0) (fun next =>
        let p :=
          if (c =? 13) && (next =? 10) then mk_pos (p_pos p + 1) (p_line p + 1) (p_pos p + 2)
          else if c =? 10 then mk_pos (p_pos p) (p_line p + 1) (p_pos p + 1)
          else if c =? 13 then mk_pos (p_pos p) (p_line p + 1) (p_pos p + 1)
          else p in
        let p := set_pos p (p_pos p + 1) in
        if eof t p then Ok p else bind (rd t (p_pos p)) (fun c => ignore_loop f t cond c p))
      else Ok p
  end.
Definition ignore (t : text) (cond : Z -> bool) (p : pos) : res pos :=
  if t_size t <=? p_pos p then Ok p
  else bind (rd t (p_pos p)) (fun c => ignore_loop (S (length (t_data t))) t cond c p).

(** parse.c:104-108, 116-120, 110-114 *)
Definition ignore_space_and_tab (t : text) (p : pos) : res pos := ignore t is_space_tab p.
Definition ignore_spaces (t : text) (p : pos) : res pos := ignore t is_spaces p.
Definition ignore_control (t : text) (p : pos) : res pos := ignore t is_control p.

(** parse.c:122-137 [rrr_parse_comment] *)
Fixpoint comment_loop (fuel : nat) (t : text) (c : Z) (p : pos) : res pos :=
  match fuel with
  | O => Ok p
  | S f =>
      if negb (c =? 13) && negb (c =? 10) && (p_pos p <? t_size t) then
        let p := set_pos p (p_pos p + 1) in bind (rd t (p_pos p)) (fun c => comment_loop f t c p)
      else Ok p
  end.
Definition comment (t : text) (p : pos) : res pos :=
  if t_size t <=? p_pos p then Ok p
  else bind (rd t (p_pos p)) (fun c => bind (comment_loop (S (length (t_data t))) t c p) (ignore_spaces t)).

(** parse.c:139-176, 178-207 [rrr_parse_match_word_case], [rrr_parse_match_word]; the word has no
    zero octet *)
Definition other_case (c : Z) : Z :=
  if (97 <=? c) && (c <=? 122) then c - 32 else if (65 <=? c) && (c <=? 90) then c + 32 else 0.
Fixpoint word_loop (eq : Z -> Z -> bool) (t : text) (word : list Z) (p : pos) : res (list Z * pos) :=
  match word with
  | [] => Ok ([], p)
  | w :: r =>
      if p_pos p <? t_size t then
        bind (rd t (p_pos p)) (fun c => if eq w c then word_loop eq t r (set_pos p (p_pos p + 1)) else Ok (word, p))
      else Ok (word, p)
  end.
Definition match_word_with (eq : Z -> Z -> bool) (t : text) (word : list Z) (p : pos) : res (bool * pos) :=
  bind (word_loop eq t word p) (fun '(w, p') => match w with [] => Ok (true, p') | _ => Ok (false, set_pos p' (p_pos p)) end).
Definition match_word_case (t : text) (word : list Z) (p : pos) : res (bool * pos) :=
  match_word_with (fun w c => (w =? c) || (w =? other_case c)) t word p.
Definition match_word (t : text) (word : list Z) (p : pos) : res (bool * pos) := match_word_with Z.eqb t word p.

(** Advancing while a condition holds: the loops of parse.c:209-224 and 239-257 *)
Fixpoint while_loop (fuel : nat) (t : text) (cond : Z -> bool) (p : pos) : res pos :=
  match fuel with
  | O => Ok p
  | S f =>
      if eof t p then Ok p
      else bind (rd t (p_pos p)) (fun c => if cond c then while_loop f t cond (set_pos p (p_pos p + 1)) else Ok p)
  end.
(** parse.c:209-224 [rrr_parse_match_letters_simple] *)
Definition match_letters_simple (t : text) (p : pos) : res (bool * pos) :=
  bind (while_loop (S (length (t_data t))) t is_letter p) (fun p' => Ok (negb (p_pos p' =? p_pos p), p')).

(** parse.h:31-43, the flags, by bit *)
Definition F_SPACE_TAB : Z := 0. Definition F_COMMAS : Z := 1. Definition F_LETTERS : Z := 2.
Definition F_HEX : Z := 3. Definition F_NUMBERS : Z := 4. Definition F_NEWLINES : Z := 5.
Definition F_NULL : Z := 6. Definition F_END : Z := 7. Definition F_DASH : Z := 8. Definition F_CONTROL : Z := 9.
Definition MATCH_NAME : Z := 2^2 + 2^4 + 2^8.
Definition MATCH_TAG : Z := 2^2 + 2^4.

(** parse.c:226-237 [__rrr_parse_match_char]; its argument is a char *)
Definition match_char (flags c : Z) : bool :=
  (Z.testbit flags F_SPACE_TAB && is_space_tab c) || (Z.testbit flags F_COMMAS && is_comma c) ||
  (Z.testbit flags F_LETTERS && is_letter c) || (Z.testbit flags F_HEX && is_hex c) ||
  (Z.testbit flags F_NUMBERS && is_number c) || (Z.testbit flags F_NEWLINES && is_newline c) ||
  (Z.testbit flags F_NULL && is_null c) || (Z.testbit flags F_DASH && is_dash c) ||
  (Z.testbit flags F_CONTROL && is_control (signed c)).

(** parse.c:239-257 [rrr_parse_match_letters_peek] *)
Definition match_letters_peek (t : text) (p : pos) (flags : Z) : res Z :=
  bind (while_loop (S (length (t_data t))) t (match_char flags) p) (fun p' => Ok (p_pos p' - p_pos p)).
(** parse.c:259-271 [rrr_parse_match_letters]: start, end and position *)
Definition match_letters (t : text) (p : pos) (flags : Z) : res (Z * Z * pos) :=
  bind (match_letters_peek t p flags) (fun n => Ok (p_pos p, p_pos p + n - 1, set_pos p (p_pos p + n))).

(** The loop of parse.c:273-308 [rrr_parse_match_until], 310-332 [rrr_parse_non_newline] and
    334-356 [rrr_parse_non_control]: stops at an octet for which [stop]; the result says
    if it stopped at one. *)
Fixpoint until_loop (fuel : nat) (t : text) (stop : Z -> bool) (c : Z) (p : pos) : res (bool * pos) :=
  match fuel with
  | O => Ok (false, p)
  | S f =>
      if eof t p then Ok (false, p)
      else if stop c then Ok (true, p)
      else let p := set_pos p (p_pos p + 1) in
           if eof t p then Ok (false, p) else bind (rd t (p_pos p)) (fun c => until_loop f t stop c p)
  end.
Definition match_until (t : text) (p : pos) (flags : Z) : res (Z * Z * pos) :=
  bind (rd t (p_pos p)) (fun c =>
  bind (until_loop (S (length (t_data t))) t (match_char flags) c p) (fun '(stopped, p') =>
  (* at the end of the text the flag decides, unless the loop was not entered *)
  let found := stopped || (Z.testbit flags F_END && (p_pos p <? t_size t)) in
  let p' := if found then p' else p in
  Ok (p_pos p, p_pos p' - 1, p'))).
Definition non_newline (t : text) (p : pos) : res (Z * Z * pos) :=
  bind (rd t (p_pos p)) (fun c =>
  bind (until_loop (S (length (t_data t))) t is_newline c p) (fun '(_, p') => Ok (p_pos p, p_pos p' - 1, p'))).
Definition non_control (t : text) (p : pos) : res (Z * Z * pos) :=
  bind (rd t (p_pos p)) (fun c =>
  bind (until_loop (S (length (t_data t))) t (fun c => is_control (signed c)) c p) (fun '(_, p') => Ok (p_pos p, p_pos p' - 1, p'))).

(** memcpy of [n] octets from [i] *)
Fixpoint copy (t : text) (i : Z) (n : nat) : res (list Z) :=
  match n with O => Ok [] | S m => bind (rd t i) (fun c => bind (copy t (i + 1) m) (fun r => Ok (c :: r))) end.

(** parse.c:358-384 [rrr_parse_str_extract] *)
Definition str_extract (t : text) (begin len : Z) : res (list Z) :=
  if len =? 0 then Bug else copy t begin (Z.to_nat len).

(** parse.c:386-448 [rrr_parse_str_split]: the elements given to the callback, [None] if there
    are more than [max]; the string has no zero octet *)
Fixpoint split_loop (s : list Z) (chr : Z) (max : Z) (element : list Z) (done : list (list Z)) : option (list (list Z)) :=
  if zlen done =? max then None
  else match s with
       | [] => Some (done ++ [element])
       | c :: r => if c =? chr then split_loop r chr max [] (done ++ [element]) else split_loop r chr max (element ++ [c]) done
       end.
Definition str_split (s : list Z) (chr max : Z) : option (list (list Z)) :=
  match s with [] => Some [] | _ => split_loop s chr max [] [] end.

(** parse.c:450-481 [rrr_parse_str_extract_until]: [None] when the character is missing; the
    string has no zero octet *)
Fixpoint str_extract_until (s : list Z) (end_char : Z) : option (list Z) :=
  match s with
  | [] => if end_char =? 0 then Some [] else None
  | c :: r => if c =? end_char then Some [] else match str_extract_until r end_char with Some m => Some (c :: m) | None => None end
  end.

(** rrr_types.h:323-332 [rrr_length_from_slength_sub_bug_const], and one more *)
Definition name_length (start end_ : Z) : res Z := if end_ <? start then Bug else Ok (end_ - start + 1).

(** parse.c:483-538 [rrr_parse_str_extract_name]: return value, name and position *)
Definition extract_name (t : text) (p : pos) (end_char : Z) : res (Z * option (list Z) * pos) :=
  bind (ignore_spaces t p) (fun p =>
  if eof t p then Ok (0, None, p)
  else bind (match_letters t p MATCH_NAME) (fun '(start, end_, p) =>
    if end_ <? start then Ok (0, None, p)
    else bind (ignore_spaces t p) (fun p =>
      if eof t p then Ok (1, None, p)
      else bind (rd t (p_pos p)) (fun c =>
        if negb (c =? end_char) then Ok (1, None, p)
        else let p := set_pos p (p_pos p + 1) in
          bind (name_length start end_) (fun n =>
          bind (copy t start (Z.to_nat n)) (fun name => Ok (0, Some name, p))))))).

(** parse.c:540-615 [__rrr_parse_str_extract_name_with_subscript] and
    [rrr_parse_str_extract_name_with_subscript]: return value, names given to the callback and
    position.  [cb level name] is the callback's return value. *)
Fixpoint subscript_loop (fuel : nat) (cb : Z -> list Z -> Z) (t : text) (level : Z) (p : pos) (sub end_char : Z)
    : res (Z * list (list Z) * pos) :=
  match fuel with
  | O => Ok (0, [], p)
  | S f =>
      let level := level + 1 in
      bind (ignore_spaces t p) (fun p =>
      if eof t p then Ok (0, [], p)
      else bind (match_letters t p MATCH_NAME) (fun '(start, end_, p) =>
        bind (ignore_spaces t p) (fun p =>
        bind (rd t (p_pos p)) (fun cur =>
        if eof t p || (negb (cur =? end_char) && negb (cur =? sub)) then Ok (1, [], p)
        else let p := set_pos p (p_pos p + 1) in
          bind (name_length start end_) (fun n =>
          bind (copy t start (Z.to_nat n)) (fun name =>
          if negb (cb level name =? 0) then Ok (cb level name, [name], p)
          else if cur =? sub then
            bind (subscript_loop f cb t level p sub end_char) (fun '(ret, names, p) =>
            if negb (ret =? 0) then Ok (ret, name :: names, p)
            else bind (ignore_spaces t p) (fun p =>
              if eof t p then Ok (1, name :: names, p)
              else bind (rd t (p_pos p)) (fun c =>
                if negb (c =? end_char) then Ok (1, name :: names, p)
                else Ok (0, name :: names, set_pos p (p_pos p + 1)))))
          else Ok (0, [name], p)))))))
  end.
Definition extract_name_with_subscript (cb : Z -> list Z -> Z) (t : text) (p : pos) (sub end_char : Z)
    : res (Z * list (list Z) * pos) :=
  subscript_loop (S (length (t_data t))) cb t (-1) p sub end_char.

(** parse.c:634-652 [rrr_parse_str_strip_newlines], on the array [s] without its zero octet:
    round [i], having skipped [skip] *)
Fixpoint skip_newlines (fuel : nat) (s : list Z) (i skip : nat) : nat :=
  match fuel with
  | O => skip
  | S f => if Nat.ltb (skip + i) (length s) && is_newline (nth (i + skip) s 0) then skip_newlines f s i (S skip) else skip
  end.
Fixpoint strip_loop (fuel : nat) (s : list Z) (i skip : nat) : list Z :=
  match fuel with
  | O => s
  | S f =>
      if Nat.ltb i (length s) then
        let skip := skip_newlines (length s) s i skip in
        if Nat.leb (length s) (skip + i) then firstn i s
        else strip_loop f (firstn i s ++ nth (i + skip) s 0 :: skipn (S i) s) (S i) skip
      else s
  end.
Definition strip_newlines (s : list Z) : list Z := strip_loop (S (length s)) s 0 0.

(** parse.c:654-666 [rrr_parse_str_trim]: removes from the end *)
Fixpoint trim_loop (r : list Z) : list Z :=
  match r with
  | c :: r' => if is_spaces c then trim_loop r' else r
  | [] => []
  end.
Definition str_trim (s : list Z) : list Z := rev (trim_loop (rev s)).

(** parse.c:668-753 [rrr_parse_make_location_message]: line and column numbers, the text shown, if
    it says that it was cut, and the indentation of the marker *)
Record location : Type := mk_location { l_line : Z; l_col : Z; l_text : list Z; l_cut : bool; l_indent : Z }.
Definition location_message (t : text) (p : pos) : res location :=
  let col := u32 (p_pos p - p_begin p) in
  bind (non_newline t (set_pos p (p_begin p))) (fun '(start, end_, _) =>
  bind (if start <=? end_ then bind (str_extract t start (end_ - start + 1)) (fun s => Ok (firstn (Z.to_nat 128) s))
        else Ok [32]) (fun s =>
  let len := zlen s in
  let col := if len - 1 <? col then len - 1 else col in
  Ok (mk_location (p_line p) (col + 1) (map (fun c => if c =? 9 then 32 else c) s) (len =? 128) col))).
