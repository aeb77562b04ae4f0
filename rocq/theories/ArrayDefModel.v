(** Model of reading array definitions, src/lib/array_tree.c:227-1021.

    The text and positions in it are those of ParseModel.v, conditions are read as in CondModel.v.
    Simplified: memory allocation succeeds; the messages printed, with the position in them, are
    left out, so a failure is only its return value. *)
From Coq Require Import Strings.String.
From Coq Require Import ZArith List Bool.
From Verif Require Import Common TypeModel ParseModel CondModel ArrayTreeModel.
Import ListNotations.
Open Scope Z_scope.
Notation len := Datatypes.length.

(** What a function gives: its result or an error code; [Ub] and [Bug] as in ParseModel.v *)
Definition out (A : Type) : Type := ParseModel.res (A + Z).
Definition good {A : Type} (a : A) : out A := Ok (inl a).
Definition fail {A : Type} (ret : Z) : out A := Ok (inr ret).
Definition dbind {A B : Type} (r : out A) (f : A -> out B) : out B :=
  ParseModel.bind r (fun x => match x with inl a => f a | inr ret => Ok (inr ret) end).

(** ** One value *)

(** type.c:1375-1392 [type_templates], the identifiers (type.h:79-93) in this order *)
Definition identifiers : list (list Z * Z) :=
  [ (str_bytes "be", TYPE_BE); (str_bytes "hdlc", TYPE_HDLC); (str_bytes "h", TYPE_H); (str_bytes "le", TYPE_LE);
    (str_bytes "blob", TYPE_BLOB); (str_bytes "ustr", TYPE_USTR); (str_bytes "istr", TYPE_ISTR); (str_bytes "sep", TYPE_SEP);
    (str_bytes "msg", TYPE_MSG); (str_bytes "fixp", TYPE_FIXP); (str_bytes "str", TYPE_STR); (str_bytes "nsep", TYPE_NSEP);
    (str_bytes "stx", TYPE_STX); (str_bytes "err", TYPE_ERR); (str_bytes "vain", TYPE_VAIN) ].
(** type.c:1394-1418 [rrr_type_parse_from_string]: the type and what follows the identifier; the
    string has no zero octet *)
Definition type_parse (s : list Z) : option (Z * list Z) :=
  match find (fun it => begins (fst it) s) identifiers with
  | Some (name, ty) => Some (ty, skipn (len name) s)
  | None => None
  end.

(** parse.h:68-69 [RRR_PARSE_MATCH_C_TAG] *)
Definition is_tag (c : Z) : bool := is_letter c || is_number c.
(** The octets for which [f], and those from the first one for which it does not hold *)
Fixpoint span (f : Z -> bool) (s : list Z) : list Z * list Z :=
  match s with
  | c :: r => if f c then let '(a, b) := span f r in (c :: a, b) else ([], s)
  | [] => ([], [])
  end.

(** array_tree.c:313-364 [__rrr_array_tree_interpret_identifier_and_size_tag], behind the brace:
    the name and what follows, or an error code *)
Definition size_tag (s : list Z) : (list Z * list Z) + Z :=
  let '(name, rest) := span is_tag s in
  match name, rest with
  | _ :: _, 125 :: r => inl (name, r)
  | _, _ => inr TREE_SOFT
  end.

(** array_tree.c:366-378 [__rrr_array_tree_interpret_unsigned_integer_10] with the strtoull of the C
    library (C11 7.22.1.4) for base 10: white space and a sign may come first, a number with minus
    is negated in 64 bits, one which is too large gives the largest.  The number and what follows;
    [None] if there are no digits. *)
Definition is_white (c : Z) : bool := (c =? 32) || ((9 <=? c) && (c <=? 13)).
Definition unsigned_integer_10 (s : list Z) : option (Z * list Z) :=
  let s := snd (span is_white s) in
  let '(neg, s) := match s with 45 :: r => (true, r) | 43 :: r => (false, r) | _ => (false, s) end in
  let '(digits, rest) := span is_number s in
  match digits with
  | [] => None
  | _ => let x := fold_left (fun a c => a * 10 + (c - 48)) digits 0 in
         Some (if 2^64 <=? x then 2^64 - 1 else if neg then u64 (- x) else x, rest)
  end.

(** type.h:128 [RRR_TYPE_ALLOWS_SIGN] *)
Definition allows_sign (ty : Z) : bool := (ty =? TYPE_LE) || (ty =? TYPE_BE) || (ty =? TYPE_H).

(** array_tree.c:380-566 [__rrr_array_tree_interpret_identifier_and_size]: length, reference for the
    length, flags and rest (420-480), then count and its reference (492-536) *)
Definition size_part (ty : Z) (s : list Z) : (Z * option (list Z) * Z * list Z) + Z :=
  if 0 <? type_max_length ty then
    match s with
    | [] => inr TREE_SOFT
    | c :: r =>
        let sized := if c =? 123 then match size_tag r with inl (name, r) => inl (0, Some name, r) | inr e => inr e end
                     else match unsigned_integer_10 s with
                          | None => inr TREE_SOFT
                          | Some (n, r) => if LENGTH_MAX <? n then inr TREE_SOFT else if n =? 0 then inr TREE_SOFT else inl (n, None, r)
                          end in
        match sized with
        | inr e => inr e
        | inl (n, ref, r) =>
            match r with
            | [] => inl (n, ref, 0, [])
            | c :: r' =>
                if (c =? 115) || (c =? 83) || (c =? 117) || (c =? 85) then
                  if allows_sign ty then inl (n, ref, if (c =? 115) || (c =? 83) then 1 else 0, r') else inr TREE_SOFT
                else inl (n, ref, 0, r)
            end
        end
    end
  else
    match s with
    | [] => inl (0, None, 0, s)
    | c :: _ => if (c =? 35) || (c =? 64) then inl (0, None, 0, s) else inr TREE_SOFT
    end.
Definition count_part (ty : Z) (s : list Z) : (Z * option (list Z) * list Z) + Z :=
  match s with
  | 64 :: r =>
      match r with
      | [] => inr TREE_SOFT
      | c :: r' =>
          let counted := if c =? 123 then match size_tag r' with inl (name, r) => inl (1, Some name, r) | inr e => inr e end
                         else match unsigned_integer_10 r with None => inr TREE_SOFT | Some (n, r) => inl (n, None, r) end in
          match counted with
          | inr e => inr e
          | inl (n, ref, r) =>
              if n =? 0 then inr TREE_SOFT
              else if LENGTH_MAX <? n then inr TREE_SOFT
              else if ((1 <? n) || match ref with Some _ => true | None => false end) && (type_max_length ty =? 0) then inr TREE_SOFT
              else inl (n, ref, r)
          end
      end
  | _ => inl (1, None, s)
  end.

(** array_tree.c:576-605, the tag, to the end of the string *)
Definition tag_part (s : list Z) : list Z + Z :=
  match s with
  | [] => inl []
  | 35 :: r => if forallb is_tag r then match r with [] => inr TREE_SOFT | _ => inl r end else inr TREE_SOFT
  | _ => inr TREE_SOFT
  end.

(** array_tree.c:568-666 [__rrr_array_tree_interpret_single_definition] *)
Definition single_definition (s : list Z) : vdef + Z :=
  match type_parse s with
  | None => inr TREE_SOFT
  | Some (ty, s) =>
      match size_part ty s with
      | inr e => inr e
      | inl (n, nref, flags, s) =>
          match count_part ty s with
          | inr e => inr e
          | inl (count, cref, s) =>
              match tag_part s with
              | inr e => inr e
              | inl tag =>
                  if type_max_length ty <? n then inr TREE_SOFT
                  else inl (mk_vdef (mk_value ty flags tag n count []) nref cref)
              end
          end
      end
  end.

(** ** Several values *)

(** array_tree.c:668-678 [CHECK_KEYWORDS]; the position is set back *)
Definition keyword (t : text) (p : pos) : ParseModel.res bool :=
  ParseModel.bind (match_word t (str_bytes "IF") p) (fun '(b, _) => if b : bool then Ok true else
  ParseModel.bind (match_word t (str_bytes "ELSIF") p) (fun '(b, _) => if b : bool then Ok true else
  ParseModel.bind (match_word t (str_bytes "ELSE") p) (fun '(b, _) => if b : bool then Ok true else
  ParseModel.bind (match_word t (str_bytes "REWIND") p) (fun '(b, _) => Ok b)))).

(** array_tree.c:680-724 [__rrr_array_tree_interpret_node_check_end]: if the end of the text, a
    semicolon, a comma and a keyword were found, and the position *)
Record ends : Type := mk_ends { e_eof : bool; e_semicolon : bool; e_comma : bool; e_special : bool }.
Definition check_end (t : text) (p : pos) : ParseModel.res (ends * pos) :=
  ParseModel.bind (ignore_spaces t p) (fun p =>
  let out e p := ParseModel.bind (ignore_spaces t p) (fun p => Ok (e, p)) in
  if eof t p then out (mk_ends true false false false) p
  else ParseModel.bind (keyword t p) (fun b =>
  if b : bool then out (mk_ends false false false true) p
  else ParseModel.bind (rd t (p_pos p)) (fun c =>
  if c =? 44 then
    ParseModel.bind (ignore_spaces t (set_pos p (p_pos p + 1))) (fun p =>
    if eof t p then out (mk_ends true false true false) p
    else ParseModel.bind (keyword t p) (fun b => out (mk_ends false false true b) p))
  else if c =? 59 then out (mk_ends false true false false) (set_pos p (p_pos p + 1))
  else out (mk_ends false false false false) p))).

(** array_tree.c:760-766, commas, space, tab, newlines, NUL and the end *)
Definition F_DEFINITION : Z := 2^1 + 2^0 + 2^5 + 2^6 + 2^7.

(** array_tree.c:726-834 [__rrr_array_tree_interpret_node]: the values, if a semicolon was found,
    and the position.  [semi] is the value of *semicolon_found. *)
Fixpoint node_loop (fuel : nat) (t : text) (p : pos) (semi : bool) : out (list vdef * bool * pos) :=
  match fuel with
  | O => Ub
  | S f =>
      if eof t p then good ([], semi, p)
      else ParseModel.bind (check_end t p) (fun '(e, p) =>
      if e_eof e || e_semicolon e || e_special e || e_comma e then good ([], e_semicolon e, p)
      else ParseModel.bind (match_until t p F_DEFINITION) (fun '(start, end_, p) =>
      if end_ <? start then good ([], false, p)
      else if end_ =? start then fail TREE_SOFT
      else if 64 <? end_ - start then fail TREE_SOFT
      else ParseModel.bind (name_length start end_) (fun n =>
      ParseModel.bind (copy t start (Z.to_nat n)) (fun tmp =>
      let tmp := str_trim tmp in
      if zlen tmp - 1 <? 2 then fail TREE_SOFT
      else match single_definition tmp with
           | inr e => fail e
           | inl d =>
               ParseModel.bind (check_end t p) (fun '(e, p) =>
               if e_eof e || e_semicolon e || e_special e then good ([d], e_semicolon e, p)
               else if negb (e_comma e) then fail TREE_SOFT
               else dbind (node_loop f t p (e_semicolon e)) (fun '(ds, semi, p) => good (d :: ds, semi, p)))
           end))))
  end.
Definition interpret_node (t : text) (p : pos) : out (list vdef * bool * pos) := node_loop (S (len (t_data t))) t p false.

(** ** The tree *)

(** array_tree.c:836-898 [__rrr_array_tree_interpret_rewind]: the count and the position *)
Definition interpret_rewind (t : text) (p : pos) : out (Z * pos) :=
  ParseModel.bind (ignore_spaces t p) (fun p =>
  if eof t p then fail TREE_SOFT
  else ParseModel.bind (match_letters t p F_NUMBERS_) (fun '(start, end_, p) =>
  if end_ <? start then fail TREE_SOFT
  else ParseModel.bind (name_length start end_) (fun n =>
  if 12 <? n then fail TREE_SOFT
  else ParseModel.bind (copy t start (Z.to_nat n)) (fun tmp =>
  let count := fold_left (fun a c => a * 10 + (c - 48)) tmp 0 in
  if LENGTH_MAX <? count then fail TREE_SOFT else good (count, p))))).

(** A node without values is not kept (array_tree.c:946-951) *)
Definition add_values (ds : list vdef) (rest : tree) : tree := match ds with [] => rest | _ => TValues ds rest end.

(** array_tree.c:900-985 [rrr_array_tree_interpret], one call for each round of its loop, with
    259-308 [__rrr_array_tree_interpret_conditional_node] and 227-257
    [__rrr_array_tree_interpret_if_or_elsif] *)
Fixpoint tree_loop (fuel : nat) (t : text) (p : pos) : out (tree * pos) :=
  match fuel with
  | O => Ub
  | S f =>
      let p0 := p in
      if eof t p then fail TREE_SOFT
      else ParseModel.bind (ignore_spaces t p) (fun p =>
      if eof t p then fail TREE_SOFT
      else ParseModel.bind (rd t (p_pos p)) (fun c =>
      if c =? 59 then good (TEnd, set_pos p (p_pos p + 1))
      else
        (* the node for IF or REWIND, as a function of what comes after it *)
        dbind (ParseModel.bind (match_word t (str_bytes "IF") p) (fun '(b, p) =>
               if b : bool then
                 ParseModel.bind (CondModel.interpret t p) (fun '(ret, c, p) =>
                 if negb (ret =? 0) then fail ret
                 else dbind (tree_loop f t p) (fun '(u, p) =>
                 dbind (branches_loop f t p) (fun '(more, p) => good (TIf c u more, p))))
               else ParseModel.bind (match_word t (str_bytes "REWIND") p) (fun '(b, p) =>
               if b : bool then dbind (interpret_rewind t p) (fun '(k, p) => good (TRewind k, p))
               else good (fun rest => rest, p)))) (fun '(node, p) =>
        dbind (interpret_node t p) (fun '(ds, semi, p) =>
        if semi : bool then good (node (add_values ds TEnd), p)
        else if p_pos p =? p_pos p0 then fail TREE_SOFT
        else dbind (tree_loop f t p) (fun '(rest, p) => good (node (add_values ds rest), p))))))
  end
with branches_loop (fuel : nat) (t : text) (p : pos) : out (branches * pos) :=
  match fuel with
  | O => Ub
  | S f =>
      ParseModel.bind (ignore_spaces t p) (fun p =>
      ParseModel.bind (if eof t p then Ok (false, p) else match_word t (str_bytes "ELSIF") p) (fun '(b, p) =>
      if b : bool then
        ParseModel.bind (CondModel.interpret t p) (fun '(ret, c, p) =>
        if negb (ret =? 0) then fail ret
        else dbind (tree_loop f t p) (fun '(u, p) =>
        dbind (branches_loop f t p) (fun '(more, p) => good (BElsif c u more, p))))
      else ParseModel.bind (match_word t (str_bytes "ELSE") p) (fun '(b, p) =>
        if b : bool then dbind (tree_loop f t p) (fun '(u, p) => good (BElse u, p))
        else good (BEnd, p))))
  end.
Definition interpret_tree (t : text) (p : pos) : out (tree * pos) := tree_loop (S (len (t_data t))) t p.

(** array_tree.c:987-1023 [rrr_array_tree_interpret_raw] *)
Definition interpret_raw (t : text) : out tree :=
  dbind (interpret_tree t pos_init) (fun '(u, p) =>
  ParseModel.bind (ignore_space_and_tab t p) (fun p =>
  ParseModel.bind (match_word t (str_bytes ";") p) (fun '(_, p) =>
  ParseModel.bind (ignore_space_and_tab t p) (fun p =>
  if eof t p then good u else fail TREE_HARD)))).
