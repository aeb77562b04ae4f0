(** Model of route and method definitions, src/lib/discern_stack.c, of the answers given for
    messages, discern_stack_helper.c, and of the choice of receivers, instances.c and
    message_holder.c.

    Positions in the text are those of ParseModel.v.  Simplified: memory allocation succeeds and
    messages printed are left out; the storage of the elements of a list is the list of the
    elements; sizes are integers, as they never exceed a small multiple of the size of the text,
    which is a 32 bit number; the fields data_pos of elements without data, which are not
    initialized and not used to read, are 0.  Failing assertions are [Bug]. *)
From Coq Require Import Strings.String.
From Coq Require Import ZArith List Bool.
From Verif Require Import Common MsgModel TypeModel ArrayModel TopicModel ParseModel.
Import ListNotations.
Open Scope Z_scope.
Notation res := ParseModel.res. Notation Ok := ParseModel.Ok. Notation Ub := ParseModel.Ub. Notation Bug := ParseModel.Bug.

(** read_constants.h:77, discern_stack.h:30-31 *)
Definition BAIL : Z := 8.
(** discern_stack.h:44-54 [enum rrr_discern_stack_fault] *)
Inductive fault : Type :=
| FOk | FCritical | FEndMissing | FSyntax | FInvalidValue | FValueMissing | FInvalidType | FStackCount | FOverflow.
(** discern_stack.c:32 *)
Definition STACK_MAX : Z := 64.

(** discern_stack.c:34-40, 43-51 *)
Inductive etype : Type := ENone | ETopic | ETag | EBool | EDest.
Inductive eop : Type := OPush | OAnd | OOr | OApply | ONot | OPop | OBail.
Definition is_bool (t : etype) : bool := match t with EBool => true | _ => false end.
Definition is_dest (t : etype) : bool := match t with EDest => true | _ => false end.
(** discern_stack.c:53 [OP_ARG_COUNT] *)
Definition op_args (o : eop) : Z := match o with OPush => 0 | OAnd | OOr | OApply => 2 | ONot | OPop | OBail => 1 end.

(** discern_stack.c:70-81 [struct rrr_discern_stack_value], [struct rrr_discern_stack_element] *)
Record val : Type := mk_val { v_size : Z; v_pos : Z; v_value : Z }.
Record elem : Type := mk_elem { e_type : etype; e_op : eop; e_val : val }.
(** discern_stack.c:94-99 [struct rrr_discern_stack], without its name: the values, which are
    first in exe_storage, and the elements *)
Record dstack : Type := mk_dstack { d_values : list Z; d_list : list elem }.

(** The string at a position of a storage; [None] if there is no NUL in the storage behind it. *)
Fixpoint string_in (l : list Z) : option (list Z) :=
  match l with
  | [] => None
  | c :: r => if c =? 0 then Some [] else match string_in r with Some s => Some (c :: s) | None => None end
  end.
Definition string_at (st : list Z) (i : Z) : option (list Z) := if i <? 0 then None else string_in (skipn (Z.to_nat i) st).

(** discern_stack.h:56-58 [RRR_DISCERN_STACK_FIRST_LAST_INDEX]; char is signed *)
Definition char_length (c : Z) : Z := u32 (ParseModel.signed c).
Definition first_last (s : list Z) : Z := Z.lor (u32 (Z.shiftl (char_length (hd 0 s)) 16)) (char_length (last s 0)).

(** discern_stack.c:102-137 [__rrr_discern_stack_storage_push] of data from elsewhere *)
Definition storage_push (st data : list Z) : list Z * Z := (st ++ data, zlen st).

(** discern_stack.c:262-320 [__rrr_discern_stack_list_push]: data from elsewhere, data which is at
    a position of the storage already (105-110), or a number; the element and the storage *)
Inductive payload : Type := PData (d : list Z) | PStored (i size : Z) | PNumber (x : Z).
Definition make_value (st : list Z) (d : payload) : res (val * list Z) :=
  match d with
  | PNumber x => Ok (mk_val 0 0 x, st)
  | PData d =>
      let '(st, i) := storage_push st d in
      match string_at st i with
      | Some (c :: r) => Ok (mk_val (zlen d) i (first_last (c :: r)), st)
      | _ => Ub
      end
  | PStored i size =>
      match string_at st i with
      | Some (c :: r) => Ok (mk_val size i (first_last (c :: r)), st)
      | _ => Ub
      end
  end.

(** ** Execution while parsing; the top of the stack is first *)

(** discern_stack.c:322-337 [__rrr_discern_stack_list_push_bool] *)
Definition bool_elem (x : Z) : elem := mk_elem EBool OPush (mk_val 0 0 x).
Definition b2z (b : bool) : Z := if b then 1 else 0.
Definition truth (x : Z) : bool := negb (x =? 0).
(** discern_stack.c:447-461 *)
Definition op_and (a b : Z) : Z := b2z (truth a && truth b).
Definition op_or (a b : Z) : Z := b2z (truth a || truth b).
Definition op_not (a : Z) : Z := b2z (negb (truth a)).
Definition op_bail (a : Z) : Z := a.

(** discern_stack.c:468-519 [__rrr_discern_stack_execute_op_bool] *)
Definition execute_op_one (eval : Z -> Z) (stack : list elem) : res (Z * fault * list elem) :=
  match stack with
  | [] => Bug
  | a :: r => if negb (is_bool (e_type a)) then Ok (1, FInvalidType, stack) else Ok (0, FOk, bool_elem (eval (v_value (e_val a))) :: r)
  end.
Definition execute_op_two (eval : Z -> Z -> Z) (stack : list elem) : res (Z * fault * list elem) :=
  match stack with
  | [] => Bug
  | a :: r =>
      if negb (is_bool (e_type a)) then Ok (1, FInvalidType, stack)
      else match r with
           | [] => Bug
           | b :: r => if negb (is_bool (e_type b)) then Ok (1, FInvalidType, stack)
                       else Ok (0, FOk, bool_elem (eval (v_value (e_val a)) (v_value (e_val b))) :: r)
           end
  end.
(** discern_stack.c:521-558 [__rrr_discern_stack_execute_op_apply] *)
Definition execute_op_apply (stack : list elem) : res (Z * fault * list elem) :=
  match stack with
  | a :: b :: r =>
      if negb (is_bool (e_type b)) then Ok (1, FInvalidType, stack)
      else if negb (is_dest (e_type a)) then Ok (1, FInvalidType, stack)
      else if v_size (e_val a) <=? 0 then Bug
      else Ok (0, FOk, b :: r)
  | _ => Ub
  end.
(** discern_stack.c:560-617 [__rrr_discern_stack_execute_op_push] *)
Definition execute_op_push (stack : list elem) (node : elem) (st : list Z) : res (Z * fault * list elem) :=
  match e_type node with
  | ETopic | ETag => Ok (0, FOk, bool_elem 1 :: stack)
  | EDest | EBool =>
      let v := e_val node in
      bind (make_value st (if 0 <? v_size v then PStored (v_pos v) (v_size v) else PNumber (v_value v))) (fun '(v, _) =>
      Ok (0, FOk, mk_elem (e_type node) (e_op node) v :: stack))
  | ENone => Bug
  end.
(** discern_stack.c:787-897 [__rrr_discern_stack_parse_execute_step] *)
Definition parse_execute_step (stack : list elem) (node : elem) (st : list Z) : res (Z * fault * list elem) :=
  if zlen stack <? op_args (e_op node) then Ok (1, FStackCount, stack)
  else
    bind (match e_op node with
          | OPush => execute_op_push stack node st
          | OAnd => execute_op_two op_and stack
          | OOr => execute_op_two op_or stack
          | OApply => execute_op_apply stack
          | ONot => execute_op_one op_not stack
          | OPop => match stack with [] => Bug | _ :: r => Ok (0, FOk, r) end
          | OBail =>
              bind (execute_op_one op_bail stack) (fun '(ret, f, stack) =>
              if negb (ret =? 0) then Ok (ret, f, stack)
              else match stack with
                   | [] => Bug
                   | a :: r => if truth (v_value (e_val a)) then Ok (BAIL, FOk, r) else Ok (0, FOk, r)
                   end)
          end) (fun '(ret, f, stack) =>
    if negb (ret =? 0) then Ok (ret, f, stack)
    else if STACK_MAX <? zlen stack then Bug
    else if zlen stack =? STACK_MAX then Ok (1, FOverflow, stack)
    else Ok (0, FOk, stack)).

(** ** Parsing *)

(** discern_stack.c:949-1005, the words in the order of the tests *)
Inductive keyword : Type := KComment | KTrue | KFalse | KT | KH | KD | KI | KAnd | KOr | KNot | KApply | KPop | KBail.
Definition keywords : list keyword := [KComment; KTrue; KFalse; KT; KH; KD; KI; KAnd; KOr; KNot; KApply; KPop; KBail].
Definition word (k : keyword) : list Z :=
  match k with
  | KComment => str_bytes "#" | KTrue => str_bytes "TRUE" | KFalse => str_bytes "FALSE" | KT => str_bytes "T" | KH => str_bytes "H"
  | KD => str_bytes "D" | KI => str_bytes "I" | KAnd => str_bytes "AND" | KOr => str_bytes "OR" | KNot => str_bytes "NOT"
  | KApply => str_bytes "APPLY" | KPop => str_bytes "POP" | KBail => str_bytes "BAIL"
  end.
Fixpoint parse_keyword (ks : list keyword) (t : text) (p : pos) : res (option keyword * pos) :=
  match ks with
  | [] => Ok (None, p)
  | k :: r => bind (match_word t (word k) p) (fun '(b, p) => if b : bool then Ok (Some k, p) else parse_keyword r t p)
  end.
(** What a word stands for: an element without a value, or a type for which a value follows. *)
Inductive meaning : Type := MSkip | MBool (x : Z) | MValue (e : etype) | MOp (o : eop).
Definition keyword_meaning (k : keyword) : meaning :=
  match k with
  | KComment => MSkip | KTrue => MBool 1 | KFalse => MBool 0
  | KT => MValue ETopic | KH => MValue ETag | KD => MValue EDest | KI => MValue EDest
  | KAnd => MOp OAnd | KOr => MOp OOr | KNot => MOp ONot | KApply => MOp OApply | KPop => MOp OPop | KBail => MOp OBail
  end.
Definition SEPARATORS : Z := 2^0 + 2^9.

(** discern_stack.c:1017-1080: the value after a keyword; the fault, or the string with its NUL *)
Definition parse_value (t : text) (p : pos) (e : etype) : res (sum fault (list Z) * pos) :=
  bind (ignore_spaces t p) (fun p =>
  bind (match e with
        | ETopic => non_control t p
        | ETag => match_letters t p MATCH_TAG
        | EDest => match_letters t p MATCH_NAME
        | _ => Bug
        end) (fun '(start, end_, p) =>
  if end_ <? start then Ok (inl FValueMissing, p)
  else if eof t p then Ok (inl FEndMissing, p)
  else
    bind (match e with ETag | EDest => match_letters_peek t p SEPARATORS | _ => Ok 1 end) (fun n =>
    if n =? 0 then Ok (inl FInvalidValue, p)
    else
      bind (str_extract t start (end_ - start + 1)) (fun s =>
      match e with
      | ETopic => match filter_validate (c_string s) with
                  | Some 0 => Ok (inr (c_string s ++ [0]), p)
                  | _ => Ok (inl FInvalidValue, p)
                  end
      | _ => Ok (inr (c_string s ++ [0]), p)
      end)))).

(** discern_stack.c:1082-1114: a new element is appended and executed; [more] goes on unless the
    stack is empty *)
Record pstate : Type := mk_pstate { s_list : list elem; s_stack : list elem; s_values : list Z }.
Inductive next : Type := Again (s : pstate) | Done (s : pstate) | Failed (ret : Z) (f : fault).
Definition push (s : pstate) (e : etype) (o : eop) (d : payload) : res next :=
  bind (make_value (s_values s) d) (fun '(v, st) =>
  let node := mk_elem e o v in
  bind (parse_execute_step (s_stack s) node st) (fun '(ret, f, stack) =>
  if negb (ret =? 0) && negb (ret =? BAIL) then Ok (Failed ret f)
  else let s := mk_pstate (s_list s ++ [node]) stack st in
       match stack with [] => Ok (Done s) | _ => Ok (Again s) end)).

(** discern_stack.c:934-1114, the loop of [__rrr_discern_stack_parse] *)
Fixpoint parse_loop (fuel : nat) (t : text) (p : pos) (s : pstate) : res (Z * fault * pstate * pos) :=
  match fuel with
  | O => Ub
  | S f =>
      let go (r : res next) (p : pos) :=
        bind r (fun n => match n with
                         | Again s => parse_loop f t p s
                         | Done s => Ok (0, FOk, s, p)
                         | Failed ret x => Ok (ret, x, s, p)
                         end) in
      if eof t p then Ok (0, FOk, s, p)
      else bind (ignore_spaces t p) (fun p =>
      if eof t p then Ok (0, FOk, s, p)
      else bind (parse_keyword keywords t p) (fun '(k, p) =>
      match option_map keyword_meaning k with
      | None => Ok (1, FSyntax, s, p)
      | Some MSkip => bind (comment t p) (fun p => parse_loop f t p s)
      | Some (MOp o) => go (push s ENone o (PNumber 0)) p
      | Some (MBool x) =>
          bind (match_letters_peek t p SEPARATORS) (fun n =>
          if n =? 0 then Ok (1, FSyntax, s, p) else go (push s EBool OPush (PNumber x)) p)
      | Some (MValue e) =>
          bind (match_letters_peek t p SEPARATORS) (fun n =>
          if n =? 0 then Ok (1, FSyntax, s, p)
          else bind (parse_value t p e) (fun '(v, p) =>
               match v with
               | inl x => Ok (1, x, s, p)
               | inr d => go (push s e OPush (PData d)) p
               end))
      end))
  end.
(** discern_stack.c:903-1156 [__rrr_discern_stack_parse] and 1182-1207
    [rrr_discern_stack_interpret]: return value, fault, definition, position *)
Definition interpret (t : text) (p : pos) : res (Z * fault * option dstack * pos) :=
  bind (ignore_control t p) (fun p =>
  if eof t p then Ok (1, FEndMissing, None, p)
  else
    bind (parse_loop (S (List.length (t_data t))) t p (mk_pstate [] [] [])) (fun '(ret, f, s, p) =>
    if negb (ret =? 0) then Ok (ret, f, None, p)
    else match s_stack s with
         | _ :: _ => Ok (1, FStackCount, None, p)
         | [] => Ok (0, FOk, Some (mk_dstack (s_values s) (s_list s)), p)
         end)).

(** discern_stack.c:1158-1180 [rrr_discern_stack_collection_iterate_destination_names]: the names
    given to the callback; [None] if one is not a string *)
Fixpoint destinations (st : list Z) (l : list elem) : option (list (list Z)) :=
  match l with
  | [] => Some []
  | e :: r =>
      match destinations st r with
      | None => None
      | Some ds => if is_dest (e_type e) then match string_at st (v_pos (e_val e)) with Some d => Some (d :: ds) | None => None end
                   else Some ds
      end
  end.

(** ** Execution *)
Section Execute.
(** The callbacks, with a state: return value and result for a topic filter; return value, result
    and perhaps an index for an array tag; return value for the application of a name. *)
Variable S : Type.
Variable topic_cb : S -> list Z -> res (Z * Z * S).
Variable tag_cb : S -> list Z -> res (Z * Z * option (list Z) * S).
Variable apply_cb : bool -> S -> list Z -> res (Z * S).

(** stack_e with STACK_MAX values, and wpos *)
Definition stack : Type := list val * Z.
Definition get (e : list val) (i : Z) : res val :=
  if (0 <=? i) && (i <? STACK_MAX) then Ok (nth (Z.to_nat i) e (mk_val 0 0 0)) else Ub.
Fixpoint replace (e : list val) (i : nat) (v : val) : list val :=
  match e, i with [], _ => [] | _ :: r, O => v :: r | a :: r, Datatypes.S i => a :: replace r i v end.
Definition put (e : list val) (i : Z) (v : val) : res (list val) :=
  if (0 <=? i) && (i <? STACK_MAX) then Ok (replace e (Z.to_nat i) v) else Ub.
Definition put_value (e : list val) (i x : Z) : res (list val) :=
  bind (get e i) (fun v => put e i (mk_val (v_size v) (v_pos v) x)).

(** discern_stack.c:666-677: not found in the index *)
Definition index_excludes (index : list Z) (x : Z) : bool :=
  match index with [] => false | _ => negb (existsb (fun i => i =? x) index) end.
Definition string_of (st : list Z) (i : Z) : res (list Z) :=
  match string_at st i with Some s => Ok s | None => Ub end.

(** discern_stack.c:629-759 [__rrr_discern_stack_execute], the loop: return value, fault, state *)
Fixpoint execute_loop (st : list Z) (l : list elem) (e : list val) (wpos : Z) (index : list Z) (s : S) : res (Z * fault * S) :=
  match l with
  | [] => if wpos =? 0 then Ok (0, FOk, s) else Bug
  | node :: r =>
      if STACK_MAX <=? wpos then Bug
      else
        let v := e_val node in
        match e_op node with
        | OPush =>
            match e_type node with
            | ETopic =>
                bind (string_of st (v_pos v)) (fun f =>
                bind (topic_cb s f) (fun '(ret, x, s) =>
                bind (put_value e wpos x) (fun e =>
                if negb (ret =? 0) then Ok (ret, FOk, s) else execute_loop st r e (wpos + 1) index s)))
            | ETag =>
                if index_excludes index (v_value v)
                then bind (put_value e wpos 0) (fun e => execute_loop st r e (wpos + 1) index s)
                else
                  bind (string_of st (v_pos v)) (fun tag =>
                  bind (tag_cb s tag) (fun '(ret, x, new, s) =>
                  bind (put_value e wpos x) (fun e =>
                  let index := match new with Some i => i | None => index end in
                  if negb (ret =? 0) then Ok (ret, FOk, s) else execute_loop st r e (wpos + 1) index s)))
            | EBool => bind (put_value e wpos (v_value v)) (fun e => execute_loop st r e (wpos + 1) index s)
            | EDest => bind (put e wpos v) (fun e => execute_loop st r e (wpos + 1) index s)
            | ENone => Bug
            end
        | OAnd =>
            bind (get e (wpos - 1)) (fun a => bind (get e (wpos - 2)) (fun b =>
            bind (put_value e (wpos - 2) (op_and (v_value a) (v_value b))) (fun e => execute_loop st r e (wpos - 1) index s)))
        | OOr =>
            bind (get e (wpos - 1)) (fun a => bind (get e (wpos - 2)) (fun b =>
            bind (put_value e (wpos - 2) (op_or (v_value a) (v_value b))) (fun e => execute_loop st r e (wpos - 1) index s)))
        | OApply =>
            bind (get e (wpos - 1)) (fun a => bind (get e (wpos - 2)) (fun b =>
            bind (string_of st (v_pos a)) (fun d =>
            bind (apply_cb (Z.odd (v_value b)) s d) (fun '(ret, s) =>
            if negb (ret =? 0) then Ok (ret, FCritical, s) else execute_loop st r e (wpos - 1) index s))))
        | ONot =>
            bind (get e (wpos - 1)) (fun a =>
            bind (put_value e (wpos - 1) (op_not (v_value a))) (fun e => execute_loop st r e wpos index s))
        | OPop => execute_loop st r e (wpos - 1) index s
        | OBail =>
            bind (get e (wpos - 1)) (fun a =>
            if truth (v_value a) then Ok (BAIL, FOk, s) else execute_loop st r e (wpos - 1) index s)
        end
  end.
Definition execute (d : dstack) (s : S) : res (Z * fault * S) :=
  execute_loop (d_values d) (d_list d) (repeat (mk_val 0 0 0) (Z.to_nat STACK_MAX)) 0 [] s.
(** discern_stack.c:761-782 [rrr_discern_stack_collection_execute] *)
Fixpoint collection_execute (ds : list dstack) (s : S) : res (Z * fault * S) :=
  match ds with
  | [] => Ok (0, FOk, s)
  | d :: r => bind (execute d s) (fun '(ret, f, s) => if negb (ret =? 0) then Ok (ret, f, s) else collection_execute r s)
  end.
End Execute.

(** ** Answers for a message *)

(** discern_stack_helper.c:33-60 [rrr_discern_stack_helper_topic_filter_resolve_cb]; the octet
    behind the topic is the first one of the data *)
Definition helper_topic (m : rrr_msg_msg) (filter : list Z) : res (Z * Z) :=
  if mm_topic_length m =? 0 then Ok (0, 0)
  else match linear_match (MSG_TOPIC m) (nth_error (mm_data m) (Z.to_nat (mm_topic_length m))) filter (Some 0) with
       | LMismatch => Ok (0, 0)
       | LMatch => Ok (0, 1)
       | LAssert => Bug
       | LOob => Ub
       end.
(** discern_stack_helper.c:62-114 [rrr_discern_stack_helper_array_tag_resolve_cb]; [produced] is
    index_produced, [after] the memory behind the memory allocated while reading the array *)
Definition array_index (vs : list value) : list Z :=
  map (fun v => first_last (v_tag v)) (filter (fun v => 0 <? zlen (v_tag v)) vs).
Definition helper_tag (after : list Z) (m : rrr_msg_msg) (produced : bool) (tag : list Z) : res (Z * Z * option (list Z) * bool) :=
  if negb (MSG_IS_ARRAY m) then Ok (0, 0, None, produced)
  else match append_to_array after m [] with
       | ROk (vs, code) =>
           if negb (code =? 0) then Ok (code, 0, None, produced)
           else Ok (0, b2z (array_has_tag vs tag), if produced then None else Some (array_index vs), true)
       | RErr c => Ok (c, 0, None, produced)
       | RBug => Bug
       | RUb => Ub
       end.

(** ** Receivers *)

(** instance_friends.c:47-58, 60-88: instances are known by their names *)
Definition same (a b : list Z) : bool := if list_eq_dec Z.eq_dec a b then true else false.
Definition exists_in (l : list (list Z)) (d : list Z) : bool := existsb (fun x => same x d) l.
Fixpoint remove_first (l : list (list Z)) (d : list Z) : list (list Z) :=
  match l with [] => [] | x :: r => if same x d then r else x :: remove_first r d end.
Definition append_friend (l : list (list Z)) (d : list Z) : Z * list (list Z) :=
  if exists_in l d then (1, l) else (0, l ++ [d]).
(** instances.c:53-98, the callbacks for APPLY; [known] are the names of the instances *)
Definition route_apply (known : list (list Z)) (b : bool) (hops : list (list Z)) (d : list Z) : res (Z * list (list Z)) :=
  if negb (exists_in known d) then Bug
  else if b then let '(ret, hops) := append_friend (remove_first hops d) d in Ok (ret, hops)
       else Ok (0, remove_first hops d).

(** instances.c:99-163 [__rrr_instance_message_broker_entry_postprocess_callback]: return value and
    the nexthops of the message, which were [old] before *)
Definition route_state : Type := bool * list (list Z).
Definition postprocess (after : list Z) (known : list (list Z)) (routes : list dstack) (m : rrr_msg_msg) (old : list (list Z)) : res (Z * list (list Z)) :=
  match routes with
  | [] => Ok (0, old)
  | _ =>
      bind (collection_execute route_state
              (fun s f => bind (helper_topic m f) (fun '(ret, x) => Ok (ret, x, s)))
              (fun s tag => bind (helper_tag after m (fst s) tag) (fun '(ret, x, i, produced) => Ok (ret, x, i, (produced, snd s))))
              (fun b s d => bind (route_apply known b (snd s) d) (fun '(ret, hops) => Ok (ret, (fst s, hops))))
              routes (false, [])) (fun '(ret, _, s) =>
      if negb (ret =? 0) && negb (ret =? BAIL) then Ok (ret, old)
      else Ok (0, match snd s with [] => old | hops => hops end))
  end.
(** message_holder.c:367-373 [rrr_msg_holder_nexthop_ok] *)
Definition nexthop_ok (hops : list (list Z)) (instance : list Z) : bool :=
  match hops with [] => true | _ => exists_in hops instance end.

(** instances.c:645-672 [__rrr_instance_iterate_route_instances_callback] over all routes:
    [readers] are the names of the instances which read from the instance *)
Fixpoint check_destinations (readers : list (list Z)) (routes : list dstack) : option Z :=
  match routes with
  | [] => Some 0
  | d :: r =>
      match destinations (d_values d) (d_list d) with
      | None => None
      | Some ds => if forallb (exists_in readers) ds then check_destinations readers r else Some 1
      end
  end.
