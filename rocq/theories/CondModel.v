(** Model of the conditions of array definitions, src/lib/condition.c: parsing an expression
    into reverse polish notation and evaluating it.

    Positions in the text are those of ParseModel.v.  Simplified: memory allocation succeeds and
    messages printed are left out.  Undefined behaviour of the C operators (signed overflow,
    shifts by too much or of negative numbers to the left) is [Ub]. *)
From Coq Require Import Strings.String.
From Coq Require Import ZArith List Bool.
From Verif Require Import Common Dec ParseModel.
Import ListNotations.
Open Scope Z_scope.

(** condition.h:33-35 *)
Definition COND_OK : Z := 0. Definition COND_HARD : Z := 1. Definition COND_SOFT : Z := 2.
(** condition.h:31 *)
Definition VALUE_MAX : Z := 64.

(** condition.c:60-86, the operators in the order of the table; the pointers of 88-109 are the
    constructors *)
Inductive op : Type :=
| ParOpen | ParClose | Lteq | Gteq | BwLeft | BwRight | Lt | Gt | Eq | Ne | AndSym | OrSym | AndWord | OrWord
| BwAnd | BwXor | BwOr | Add | Sub | Mul | Div | BwNot.
Definition operators : list op :=
  [ParOpen; ParClose; Lteq; Gteq; BwLeft; BwRight; Lt; Gt; Eq; Ne; AndSym; OrSym; AndWord; OrWord;
   BwAnd; BwXor; BwOr; Add; Sub; Mul; Div; BwNot].
Definition op_word (o : op) : list Z :=
  match o with
  | ParOpen => str_bytes "(" | ParClose => str_bytes ")" | Lteq => str_bytes "<=" | Gteq => str_bytes ">="
  | BwLeft => str_bytes "<<" | BwRight => str_bytes ">>" | Lt => str_bytes "<" | Gt => str_bytes ">"
  | Eq => str_bytes "==" | Ne => str_bytes "!=" | AndSym => str_bytes "&&" | OrSym => str_bytes "||"
  | AndWord => str_bytes "AND" | OrWord => str_bytes "OR" | BwAnd => str_bytes "&" | BwXor => str_bytes "^"
  | BwOr => str_bytes "|" | Add => str_bytes "+" | Sub => str_bytes "-" | Mul => str_bytes "*"
  | Div => str_bytes "/" | BwNot => str_bytes "~"
  end.
(** condition.c:38-51 *)
Definition PRIO_SINGULAR : Z := 1. Definition PRIO_AND : Z := 10. Definition PRIO_OR : Z := 11.
Definition prio (o : op) : Z :=
  match o with
  | ParOpen | ParClose => 0
  | BwNot => 1
  | Mul | Div => 2
  | Add | Sub => 3
  | BwLeft | BwRight => 4
  | Lteq | Gteq | Lt | Gt => 5
  | Eq | Ne => 6
  | BwAnd => 7 | BwXor => 8 | BwOr => 9
  | AndSym | AndWord => 10
  | OrSym | OrWord => 11
  end.
Definition op_eqb (a b : op) : bool :=
  match a, b with
  | ParOpen, ParOpen | ParClose, ParClose | Lteq, Lteq | Gteq, Gteq | BwLeft, BwLeft | BwRight, BwRight | Lt, Lt | Gt, Gt
  | Eq, Eq | Ne, Ne | AndSym, AndSym | OrSym, OrSym | AndWord, AndWord | OrWord, OrWord | BwAnd, BwAnd | BwXor, BwXor
  | BwOr, BwOr | Add, Add | Sub, Sub | Mul, Mul | Div, Div | BwNot, BwNot => true
  | _, _ => false
  end.

(** condition.h:43-47 [struct rrr_condition_shunting_yard_carrier]: an operator or a value *)
Inductive carrier : Type := COp (o : op) | CVal (v : list Z).

(** condition.c:222-233 [__rrr_condition_parse_op] *)
Fixpoint parse_op_loop (os : list op) (t : text) (p : pos) : res (option op * pos) :=
  match os with
  | [] => Ok (None, p)
  | o :: r => bind (match_word t (op_word o) p) (fun '(b, p) => if b : bool then Ok (Some o, p) else parse_op_loop r t p)
  end.
Definition parse_op (t : text) (p : pos) : res (option op * pos) := parse_op_loop operators t p.

(** condition.c:235-264 [__rrr_condition_shunting_yard_finalize], its check of the counts *)
Fixpoint counts_loop (out : list carrier) (ops values : Z) : Z * Z :=
  match out with
  | [] => (ops, values)
  | COp o :: r => counts_loop r (if negb (prio o =? PRIO_SINGULAR) then ops + 1 else ops) values
  | CVal _ :: r => counts_loop r ops (values + 1)
  end.
Definition finalize (out : list carrier) (stack : list op) : res Z :=
  match stack with
  | _ :: _ => Bug
  | [] => match out with
          | [] => Ok 0
          | _ => let '(ops, values) := counts_loop out 0 0 in if negb (values - ops =? 1) then Ok 1 else Ok 0
          end
  end.

(** condition.c:291-298, popping up to the opening parenthesis *)
Fixpoint pop_par (out : list carrier) (stack : list op) : list carrier * list op :=
  match stack with
  | [] => (out, [])
  | o :: r => if op_eqb o ParOpen then (out, r) else pop_par (out ++ [COp o]) r
  end.
(** condition.c:305-314, popping operators of smaller priority number *)
Fixpoint pop_prio (new : op) (out : list carrier) (stack : list op) : list carrier * list op :=
  match stack with
  | [] => (out, [])
  | o :: r => if (prio o <? prio new) && negb (op_eqb o ParOpen) then pop_prio new (out ++ [COp o]) r else (out, stack)
  end.
(** condition.c:266-323 [__rrr_condition_shunting_yard_shunt_op]: return value, level, output, stack *)
Definition shunt_op (par : Z) (out : list carrier) (stack : list op) (o : op) : Z * Z * list carrier * list op :=
  if op_eqb o ParOpen then (COND_OK, par + 1, out, o :: stack)
  else if op_eqb o ParClose then
    let par := par - 1 in
    if par <? 0 then (COND_SOFT, par, out, stack)
    else let '(out, stack) := pop_par out stack in (COND_OK, par, out, stack)
  else match stack with
       | [] => (COND_OK, par, out, [o])
       | _ => let '(out, stack) := pop_prio o out stack in (COND_OK, par, out, o :: stack)
       end.

(** condition.c:325-342 [__rrr_condition_shunting_yard_shunt_value] with 129-163: return value and output *)
Definition shunt_value (t : text) (out : list carrier) (start end_ : Z) : res (Z * list carrier) :=
  bind (name_length start end_) (fun n =>
  if VALUE_MAX - 1 <? n then Ok (COND_SOFT, out)
  else bind (copy t start (Z.to_nat n)) (fun v => Ok (COND_OK, out ++ [CVal v]))).

(** condition.c:424-463, finding a value: start and end, [None] where the loop is left *)
Definition F_LETTERS_NUMBERS : Z := 2^2 + 2^4.
Definition F_HEX_ : Z := 2^3.
Definition F_NUMBERS_ : Z := 2^4.
Definition parse_value (t : text) (p : pos) : res (option (Z * Z) * pos) :=
  bind (match_word t (str_bytes "{") p) (fun '(b, p) =>
  if b : bool then
    bind (match_letters t p F_LETTERS_NUMBERS) (fun '(start, end_, p) =>
    if end_ - start <? 0 then Ok (None, p)
    else bind (match_word t (str_bytes "}") p) (fun '(b, p) =>
    if b : bool then Ok (Some (start - 1, end_ + 1), p) else Ok (None, p)))
  else bind (match_word_case t (str_bytes "0x") p) (fun '(b, p) =>
  if b : bool then
    bind (match_letters t p F_HEX_) (fun '(start, end_, p) =>
    if end_ - start <? 0 then Ok (None, p) else Ok (Some (start - 2, end_), p))
  else bind (match_word_case t (str_bytes "-") p) (fun '(b, p) =>
  if b : bool then
    bind (match_letters t p F_NUMBERS_) (fun '(start, end_, p) =>
    if end_ - start <? 0 then Ok (None, p) else Ok (Some (start - 1, end_), p))
  else
    bind (match_letters t p F_NUMBERS_) (fun '(start, end_, p) =>
    if end_ - start <? 0 then Ok (None, p) else Ok (Some (start, end_), p))))).

(** condition.c:377-473, the loop of [rrr_condition_interpret]: return value (not zero for the
    jumps to out_clear), level, output, stack, position *)
Fixpoint interpret_loop (fuel : nat) (t : text) (p : pos) (par : Z) (prev : bool) (out : list carrier) (stack : list op) : res (Z * Z * list carrier * list op * pos) :=
  match fuel with
  | O => Ub
  | S f =>
      if eof t p then Ok (COND_OK, par, out, stack, p)
      else bind (ignore_spaces t p) (fun p =>
      if eof t p then Ok (COND_OK, par, out, stack, p)
      else bind (parse_op t p) (fun '(o, p) =>
      if (par =? 0) && negb (match o with Some ParOpen => true | _ => false end) then Ok (COND_SOFT, par, out, stack, p)
      else
        let minus := (match o with Some Sub => true | _ => false end) && (prev || match out with [] => true | _ => false end) in
        let '(o, p) := if minus then (None, set_pos p (p_pos p - 1)) else (o, p) in
        match o with
        | Some o =>
            let '(ret, par, out, stack) := shunt_op par out stack o in
            if negb (ret =? COND_OK) then Ok (ret, par, out, stack, p)
            else if par =? 0 then Ok (COND_OK, par, out, stack, p)
            else interpret_loop f t p par true out stack
        | None =>
            bind (ignore_spaces t p) (fun p =>
            if eof t p then Ok (COND_OK, par, out, stack, p)
            else bind (parse_value t p) (fun '(v, p) =>
            match v with
            | None => Ok (COND_OK, par, out, stack, p)
            | Some (start, end_) =>
                bind (shunt_value t out start end_) (fun '(ret, out) =>
                if negb (ret =? COND_OK) then Ok (ret, par, out, stack, p) else interpret_loop f t p par false out stack)
            end))
        end))
  end.
(** condition.c:367-511 [rrr_condition_interpret] into an empty condition: return value, content, position *)
Definition interpret (t : text) (p : pos) : res (Z * list carrier * pos) :=
  bind (interpret_loop (S (List.length (t_data t))) t p 0 false [] []) (fun '(ret, par, out, stack, p) =>
  if negb (ret =? COND_OK) then Ok (ret, [], p)
  else if negb (par =? 0) then Ok (COND_SOFT, [], p)
  else let out := match out with [] => [CVal (str_bytes "0")] | _ => out end in
       bind (finalize out stack) (fun ret => if negb (ret =? COND_OK) then Ok (ret, [], p) else Ok (COND_OK, out, p))).

(** ** Evaluation *)

(** The result of an operator: a number, a failure (fpe set), or undefined *)
Inductive ores : Type := OVal (x : Z) | OFpe | OUb | OBug.
Definition of_bool (b : bool) : Z := if b then 1 else 0.
Definition truth (x : Z) : bool := negb (x =? 0).

(** condition.c:568-623, 625-641 [__rrr_condition_evaluate_operator] *)
Definition evaluate_unsigned (a b : Z) (o : op) : ores :=
  match o with
  | Lteq => OVal (of_bool (a <=? b)) | Gteq => OVal (of_bool (b <=? a)) | Lt => OVal (of_bool (a <? b)) | Gt => OVal (of_bool (b <? a))
  | Eq => OVal (of_bool (a =? b)) | Ne => OVal (of_bool (negb (a =? b)))
  | AndSym | AndWord => OVal (of_bool (truth a && truth b)) | OrSym | OrWord => OVal (of_bool (truth a || truth b))
  | BwAnd => OVal (Z.land a b) | BwXor => OVal (Z.lxor a b) | BwOr => OVal (Z.lor a b)
  | BwLeft => if b <? 64 then OVal (u64 (Z.shiftl a b)) else OUb
  | BwRight => if b <? 64 then OVal (Z.shiftr a b) else OUb
  | BwNot => OVal (2^64 - 1 - b)
  | Add => OVal (u64 (a + b)) | Sub => OVal (u64 (a - b)) | Mul => OVal (u64 (a * b))
  | Div => if b =? 0 then OFpe else OVal (a / b)
  | ParOpen | ParClose => OBug
  end.
(** condition.c:568-623, 643-659 [__rrr_condition_evaluate_operator_signed] *)
Definition INT64_MIN : Z := - 2^63. Definition INT64_MAX : Z := 2^63 - 1.
Definition i64_or_ub (x : Z) : ores := if (INT64_MIN <=? x) && (x <=? INT64_MAX) then OVal x else OUb.
Definition evaluate_signed (a b : Z) (o : op) : ores :=
  match o with
  | Lteq => OVal (of_bool (a <=? b)) | Gteq => OVal (of_bool (b <=? a)) | Lt => OVal (of_bool (a <? b)) | Gt => OVal (of_bool (b <? a))
  | Eq => OVal (of_bool (a =? b)) | Ne => OVal (of_bool (negb (a =? b)))
  | AndSym | AndWord => OVal (of_bool (truth a && truth b)) | OrSym | OrWord => OVal (of_bool (truth a || truth b))
  | BwAnd => OVal (Z.land a b) | BwXor => OVal (Z.lxor a b) | BwOr => OVal (Z.lor a b)
  | BwLeft => if (0 <=? b) && (b <? 64) && (0 <=? a) then i64_or_ub (Z.shiftl a b) else OUb
  | BwRight => if (0 <=? b) && (b <? 64) then OVal (Z.shiftr a b) else OUb
  | BwNot => OVal (Z.lnot b)
  | Add => i64_or_ub (a + b) | Sub => i64_or_ub (a - b) | Mul => i64_or_ub (a * b)
  | Div => if (b =? 0) || ((a =? INT64_MIN) && (b =? -1)) then OFpe else OVal (Z.quot a b)
  | ParOpen | ParClose => OBug
  end.

(** condition.c:560-566 [struct rrr_condition_running_result]: the 64 bits and is_signed, while
    is_evaluated; the results are kept last first, [None] if not evaluated *)
Definition result : Type := Z * bool.
Definition as_signed (x : Z) : Z := if 2^63 <=? x then x - 2^64 else x.
(** condition.c:661-684 [__rrr_condition_evaluate_ensure_signed]: [None] if fpe is set *)
Definition ensure_signed (r : result) : option Z :=
  let '(x, s) := r in if negb s && (INT64_MAX <? x) then None else Some (if s then as_signed x else x).

(** condition.c:699-711, looking for an evaluated result; it and those before it are given, the
    ones passed over on the way are the first part *)
Fixpoint find_evaluated (rs : list (option result)) : option (nat * result * list (option result)) :=
  match rs with
  | [] => None
  | Some r :: rest => Some (O, r, rest)
  | None :: rest => match find_evaluated rest with Some (n, r, k) => Some (S n, r, k) | None => None end
  end.
(** Outcome of a step: return value with the result, or abort, or undefined *)
Inductive eres (A : Type) : Type := EOk (a : A) | EErr (ret : Z) | EUb | EBug.
Arguments EOk {A}. Arguments EErr {A}. Arguments EUb {A}. Arguments EBug {A}.
Definition of_ores (r : ores) (s : bool) : eres result :=
  match r with OVal x => EOk (x, s) | OFpe => EErr COND_SOFT | OUb => EUb | OBug => EBug end.

(** condition.c:717-774, the arithmetic for the results found; [None] for result_a is NULL *)
Definition apply_op (o : op) (a : option result) (b : result) : eres result :=
  let '(bx, bs) := b in
  if bs || match a with Some (_, s) => s | None => false end then
    match a with
    | Some r => match ensure_signed r with
                | None => EErr COND_SOFT
                | Some sa => match ensure_signed b with
                             | None => EErr COND_SOFT
                             | Some sb => match evaluate_signed sa sb o with OVal x => EOk (u64 x, true) | r => of_ores r true end
                             end
                end
    | None => match ensure_signed b with
              | None => EErr COND_SOFT
              | Some sb => match evaluate_signed 0 sb o with OVal x => EOk (u64 x, true) | r => of_ores r true end
              end
    end
  else of_ores (evaluate_unsigned (match a with Some (x, _) => x | None => 0 end) bx o) false.

(** condition.c:686-792 [__rrr_condition_evaluate_op]: the results with the new one first *)
Definition evaluate_op (o : op) (rs : list (option result)) : eres (list (option result) * result) :=
  match find_evaluated rs with
  | None => EBug
  | Some (n, b, rest) =>
      let nones := repeat None (S n) in
      if prio o =? PRIO_SINGULAR then
        match apply_op o None b with
        | EOk r => EOk (Some r :: nones ++ rest, r)
        | EErr c => EErr c | EUb => EUb | EBug => EBug
        end
      else match find_evaluated rest with
           | None => match apply_op o None b with
                     | EOk r => EOk (Some r :: nones ++ rest, r)
                     | EErr c => EErr c | EUb => EUb | EBug => EBug
                     end
           | Some (m, a, rest') =>
               match apply_op o (Some a) b with
               | EOk r => EOk (Some r :: nones ++ repeat None (S m) ++ rest', r)
               | EErr c => EErr c | EUb => EUb | EBug => EBug
               end
           end
  end.

(** strtoull in base 16 for hexadecimal digits, and strtoll for a minus sign and digits: the
    values the parser lets through *)
Definition hex_digit (c : Z) : Z := if c <=? 57 then c - 48 else if c <=? 70 then c - 55 else c - 87.
Definition hex_val (s : list Z) : Z := fold_left (fun a c => a * 16 + hex_digit c) s 0.

Section Names.
(** The callback: return value, number and is_signed for a name *)
Variable name_cb : list Z -> Z * Z * bool.

(** condition.c:794-866 [__rrr_condition_evaluate_value] with 523-530 *)
Definition evaluate_value (v : list Z) : eres result :=
  match v with
  | 123 :: r => let '(ret, x, s) := name_cb (removelast r) in if negb (ret =? 0) then EErr ret else EOk (u64 x, s)
  | 48 :: 120 :: r | 48 :: 88 :: r => if forallb is_hex r then EOk (Z.min (hex_val r) (2^64 - 1), false) else EErr COND_SOFT
  | 45 :: r => if forallb is_dec_digit r then EOk (u64 (Z.max (- dec_val r) INT64_MIN), true) else EErr COND_SOFT
  | _ => match strtoull v with Some x => EOk (x, false) | None => EErr COND_SOFT end
  end.

(** condition.c:868-914 [rrr_condition_evaluate]: the result is that of the last operator *)
Fixpoint evaluate_loop (cs : list carrier) (rs : list (option result)) (last : Z) : eres Z :=
  match cs with
  | [] => EOk last
  | COp o :: r =>
      match evaluate_op o rs with
      | EOk (rs, (x, _)) => evaluate_loop r rs x
      | EErr c => EErr c | EUb => EUb | EBug => EBug
      end
  | CVal v :: r =>
      match evaluate_value v with
      | EOk x => evaluate_loop r (Some x :: rs) last
      | EErr c => EErr c | EUb => EUb | EBug => EBug
      end
  end.
Definition evaluate (cs : list carrier) : eres Z := evaluate_loop cs [] 0.
End Names.
