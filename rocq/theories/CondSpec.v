(** What a condition is to mean, from its text.  Nothing here refers to the parser: expressions,
    how they are written, and the numbers they stand for. *)
From Coq Require Import Strings.String.
From Coq Require Import ZArith List Bool.
From Verif Require Import Common.
Import ListNotations.
Open Scope Z_scope.

(** ** Expressions *)
Inductive binop : Type :=
| BMul | BDiv | BAdd | BSub | BShl | BShr | BLe | BGe | BLt | BGt | BEq | BNe | BAnd | BXor | BOr | BLand | BLor.
Inductive literal : Type := Number (x : Z) (signed : bool) | Name (n : list Z).
Inductive expr : Type := Lit (v : literal) | Not (e : expr) | Bin (o : binop) (l r : expr).

(** ** Numbers *)
(** An unsigned number is below 2^64; a signed one from -2^63 to 2^63 - 1. *)
Definition fits (x : Z) (signed : bool) : Prop := if signed then - 2^63 <= x < 2^63 else 0 <= x < 2^64.
(** The outcome: a number, a failure with an error code, or nothing the C language defines. *)
Inductive outcome : Type := Value (x : Z) (signed : bool) | Failed (code : Z) | Undefined.
Definition soft : Z := 2.

Definition bit (b : bool) : Z := if b then 1 else 0.
(** An integer as a result: unsigned arithmetic wraps around, signed arithmetic must not. *)
Definition fit (signed : bool) (x : Z) : outcome :=
  if signed then (if (- 2^63 <=? x) && (x <? 2^63) then Value x true else Undefined) else Value (x mod 2^64) false.
Definition compute (o : binop) (signed : bool) (a b : Z) : outcome :=
  match o with
  | BMul => fit signed (a * b)
  | BDiv => if b =? 0 then Failed soft else if signed && (Z.quot a b =? 2^63) then Failed soft else fit signed (Z.quot a b)
  | BAdd => fit signed (a + b)
  | BSub => fit signed (a - b)
  | BShl => if (0 <=? b) && (b <? 64) && (0 <=? a) then fit signed (a * 2 ^ b) else Undefined
  | BShr => if (0 <=? b) && (b <? 64) then Value (a / 2 ^ b) signed else Undefined
  | BLe => Value (bit (a <=? b)) signed
  | BGe => Value (bit (b <=? a)) signed
  | BLt => Value (bit (a <? b)) signed
  | BGt => Value (bit (b <? a)) signed
  | BEq => Value (bit (a =? b)) signed
  | BNe => Value (bit (negb (a =? b))) signed
  | BAnd => Value (Z.land a b) signed
  | BXor => Value (Z.lxor a b) signed
  | BOr => Value (Z.lor a b) signed
  | BLand => Value (bit (negb (a =? 0) && negb (b =? 0))) signed
  | BLor => Value (bit (negb (a =? 0) || negb (b =? 0))) signed
  end.
(** If one operand is signed, both are taken as signed; an unsigned one of 2^63 or more cannot be. *)
Definition binary (o : binop) (a : Z) (sa : bool) (b : Z) (sb : bool) : outcome :=
  if (sa || sb) && ((negb sa && (2^63 <=? a)) || (negb sb && (2^63 <=? b))) then Failed soft else compute o (sa || sb) a b.
Definition complement (b : Z) (sb : bool) : outcome := Value (if sb then - b - 1 else 2^64 - 1 - b) sb.

(** The number an expression stands for, given those of the names.  Operands are evaluated from
    left to right and all of them are evaluated. *)
Fixpoint meaning (env : list Z -> outcome) (e : expr) : outcome :=
  match e with
  | Lit (Number x s) => Value x s
  | Lit (Name n) => env n
  | Not e => match meaning env e with Value x s => complement x s | other => other end
  | Bin o l r =>
      match meaning env l with
      | Value a sa => match meaning env r with Value b sb => binary o a sa b sb | other => other end
      | other => other
      end
  end.

(** ** How expressions are written *)
Definition blanks (l : list Z) : Prop := Forall (fun c => c = 32 \/ c = 9 \/ c = 13 \/ c = 10) l.
Definition digit (c : Z) : Prop := 48 <= c <= 57.
Definition hex_digit_ (c : Z) : Prop := digit c \/ 65 <= c <= 70 \/ 97 <= c <= 102.
Definition name_char (c : Z) : Prop := digit c \/ 65 <= c <= 90 \/ 97 <= c <= 122 \/ c = 95.
Definition digit_value (c : Z) : Z := if c <=? 57 then c - 48 else if c <=? 70 then c - 65 + 10 else c - 97 + 10.
(** The number written by digits, the last one counting least. *)
Fixpoint number (base : Z) (rev_digits : list Z) : Z :=
  match rev_digits with [] => 0 | d :: r => digit_value d + base * number base r end.

(** Literals: decimal, negative decimal, hexadecimal, or a name in braces; 63 octets at most. *)
Inductive written_lit : list Z -> literal -> Prop :=
| w_dec s : s <> [] -> Forall digit s -> zlen s <= 63 -> number 10 (rev s) < 2^64 -> written_lit s (Number (number 10 (rev s)) false)
| w_neg s : s <> [] -> Forall digit s -> zlen s <= 62 -> number 10 (rev s) <= 2^63 -> written_lit (45 :: s) (Number (- number 10 (rev s)) true)
| w_hex x s : x = 120 \/ x = 88 -> s <> [] -> Forall hex_digit_ s -> zlen s <= 61 -> number 16 (rev s) < 2^64 -> written_lit (48 :: x :: s) (Number (number 16 (rev s)) false)
| w_name s : s <> [] -> Forall name_char s -> zlen s <= 61 -> written_lit (123 :: s ++ [125]) (Name s).

(** The operators, with the precedence of the C language: the smaller the level, the tighter. *)
Definition spelled (o : binop) (s : string) : Prop :=
  match o with
  | BMul => s = "*" | BDiv => s = "/" | BAdd => s = "+" | BSub => s = "-" | BShl => s = "<<" | BShr => s = ">>"
  | BLe => s = "<=" | BGe => s = ">=" | BLt => s = "<" | BGt => s = ">" | BEq => s = "==" | BNe => s = "!="
  | BAnd => s = "&" | BXor => s = "^" | BOr => s = "|"
  | BLand => s = "&&" \/ s = "AND" | BLor => s = "||" \/ s = "OR"
  end%string.
Definition level (o : binop) : Z :=
  match o with
  | BMul | BDiv => 2
  | BAdd | BSub => 3
  | BShl | BShr => 4
  | BLe | BGe | BLt | BGt => 5
  | BEq | BNe => 6
  | BAnd => 7 | BXor => 8 | BOr => 9
  | BLand => 10 | BLor => 11
  end.
(** How operators of the same level group: as in C to the left, to the right, or not at all,
    parentheses being required. *)
Inductive grouping : Type := ToLeft | ToRight | Never.
Definition left_level (g : grouping) (o : binop) : Z := match g with ToLeft => level o | _ => level o - 1 end.
Definition right_level (g : grouping) (o : binop) : Z := match g with ToRight => level o | _ => level o - 1 end.

(** [written g l s e]: the text [s] is the expression [e], having no operator outside parentheses
    of a level above [l].  Blanks may be put between any two parts; they must be put before AND
    and OR.  A subtraction cannot follow a closing parenthesis (see the findings). *)
Inductive written (g : grouping) : Z -> list Z -> expr -> Prop :=
| W_lit s v : written_lit s v -> written g 0 s (Lit v)
| W_par l s e b1 b2 : written g l s e -> blanks b1 -> blanks b2 -> written g 0 (40 :: b1 ++ s ++ b2 ++ [41]) e
| W_not l s e b : written g l s e -> l <= 1 -> blanks b -> written g 1 (126 :: b ++ s) (Not e)
| W_bin o w la sa a lb sb b b1 b2 :
    written g la sa a -> la <= left_level g o -> written g lb sb b -> lb <= right_level g o ->
    spelled o w -> blanks b1 -> blanks b2 ->
    (w = "AND" \/ w = "OR" -> b1 <> [])%string -> (o = BSub -> last sa 0 <> 41) ->
    written g (level o) (sa ++ b1 ++ str_bytes w ++ b2 ++ sb) (Bin o a b).
(** A condition: an expression in parentheses, after blanks. *)
Inductive condition (g : grouping) : list Z -> expr -> Prop :=
| C_cond b0 b1 l s b2 e : blanks b0 -> blanks b1 -> written g l s e -> blanks b2 -> condition g (b0 ++ 40 :: b1 ++ s ++ b2 ++ [41]) e.

(** The callback for names answers as [env] says: error code, 64 bits, whether signed. *)
Definition answers (cb : list Z -> Z * Z * bool) (env : list Z -> outcome) : Prop :=
  forall n, match env n with
            | Value x s => fits x s /\ cb n = (0, x mod 2^64, s)
            | Failed c => c <> 0 /\ exists x s, cb n = (c, x, s)
            | Undefined => False
            end.
(** Some operator has to be applied. *)
Definition has_operator (e : expr) : Prop := match e with Lit _ => False | _ => True end.
