(** Model of src/lib/fixed_point.c: fixed point numbers with 24 fraction bits.

    Octets are [Z] (characters of a text).  A long double is a rational number or
    not finite; every arithmetic operation is rounded to 64 significant bits, to
    nearest, ties to even, as the x87 format does.  Simplified: the exponent range
    of long double is not limited (texts with some thousand digits could exceed
    it). *)
From Coq Require Import ZArith List Bool QArith Qround Qabs.
From Verif Require Import Common.
Import ListNotations.
Open Scope Z_scope.

(** Power of two with any integer exponent. *)
Definition pow2 (e : Z) : Q := Qpower (2#1) e.

(** Nearest integer, ties to even. *)
Definition nearest_even (x : Q) : Z :=
  let f := Qfloor x in
  match Qcompare (Qminus x (inject_Z f)) (1#2) with
  | Lt => f
  | Gt => f + 1
  | Eq => if Z.even f then f else f + 1
  end.

(** Rounding to a long double: [e] is chosen such that the number has 64 bits
    before the point when divided by two to the power [e]. *)
Definition round_exponent (q : Q) : Z :=
  let e0 := Z.log2 (Z.abs (Qnum q)) - Z.log2 (Zpos (Qden q)) - 63 in
  if Qle_bool (inject_Z (2^63)) (Qmult (Qabs q) (pow2 (- e0))) then e0 else e0 - 1.
Definition rd (q : Q) : Q :=
  if Qnum q =? 0 then 0%Q
  else Qmult (inject_Z (nearest_even (Qmult q (pow2 (- round_exponent q))))) (pow2 (round_exponent q)).

(** The operations of long double on finite numbers. *)
Definition fadd (a b : Q) : Q := Qred (rd (Qplus a b)).
Definition fsub (a b : Q) : Q := Qred (rd (Qminus a b)).
Definition fmul (a b : Q) : Q := Qred (rd (Qmult a b)).
Definition fdiv (a b : Q) : Q := Qred (rd (Qdiv a b)).

(** A long double. *)
Inductive ldouble : Type := Fin (q : Q) | NotFinite.

(** Outcome: a result, an error return, a RRR_BUG or undefined behaviour. *)
Inductive fres (A : Type) : Type := FOk (a : A) | FErr (code : Z) | FBug | FUb.
Arguments FOk {A} a. Arguments FErr {A} code. Arguments FBug {A}. Arguments FUb {A}.

(** Conversion of a non-negative long double to uint64_t, undefined if it does not
    fit. *)
Definition to_u64 (q : Q) : option Z :=
  if (0 <=? Qfloor q) && (Qfloor q <? 2^64) then Some (Qfloor q) else None.
(** memcpy of a uint64_t to an int64_t *)
Definition to_i64 (x : Z) : Z := let x := u64 x in if x <? 2^63 then x else x - 2^64.

(** fixed_point.c:36-61 [decimal_fractions_base2] *)
Definition fraction_value (i : nat) : Q := pow2 (- (Z.of_nat i + 1)).

(** modfl: integer part, cut towards zero. *)
Definition modfl (q : Q) : Z := if Qle_bool 0 q then Qfloor q else - Qfloor (Qopp q).

(** fixed_point.c:83-87, the loop with [n] rounds left: result so far and fraction
    left. *)
Fixpoint fraction_bits (n : nat) (result : Z) (fraction : Q) : Z :=
  match n with
  | O => result
  | S m =>
      let i := (24 - S m)%nat in
      let eval := Qle_bool (fraction_value i) fraction in
      fraction_bits m (if eval then Z.lor result (2 ^ (23 - Z.of_nat i)) else result)
                      (fsub fraction (if eval then fraction_value i else 0%Q))
  end.

(** fixed_point.c:64-97 [rrr_fixp_ldouble_to_fixp] *)
Definition ldouble_to_fixp (source : ldouble) : fres Z :=
  match source with
  | NotFinite => FErr 1
  | Fin source =>
      let integer := modfl source in
      let fraction := fsub source (inject_Z integer) in
      let sign := negb (Qle_bool 0 source) in
      let integer := if sign then - integer else integer in
      let fraction := if sign then Qopp fraction else fraction in
      let result := fraction_bits 24 0 fraction in
      match to_u64 (inject_Z integer) with
      | None => FUb
      | Some x =>
          let result := Z.lor result (u64 (Z.shiftl x 24)) in
          FOk (to_i64 (if sign then u64 (- result) else result))
      end
  end.

(** fixed_point.c:113-117, the loop with [n] rounds left. *)
Fixpoint add_fractions (n : nat) (decimals : Z) (result : Q) : Q :=
  match n with
  | O => result
  | S m =>
      let i := (24 - S m)%nat in
      add_fractions m decimals
        (fadd result (if Z.testbit decimals (23 - Z.of_nat i) then fraction_value i else 0%Q))
  end.

(** fixed_point.c:99-124 [rrr_fixp_to_ldouble]; negating the smallest int64_t is
    undefined. *)
Definition fixp_to_ldouble (source : Z) : fres Q :=
  let sign := source <? 0 in
  let positive := if sign then - source else source in
  if 2^63 <=? positive then FUb
  else
    let whole_number := Z.shiftr positive 24 in
    let decimals := Z.land positive 0xffffff in
    let result := fadd 0%Q (inject_Z whole_number) in
    let result := add_fractions 24 decimals result in
    FOk (if sign then Qopp result else result).

(** fixed_point.c:140-146: one hexadecimal digit *)
Definition fixp_hex_char (d : Z) : Z := if 9 <? d then d + 87 else d + 48.
(** fixed_point.c:141-150, the loop from octet [pos] on *)
Fixpoint str_16_loop (buf : list Z) (pos : nat) : list Z :=
  match buf with
  | [] => []
  | cur :: r =>
      [fixp_hex_char (Z.shiftr (Z.land cur 0xf0) 4); fixp_hex_char (Z.land cur 0x0f)]
      ++ (if Nat.eqb pos 4 then [46] else []) ++ str_16_loop r (S pos)
  end.
(** fixed_point.c:126-159 [rrr_fixp_to_str_16]: the text without the NUL, [None] if
    it does not fit in [target_size] octets with NUL. *)
Definition fixp_to_str_16 (target_size source : Z) : option (list Z) :=
  let tmp_b := str_16_loop (be_enc 8 (u64 source)) 0 in
  if target_size <? 3 + zlen tmp_b + 1 then None else Some ([49; 54; 35] ++ tmp_b).

(** fixed_point.c:218-235 [__rrr_fixp_convert_char]; [None] is RRR_BUG. *)
Definition convert_char (c : Z) : option Z :=
  if (48 <=? c) && (c <=? 57) then Some (c - 48)
  else if (97 <=? c) && (c <=? 102) then Some (c - 97 + 10)
  else if (65 <=? c) && (c <=? 70) then Some (c - 65 + 10)
  else None.

(** fixed_point.c:297-300: is the character a digit? *)
Definition digit_ok (base c : Z) : bool :=
  ((48 <=? c) && (c <=? 57))
  || ((base =? 16) && (((97 <=? c) && (c <=? 102)) || ((65 <=? c) && (c <=? 70)))).

(** fixed_point.c:291-317, the loop over the characters: number of characters of
    the number and place of the dot; [None] is the error return. *)
Fixpoint scan_number (base : Z) (s : list Z) (dot : option nat) (len : nat) : option (nat * option nat) :=
  match s with
  | [] => Some (len, dot)
  | c :: r =>
      if digit_ok base c then scan_number base r dot (S len)
      else if c =? 46 then
        if Nat.eqb len 0 then None
        else match dot with
             | Some _ => None
             | None => scan_number base r (Some len) (S len)
             end
      else Some (len, dot)
  end.

(** fixed_point.h:29-32 *)
Definition FIXP_PARSE_ERR : Z := 1.
Definition FIXP_PARSE_INCOMPLETE : Z := 3.

Definition starts_with (p s : list Z) : bool := if list_eq_dec Z.eq_dec (firstn (length p) s) p then true else false.

(** fixed_point.c:237-333 [__rrr_fixp_str_preliminary_parse]: base, sign, digits of
    the integer part, whether there is a dot with the digits after it, and the
    number of characters used.  (The check for NULL at line 326 looks at the wrong
    pointer and has no effect.) *)
Definition preliminary_parse (str : list Z) : fres (Z * bool * list Z * option (list Z) * nat) :=
  match str with
  | [] => FErr 1
  | _ =>
      let '(base, plen) :=
        if 3 <? zlen str then
          if starts_with [49; 54; 35] str then (16, 3%nat)
          else if starts_with [49; 48; 35] str then (10, 3%nat)
          else (10, 0%nat)
        else (10, 0%nat) in
      let start := skipn plen str in
      match start with
      | [] => FErr FIXP_PARSE_INCOMPLETE
      | c :: r =>
          let '(negative, slen, start) :=
            if c =? 45 then (true, 1%nat, r)
            else if c =? 43 then (false, 1%nat, r)
            else (false, 0%nat, start) in
          match start with
          | [] => FErr FIXP_PARSE_INCOMPLETE
          | _ =>
              match scan_number base start None 0 with
              | None => FErr FIXP_PARSE_ERR
              | Some (len, dot) =>
                  if Nat.eqb len 0 then FErr FIXP_PARSE_ERR
                  else
                    let number := firstn len start in
                    let used := (plen + slen + len)%nat in
                    match dot with
                    | None => FOk (base, negative, number, None, used)
                    | Some d => FOk (base, negative, firstn d number, Some (skipn (d + 1) number), used)
                    end
              end
          end
      end
  end.

(** fixed_point.c:370-374, the loop summing up the fraction. *)
Fixpoint fraction_sum (base : Z) (s : list Z) (fraction factor : Q) : option Q :=
  match s with
  | [] => Some fraction
  | c :: r =>
      match convert_char c with
      | None => None
      | Some d =>
          fraction_sum base r (fadd fraction (fdiv (fdiv (inject_Z d) (inject_Z base)) factor))
                       (fmul factor (inject_Z base))
      end
  end.

(** fixed_point.c:380-392, the loop with [n] rounds left. *)
Fixpoint fraction_search (n : nat) (fraction running_sum : Q) (result_fraction : Z) : Z :=
  match n with
  | O => result_fraction
  | S m =>
      let i := (24 - S m)%nat in
      let test_sum := fadd running_sum (fraction_value i) in
      match Qcompare test_sum fraction with
      | Lt => fraction_search m fraction test_sum (Z.lor result_fraction (2 ^ (23 - Z.of_nat i)))
      | Eq => Z.lor result_fraction (2 ^ (23 - Z.of_nat i))
      | Gt => fraction_search m fraction running_sum result_fraction
      end
  end.

(** fixed_point.c:399-403, the loop from the last character of the integer part to
    the first; [s] is the reversed integer part. *)
Fixpoint integer_sum (base : Z) (s : list Z) (result_integer : Z) (factor : Q) : fres Z :=
  match s with
  | [] => FOk result_integer
  | c :: r =>
      match convert_char c with
      | None => FBug
      | Some d =>
          match to_u64 (fmul (inject_Z d) factor) with
          | None => FUb
          | Some x => integer_sum base r (u64 (result_integer + x)) (fmul factor (inject_Z base))
          end
      end
  end.

(** fixed_point.c:335-421 [rrr_fixp_str_to_fixp]: the number and the count of
    characters used ([endptr]). *)
Definition str_to_fixp (str : list Z) : fres (Z * nat) :=
  match preliminary_parse str with
  | FErr e => FErr e
  | FBug => FBug
  | FUb => FUb
  | FOk (base, negative, ints, fracs, used) =>
      match (match fracs with
             | None => Some 0
             | Some fs => match fraction_sum base fs 0%Q 1%Q with
                          | None => None
                          | Some f => Some (fraction_search 24 f 0%Q 0)
                          end
             end) with
      | None => FBug
      | Some result_fraction =>
          match integer_sum base (rev ints) 0 1%Q with
          | FOk result_integer =>
              let result := Z.lor result_fraction (u64 (Z.shiftl result_integer 24)) in
              let result := Z.land result (2^63 - 1) in
              FOk (to_i64 (if negative then u64 (0 - result) else result), used)
          | FErr e => FErr e
          | FBug => FBug
          | FUb => FUb
          end
      end
  end.
