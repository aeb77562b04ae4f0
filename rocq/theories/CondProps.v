(** Properties C58 and C59: conditions of array definitions. *)
From Coq Require Import Strings.String.
From Coq Require Import ZArith List Bool Lia.
From Verif Require Import Common ParseModel ParseSpec ParseProofs CondModel CondSpec CondProofs CondEval.
Import ListNotations.
Open Scope Z_scope.

(** ** C58: a condition has the value its text has in the C language *)

(** Missing from the full statement: operators of the same level after each other without
    parentheses ([cond_chain_refuted]), conditions being one literal ([cond_single_refuted]) and a
    subtraction after a closing parenthesis ([cond_subtract_refuted]).  For everything else,
    wherever the condition is in a text, it is accepted, the position is moved just behind it, and
    evaluating it gives the number the expression means. *)
Theorem cond_exact_partial : forall cb env s e t p rest,
  answers cb env -> condition Never s e -> has_operator e -> located t p -> from t (p_pos p) = s ++ rest ->
  condition ToLeft s e /\
  exists cs p', interpret t p = Ok (0, cs, p') /\ located t p' /\ p_pos p' = p_pos p + zlen s /\
    evaluate cb cs = match meaning env e with Value x _ => EOk (x mod 2^64) | Failed c => EErr c | Undefined => EUb end.
Proof. exact exact_never. Qed.
Print Assumptions cond_exact_partial.

(** What is done with operators of the same level: they group to the right. *)
Theorem cond_right_exact : forall cb env s e t p rest,
  answers cb env -> condition ToRight s e -> has_operator e -> located t p -> from t (p_pos p) = s ++ rest ->
  exists cs p', interpret t p = Ok (0, cs, p') /\ located t p' /\ p_pos p' = p_pos p + zlen s /\
    evaluate cb cs = match meaning env e with Value x _ => EOk (x mod 2^64) | Failed c => EErr c | Undefined => EUb end.
Proof. exact exact_right. Qed.
Print Assumptions cond_right_exact.

Example two_answers : answers two_names two_env.
Proof. exact two_answers_. Qed.
(** ( {x} + 0x0a * -2 < {y} AND ~1 ) *)
Example cond_written : condition Never (str_bytes "( {x} + 0x0a * -2 < {y} AND ~1 )")
  (Bin BLand (Bin BLt (Bin BAdd (Lit (Name [120])) (Bin BMul (Lit (Number 10 false)) (Lit (Number (-2) true)))) (Lit (Name [121]))) (Not (Lit (Number 1 false)))).
Proof. exact written_example. Qed.
Example cond_value : meaning two_env (Bin BLand (Bin BLt (Bin BAdd (Lit (Name [120])) (Bin BMul (Lit (Number 10 false)) (Lit (Number (-2) true)))) (Lit (Name [121]))) (Not (Lit (Number 1 false)))) = Failed 2.
Proof. reflexivity. Qed.
Example cond_value2 : meaning two_env (Bin BLand (Bin BLt (Bin BAdd (Lit (Name [120])) (Bin BMul (Lit (Number 10 false)) (Lit (Number (-2) true)))) (Lit (Name [121]))) (Lit (Number 1 false))) = Value 1 true.
Proof. reflexivity. Qed.

(** FINDING: operators of the same level group to the right: 10 - 3 - 2 is 5 in C and 9 here. *)
Theorem cond_chain_refuted :
  ~ (forall cb env s e t p rest, answers cb env -> condition ToLeft s e -> has_operator e -> located t p -> from t (p_pos p) = s ++ rest ->
      exists cs p', interpret t p = Ok (0, cs, p') /\
        evaluate cb cs = match meaning env e with Value x _ => EOk (x mod 2^64) | Failed c => EErr c | Undefined => EUb end) /\
  run two_names "(10 - 3 - 2)" = Some (EOk 9).
Proof. exact chain_refuted. Qed.
Print Assumptions cond_chain_refuted.

(** FINDING: a condition being a single literal or name is always false, whatever its value. *)
Theorem cond_single_refuted : forall cb env s v t p rest,
  answers cb env -> condition Never s (Lit v) -> located t p -> from t (p_pos p) = s ++ rest ->
  exists cs p', interpret t p = Ok (0, cs, p') /\
    forall x sg, meaning env (Lit v) = Value x sg -> evaluate cb cs = EOk 0.
Proof. exact single_refuted. Qed.
Print Assumptions cond_single_refuted.
Example cond_single_case : condition Never (str_bytes "({x})") (Lit (Name [120])) /\ run two_names "({x})" = Some (EOk 0) /\ run two_names "({x} + 0)" = Some (EOk 5).
Proof. exact single_example. Qed.

(** FINDING: a subtraction behind a closing parenthesis is taken for the sign of a number, and the
    condition is refused; with an addition it is accepted. *)
Theorem cond_subtract_refuted :
  run two_names "((1 + 2) - 1)" = None /\ run two_names "((1 + 2)-1)" = None /\ run two_names "((1 + 2) + 1)" = Some (EOk 4).
Proof. vm_compute. auto. Qed.
Print Assumptions cond_subtract_refuted.

(** FINDING: the manual says that reverse polish notation gives the same result as the normal one.
    1 2 + 3 == is 1 + 2 == 3, but is taken as 1 == 2 + 3. *)
Theorem cond_rpn_refuted : run two_names "(1 + 2 == 3)" = Some (EOk 1) /\ run two_names "(1 2 + 3 ==)" = Some (EOk 0).
Proof. vm_compute. auto. Qed.
Print Assumptions cond_rpn_refuted.

(** FINDING: the second operand of AND and OR is evaluated even if the first one decides, so that a
    test cannot protect a division as it can in C. *)
Theorem cond_short_circuit_refuted : run two_names "(0 != 0 && 10 / 0 > 1)" = Some (EErr 2) /\ run two_names "(1 || 10 / 0)" = Some (EErr 2).
Proof. vm_compute. auto. Qed.
Print Assumptions cond_short_circuit_refuted.

(** FINDING: numbers of 2^64 and more are not refused but taken as 2^64 - 1. *)
Theorem cond_large_refuted : run two_names "(18446744073709551616 == 18446744073709551615)" = Some (EOk 1) /\ run two_names "(99999999999999999999 == 0xfffffffffffffffffff)" = Some (EOk 1).
Proof. vm_compute. auto. Qed.
Print Assumptions cond_large_refuted.

(** ** C59: no text makes the parser of conditions crash *)

(** Wherever in any text, without a NUL behind it being needed, the parser reads only the text, ends
    without aborting, and never moves back; on failure nothing is kept. *)
Theorem cond_interpret_safe : forall t p, located t p ->
  exists ret cs p', interpret t p = Ok (ret, cs, p') /\ (ret = 0 \/ ret = 1 \/ ret = 2) /\ located t p' /\ p_pos p <= p_pos p' /\ (ret <> 0 -> cs = []).
Proof. exact safe_interpret. Qed.
Print Assumptions cond_interpret_safe.
Example cond_safe_case : exists cs p', interpret (mk_text (str_bytes "((1 + {x") false) pos_init = Ok (2, cs, p').
Proof. vm_compute. eauto. Qed.

(** Every literal kept is one of the four forms, fits the 64 octets it is stored in with a NUL, and
    is evaluated without failing unless it is a name. *)
Theorem cond_literals : forall t p cs p' v, located t p -> interpret t p = Ok (0, cs, p') -> In (CVal v) cs ->
  zlen v + 1 <= 64 /\ forall cb, (exists n, v = 123 :: n ++ [125]) \/ exists x s, evaluate_value cb v = EOk (x, s).
Proof. exact literals_kept. Qed.
Print Assumptions cond_literals.
Example cond_literals_case : interpret (mk_text (str_bytes "(-12 + 0xFf)") false) pos_init = Ok (0, [CVal (str_bytes "-12"); CVal (str_bytes "0xFf"); COp Add], mk_pos 12 1 0).
Proof. reflexivity. Qed.

(** FINDING: the check of the numbers of operators and values lets operators without values pass.
    Evaluating such a condition aborts the program, or takes a missing value as zero. *)
Theorem cond_abort_refuted : run two_names "(~ + 1 2)" = Some EBug /\ run two_names "((~) 1)" = Some EBug /\ run two_names "(1 * + 2 3)" <> None.
Proof. exact abort_refuted. Qed.
Print Assumptions cond_abort_refuted.

(** FINDING: evaluating accepted conditions is not defined for some values: shifts by 64 or more,
    signed numbers running over. *)
Theorem cond_undefined_refuted : run two_names "(1 << 64)" = Some EUb /\ run two_names "(-1 << 1)" = Some EUb /\ run two_names "(9223372036854775807 - -1)" = Some EUb.
Proof. vm_compute. auto. Qed.
Print Assumptions cond_undefined_refuted.
