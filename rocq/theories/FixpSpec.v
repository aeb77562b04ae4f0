(** What the fixed point functions are to do, in terms of rational numbers. *)
From Coq Require Import ZArith List QArith.
From Verif Require Import Common.
Import ListNotations.
Open Scope Z_scope.

(** The number a fixed point value stands for. *)
Definition fixp_value (x : Z) : Q := x # 16777216.

(** A finite long double: at most 64 significant bits. *)
Definition is_ldouble (q : Q) : Prop :=
  exists m e, Z.abs m <= 2^64 /\ (q == inject_Z m * Qpower (2#1) e)%Q.

(** A character standing for a digit. *)
Inductive digit_char : Z -> Z -> Prop :=
| DC_dec d : 0 <= d <= 9 -> digit_char d (48 + d)
| DC_low d : 10 <= d <= 15 -> digit_char d (87 + d)
| DC_up d : 10 <= d <= 15 -> digit_char d (55 + d).
Definition digits (base : Z) (ds text : list Z) : Prop :=
  Forall2 (fun d c => digit_char d c /\ d < base) ds text.

(** Integer and fraction denoted by a row of digits, first one most significant. *)
Definition int_value (base : Z) (ds : list Z) : Z := fold_left (fun a d => a * base + d) ds 0.
Fixpoint frac_value (base : Z) (ds : list Z) : Q :=
  match ds with
  | [] => 0
  | d :: r => (inject_Z d + frac_value base r) / inject_Z base
  end%Q.

(** Texts: base prefix, sign, integer digits, and a dot with fraction digits. *)
Inductive prefix_text : Z -> list Z -> Prop :=
| P_none : prefix_text 10 []
| P_10 : prefix_text 10 [49; 48; 35]
| P_16 : prefix_text 16 [49; 54; 35].
Inductive sign_text : bool -> list Z -> Prop :=
| S_none : sign_text false []
| S_plus : sign_text false [43]
| S_minus : sign_text true [45].
Inductive fraction_text (base : Z) : list Z -> list Z -> Prop :=
| F_none : fraction_text base [] []
| F_some fs ftext : digits base fs ftext -> fraction_text base fs (46 :: ftext).
(** [literal base neg is fs text]: the text is a number with these parts. *)
Inductive literal : Z -> bool -> list Z -> list Z -> list Z -> Prop :=
| L base neg is fs p s itext ftext :
    prefix_text base p -> sign_text neg s -> is <> [] -> digits base is itext ->
    fraction_text base fs ftext ->
    literal base neg is fs (p ++ s ++ itext ++ ftext).
(** What may follow so that the number ends there. *)
Definition number_ends (base : Z) (rest : list Z) : Prop :=
  match rest with
  | [] => True
  | c :: _ => c <> 46 /\ c <> 35 /\ forall d, d < base -> ~ digit_char d c
  end.

(** Magnitude of the number. *)
Definition magnitude (base : Z) (is fs : list Z) : Q :=
  (inject_Z (int_value base is) + frac_value base fs)%Q.
Definition signed (neg : bool) (x : Z) : Z := if neg then - x else x.
