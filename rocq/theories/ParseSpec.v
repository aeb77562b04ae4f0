(** What the text parsing helpers are to compute, from the text alone. *)
From Coq Require Import ZArith List Bool.
From Verif Require Import Common ParseModel.
Import ListNotations.
Open Scope Z_scope.

(** The text from position [i] on. *)
Definition from (t : text) (i : Z) : list Z := skipn (Z.to_nat i) (t_data t).
(** The octets from [i] up to but not including [j]. *)
Definition between (t : text) (i j : Z) : list Z := firstn (Z.to_nat (j - i)) (from t i).

(** The longest beginning of which every octet is of a kind. *)
Fixpoint leading (f : Z -> bool) (l : list Z) : list Z :=
  match l with c :: r => if f c then c :: leading f r else [] | [] => [] end.

(** Octet [i] ends a line: a line feed, or a carriage return without line feed. *)
Definition ends_line (d : list Z) (i : nat) : bool :=
  (nth i d 0 =? 10) || ((nth i d 0 =? 13) && negb (nth (S i) d 0 =? 10)).
(** The number of lines ended before position [i], and the beginning of the line there. *)
Definition lines_before (d : list Z) (i : Z) : Z := zlen (filter (ends_line d) (seq 0 (Z.to_nat i))).
Definition line_begin (d : list Z) (i : Z) : Z :=
  fold_left (fun a k => if ends_line d k then Z.of_nat k + 1 else a) (seq 0 (Z.to_nat i)) 0.

(** The position is inside the text and its line number and line beginning are right. *)
Definition located (t : text) (p : pos) : Prop :=
  0 <= p_pos p <= t_size t /\ p_line p = 1 + lines_before (t_data t) (p_pos p) /\ p_begin p = line_begin (t_data t) (p_pos p).

(** Every operation on a position. *)
Inductive op : Type :=
| OSpaceTab | OSpaces | OControl | OComment | OWord (w : list Z) | OWordCase (w : list Z) | OLettersSimple
| OLetters (flags : Z) | OUntil (flags : Z) | ONonNewline | ONonControl | OName (end_char : Z)
| OSubscript (cb : Z -> list Z -> Z) (sub end_char : Z).
Definition drop {A : Type} (r : res (A * pos)) : res pos := bind r (fun '(_, p) => Ok p).
Definition exec (t : text) (p : pos) (o : op) : res pos :=
  match o with
  | OSpaceTab => ignore_space_and_tab t p | OSpaces => ignore_spaces t p | OControl => ignore_control t p
  | OComment => comment t p
  | OWord w => drop (match_word t w p) | OWordCase w => drop (match_word_case t w p)
  | OLettersSimple => drop (match_letters_simple t p)
  | OLetters f => drop (match_letters t p f) | OUntil f => drop (match_until t p f)
  | ONonNewline => drop (non_newline t p) | ONonControl => drop (non_control t p)
  | OName e => drop (extract_name t p e) | OSubscript cb s e => drop (extract_name_with_subscript cb t p s e)
  end.
Fixpoint exec_all (t : text) (p : pos) (os : list op) : res pos :=
  match os with [] => Ok p | o :: r => bind (exec t p o) (fun p => exec_all t p r) end.

(** Operations which do not pass line ends without counting them (words are strings,
    without zero octet). *)
Definition no_newline (w : list Z) : Prop := Forall (fun c => is_newline c = false) w.
Definition counts (o : op) : Prop :=
  match o with
  | OWord w | OWordCase w => no_newline w /\ ~ In 0 w
  | OLetters f => Z.testbit f F_NEWLINES = false /\ Z.testbit f F_CONTROL = false
  | OUntil f => Z.testbit f F_NEWLINES = true \/ Z.testbit f F_CONTROL = true
  | OName e => is_newline e = false
  | OSubscript _ s e => is_newline s = false /\ is_newline e = false
  | _ => True
  end.

(** Only names with subscripts may abort the program (see [parse_subscript_abort_refuted]). *)
Definition may_abort (o : op) : bool := match o with OSubscript _ _ _ => true | _ => false end.

(** Letters, digits, underscore and dash make names. *)
Definition name_octet (c : Z) : bool :=
  ((97 <=? c) && (c <=? 122)) || ((65 <=? c) && (c <=? 90)) || (c =? 95) || ((48 <=? c) && (c <=? 57)) || (c =? 45).
(** Lower case of an octet. *)
Definition lower (c : Z) : Z := if (65 <=? c) && (c <=? 90) then c + 32 else c.
(** Joining with a separator. *)
Fixpoint join (c : Z) (ls : list (list Z)) : list Z :=
  match ls with [] => [] | [l] => l | l :: r => l ++ c :: join c r end.
