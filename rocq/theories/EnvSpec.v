(** What an environment file is to mean, line by line. *)
From Coq Require Import ZArith List Bool.
From Verif Require Import Common.
Import ListNotations.
Open Scope Z_scope.

Definition newline (c : Z) : bool := (c =? 13) || (c =? 10).
Definition blank_in_line (c : Z) : bool := (c =? 32) || (c =? 9).

(** The lines of a text. *)
Fixpoint lines (d : list Z) : list (list Z) :=
  match d with
  | [] => [[]]
  | c :: r => if newline c then [] :: lines r else match lines r with l :: ls => (c :: l) :: ls | [] => [[c]] end
  end.
(** A line without blanks at its beginning, at its end. *)
Fixpoint from_word (l : list Z) : list Z := match l with c :: r => if blank_in_line c then from_word r else l | [] => [] end.
Definition to_word (l : list Z) : list Z := rev (from_word (rev l)).
(** Before and after the first equals sign. *)
Fixpoint cut (l : list Z) : option (list Z * list Z) :=
  match l with
  | [] => None
  | c :: r => if c =? 61 then Some ([], r) else match cut r with Some (a, b) => Some (c :: a, b) | None => None end
  end.

(** A line: nothing, a variable and its value, or an error. *)
Inductive meaning : Type := Nothing | Variable_ (name value : list Z) | Wrong.
Definition line_meaning (l : list Z) : meaning :=
  match from_word l with
  | [] => Nothing
  | c :: r =>
      if c =? 35 then Nothing
      else match cut (c :: r) with
           | None | Some ([], _) => Variable_ (to_word (c :: r)) [49]
           | Some (name, value) => match from_word value with [] => Wrong | v => Variable_ (to_word name) (to_word v) end
           end
  end.
(** The variables up to the first error, and whether there is one. *)
Fixpoint file_meaning (ls : list (list Z)) : Z * list (list Z * list Z) :=
  match ls with
  | [] => (0, [])
  | l :: r => match line_meaning l with
              | Nothing => file_meaning r
              | Wrong => (1, [])
              | Variable_ n v => let '(ret, m) := file_meaning r in (ret, (n, v) :: m)
              end
  end.
(** The last line is a comment. *)
Definition comment_last (d : list Z) : Prop := exists r, from_word (last (lines d) []) = 35 :: r.
