(** What a configuration file is to mean, from its text. *)
From Coq Require Import ZArith List Bool.
From Verif Require Import Common ParseModel ParseSpec ConfigModel.
From Verif Require SettingsModel.
Import ListNotations.
Open Scope Z_scope.

(** ** The content: blocks with one or two names, each with settings *)
Record block : Type := mk_block { b_main : list Z; b_sub : option (list Z); b_settings : list (list Z * list Z) }.

(** ** The layout: everything else *)
(** Blanks, and comments each followed by blanks.  A comment goes to the end of its line. *)
Record gap : Type := mk_gap { g_blanks : list Z; g_comments : list (list Z * Z * list Z) }.
Definition r_comment (c : list Z * Z * list Z) : list Z := let '(text, nl, blanks) := c in 35 :: text ++ nl :: blanks.
Definition r_gap (g : gap) : list Z := g_blanks g ++ concat (map r_comment (g_comments g)).

(** Around the names, the equals sign and the value of a setting. *)
Record around : Type := mk_around { a_gap : gap; a_eq : list Z; a_before : list Z; a_after : list Z; a_nl : Z }.
Definition r_setting (s : around * (list Z * list Z)) : list Z :=
  let '(a, (n, v)) := s in r_gap (a_gap a) ++ n ++ a_eq a ++ 61 :: a_before a ++ v ++ a_after a ++ [a_nl a].
(** Inside the brackets of a block, and after its settings. *)
Record frame : Type := mk_frame { f_1 : list Z; f_2 : list Z; f_3 : list Z; f_4 : list Z; f_5 : list Z; f_gap : gap }.
Definition r_names (f : frame) (main : list Z) (sub : option (list Z)) : list Z :=
  f_1 f ++ main ++ f_2 f ++ match sub with None => [93] | Some s => 91 :: f_3 f ++ s ++ f_4 f ++ 93 :: f_5 f ++ [93] end.
Record laid : Type := mk_laid { l_frame : frame; l_main : list Z; l_sub : option (list Z); l_settings : list (around * (list Z * list Z)) }.
Definition r_block (l : laid) : list Z :=
  91 :: r_names (l_frame l) (l_main l) (l_sub l) ++ concat (map r_setting (l_settings l)) ++ r_gap (f_gap (l_frame l)).
Record file : Type := mk_file { f_head : gap; f_blocks : list laid }.
(** The text of a file. *)
Definition render (f : file) : list Z := r_gap (f_head f) ++ concat (map r_block (f_blocks f)).
(** Its content. *)
Definition content (f : file) : list block := map (fun l => mk_block (l_main l) (l_sub l) (map snd (l_settings l))) (f_blocks f).

(** ** What may be written *)
Definition blank (l : list Z) : Prop := Forall (fun c => is_spaces c = true) l.
Definition blank_inline (l : list Z) : Prop := Forall (fun c => is_space_tab c = true) l.
Definition gap_ok (g : gap) : Prop :=
  blank (g_blanks g) /\ Forall (fun '(text, nl, blanks) => no_newline text /\ is_newline nl = true /\ blank blanks) (g_comments g).
(** Names are of letters, digits, underscore and dash. *)
Definition name_ok (n : list Z) : Prop := n <> [] /\ Forall (fun c => name_octet c = true) n.
(** A value is of one line and neither begins nor ends with a blank. *)
Definition value_ok (v : list Z) : Prop :=
  no_newline v /\ ~ In 0 v /\ (exists c r, v = c :: r /\ is_space_tab c = false) /\ (exists r c, v = r ++ [c] /\ is_space_tab c = false).
Definition setting_ok (s : around * (list Z * list Z)) : Prop :=
  let '(a, (n, v)) := s in gap_ok (a_gap a) /\ blank (a_eq a) /\ blank_inline (a_before a) /\ blank_inline (a_after a) /\ is_newline (a_nl a) = true /\
    name_ok n /\ zlen n < 244 /\ value_ok v.
Definition block_ok (l : laid) : Prop :=
  let f := l_frame l in
  blank (f_1 f) /\ blank (f_2 f) /\ blank (f_3 f) /\ blank (f_4 f) /\ blank (f_5 f) /\ gap_ok (f_gap f) /\
  name_ok (l_main l) /\ match l_sub l with Some s => name_ok s | None => True end /\ Forall setting_ok (l_settings l) /\
  (l_settings l = [] -> r_gap (f_gap f) <> []).
Definition layout_ok (f : file) : Prop := gap_ok (f_head f) /\ Forall block_ok (f_blocks f).

(** Names are used once, there are not too many settings, and a block with two names belongs to
    one with the first of them only. *)
Definition content_ok (bs : list block) : Prop :=
  NoDup (map (fun b => (b_main b, b_sub b)) bs) /\
  Forall (fun b => NoDup (map fst (b_settings b)) /\ zlen (b_settings b) <= 32) bs /\
  Forall (fun b => b_sub b <> None -> exists m, In m bs /\ b_main m = b_main b /\ b_sub m = None) bs.

(** The instances made of a content. *)
Definition instance_of (b : block) : instance :=
  mk_instance (b_main b) (b_sub b)
    (SettingsModel.mk_settings MAX_SETTINGS (map (fun '(n, v) => SettingsModel.mk_setting n (SettingsModel.VString v)) (b_settings b))).

(** ** Safety *)
(** Somewhere in the text there is an opening bracket, possibly blanks, and then another bracket:
    a name is missing. *)
Definition missing_name (d : list Z) : Prop :=
  exists pre blanks e post, d = pre ++ 91 :: blanks ++ e :: post /\ blank blanks /\ (e = 91 \/ e = 93).
(** What the parsers of other definitions are relied on for. *)
Definition other_ok (other : Z -> text -> pos -> res (Z * pos)) (t : text) : Prop :=
  forall x p, located t p -> exists ret p', other x t p = Ok (ret, p') /\ p_pos p <= p_pos p' /\ located t p'.
