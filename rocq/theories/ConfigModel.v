(** Model of the configuration file parser: src/lib/configuration.c, and the parts of
    src/lib/instance_config.c which take its results.

    The definitions of array trees, routes and methods in a configuration file are parsed by
    other code; [other] stands for it: given the character which begins the definition and
    the position after it, it tells return value and position.  Simplified: memory allocation
    succeeds; messages printed are left out. *)
From Coq Require Import ZArith List Bool.
From Verif Require Import Common ParseModel.
From Verif Require SettingsModel.
Import ListNotations.
Open Scope Z_scope.

(** instance_config.h:52-80 [struct rrr_instance_config_data]: the names and the settings *)
Record instance : Type := mk_instance { i_main : list Z; i_sub : option (list Z); i_settings : SettingsModel.settings }.
(** instance_config.c:43 *)
Definition MAX_SETTINGS : Z := 32.

(** A string ends before its first zero octet. *)
Fixpoint cstr (l : list Z) : list Z := match l with [] => [] | c :: r => if c =? 0 then [] else c :: cstr r end.
Definition lift {A : Type} (r : SettingsModel.res A) : res A :=
  match r with SettingsModel.Ok a => Ok a | SettingsModel.Bug => Bug end.

(** configuration.c:71-76, the loop which passes comments *)
Fixpoint skip_comments (fuel : nat) (t : text) (p : pos) : res pos :=
  match fuel with
  | O => Ub
  | S f => bind (rd t (p_pos p)) (fun c =>
      if c =? 35 then bind (comment t p) (fun p => if eof t p then Ok p else skip_comments f t p) else Ok p)
  end.
(** configuration.c:111-114, the loop which leaves out blanks after the value *)
Fixpoint trim_end (fuel : nat) (t : text) (value_begin value_end : Z) : res Z :=
  match fuel with
  | O => Ub
  | S f => if value_begin <? value_end then bind (rd t value_end) (fun c =>
             if is_space_tab c then trim_end f t value_begin (value_end - 1) else Ok value_end)
           else Ok value_end
  end.

(** configuration.c:49-138 [__rrr_config_parse_setting] with instance_config.c:993-1006
    [__rrr_instance_config_new_setting_callback]: return value, *did_parse, settings, position *)
Definition parse_setting (t : text) (p : pos) (s : SettingsModel.settings) : res (Z * bool * SettingsModel.settings * pos) :=
  bind (ignore_spaces t p) (fun p =>
  if eof t p then Ok (0, false, s, p)
  else bind (skip_comments (S (length (t_data t))) t p) (fun p =>
  if eof t p then Ok (0, false, s, p)
  else bind (extract_name t p 61) (fun '(ret, name, p) =>
  if negb (ret =? 0) then Ok (ret, false, s, p)
  else match name with
  | None => Ok (0, false, s, p)
  | Some name =>
      let line_orig := p_line p in
      bind (ignore_spaces t p) (fun p =>
      if eof t p then Ok (1, false, s, p)
      else if negb (p_line p =? line_orig) then Ok (1, false, s, p)
      else bind (non_newline t p) (fun '(value_begin, value_end, p) =>
      bind (trim_end (S (length (t_data t))) t value_begin value_end) (fun value_end =>
      if value_end <? value_begin then Ok (1, false, s, p)
      else bind (name_length value_begin value_end) (fun n =>
      bind (str_extract t value_begin n) (fun value =>
      bind (lift (SettingsModel.add_string s name (cstr value))) (fun '(ret, s) =>
      if negb (ret =? 0) then Ok (1, false, s, p) else Ok (0, true, s, p)))))))
  end))).

(** configuration.c:218-233, the loop over the settings of a block *)
Fixpoint settings_loop (fuel : nat) (t : text) (p : pos) (s : SettingsModel.settings) : res (Z * SettingsModel.settings * pos) :=
  match fuel with
  | O => Ub
  | S f =>
      bind (parse_setting t p s) (fun '(ret, did, s, p) =>
      if negb (ret =? 0) then Ok (ret, s, p)
      else if did : bool then bind (ignore_spaces t p) (fun p => settings_loop f t p s)
      else Ok (0, s, p))
  end.

(** configuration.c:145-176 [__rrr_config_parse_block_name_callback]: its return value *)
Definition block_name_callback (level : Z) (name : list Z) : Z := if level <=? 1 then 0 else 1.

Definition streq := SettingsModel.streq.
Definition sub_eq (a b : option (list Z)) : bool :=
  match a, b with None, None => true | Some x, Some y => streq x y | _, _ => false end.
(** instance_config.c:956-977 [__rrr_instance_config_find_instance] *)
Definition find_instance (c : list instance) (main : list Z) (sub : option (list Z)) : bool :=
  existsb (fun i => streq (i_main i) main && sub_eq (i_sub i) sub) c.

(** configuration.c:178-248 [__rrr_config_parse_block] with instance_config.c:979-1041: return value,
    instances, position *)
Definition parse_block (t : text) (p : pos) (c : list instance) : res (Z * list instance * pos) :=
  bind (extract_name_with_subscript block_name_callback t p 91 93) (fun '(ret, names, p) =>
  if negb (ret =? 0) then Ok (ret, c, p)
  else match names with
  | [] => Ok (0, c, p)
  | main :: more =>
      if eof t p then Ok (1, c, p)
      else let sub := match more with [] => None | s :: _ => Some s end in
           if find_instance c main sub then Ok (1, c, p)
           else bind (settings_loop (S (length (t_data t))) t p (SettingsModel.settings_new MAX_SETTINGS)) (fun '(ret, s, p) =>
                Ok (ret, c ++ [mk_instance main sub s], p))
  end).

Section Other.
Variable other : Z -> text -> pos -> res (Z * pos).

(** configuration.c:359-418 [__rrr_config_parse_any] *)
Definition parse_any (t : text) (p : pos) (c : list instance) : res (Z * list instance * pos) :=
  bind (ignore_spaces t p) (fun p =>
  if eof t p then Ok (0, c, p)
  else bind (rd t (p_pos p)) (fun x =>
  let p := set_pos p (p_pos p + 1) in
  if p_pos p <? t_size t then
    if x =? 35 then bind (comment t p) (fun p => Ok (0, c, p))
    else if (x =? 123) || (x =? 60) || (x =? 40) then bind (other x t p) (fun '(ret, p) => Ok (ret, c, p))
    else if x =? 91 then parse_block t p c
    else Ok (1, c, p)
  else Ok (1, c, p))).

(** configuration.c:420-455 [rrr_config_parse_string]: the message about the place of an error is
    made for the position at the end, [location_message] of ParseModel.v *)
Fixpoint parse_loop (fuel : nat) (t : text) (p : pos) (c : list instance) : res (Z * list instance * pos) :=
  match fuel with
  | O => Ub
  | S f =>
      if eof t p then Ok (0, c, p)
      else bind (parse_any t p c) (fun '(ret, c, p) => if negb (ret =? 0) then Ok (ret, c, p) else parse_loop f t p c)
  end.
Definition config_parse_string (t : text) : res (Z * list instance) :=
  bind (parse_loop (S (length (t_data t))) t pos_init []) (fun '(ret, c, p) =>
  if negb (ret =? 0) then bind (location_message t p) (fun _ => Ok (ret, c)) else Ok (0, c)).

(** instance_config.c:1072-1110 [__rrr_instance_config_collection_generate_tree]: its return value *)
Definition generate_tree (c : list instance) : Z :=
  if forallb (fun i => match i_sub i with None => true | Some _ => find_instance c (i_main i) None end) c then 0 else 1.

(** instance_config.c:1112-1149 [rrr_instance_config_parse_string]: [None] is failure *)
Definition parse_string (t : text) : res (option (list instance)) :=
  bind (config_parse_string t) (fun '(ret, c) =>
  Ok (if negb (ret =? 0) then None else if negb (generate_tree c =? 0) then None else Some c)).
End Other.
