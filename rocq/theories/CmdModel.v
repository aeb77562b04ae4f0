(** Model of src/lib/cmdlineparser/cmdline.c: reading of arguments and finding them.  Messages,
    printing of usage, allocation failures and conversions of numbers are left out. *)
From Coq Require Import ZArith List Bool.
From Verif Require Import Common.
Import ListNotations.
Open Scope Z_scope.

(** cmdline.h:59-64 [struct cmd_arg_rule], with the flags of cmdline_defines.h:32-37 as booleans; the
    list ends where the code has a rule without name *)
Record rule : Type := mk_rule { r_argument : bool; r_split : bool; r_word : bool; r_multi : bool; r_empty : bool; r_short : Z; r_long : list Z }.
(** cmdline.h:36-41 [struct cmd_arg_pair] *)
Record pair : Type := mk_pair { p_rule : rule; p_values : list (list Z) }.

Definition text_eqb (a b : list Z) : bool := if list_eq_dec Z.eq_dec a b then true else false.
(** cmdline.c:370-383 [__cmd_get_rule_noflag] *)
Fixpoint rule_noflag (rules : list rule) (pos : nat) : option rule :=
  match rules with
  | [] => None
  | r :: rest => if r_word r then match pos with O => Some r | S pos => rule_noflag rest pos end else rule_noflag rest pos
  end.
(** cmdline.c:385-395 [__cmd_get_rule_noflag_multi] *)
Fixpoint rule_multi (rules : list rule) : option rule :=
  match rules with [] => None | r :: rest => if r_multi r then Some r else rule_multi rest end.
(** cmdline.c:397-409 [__cmd_get_rule_by_longname] *)
Fixpoint rule_long (rules : list rule) (name : list Z) : option rule :=
  match rules with [] => None | r :: rest => if negb (r_word r) && text_eqb (r_long r) name then Some r else rule_long rest name end.
(** cmdline.c:411-423 [__cmd_get_rule_by_shortname] *)
Fixpoint rule_short (rules : list rule) (c : Z) : option rule :=
  match rules with [] => None | r :: rest => if negb (r_word r) && (r_short r =? c) then Some r else rule_short rest c end.

(** cmdline.c:290-338 [__cmd_pair_split_comma]: the loop, with the characters before the next comma *)
Fixpoint split_loop (piece : list Z) (pos : list Z) : list (list Z) :=
  match pos with
  | [] => match piece with [] => [] | _ => [rev piece] end
  | c :: r => if c =? 44 then rev piece :: split_loop [] r else split_loop (c :: piece) r
  end.
Definition split_comma (value : list Z) : list (list Z) := split_loop [] value.

(** cmdline.c:452-459 *)
Definition dashes (a : list Z) : Z * list Z :=
  match a with
  | [] => (0, a)
  | [c] => if c =? 45 then (1, []) else (0, a)
  | c :: d :: p => if c =? 45 then if d =? 45 then (2, p) else (1, d :: p) else (0, a)
  end.
(** cmdline.c:461 strstr *)
Fixpoint split_equal (pos : list Z) : option (list Z * list Z) :=
  match pos with
  | [] => None
  | c :: r => if c =? 61 then Some ([], r) else match split_equal r with Some (k, v) => Some (c :: k, v) | None => None end
  end.
(** cmdline.c:494-512, the loop over characters: the pairs made, and the rule which remains *)
Fixpoint shorts (rules : list rule) (key_length : Z) (key : list Z) : option (list pair * option rule) :=
  match key with
  | [] => Some ([], None)
  | c :: rest =>
      match rule_short rules c with
      | None => None
      | Some r =>
          if r_argument r && negb (key_length =? 1) then None
          else match shorts rules key_length rest with
               | None => None
               | Some (ps, last) =>
                   if r_argument r then Some (ps, match rest with [] => Some r | _ => last end)
                   else Some (mk_pair r [] :: ps, last)
               end
      end
  end.
(** cmdline.c:555-569 *)
Definition make_pair (r : rule) (value : list Z) : pair := mk_pair r (if r_split r then split_comma value else [value]).

(** cmdline.c:443-570 [cmd_parse], the loop.  [ended] is end_of_options_found and [n] noflag_count.
    [None] is an error. *)
Definition put (ps : list pair) (x : option (list pair)) : option (list pair) := match x with Some qs => Some (ps ++ qs) | None => None end.
Fixpoint parse (rules : list rule) (ended : bool) (n : nat) (args : list (list Z)) : option (list pair) :=
  match args with
  | [] => Some []
  | a :: rest =>
      let '(dash_count, pos) := if ended then (0, a) else dashes a in
      let equal := if 0 <? dash_count then split_equal pos else None in
      let key := match equal with Some (k, _) => k | None => pos end in
      if negb ended && (zlen key =? 0) then
        match equal with Some _ => None | None => if dash_count =? 2 then parse rules true n rest else None end
      else
        let found :=
          if dash_count =? 2 then match rule_long rules key with Some r => Some ([], Some r) | None => None end
          else if dash_count =? 1 then shorts rules (zlen key) key
          else match rule_noflag rules n with
               | Some r => Some ([], Some r)
               | None => match rule_multi rules with Some r => Some ([], Some r) | None => None end
               end in
        let n := if dash_count =? 0 then S n else n in
        match found with
        | None => None
        | Some (ps, None) => put ps (parse rules ended n rest)
        | Some (ps, Some r) =>
            let check v := (1 <=? zlen v) || r_empty r in
            if r_argument r || r_word r || r_multi r then
              match equal with
              | Some (_, v) => if check v then put (ps ++ [make_pair r v]) (parse rules ended n rest) else None
              | None =>
                  if r_word r || r_multi r then if check a then put (ps ++ [make_pair r a]) (parse rules ended n rest) else None
                  else match rest with
                       | [] => None
                       | v :: rest => if check v then put (ps ++ [make_pair r v]) (parse rules ended n rest) else None
                       end
              end
            else match equal with Some _ => None | None => put (ps ++ [mk_pair r []]) (parse rules ended n rest) end
        end
  end.
(** cmdline.c:425-441 and 589: the command, blank if there is none, and the pairs *)
Definition cmd_parse (rules : list rule) (with_command : bool) (args : list (list Z)) : option (list Z * list pair) :=
  match args with
  | [] => Some ([], [])
  | a :: rest => if with_command then match parse rules false 0 rest with Some ps => Some (a, ps) | None => None end
                 else match parse rules false 0 args with Some ps => Some ([], ps) | None => None end
  end.

(** cmdline.c:139-148 [cmd_find_pair], without the mark of use *)
Fixpoint find_pair (ps : list pair) (key : list Z) (index : nat) : option pair :=
  match ps with
  | [] => None
  | p :: rest => if text_eqb (r_long (p_rule p)) key then match index with O => Some p | S index => find_pair rest key index end
                 else find_pair rest key index
  end.
(** cmdline.c:244-259 [cmd_get_subvalue] *)
Definition get_subvalue (ps : list pair) (key : list Z) (i j : nat) : option (list Z) :=
  match find_pair ps key i with Some p => nth_error (p_values p) j | None => None end.
(** cmdline.c:231-242 [cmd_exists] *)
Definition exists_pair (ps : list pair) (key : list Z) (i : nat) : bool := match find_pair ps key i with Some _ => true | None => false end.
(** cmdline.c:127-137 [cmd_check_all_args_used]; [used] tells for each argument if it was *)
Definition check_all_args_used (used : list bool) : Z := fold_left (fun err _ => err) used 0.
