(** Model of the settings of an instance, src/lib/settings.c and settings.h.

    Strings are lists of octets without zero octet.  Simplified: memory allocation
    succeeds; lengths are below 2^32; messages printed are left out; settings of type
    double, which nothing creates, are left out, and so is the conversion of a string to
    a double. *)
From Coq Require Import ZArith List Bool.
From Verif Require Import Common Dec.
Import ListNotations.
Open Scope Z_scope.

Inductive res (A : Type) : Type := Ok (a : A) | Bug.
Arguments Ok {A}. Arguments Bug {A}.
Definition bind {A B : Type} (r : res A) (f : A -> res B) : res B := match r with Ok a => f a | Bug => Bug end.

(** strcmp *)
Definition streq (a b : list Z) : bool := if list_eq_dec Z.eq_dec a b then true else false.

(** settings.h:31-49, read_constants.h: limits and results *)
Definition MAX_NAME_SIZE : Z := 244.
Definition MAX_DATA_SIZE : Z := 1024.
Definition OKAY : Z := 0.
Definition ERROR : Z := 1.          (* RRR_READ_HARD_ERROR *)
Definition PARSE_ERROR : Z := 2.    (* RRR_READ_SOFT_ERROR *)
Definition NOT_FOUND : Z := 4.      (* RRR_READ_INCOMPLETE *)

(** settings.h:51-56 [struct rrr_setting]: the type and the data; [VNone] is the zeroed
    element left by a failing __rrr_settings_add_raw. *)
Inductive value : Type := VNone | VString (s : list Z) | VUint (x : Z).
Record setting : Type := mk_setting { s_name : list Z; s_value : value }.
(** setting->data_size *)
Definition data_size (v : value) : Z := match v with VNone => 0 | VString s => zlen s + 1 | VUint _ => 8 end.

(** settings.h:67-73 [struct rrr_settings] and 75-77 [struct rrr_settings_used]; the flags after
    the last setting are kept too. *)
Record settings : Type := mk_settings { t_max : Z; t_list : list setting }.
Definition settings_new (count : Z) : settings := mk_settings count [].
Definition used_init (s : settings) : list bool := repeat false (Z.to_nat (t_max s)).

(** settings.c:128-159 [__rrr_settings_find_setting], [__rrr_settings_find_setting_const]: index and
    setting *)
Fixpoint find (l : list setting) (name : list Z) (i : nat) : option (nat * setting) :=
  match l with
  | [] => None
  | x :: r => if streq (s_name x) name then Some (i, x) else find r name (S i)
  end.
Fixpoint set_nth {A : Type} (l : list A) (i : nat) (x : A) : list A :=
  match l, i with
  | _ :: r, O => x :: r
  | y :: r, S j => y :: set_nth r j x
  | [], _ => []
  end.
Definition find_used (used : list bool) (s : settings) (name : list Z) : option setting * list bool :=
  match find (t_list s) name 0 with Some (i, x) => (Some x, set_nth used i true) | None => (None, used) end.

(** settings.c:224-311 [__rrr_settings_reserve], [__rrr_settings_set_setting_name],
    [__rrr_settings_add_raw] *)
Definition add_raw (s : settings) (name : list Z) (v : value) (replace_existing : bool) : res (Z * settings) :=
  match find (t_list s) name 0 with
  | Some (i, _) =>
      if replace_existing then
        if MAX_NAME_SIZE <? zlen name + 1 then Ok (1, mk_settings (t_max s) (set_nth (t_list s) i (mk_setting [] VNone)))
        else Ok (0, mk_settings (t_max s) (set_nth (t_list s) i (mk_setting name v)))
      else Ok (1, s)
  | None =>
      if t_max s <? zlen (t_list s) then Bug
      else if zlen (t_list s) =? t_max s then Ok (1, s)
      else if MAX_NAME_SIZE <? zlen name + 1 then Ok (1, mk_settings (t_max s) (t_list s ++ [mk_setting [] VNone]))
      else Ok (0, mk_settings (t_max s) (t_list s ++ [mk_setting name v]))
  end.

(** settings.c:557-598 *)
Definition add_string (s : settings) (name v : list Z) : res (Z * settings) := add_raw s name (VString v) false.
Definition replace_string (s : settings) (name v : list Z) : res (Z * settings) := add_raw s name (VString v) true.
Definition add_unsigned_integer (s : settings) (name : list Z) (x : Z) : res (Z * settings) := add_raw s name (VUint x) false.

(** settings.c:313-362 [__rrr_settings_get_string_noconvert]: result, string and flags *)
Definition get_string_noconvert (used : list bool) (s : settings) (name : list Z) : res (Z * option (list Z) * list bool) :=
  match find_used used s name with
  | (None, used) => Ok (NOT_FOUND, None, used)
  | (Some x, used) =>
      match s_value x with
      | VString v => if zlen v + 1 <=? 1 then Bug else Ok (0, Some v, used)
      | _ => Ok (1, None, used)
      end
  end.
(** settings.c:364-378 [rrr_settings_exists] *)
Definition exists_ (used : list bool) (s : settings) (name : list Z) : bool * list bool :=
  match find_used used s name with (Some _, used) => (true, used) | (None, used) => (false, used) end.

(** settings.c:398-442 [__rrr_settings_traverse_split_commas], the loop: [cur] is what is before the
    comma sought.  The callback gives zero for every element. *)
Fixpoint split_commas (v cur : list Z) : list (list Z) :=
  match v with
  | [] => [cur]
  | c :: r => if c =? 44 then cur :: match r with [] => [] | _ => split_commas r [] end else split_commas r (cur ++ [c])
  end.
(** the loop on a whole string *)
Definition commas (v : list Z) : list (list Z) := match v with [] => [] | _ => split_commas v [] end.
Definition traverse_split_commas (silent : bool) (used : list bool) (s : settings) (name : list Z)
    : res (Z * list (list Z) * list bool) :=
  bind (get_string_noconvert used s name) (fun '(ret, v, used) =>
  match v with
  | Some v => Ok (0, commas v, used)
  | None => Ok (if silent then 0 else 1, [], used)
  end).

(** settings.c:462-555 [rrr_settings_split_commas_to_array]: the elements, pointers into a copy of
    the value in which commas have become zero octets.  [starts] gives the positions stored
    in target->list by the second loop (534-541), [field] the string there. *)
Fixpoint starts (v : list Z) (i : Z) : list Z :=
  match v with
  | [] => []
  | c :: r => (if (c =? 44) && match r with [] => false | n :: _ => negb (n =? 0) end then [i + 1] else []) ++ starts r (i + 1)
  end.
Fixpoint field (v : list Z) : list Z := match v with [] => [] | c :: r => if c =? 44 then [] else c :: field r end.
Definition to_array (v : list Z) : list (list Z) :=
  match v with [] => [] | _ => map (fun i => field (skipn (Z.to_nat i) v)) (0 :: starts v 0) end.
Definition split_commas_to_array (used : list bool) (s : settings) (name : list Z) : res (Z * list (list Z) * list bool) :=
  bind (get_string_noconvert used s name) (fun '(ret, v, used) =>
  match v with Some v => Ok (0, to_array v, used) | None => Ok (1, [], used) end).

(** settings.c:600-639 [rrr_settings_setting_to_string] *)
Definition to_string (v : value) : res (list Z) :=
  match v with VString s => Ok s | VUint x => Ok (dec_str x) | VNone => Bug end.
(** settings.c:641-699 [rrr_settings_setting_to_uint].  After the branch for unsigned integers
    (650) the word "else" is missing, so that the last branch (689) is entered. *)
Definition to_uint (v : value) : res (Z * Z) :=
  match v with
  | VUint x => Bug
  | VString s => if forallb is_dec_digit s then Ok (0, Z.min (dec_val s) (2^64 - 1)) else Ok (1, 0)
  | VNone => Bug
  end.

(** settings.c:761-776 [rrr_settings_read_string], [rrr_settings_read_unsigned_integer] *)
Definition read_string (used : list bool) (s : settings) (name : list Z) : res (Z * option (list Z) * list bool) :=
  match find_used used s name with
  | (None, used) => Ok (NOT_FOUND, None, used)
  | (Some x, used) => bind (to_string (s_value x)) (fun v => Ok (0, Some v, used))
  end.
Definition read_unsigned_integer (used : list bool) (s : settings) (name : list Z) : res (Z * Z * list bool) :=
  match find_used used s name with
  | (None, used) => Ok (NOT_FOUND, 0, used)
  | (Some x, used) => bind (to_uint (s_value x)) (fun '(ret, v) => Ok (ret, v, used))
  end.

(** settings.c:812-844 [rrr_settings_check_yesno]: return value and result *)
Definition yesno (v : list Z) : Z * Z :=
  match v with
  | c :: _ => if (c =? 121) || (c =? 89) || (c =? 49) then (0, 1)
              else if (c =? 110) || (c =? 78) || (c =? 48) then (0, 0) else (PARSE_ERROR, 0)
  | [] => (PARSE_ERROR, 0)
  end.
Definition check_yesno (used : list bool) (s : settings) (name : list Z) : res (Z * Z * list bool) :=
  bind (read_string used s name) (fun '(ret, v, used) =>
  match v with Some v => Ok (yesno v, used) | None => Ok (ret, -1, used) end).

(** settings.c:846-863 [rrr_settings_check_all_used] *)
Fixpoint all_used (l : list setting) (used : list bool) : Z :=
  match l, used with
  | [], _ => 0
  | _ :: r, true :: u => all_used r u
  | _ :: _, _ => 1
  end.
Definition check_all_used (s : settings) (used : list bool) : Z := all_used (t_list s) used.

(** settings.c:942-958 [__rrr_settings_set_used] *)
Definition set_used (used : list bool) (s : settings) (name : list Z) (b : bool) : list bool :=
  match find (t_list s) name 0 with Some (i, _) => set_nth used i b | None => used end.

(** settings.c:890-914 [rrr_settings_dump]: the lines printed *)
Fixpoint dump (l : list setting) : res (list (list Z)) :=
  match l with
  | [] => Ok []
  | x :: r => bind (to_string (s_value x)) (fun v => bind (dump r) (fun d => Ok ((s_name x ++ 61 :: v) :: d)))
  end.

(** settings.c:91-126 [rrr_settings_copy] *)
Definition copy (s : settings) : settings := mk_settings (t_max s) (t_list s).

(** settings.c:976-1055 [__rrr_setting_pack], [rrr_settings_iterate_packed]: the fields of the packed
    settings given to the callback, which gives zero.  [p_type] 0 is a zeroed setting. *)
Record packed : Type := mk_packed { p_name : list Z; p_type : Z; p_used : Z; p_data_size : Z; p_value : value }.
Definition type_of (v : value) : Z := match v with VNone => 0 | VString _ => 1 | VUint _ => 2 end.
Definition pack (x : setting) (used : bool) : option packed :=
  if MAX_DATA_SIZE <? data_size (s_value x) then None
  else Some (mk_packed (s_name x) (type_of (s_value x)) (if used then 1 else 0) (data_size (s_value x)) (s_value x)).
Fixpoint iterate_packed (l : list setting) (used : list bool) : Z * list packed :=
  match l with
  | [] => (0, [])
  | x :: r =>
      match pack x (hd false used) with
      | None => (1, [])
      | Some p => let '(ret, ps) := iterate_packed r (tl used) in (ret, p :: ps)
      end
  end.
(** settings.c:1074-1105 [rrr_settings_packed_validate], with a correct message size: the loop
    at 1081 does not look at the last octet of the name. *)
Definition packed_validate (p : packed) : bool :=
  (zlen (p_name p) <? MAX_NAME_SIZE - 1) && (p_data_size p <=? MAX_DATA_SIZE) && (p_type p <=? 3).
