(** What the settings of an instance are to be: a table from names to strings, of which
    the order of definition and the names asked for are remembered. *)
From Coq Require Import ZArith List Bool.
From Verif Require Import Common Dec SettingsModel.
Import ListNotations.
Open Scope Z_scope.

Definition name := list Z.
Definition text := list Z.

(** What a program does with settings. *)
Inductive op : Type :=
| Add (n : name) (v : text)        (* from the configuration file, rrr_settings_add_string *)
| Replace (n : name) (v : text)    (* rrr_settings_replace_string *)
| Get (n : name)                   (* rrr_settings_get_string_noconvert *)
| Read (n : name)                  (* rrr_settings_read_string *)
| ReadUint (n : name)
| YesNo (n : name)
| Exists_ (n : name)
| Commas (n : name)                (* rrr_settings_traverse_split_commas *)
| CommaArray (n : name)            (* rrr_settings_split_commas_to_array *)
| SetUsed (n : name) (b : bool)
| AllUsed | Dump.
Inductive out : Type :=
| Ret (z : Z) | Str (z : Z) (s : option text) | Num (z x : Z) | Flag (b : bool) | Elements (z : Z) (l : list text) | Lines (l : list text).

(** ** The table *)
Record table : Type := mk_table { k_names : list name; k_value : name -> option text; k_used : name -> bool }.
Definition upd {A : Type} (f : name -> A) (n : name) (x : A) : name -> A := fun m => if streq m n then x else f m.
Definition empty : table := mk_table [] (fun _ => None) (fun _ => false).
Definition look (t : table) (n : name) : table :=
  match k_value t n with Some _ => mk_table (k_names t) (k_value t) (upd (k_used t) n true) | None => t end.

(** The elements between commas; a comma at the end does not begin another one. *)
Fixpoint fields (v : text) : list text :=
  match v with
  | [] => [[]]
  | c :: r => if c =? 44 then [] :: fields r else match fields r with f :: fs => (c :: f) :: fs | [] => [] end
  end.
Definition elements (v : text) : list text :=
  let fs := fields v in match last fs [] with [] => removelast fs | _ => fs end.

Definition of (o : option text) (found : text -> out) (missing : out) : out := match o with Some v => found v | None => missing end.

Definition of_text (o : option text) : text := match o with Some v => v | None => [] end.

Definition spec_step (max : Z) (t : table) (o : op) : table * out :=
  match o with
  | Add n v =>
      match k_value t n with
      | Some _ => (t, Ret 1)                                                  (* defined twice *)
      | None => if zlen (k_names t) <? max then (mk_table (k_names t ++ [n]) (upd (k_value t) n (Some v)) (k_used t), Ret 0)
                else (t, Ret 1)
      end
  | Replace n v =>
      match k_value t n with
      | Some _ => (mk_table (k_names t) (upd (k_value t) n (Some v)) (k_used t), Ret 0)
      | None => if zlen (k_names t) <? max then (mk_table (k_names t ++ [n]) (upd (k_value t) n (Some v)) (k_used t), Ret 0)
                else (t, Ret 1)
      end
  | Get n | Read n => (look t n, of (k_value t n) (fun v => Str 0 (Some v)) (Str NOT_FOUND None))
  | ReadUint n =>
      (look t n, of (k_value t n) (fun v => if forallb is_dec_digit v then Num 0 (Z.min (dec_val v) (2^64 - 1)) else Num 1 0) (Num NOT_FOUND 0))
  | YesNo n =>
      (look t n, of (k_value t n) (fun v => match v with
                   | c :: _ => if existsb (Z.eqb c) [121; 89; 49] then Num 0 1 else if existsb (Z.eqb c) [110; 78; 48] then Num 0 0 else Num PARSE_ERROR 0
                   | [] => Num PARSE_ERROR 0 end) (Num NOT_FOUND (-1)))
  | Exists_ n => (look t n, Flag (match k_value t n with Some _ => true | None => false end))
  | Commas n | CommaArray n => (look t n, of (k_value t n) (fun v => Elements 0 (elements v)) (Elements 1 []))
  | SetUsed n b => (match k_value t n with Some _ => mk_table (k_names t) (k_value t) (upd (k_used t) n b) | None => t end, Ret 0)
  | AllUsed => (t, Ret (if forallb (k_used t) (k_names t) then 0 else 1))
  | Dump => (t, Lines (map (fun n => n ++ 61 :: of_text (k_value t n)) (k_names t)))
  end.
Fixpoint spec_run (max : Z) (t : table) (os : list op) : list out :=
  match os with [] => [] | o :: r => let '(t', x) := spec_step max t o in x :: spec_run max t' r end.

(** ** The program *)
Definition step (st : settings * list bool) (o : op) : res (settings * list bool * out) :=
  let '(s, u) := st in
  match o with
  | Add n v => bind (add_string s n v) (fun '(ret, s) => Ok (s, u, Ret ret))
  | Replace n v => bind (replace_string s n v) (fun '(ret, s) => Ok (s, u, Ret ret))
  | Get n => bind (get_string_noconvert u s n) (fun '(ret, v, u) => Ok (s, u, Str ret v))
  | Read n => bind (read_string u s n) (fun '(ret, v, u) => Ok (s, u, Str ret v))
  | ReadUint n => bind (read_unsigned_integer u s n) (fun '(ret, x, u) => Ok (s, u, Num ret x))
  | YesNo n => bind (check_yesno u s n) (fun '(ret, x, u) => Ok (s, u, Num ret x))
  | Exists_ n => let '(b, u) := exists_ u s n in Ok (s, u, Flag b)
  | Commas n => bind (traverse_split_commas false u s n) (fun '(ret, l, u) => Ok (s, u, Elements ret l))
  | CommaArray n => bind (split_commas_to_array u s n) (fun '(ret, l, u) => Ok (s, u, Elements ret l))
  | SetUsed n b => Ok (s, set_used u s n b, Ret 0)
  | AllUsed => Ok (s, u, Ret (check_all_used s u))
  | Dump => bind (dump (t_list s)) (fun l => Ok (s, u, Lines l))
  end.
Fixpoint run (st : settings * list bool) (os : list op) : res (list out) :=
  match os with [] => Ok [] | o :: r => bind (step st o) (fun '(st, x) => bind (run st r) (fun l => Ok (x :: l))) end.

(** Names shorter than 244 octets and values which are not empty, as the configuration file
    always has them; strings without zero octet. *)
Definition fits (o : op) : Prop :=
  match o with
  | Add n v | Replace n v => zlen n < 244 /\ v <> [] /\ ~ In 0 v
  | _ => True
  end.

(** Elements with commas between them. *)
Fixpoint comma_join (ls : list text) : text :=
  match ls with [] => [] | [l] => l | l :: r => l ++ 44 :: comma_join r end.
