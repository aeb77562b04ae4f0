(** Model of src/lib/map.c: the tag/value map used for settings and state. *)
From Coq Require Import ZArith List Bool.
From Verif Require Import Common.
Import ListNotations.
Open Scope Z_scope.

(** map.h:71-80.  A map is the list of its items in list order; tags and values
    are C strings (never NULL here: every constructor allocates both).  The
    [value_length] member is not modelled, allocation failure is not modelled. *)
Definition item := (list Z * list Z)%type.
Definition rmap := list item.

(** strcmp (a, b) == 0 *)
Definition str_eqb (a b : list Z) : bool := if list_eq_dec Z.eq_dec a b then true else false.

(** map.c:147-161 [__rrr_map_item_remove_by_tag] *)
Definition map_remove (m : rmap) (tag : list Z) : rmap := filter (fun it => negb (str_eqb tag (fst it))) m.
(** map.c:163-179 [__rrr_map_item_add] *)
Definition map_item_add (m : rmap) (it : item) (prepend unique : bool) : rmap :=
  let m := if unique then map_remove m (fst it) else m in
  if prepend then it :: m else m ++ [it].
(** map.c:270-276 [rrr_map_item_replace_new] *)
Definition map_replace (m : rmap) (tag value : list Z) : rmap := map_item_add m (tag, value) false true.
(** map.c:372-378 [rrr_map_item_add_new] *)
Definition map_add_new (m : rmap) (tag value : list Z) : rmap := map_item_add m (tag, value) false false.
(** map.c:403-409 [rrr_map_item_prepend_new] *)
Definition map_prepend_new (m : rmap) (tag value : list Z) : rmap := map_item_add m (tag, value) true false.
(** map.c:344-370 [rrr_map_item_replace_new_with_callback]; [confirm] is what the
    callback returned; the first component is the return value. *)
Definition map_replace_confirm (m : rmap) (tag value : list Z) (confirm : Z) : Z * rmap :=
  if confirm =? 0 then (0, map_replace m tag value) else (confirm, m).
(** map.c:472-482 [rrr_map_get_value] *)
Fixpoint map_get (m : rmap) (tag : list Z) : option (list Z) :=
  match m with
  | [] => None
  | (t, v) :: r => if str_eqb t tag then Some v else map_get r tag
  end.

(** strstr (s, d) for a non-empty [d]: the octets before the first occurrence and
    those after it. *)
Fixpoint strstr_split (s d : list Z) : option (list Z * list Z) :=
  if str_eqb (firstn (length d) s) d then Some ([], skipn (length d) s)
  else match s with
       | [] => None
       | c :: r => match strstr_split r d with Some (a, b) => Some (c :: a, b) | None => None end
       end.
(** map.c:411-458 [rrr_map_parse_pair]; an empty [delimiter] stands for NULL or "".
    [None] is return value 1. *)
Definition map_parse_pair (m : rmap) (input delimiter : list Z) : option rmap :=
  match delimiter with
  | [] => Some (map_add_new m input [])
  | _ =>
      match strstr_split input delimiter with
      | Some (tag, []) => None
      | Some (tag, value) => Some (map_add_new m tag value)
      | None => Some (map_add_new m input [])
      end
  end.
