(** Model of importing octets by an array definition, src/lib/array_tree.c: iteration over the
    definition with its branches, resolving references to earlier values, REWIND.

    Single values are imported as in TypeModel.v, conditions evaluated as in CondModel.v.
    Simplified: memory allocation succeeds, messages printed are left out. *)
From Coq Require Import ZArith List Bool.
From Verif Require Import Common TypeModel CondModel.
Import ListNotations.
Open Scope Z_scope.

(** read_constants.h:63-80 by array_tree.h:31-37 *)
Definition TREE_HARD : Z := 1. Definition TREE_SOFT : Z := 2. Definition TREE_INCOMPLETE : Z := 4.
(** rrr_types.h [RRR_LENGTH_MAX]: lengths have 32 bits *)
Definition LENGTH_MAX : Z := 2^32 - 1.

(** type.h:253-265 [struct rrr_type_value] as the definition parser makes it: a value without data
    and the two references, [None] for NULL *)
Record vdef : Type := mk_vdef { d_value : value; d_length_ref : option (list Z); d_count_ref : option (list Z) }.

(** array_tree.h:43-73 [struct rrr_array_tree], [struct rrr_array_node], [struct rrr_array_branch].
    The parser makes nodes with a REWIND count (array_tree.c:878-885), with a branch_if (290-302) or
    with values (900-911), so there is one constructor for each.  The branch_if of a node, its
    branches_elsif and its tree_else are given as one chain. *)
Inductive tree : Type :=
| TEnd
| TRewind (count : Z) (rest : tree)
| TValues (vs : list vdef) (rest : tree)
| TIf (cond : list carrier) (t : tree) (more : branches) (rest : tree)
with branches : Type :=
| BEnd
| BElsif (cond : list carrier) (t : tree) (more : branches)
| BElse (t : tree).

(** array_tree.c:1233-1238 [struct rrr_array_tree_import_callback_data]: the array, first value
    first, and pos as distance from start *)
Definition state : Type := list value * Z.

(** strncmp(name, tag, tag_length) == 0: the tag is a beginning of the name *)
Fixpoint begins (tag name : list Z) : bool :=
  match tag, name with
  | [], _ => true
  | a :: r, b :: s => (a =? b) && begins r s
  | _ :: _, [] => false
  end.
(** The value found by searching from the last one; the pointer tag is NULL if there is no tag
    (type.c:1445-1462) *)
Definition matches (name : list Z) (v : value) : bool :=
  match v_tag v with [] => false | _ => begins (v_tag v) name end.
Definition find_tag (vs : list value) (name : list Z) : option value := find (matches name) (rev vs).

(** array_tree.c:1296-1319 [__rrr_array_tree_import_value_resolve_ref] with 1306-1319 [RESOLVE_REF] *)
Definition resolve_ref (vs : list value) (ref : option (list Z)) (old : Z) : res Z :=
  match ref with
  | None => ROk old
  | Some name =>
      match find_tag vs name with
      | None => RErr TREE_SOFT
      | Some v =>
          rbind (to_64 v) (fun x =>
          if LENGTH_MAX <? x then RErr TREE_SOFT
          else if x =? 0 then RErr TREE_SOFT
          else ROk x)
      end
  end.

Section Import.
(** The octets in memory behind the buffer, see TypeModel.v, and the buffer *)
Variable after buf : list Z.

(** array_tree.c:1337-1420 [__rrr_array_tree_import_value_callback] *)
Definition import_value (d : vdef) (s : state) : res state :=
  let '(vs, pos) := s in
  let v := d_value d in
  rbind (resolve_ref vs (d_length_ref d) (v_import_length v)) (fun il =>
  rbind (resolve_ref vs (d_count_ref d) (v_elements v)) (fun count =>
  let v := set_elements (set_import_length v il) count in
  if (il =? 0) && negb (type_max_length (v_type v) =? 0) then RErr TREE_SOFT
  else if count =? 0 then RErr TREE_SOFT
  else if type_max_length (v_type v) <? il then RErr TREE_SOFT
  else match do_import after v (skipn (Z.to_nat pos) buf) with
       | ROk (w, n) => if (n =? 0) && negb (v_type w =? TYPE_VAIN) then RBug else ROk (vs ++ [w], pos + n)
       | RErr c => RErr (if (c =? TREE_INCOMPLETE) || (c =? TREE_SOFT) then c else TREE_HARD)
       | RBug => RBug
       | RUb => RUb
       end)).

(** array_tree.c:1195-1200 [RRR_LL_ITERATE_BEGIN(array)] in [__rrr_array_tree_iterate] *)
Fixpoint import_values (ds : list vdef) (s : state) : res state :=
  match ds with
  | [] => ROk s
  | d :: r => rbind (import_value d s) (import_values r)
  end.

(** array_tree.c:1257-1273, the loop popping values, last one first; multiplication and addition
    abort the program when 32 bits are exceeded *)
Fixpoint rewind_loop (n : nat) (rvs : list value) (pos total : Z) : res (list value * Z) :=
  match n with
  | O => ROk (rvs, pos)
  | S m =>
      match rvs with
      | [] => ROk ([], pos)
      | v :: r =>
          let l := v_import_length v * v_elements v in
          if LENGTH_MAX <? l then RBug
          else if LENGTH_MAX <? total + l then RBug
          else if pos - l <? 0 then RBug
          else rewind_loop m r (pos - l) (total + l)
      end
  end.
(** array_tree.c:1257-1294 [__rrr_array_tree_import_rewind_callback]; not called for zero (1188) *)
Definition rewind (count : Z) (s : state) : res state :=
  let '(vs, pos) := s in
  if count <=? 0 then ROk s
  else if zlen vs <? count then RErr TREE_SOFT
  else rbind (rewind_loop (Z.to_nat count) (rev vs) pos 0) (fun '(r, p) => ROk (rev r, p)).

(** array_tree.c:1422-1440 [__rrr_array_tree_import_condition_name_evaluate_callback]: return
    value, number and sign *)
Definition name_value (vs : list value) (name : list Z) : Z * Z * bool :=
  match find_tag vs name with
  | None => (TREE_SOFT, 0, false)
  | Some v => match to_64 v with ROk x => (0, x, is_signed (v_flags v)) | _ => (0, 0, false) end
  end.
Definition has_64 (v : value) : bool := match to_64 v with ROk _ => true | _ => false end.
(** array_tree.c:1442-1466 [__rrr_array_tree_import_condition_callback]: true or false, or an
    error.  Taken as undefined if any value in the array could not be read as number. *)
Definition condition (cond : list carrier) (vs : list value) : res bool :=
  if negb (forallb has_64 vs) then RUb
  else match evaluate (name_value vs) cond with
       | EOk x => ROk (negb (x =? 0))
       | EErr c => RErr c
       | EUb => RUb
       | EBug => RBug
       end.

(** array_tree.c:1174-1248 [__rrr_array_tree_iterate] with 1148-1171
    [ITERATE_BRANCH_TREE_IF_TRUE].  The leaf callback (1454-1464) does nothing. *)
Fixpoint iterate (t : tree) (s : state) : res state :=
  match t with
  | TEnd => ROk s
  | TRewind count rest => rbind (rewind count s) (iterate rest)
  | TValues ds rest => rbind (import_values ds s) (iterate rest)
  | TIf c t more rest =>
      rbind (rbind (condition c (fst s)) (fun b => if b then iterate t s else iterate_branches more s)) (iterate rest)
  end
with iterate_branches (b : branches) (s : state) : res state :=
  match b with
  | BEnd => ROk s
  | BElsif c t more => rbind (condition c (fst s)) (fun b => if b then iterate t s else iterate_branches more s)
  | BElse t => iterate t s
  end.

(** array_tree.c:1512-1552 [rrr_array_tree_import_from_buffer]: the array given to the callback and
    the number of octets used *)
Definition import_from_buffer (t : tree) : res (list value * Z) := iterate t ([], 0).
End Import.
