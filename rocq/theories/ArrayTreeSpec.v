(** What an array definition means, written from the manual (misc/man/rrr_post.1, ARRAY DEFINITION)
    and independent of how the code goes through it.  Of the model only the data types are used, and
    for single values and conditions the functions which C41-C45 and C58 are about. *)
From Coq Require Import ZArith List Bool.
From Verif Require Import Common TypeModel TypeSpec CondModel ArrayTreeModel.
Import ListNotations.
Open Scope Z_scope.

(** The values read so far, first one first, each with the octets it was read from. *)
Definition history : Type := list (value * list Z).
Definition values (h : history) : list value := map fst h.
Definition octets (h : history) : list Z := concat (map snd h).

(** The last value having exactly this tag. *)
Definition tagged (name : list Z) (v : value) : bool :=
  match v_tag v with [] => false | _ => if list_eq_dec Z.eq_dec (v_tag v) name then true else false end.
Fixpoint lookup (vs : list value) (name : list Z) : option value :=
  match vs with
  | [] => None
  | v :: r => match lookup r name with Some w => Some w | None => if tagged name v then Some v else None end
  end.

(** The number of a value: its first element if it holds 64 bit integers; of octets the last eight
    as a big endian number; 0 for nothing and 1 for a frame. *)
Definition number (v : value) : Z :=
  if v_type v =? TYPE_VAIN then 0
  else if v_type v =? TYPE_HDLC then 1
  else if (v_type v =? TYPE_BE) || (v_type v =? TYPE_H) || (v_type v =? TYPE_LE) then be_dec (rev (firstn 8 (v_data v)))
  else be_dec (skipn (length (v_data v) - 8) (v_data v)).

(** Names in conditions. *)
Definition environment (vs : list value) (name : list Z) : Z * Z * bool :=
  match lookup vs name with
  | None => (2, 0, false)
  | Some v => (0, number v, is_signed (v_flags v))
  end.
Definition is_true (vs : list value) (c : list carrier) : Prop := exists x, evaluate (environment vs) c = EOk x /\ x <> 0.
Definition is_false (vs : list value) (c : list carrier) : Prop := evaluate (environment vs) c = EOk 0.

(** A length or count: the one written, or the number of the value referred to. *)
Definition size_of (vs : list value) (ref : option (list Z)) (written n : Z) : Prop :=
  match ref with
  | None => n = written
  | Some name => exists v, lookup vs name = Some v /\ n = number v /\ 0 < n < 2^32
  end.
(** One value: [o] are its octets at the start of the input [i], [w] is the value. *)
Definition field (after : list Z) (vs : list value) (d : vdef) (i : list Z) (w : value) (o : list Z) : Prop :=
  exists len count rest,
    size_of vs (d_length_ref d) (v_import_length (d_value d)) len /\
    size_of vs (d_count_ref d) (v_elements (d_value d)) count /\
    i = o ++ rest /\ 0 < count /\
    (type_max_length (v_type (d_value d)) = 0 -> len = 0) /\ (type_max_length (v_type (d_value d)) <> 0 -> 0 < len <= type_max_length (v_type (d_value d))) /\
    do_import after (set_elements (set_import_length (d_value d) len) count) i = ROk (w, zlen o).

(** The block of IF, ELSIF and ELSE which is used: that of the first condition which is true, none
    before it failing. *)
Inductive chooses (vs : list value) : branches -> tree -> Prop :=
| C_none : chooses vs BEnd TEnd
| C_else t : chooses vs (BElse t) t
| C_true c t more : is_true vs c -> chooses vs (BElsif c t more) t
| C_false c t more u : is_false vs c -> chooses vs more u -> chooses vs (BElsif c t more) u.

(** [follows after t h i h' i']: with the values [h] read and the octets [i] left, the definition
    [t] leads to the values [h'] and the octets [i'].  REWIND takes the last values out and puts
    their octets back. *)
Inductive follows (after : list Z) : tree -> history -> list Z -> history -> list Z -> Prop :=
| F_end h i : follows after TEnd h i h i
| F_rewind keep gone i rest h' i' :
    follows after rest keep (octets gone ++ i) h' i' -> follows after (TRewind (zlen gone) rest) (keep ++ gone) i h' i'
| F_none rest h i h' i' : follows after rest h i h' i' -> follows after (TValues [] rest) h i h' i'
| F_value d ds rest h o i w h' i' :
    field after (values h) d (o ++ i) w o ->
    follows after (TValues ds rest) (h ++ [(w, o)]) i h' i' ->
    follows after (TValues (d :: ds) rest) h (o ++ i) h' i'
| F_if c t more rest u h i h1 i1 h' i' :
    chooses (values h) (BElsif c t more) u ->
    follows after u h i h1 i1 -> follows after rest h1 i1 h' i' ->
    follows after (TIf c t more rest) h i h' i'.

(** ** Parts of a definition *)
Fixpoint defs (t : tree) : list vdef :=
  match t with TEnd => [] | TRewind _ r => defs r | TValues ds r => ds ++ defs r | TIf _ t m r => defs t ++ defs_b m ++ defs r end
with defs_b (b : branches) : list vdef :=
  match b with BEnd => [] | BElsif _ t m => defs t ++ defs_b m | BElse t => defs t end.
Fixpoint conds (t : tree) : list (list carrier) :=
  match t with TEnd => [] | TRewind _ r => conds r | TValues _ r => conds r | TIf c t m r => c :: conds t ++ conds_b m ++ conds r end
with conds_b (b : branches) : list (list carrier) :=
  match b with BEnd => [] | BElsif c t m => c :: conds t ++ conds_b m | BElse t => conds t end.
Fixpoint rewinds (t : tree) : list Z :=
  match t with TEnd => [] | TRewind k r => k :: rewinds r | TValues _ r => rewinds r | TIf _ t m r => rewinds t ++ rewinds_b m ++ rewinds r end
with rewinds_b (b : branches) : list Z :=
  match b with BEnd => [] | BElsif _ t m => rewinds t ++ rewinds_b m | BElse t => rewinds t end.

(** A name used in a reference or, between braces, in a condition. *)
Definition uses (ds : list vdef) (cs : list (list carrier)) (name : list Z) : Prop :=
  (exists d, In d ds /\ (d_length_ref d = Some name \/ d_count_ref d = Some name)) \/
  (exists c r, In c cs /\ In (CVal (123 :: r)) c /\ name = removelast r).

(** An integer of one or two octets, which may serve as count. *)
Definition short_int (d : vdef) : Prop :=
  In (v_type (d_value d)) [TYPE_BE; TYPE_H; TYPE_LE] /\ d_length_ref d = None /\ v_import_length (d_value d) <= 2.

(** Definitions of values the theorems are about: no fixed point numbers and messages; at most
    2^22 - 1 elements, or their count in an integer of one or two octets; otherwise any which the
    parser of definitions lets through (array_tree.c:383-530). *)
Definition plain_def (ds : list vdef) (d : vdef) : Prop :=
  let v := d_value d in
  v_data v = [] /\
  In (v_type v) [TYPE_BE; TYPE_H; TYPE_LE; TYPE_BLOB; TYPE_SEP; TYPE_STX; TYPE_USTR; TYPE_ISTR; TYPE_STR; TYPE_NSEP; TYPE_ERR; TYPE_VAIN; TYPE_HDLC] /\
  (type_max_length (v_type v) = 0 -> v_import_length v = 0 /\ d_length_ref d = None /\ v_elements v = 1 /\ d_count_ref d = None) /\
  (type_max_length (v_type v) <> 0 -> 0 <= v_import_length v <= type_max_length (v_type v) /\ 1 <= v_elements v < 2^22) /\
  (forall name, d_count_ref d = Some name -> forall e, In e ds -> v_tag (d_value e) = name -> short_int e).
(** No tag is the beginning of another name used. *)
Definition distinct_names (ds : list vdef) (cs : list (list carrier)) : Prop :=
  forall name d s, uses ds cs name -> In d ds -> v_tag (d_value d) <> [] -> name = v_tag (d_value d) ++ s -> s = [].
(** REWIND is not used together with decimal numbers or frames. *)
Definition rewindable (ds : list vdef) (ks : list Z) : Prop :=
  Forall (fun k => 0 <= k) ks /\
  (Exists (fun k => 0 < k) ks -> forall d, In d ds -> ~ In (v_type (d_value d)) [TYPE_USTR; TYPE_ISTR; TYPE_HDLC]).
(** Conditions which are defined whatever their names stand for. *)
Definition defined_conds (cs : list (list carrier)) : Prop :=
  forall c cb, In c cs -> evaluate cb c <> EUb /\ evaluate cb c <> EBug.

Definition plain (t : tree) : Prop :=
  Forall (plain_def (defs t)) (defs t) /\ distinct_names (defs t) (conds t) /\ rewindable (defs t) (rewinds t) /\ defined_conds (conds t).
