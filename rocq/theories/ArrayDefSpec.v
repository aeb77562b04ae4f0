(** How array definitions are written, from the manual (misc/man/rrr_post.1, ARRAY DEFINITION), and
    independent of how the code reads them.  Conditions are those of CondSpec.v. *)
From Coq Require Import Strings.String.
From Coq Require Import ZArith List Bool.
From Verif Require Import Common TypeModel CondModel CondSpec ArrayTreeModel.
Import ListNotations.
Open Scope Z_scope.

(** ** Definitions as the user has them in mind: conditions are expressions. *)
Inductive dtree : Type :=
| DEnd
| DRewind (count : Z) (rest : dtree)
| DValues (ds : list vdef) (rest : dtree)
| DIf (e : expr) (t : dtree) (more : dbranches) (rest : dtree)
with dbranches : Type :=
| DBEnd
| DBElsif (e : expr) (t : dtree) (more : dbranches)
| DBElse (t : dtree).

(** ** One value: identifier, size, sign, count and tag, with nothing in between. *)
Definition names : list (string * Z) :=
  [ ("be", TYPE_BE); ("h", TYPE_H); ("le", TYPE_LE); ("blob", TYPE_BLOB); ("ustr", TYPE_USTR); ("istr", TYPE_ISTR);
    ("sep", TYPE_SEP); ("msg", TYPE_MSG); ("fixp", TYPE_FIXP); ("str", TYPE_STR); ("nsep", TYPE_NSEP); ("stx", TYPE_STX);
    ("err", TYPE_ERR); ("vain", TYPE_VAIN); ("hdlc", TYPE_HDLC) ]%string.
Definition is_name (n : list Z) : Prop := n <> [] /\ Forall name_char n.
(** Decimal digits and the number they write. *)
Definition decimal (s : list Z) (n : Z) : Prop := s <> [] /\ Forall digit s /\ n = number 10 (rev s).

Inductive size_text (max : Z) : Z -> option (list Z) -> list Z -> Prop :=
| size_none : max = 0 -> size_text max 0 None []
| size_number s n : decimal s n -> 1 <= n <= max -> size_text max n None s
| size_name n : 0 < max -> is_name n -> size_text max 0 (Some n) (123 :: n ++ [125]).
Inductive sign_text (ty : Z) : Z -> list Z -> Prop :=
| sign_none : sign_text ty 0 []
| sign_unsigned c : In ty [TYPE_BE; TYPE_H; TYPE_LE] -> c = 117 \/ c = 85 -> sign_text ty 0 [c]
| sign_signed c : In ty [TYPE_BE; TYPE_H; TYPE_LE] -> c = 115 \/ c = 83 -> sign_text ty 1 [c].
Inductive count_text (max : Z) : Z -> option (list Z) -> list Z -> Prop :=
| count_one : count_text max 1 None []
| count_number s n : decimal s n -> 1 <= n < 2^32 -> (max = 0 -> n = 1) -> count_text max n None (64 :: s)
| count_name n : max <> 0 -> is_name n -> count_text max 1 (Some n) (64 :: 123 :: n ++ [125]).
Inductive tag_text : list Z -> list Z -> Prop :=
| tag_none : tag_text [] []
| tag_name n : is_name n -> tag_text n (35 :: n).
Inductive writes : vdef -> list Z -> Prop :=
| writes_value id ty n nref flags count cref tag s1 s2 s3 s4 :
    In (id, ty) names ->
    size_text (type_max_length ty) n nref s1 -> sign_text ty flags s2 -> count_text (type_max_length ty) count cref s3 -> tag_text tag s4 ->
    writes (mk_vdef (mk_value ty flags tag n count []) nref cref) (str_bytes id ++ s1 ++ s2 ++ s3 ++ s4).

(** Values after each other, with commas.  A value has 3 to 65 characters (see the findings). *)
Inductive values_text : list vdef -> list Z -> Prop :=
| values_one d s : writes d s -> 3 <= zlen s <= 65 -> values_text [d] s
| values_more d s b1 b2 ds s' : writes d s -> 3 <= zlen s <= 65 -> blanks b1 -> blanks b2 -> values_text ds s' ->
    values_text (d :: ds) (s ++ b1 ++ 44 :: b2 ++ s').

(** ** Whole definitions *)
(** Blanks and commas, which do not mean anything before IF, REWIND and semicolon. *)
Definition gap (g : list Z) : Prop := Forall (fun c => c = 44 \/ c = 32 \/ c = 9 \/ c = 13 \/ c = 10) g.
(** What comes after the last value of a list: something which is not part of it.  If there are
    more values, they are separate from the list only by two commas. *)
Definition apart (rest : dtree) (s : list Z) : Prop :=
  match rest with
  | DValues _ _ => exists b1 b2 s', blanks b1 /\ blanks b2 /\ s = b1 ++ 44 :: b2 ++ 44 :: s'
  | _ => exists c s', s = c :: s' /\ In c [44; 59; 32; 9; 13; 10]
  end.
(** [lays d s]: the text [s] is a way of writing [d]. *)
Inductive lays : dtree -> list Z -> Prop :=
| lays_gap g d s : gap g -> bare d s -> lays d (g ++ s)
with bare : dtree -> list Z -> Prop :=
| bare_end : bare DEnd [59]
| bare_rewind b k s rest s' : blanks b -> decimal s k -> zlen s <= 12 -> k < 2^32 -> lays rest s' ->
    bare (DRewind k rest) (str_bytes "REWIND" ++ b ++ s ++ s')
| bare_values ds s rest s' : values_text ds s -> lays rest s' -> apart rest s' -> bare (DValues ds rest) (s ++ s')
| bare_if c e t st more sm rest s : CondSpec.condition Never c e -> has_operator e -> lays t st -> lays_branches more sm -> lays rest s ->
    bare (DIf e t more rest) (str_bytes "IF" ++ c ++ st ++ sm ++ s)
with lays_branches : dbranches -> list Z -> Prop :=
| lays_none : lays_branches DBEnd []
| lays_else b t st : blanks b -> lays t st -> lays_branches (DBElse t) (b ++ str_bytes "ELSE" ++ st)
| lays_elsif b c e t st more sm : blanks b -> CondSpec.condition Never c e -> has_operator e -> lays t st -> lays_branches more sm ->
    lays_branches (DBElsif e t more) (b ++ str_bytes "ELSIF" ++ c ++ st ++ sm).

(** ** What is made of a definition *)
(** A condition having the value of the expression whatever the names in it stand for. *)
Definition means (c : list carrier) (e : expr) : Prop :=
  forall cb env, answers cb env ->
    evaluate cb c = match meaning env e with Value x _ => EOk (x mod 2^64) | Failed c => EErr c | Undefined => EUb end.
Fixpoint same (d : dtree) (t : tree) : Prop :=
  match d, t with
  | DEnd, TEnd => True
  | DRewind k d, TRewind j t => k = j /\ same d t
  | DValues ds d, TValues es t => ds = es /\ same d t
  | DIf e d m r, TIf c t b r' => means c e /\ same d t /\ same_branches m b /\ same r r'
  | _, _ => False
  end
with same_branches (m : dbranches) (b : branches) : Prop :=
  match m, b with
  | DBEnd, BEnd => True
  | DBElsif e d m, BElsif c t b => means c e /\ same d t /\ same_branches m b
  | DBElse d, BElse t => same d t
  | _, _ => False
  end.

(** What every accepted value has. *)
Definition accepted (d : vdef) : Prop :=
  let v := d_value d in
  let max := type_max_length (v_type v) in
  v_data v = [] /\ (exists id, In (id, v_type v) names) /\
  (v_flags v = 0 \/ v_flags v = 1 /\ In (v_type v) [TYPE_BE; TYPE_H; TYPE_LE]) /\
  Forall name_char (v_tag v) /\
  match d_length_ref d with
  | Some n => is_name n /\ v_import_length v = 0 /\ 0 < max
  | None => if max =? 0 then v_import_length v = 0 else 1 <= v_import_length v <= max
  end /\
  match d_count_ref d with
  | Some n => is_name n /\ v_elements v = 1 /\ 0 < max
  | None => 1 <= v_elements v < 2^32 /\ (max = 0 -> v_elements v = 1)
  end.
