(** What route and method definitions are to mean, from their text.  Nothing here refers to the
    parser or the executor: the instructions, how they are written, which sequences of them are
    definitions, and what they decide. *)
From Coq Require Import Strings.String.
From Coq Require Import ZArith List Bool.
From Verif Require Import Common TopicSpec.
Import ListNotations.
Open Scope Z_scope.

(** ** Instructions *)
Inductive instr : Type :=
| Topic (f : list Z) | Has (t : list Z) | Const (b : bool) | Dest (d : list Z)
| And | Or | Not | Apply | Pop | Bail.

(** ** How they are written *)
Definition blank_char (c : Z) : Prop := c = 32 \/ c = 9 \/ c = 13 \/ c = 10.
Definition blanks (l : list Z) : Prop := Forall blank_char l.
Definition newline (c : Z) : Prop := c = 13 \/ c = 10.
Definition tag_char (c : Z) : Prop := 48 <= c <= 57 \/ 65 <= c <= 90 \/ 97 <= c <= 122 \/ c = 95.
Definition name_char (c : Z) : Prop := tag_char c \/ c = 45.
(** Topic filters run to the next control character, so spaces belong to them, but not at the
    beginning.  They are made of ASCII characters. *)
Definition filter_text (f : list Z) : Prop :=
  Forall (fun c => 32 <= c <= 127) f /\ hd 32 f <> 32 /\ zlen f <= 65535 /\
  exists ls, is_levels ls /\ join ls = f /\ legal_filter ls.

(** Between instructions: blanks, and comments from # to the end of the line. *)
Inductive gap : list Z -> Prop :=
| G_blanks b : blanks b -> gap b
| G_comment b tx nl g : blanks b -> Forall (fun c => ~ newline c) tx -> newline nl -> gap g -> gap (b ++ 35 :: tx ++ nl :: g).

Definition op_text (i : instr) : option string :=
  match i with
  | And => Some "AND" | Or => Some "OR" | Not => Some "NOT" | Apply => Some "APPLY" | Pop => Some "POP" | Bail => Some "BAIL"
  | Const true => Some "TRUE" | Const false => Some "FALSE"
  | _ => None
  end%string.
Inductive token : list Z -> instr -> Prop :=
| T_word i w : op_text i = Some w -> token (str_bytes w) i
| T_topic b f : blanks b -> b <> [] -> filter_text f -> token (str_bytes "T" ++ b ++ f) (Topic f)
| T_has b v : blanks b -> b <> [] -> v <> [] -> Forall tag_char v -> token (str_bytes "H" ++ b ++ v) (Has v)
| T_dest k b v : k = "D"%string \/ k = "I"%string -> blanks b -> b <> [] -> v <> [] -> Forall name_char v ->
    token (str_bytes k ++ b ++ v) (Dest v).
(** What has to come after an instruction: a blank after TRUE, FALSE, tags and names, and one
    other than space after a filter. *)
Definition ended (i : instr) (rest : list Z) : Prop :=
  match i with
  | Topic _ => exists c r, rest = c :: r /\ (c = 9 \/ newline c)
  | Has _ | Dest _ | Const _ => exists c r, rest = c :: r /\ blank_char c
  | _ => True
  end.
Inductive written : list Z -> list instr -> Prop :=
| W_nil : written [] []
| W_cons g s i rest is : gap g -> token s i -> ended i rest -> written rest is -> written (g ++ s ++ rest) (i :: is).
(** Only blanks and comments, the last one perhaps without a line end. *)
Definition empty_text (l : list Z) : Prop := exists g, gap g /\ (l = g \/ exists tx, l = g ++ 35 :: tx).

(** ** Definitions *)
Inductive kind : Type := KTruth | KName.
(** What an instruction does to the kinds of the values on the stack, the top being first;
    nothing if its operands are not there. *)
Definition effect (i : instr) (k : list kind) : option (list kind) :=
  match i, k with
  | Topic _, _ | Has _, _ | Const _, _ => Some (KTruth :: k)
  | Dest _, _ => Some (KName :: k)
  | And, KTruth :: KTruth :: r | Or, KTruth :: KTruth :: r => Some (KTruth :: r)
  | Not, KTruth :: r => Some (KTruth :: r)
  | Apply, KName :: KTruth :: r => Some (KTruth :: r)
  | Pop, _ :: r => Some r
  | Bail, KTruth :: r => Some r
  | _, _ => None
  end.
(** The operands are always there, there are never more than 63 values, and the stack is empty
    after the last instruction and not before. *)
Inductive legal : list kind -> list instr -> Prop :=
| L_last i k : effect i k = Some [] -> legal k [i]
| L_step i k k' is : effect i k = Some k' -> k' <> [] -> zlen k' <= 63 -> legal k' is -> legal k (i :: is).
Definition definition (is : list instr) : Prop := legal [] is.

(** ** What a definition decides *)
(** The answers for a message: if a filter matches its topic, and if it has a tag. *)
Record answers : Type := mk_answers { matches : list Z -> bool; has : list Z -> bool }.
(** They are those for a message with this topic and these array tags. *)
Definition truthful (a : answers) (topic : list Z) (tags : list (list Z)) : Prop :=
  (forall fs, is_levels fs -> legal_filter fs ->
     (matches a (join fs) = true <-> topic <> [] /\ exists ts, is_levels ts /\ join ts = topic /\ filter_match fs ts)) /\
  (forall t, has a t = true <-> In t tags).
Inductive item : Type := Truth (b : bool) | Name (d : list Z).
(** The names applied with their truth values, in order, and if the definition bailed out. *)
Definition decisions : Type := list (bool * list Z).
Definition after_decision (b : bool) (d : list Z) (r : option (decisions * bool)) : option (decisions * bool) :=
  match r with Some (ds, bailed) => Some ((b, d) :: ds, bailed) | None => None end.
Fixpoint run (a : answers) (is : list instr) (st : list item) : option (decisions * bool) :=
  match is with
  | [] => match st with [] => Some ([], false) | _ => None end
  | i :: is =>
      match i, st with
      | Topic f, _ => run a is (Truth (matches a f) :: st)
      | Has t, _ => run a is (Truth (has a t) :: st)
      | Const b, _ => run a is (Truth b :: st)
      | Dest d, _ => run a is (Name d :: st)
      | And, Truth x :: Truth y :: r => run a is (Truth (x && y) :: r)
      | Or, Truth x :: Truth y :: r => run a is (Truth (x || y) :: r)
      | Not, Truth x :: r => run a is (Truth (negb x) :: r)
      | Apply, Name d :: Truth b :: r => after_decision b d (run a is (Truth b :: r))
      | Pop, _ :: r => run a is r
      | Bail, Truth b :: r => if b then Some ([], true) else run a is r
      | _, _ => None
      end
  end.
(** Definitions are run one after the other until one bails out. *)
Fixpoint run_all (a : answers) (defs : list (list instr)) : option (decisions * bool) :=
  match defs with
  | [] => Some ([], false)
  | is :: r =>
      match run a is [] with
      | Some (ds, true) => Some (ds, true)
      | Some (ds, false) => match run_all a r with Some (ds', b) => Some (ds ++ ds', b) | None => None end
      | None => None
      end
  end.

(** ** Receivers *)
(** The last decision on a name counts. *)
Fixpoint decided (ds : decisions) (name : list Z) : option bool :=
  match ds with
  | [] => None
  | (b, d) :: r => match decided r name with Some x => Some x | None => if list_eq_dec Z.eq_dec d name then Some b else None end
  end.
Definition someone (ds : decisions) : Prop := exists name, decided ds name = Some true.
(** A reader receives a message if it is chosen; if nobody is, all readers [old] let pass do. *)
Definition receives (ds : decisions) (old : list Z -> Prop) (name : list Z) : Prop :=
  decided ds name = Some true \/ (~ someone ds /\ old name).
Definition names (is : list instr) : list (list Z) := flat_map (fun i => match i with Dest d => [d] | _ => [] end) is.
