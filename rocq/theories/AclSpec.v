(** What an access list file means. *)
From Coq Require Import Strings.String.
From Coq Require Import ZArith List Bool.
From Verif Require Import Common Utf8Spec TopicSpec.
From Verif Require ParseSpec.
From Verif Require Import PwdSpec.
Import ListNotations.
Open Scope Z_scope.

(** Words are written in any mixture of cases. *)
Definition word (w : string) (l : list Z) : Prop := map ParseSpec.lower l = map ParseSpec.lower (str_bytes w).
Definition blanks (b : list Z) : Prop := Forall (fun c => blank c = true) b.
Definition action_word (w : list Z) (a : Z) : Prop := word "DENY" w /\ a = 0 \/ word "READ" w /\ a = 1 \/ word "WRITE" w /\ a = 2.
Definition user_char (c : Z) : Prop := 97 <= c <= 122 \/ 65 <= c <= 90 \/ c = 95 \/ 48 <= c <= 57.

(** A line of the file is a statement.  The name of a topic is the rest of the line; it does not
    begin with a blank. *)
Inductive statement : Type := Topic (name : list Z) | Default (action : Z) | User (name : list Z) (action : Z).
Definition is_statement (l : list Z) (s : statement) : Prop :=
  match s with
  | Topic name => exists k b, l = k ++ b ++ name /\ word "TOPIC" k /\ blanks b /\ b <> [] /\ match name with c :: _ => blank c = false | [] => False end
  | Default a => exists k b w b', l = k ++ b ++ w ++ b' /\ word "DEFAULT" k /\ blanks b /\ b <> [] /\ action_word w a /\ blanks b'
  | User name a => exists k b b' w b'', l = k ++ b ++ name ++ b' ++ w ++ b'' /\ word "USER" k /\ blanks b /\
      Forall user_char name /\ name <> [] /\ blanks b' /\ b' <> [] /\ action_word w a /\ blanks b''
  end.

(** Lines which begin with # do not count. *)
Definition comment (l : list Z) : bool := match l with c :: _ => c =? 35 | [] => false end.
Definition statements (text : list Z) (ss : list statement) : Prop := Forall2 is_statement (filter (fun l => negb (comment l)) (lines text)) ss.

(** A topic and the statements up to the next one: not more than one default, DENY if there is
    none, and users. *)
Record block : Type := mk_block { b_topic : list Z; b_default : Z; b_users : list (list Z * Z) }.
Definition is_topic (s : statement) : bool := match s with Topic _ => true | _ => false end.
Definition defaults (ss : list statement) : list Z := flat_map (fun s => match s with Default a => [a] | _ => [] end) ss.
Definition users (ss : list statement) : list (list Z * Z) := flat_map (fun s => match s with User n a => [(n, a)] | _ => [] end) ss.
Inductive blocks : list statement -> list block -> Prop :=
| B_end : blocks [] []
| B_topic : forall name ss d rest bs, forallb (fun s => negb (is_topic s)) ss = true -> (defaults ss = [] /\ d = 0 \/ defaults ss = [d]) -> blocks rest bs ->
    blocks (Topic name :: ss ++ rest) (mk_block name d (users ss) :: bs).

(** The rule of a block, if its topic is a legal filter. *)
Definition block_rule (b : block) (r : acl_rule) : Prop :=
  utf8_well_formed (b_topic b) /\ zlen (b_topic b) <= 65535 /\ join (rule_filter r) = b_topic b /\ is_levels (rule_filter r) /\ legal_filter (rule_filter r) /\
  rule_default r = b_default b /\ rule_users r = b_users b.

(** The rules a file states. *)
Definition states (text : list Z) (rules : list acl_rule) : Prop :=
  exists ss bs, statements text ss /\ blocks ss bs /\ Forall2 block_rule bs rules.
