(** What MQTT topics, filters and access lists mean. *)
From Coq Require Import ZArith List Bool.
From Verif Require Import Common Utf8Spec.
Import ListNotations.
Open Scope Z_scope.

Definition level := list Z.

(** A topic or filter is its levels joined by '/'. *)
Fixpoint join (ls : list level) : list Z :=
  match ls with
  | [] => []
  | [l] => l
  | l :: r => l ++ [47] ++ join r
  end.

(** A level holds neither separators nor NUL characters. *)
Definition is_level (l : level) : Prop := ~ In 47 l /\ ~ In 0 l.
Definition is_levels (ls : list level) : Prop := ls <> [] /\ Forall is_level ls.

Definition no_wildcard (l : level) : Prop := ~ In 35 l /\ ~ In 43 l.
Definition hash : level := [35].
Definition plus : level := [43].

(** Filters: '+' fills a level, '#' fills the last level (OASIS MQTT 3.1.1,
    section 4.7.1). *)
Inductive legal_filter : list level -> Prop :=
| LF_nil : legal_filter []
| LF_lit : forall l fs, no_wildcard l -> legal_filter fs -> legal_filter (l :: fs)
| LF_plus : forall fs, legal_filter fs -> legal_filter (plus :: fs)
| LF_hash : legal_filter [hash].

(** Topic names: no wildcards at all. *)
Definition legal_topic (ls : list level) : Prop := Forall no_wildcard ls.

Definition dollar (l : level) : Prop := exists r, l = 36 :: r.

(** The level by level rules followed by RRR: '+' stands for one level, '#' for
    one or more, and neither stands for a level starting with '$'. *)
Inductive filter_match : list level -> list level -> Prop :=
| FM_end : filter_match [] []
| FM_hash : forall t ts, ~ dollar t -> filter_match [hash] (t :: ts)
| FM_plus : forall fs t ts, ~ dollar t -> filter_match fs ts -> filter_match (plus :: fs) (t :: ts)
| FM_lit : forall l fs ts, no_wildcard l -> filter_match fs ts -> filter_match (l :: fs) (l :: ts).

(** The rules of the standard: '#' also stands for no level at all (4.7.1.2), and
    only a wildcard at the beginning of a filter is kept from matching a topic
    starting with '$' (4.7.2). *)
Inductive std_levels : list level -> list level -> Prop :=
| SL_end : std_levels [] []
| SL_hash : forall ts, std_levels [hash] ts
| SL_plus : forall fs t ts, std_levels fs ts -> std_levels (plus :: fs) (t :: ts)
| SL_lit : forall l fs ts, no_wildcard l -> std_levels fs ts -> std_levels (l :: fs) (l :: ts).
Definition std_match (fs ts : list level) : Prop :=
  std_levels fs ts /\
  ~ ((hd_error fs = Some hash \/ hd_error fs = Some plus) /\ (exists t, hd_error ts = Some t /\ dollar t)).

(** Access lists.  Entries are looked through from first to last, the last one
    whose filter matches decides.  Within an entry the last line naming the user
    decides, otherwise the default does.  0 is DENY, 1 READ, 2 WRITE. *)
Record acl_rule : Type := mk_rule { rule_filter : list level; rule_default : Z; rule_users : list (list Z * Z) }.

Definition last_such {A} (P : A -> Prop) (l : list A) (x : A) : Prop :=
  exists before after, l = before ++ x :: after /\ P x /\ Forall (fun y => ~ P y) after.

(** The action a rule gives to a user ([[]] is a connection without user name). *)
Definition rule_action (r : acl_rule) (user : list Z) (action : Z) : Prop :=
  (user <> [] /\ exists u, last_such (fun x => fst x = user) (rule_users r) u /\ action = snd u) \/
  ((user = [] \/ Forall (fun x => fst x <> user) (rule_users r)) /\ action = rule_default r).

Definition may_read (action : Z) : Prop := action = 1 \/ action = 2.
Definition may_write (action : Z) : Prop := action = 2.

(** When an entry of the access list is taken to apply to a subscription request:
    like filter matching, but a '+' on either side stands for any level except
    that '+' in the request does not stand for an entry level starting with '$',
    and a '#' in the request is only met by a '#' in the entry. *)
Inductive acl_match : list level -> list level -> Prop :=
| AM_end : acl_match [] []
| AM_hash : forall s ss, acl_match [hash] (s :: ss)
| AM_plus_any : forall ms s ss, s <> hash -> acl_match ms ss -> acl_match (plus :: ms) (s :: ss)
| AM_sub_plus : forall m ms ss, no_wildcard m -> ~ dollar m -> acl_match ms ss -> acl_match (m :: ms) (plus :: ss)
| AM_lit : forall l ms ss, no_wildcard l -> acl_match ms ss -> acl_match (l :: ms) (l :: ss).

(** Every '+' of the request lies opposite a wildcard of the entry. *)
Definition plus_covered (entry request : list level) : Prop :=
  forall i, nth_error request i = Some plus ->
    nth_error entry i = Some plus \/ exists j, (j <= i)%nat /\ nth_error entry j = Some hash.
