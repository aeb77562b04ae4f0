(** The properties of the reader of access lists of the MQTT broker. *)
From Coq Require Import Strings.String.
From Coq Require Import ZArith List Bool Lia.
From Verif Require Import Common ParseModel TopicModel AclModel.
From Verif Require Import TopicSpec TopicProofs TopicProps AclSpec AclRead.
Import ListNotations.
Open Scope Z_scope.

Definition acl_text : list Z := str_bytes "# Everyone may read
TOPIC #
	default Read
Topic  a/+
USER u WRITE  
# USER v WRITE
  USER w deny" ++ [13; 10; 13; 10] ++ str_bytes "DEFAULT DENY".
Definition acl_text_rules : list acl_rule :=
  [ mk_rule [hash] 1 []; mk_rule [str_bytes "a"; plus] 0 [(str_bytes "u", 2); (str_bytes "w", 0)] ].

(** C108. Reading a file always comes to an end, without reading outside it, and gives the rules
    the file states, in their order; if it states none, because some line is not a statement, a
    statement is where it may not be or a topic is not a legal filter, reading fails. *)
Theorem acl_file_exact : forall text, bytes text -> ~ In 0 text -> zlen text <= 2^32 - 1 ->
  exists r, acl_file text = Ok r /\ forall es, r = Some es <-> exists rules, states text rules /\ es = map entry_of rules.
Proof. exact file_read. Qed.
Print Assumptions acl_file_exact.

Example acl_file_exact_ex :
  bytes acl_text /\ ~ In 0 acl_text /\ zlen acl_text <= 2^32 - 1 /\ acl_file acl_text = Ok (Some (map entry_of acl_text_rules)) /\
  acl_file (str_bytes "TOPIC a+
") = Ok None /\
  acl_file (str_bytes "TOPIC a
DEFAULT READ
DEFAULT READ
") = Ok None /\
  acl_file (str_bytes "DEFAULT READ
") = Ok None /\
  acl_file (str_bytes "TOPIC a
USER u READ WRITE
") = Ok None /\
  acl_file (str_bytes "TOPIC a
USER
u READ
") = Ok None.
Proof.
  split; [ now apply forallb_bytes | ]. split; [ now apply (existsb_not_in 0) | ]. repeat apply conj; vm_compute; try reflexivity. discriminate.
Qed.

(** C108. What a file states is unambiguous. *)
Theorem acl_file_unique : forall text rules rules', bytes text -> ~ In 0 text -> zlen text <= 2^32 - 1 ->
  states text rules -> states text rules' -> rules = rules'.
Proof. exact states_unique. Qed.
Print Assumptions acl_file_unique.

Example acl_file_unique_ex : states acl_text acl_text_rules.
Proof.
  destruct (acl_file_exact acl_text) as (r & R & H).
  { now apply forallb_bytes. } { now apply (existsb_not_in 0). } { vm_compute. discriminate. }
  assert (E : acl_file acl_text = Ok (Some (map entry_of acl_text_rules))) by (vm_compute; reflexivity). rewrite R in E.
  assert (E' : r = Some (map entry_of acl_text_rules)) by congruence. apply H in E'. destruct E' as (rules & S & E'). apply entries_inj in E'. rewrite E'. exact S.
Qed.

(** C108: a file of 4 GB or more is refused. *)
Theorem acl_file_too_big : forall text, 2^32 <= zlen text -> acl_file text = Ok None.
Proof. intros [ | c text ] H; [ rewrite zlen_nil in H; lia | ]. unfold acl_file. now replace (2^32 - 1 <? zlen (c :: text)) with true by lia. Qed.
Print Assumptions acl_file_too_big.

Example acl_file_too_big_ex : exists text : list Z, 2^32 <= zlen text.
Proof. exists (repeat 32 (Z.to_nat (2^32))). unfold zlen. rewrite repeat_length, Z2Nat.id; [ apply Z.le_refl | discriminate ]. Qed.

(** C108. The broker with an access list file takes a message exactly when the last rule of the
    file whose filter the topic matches gives the user WRITE, and the other way round it refuses
    it. *)
Theorem acl_file_publish : forall text rules, bytes text -> ~ In 0 text -> zlen text <= 2^32 - 1 -> states text rules ->
  exists es, acl_file text = Ok (Some es) /\ forall ts user, is_levels ts -> join ts <> [] ->
    (broker_acl_publish es (join ts) user = Some 0 <->
     exists r action, last_such (fun r => filter_match (rule_filter r) ts) rules r /\ rule_action r (user_str user) action /\ may_write action) /\
    (broker_acl_publish es (join ts) user = Some 0 \/ broker_acl_publish es (join ts) user = Some 2).
Proof.
  intros text rules B N L S. destruct (acl_file_exact text B N L) as (r & R & H). exists (map entry_of rules). split.
  - rewrite R. f_equal. apply H. exists rules. auto.
  - intros ts user. apply acl_publish_exact. exact (states_legal _ _ S).
Qed.
Print Assumptions acl_file_publish.

(** C108. The same for a subscription, which READ is enough for. *)
Theorem acl_file_subscribe : forall text rules, bytes text -> ~ In 0 text -> zlen text <= 2^32 - 1 -> states text rules ->
  exists es, acl_file text = Ok (Some es) /\ forall fs user, is_levels fs -> legal_filter fs -> join fs <> [] ->
    (broker_acl_subscribe es (join fs) user = Some 0 <->
     exists r action, last_such (fun r => acl_match (rule_filter r) fs) rules r /\ rule_action r (user_str user) action /\ may_read action) /\
    (broker_acl_subscribe es (join fs) user = Some 0 \/ broker_acl_subscribe es (join fs) user = Some 2).
Proof.
  intros text rules B N L S. destruct (acl_file_exact text B N L) as (r & R & H). exists (map entry_of rules). split.
  - rewrite R. f_equal. apply H. exists rules. auto.
  - intros fs user. apply acl_subscribe_exact. exact (states_legal _ _ S).
Qed.
Print Assumptions acl_file_subscribe.

Example acl_file_decide_ex : exists es, acl_file acl_text = Ok (Some es) /\
  broker_acl_publish es (str_bytes "a/b") (Some (str_bytes "u")) = Some 0 /\ broker_acl_publish es (str_bytes "b") (Some (str_bytes "u")) = Some 2 /\
  broker_acl_subscribe es (str_bytes "b") None = Some 0 /\ broker_acl_subscribe es (str_bytes "a/b") (Some (str_bytes "v")) = Some 2.
Proof. exists (map entry_of acl_text_rules). repeat apply conj; vm_compute; reflexivity. Qed.

(** FINDING: blanks after a topic belong to its name, although they are ignored after every other
    statement.  A rule meant to deny a topic then applies to another one and the topic stays open
    to everybody. *)
Theorem acl_file_trailing_blank_refuted : exists es, acl_file (str_bytes "TOPIC #
DEFAULT WRITE
TOPIC secret 
DEFAULT DENY
") = Ok (Some es) /\ broker_acl_publish es (str_bytes "secret") None = Some 0.
Proof.
  exists [ mk_acl [hash] 2 []; mk_acl [str_bytes "secret "] 0 [] ]. split; vm_compute; reflexivity.
Qed.
Print Assumptions acl_file_trailing_blank_refuted.

(** FINDING: a zero octet in a topic ends its name without an error. *)
Theorem acl_file_zero_refuted : acl_file (str_bytes "TOPIC a" ++ [0] ++ str_bytes "/b
DEFAULT WRITE
") = Ok (Some [ mk_acl [str_bytes "a"] 2 [] ]).
Proof. vm_compute. reflexivity. Qed.
Print Assumptions acl_file_zero_refuted.
