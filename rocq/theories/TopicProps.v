(** Properties C21 (topic matching), C22 (validation) and C23 (access lists). *)
From Coq Require Import ZArith List Bool Lia String.
From Verif Require Import Common Utf8Model Utf8Spec Utf8Proofs TopicModel TopicSpec TopicProofs.
Import ListNotations.
Open Scope Z_scope.

Notation str := str_bytes.

(** C21. Strings are cut into exactly the levels they were joined from, and a
    filter matches a topic exactly when the level by level rules say so. *)
Theorem topic_match_exact : forall fs ts,
  is_levels fs -> legal_filter fs -> join fs <> [] -> is_levels ts -> join ts <> [] ->
  tokenize (join fs) = fs /\ tokenize (join ts) = ts /\
  (match_str (join fs) (join ts) = TMatch <-> filter_match fs ts) /\
  (match_str (join fs) (join ts) = TMismatch <-> ~ filter_match fs ts).
Proof.
  intros fs ts HF HL HFn HT HTn.
  assert (E1 := tokenize_join fs HF HFn). assert (E2 := tokenize_join ts HT HTn).
  split; auto. split; auto. unfold match_str. rewrite E1, E2.
  destruct (match_tokens_spec fs ts HL (proj1 HF)) as [H1 H2].
  split; auto. rewrite <- H1. destruct (match_tokens fs ts); split; intros; congruence.
Qed.
Print Assumptions topic_match_exact.

(** "a/+/#" with "a//b/c" and with "a/$b/c"; "+/" with "x/" and with "x". *)
Example topic_match_exact_ex :
  join [str "a"; plus; hash] = str "a/+/#" /\ legal_filter [str "a"; plus; hash] /\
  match_str (str "a/+/#") (str "a//b/c") = TMatch /\ match_str (str "a/+/#") (str "a/$b/c") = TMismatch /\
  match_str (str "+/") (str "x/") = TMatch /\ match_str (str "+/") (str "x") = TMismatch.
Proof.
  repeat split. apply LF_lit; [ split; cbn; lia | ]. apply LF_plus. apply LF_hash.
Qed.

(** C21. The linear matcher gives the same answer without failing an assertion or
    reading outside of the strings, when an octet different from '$' follows the
    topic in memory (a NUL for C strings). *)
Theorem topic_linear_agrees_partial : forall fs ts after_topic after_filter,
  is_levels fs -> legal_filter fs -> join fs <> [] -> is_levels ts -> join ts <> [] ->
  after_topic <> 36 ->
  linear_match (join ts) (Some after_topic) (join fs) (Some after_filter) =
  match match_str (join fs) (join ts) with TMatch => LMatch | _ => LMismatch end.
Proof.
  intros fs ts a b HF HL HFn HT HTn Ha.
  unfold match_str. rewrite (tokenize_join fs HF HFn), (tokenize_join ts HT HTn).
  change (linear_match (join ts) (Some a) (join fs) (Some b) = conv (match_tokens fs ts)).
  rewrite <- (linear_is_tokens a b Ha fs ts HL (proj2 HF) (proj2 HT) (proj1 HF) (proj1 HT)).
  unfold linear_match. destruct (join ts); [ congruence | ]. destruct (join fs); [ congruence | reflexivity ].
Qed.
Print Assumptions topic_linear_agrees_partial.

Example topic_linear_ex :
  linear_match (str "a/b/c") (Some 0) (str "a/+/#") (Some 0) = LMatch /\
  linear_match (str "a/") (Some 0) (str "a/+") (Some 0) = LMatch /\
  linear_match (str "a") (Some 0) (str "a/#") (Some 0) = LMismatch.
Proof. repeat split. Qed.

(** C21, finding: the linear matcher looks at the octet after the topic, which in
    a message is the first data octet.  With '$' there, or with nothing readable
    there, the matchers disagree. *)
Theorem topic_linear_agrees_refuted : exists fs ts,
  is_levels fs /\ legal_filter fs /\ join fs <> [] /\ is_levels ts /\ join ts <> [] /\
  match_str (join fs) (join ts) = TMatch /\
  linear_match (join ts) (Some 36) (join fs) (Some 0) = LMismatch /\
  linear_match (join ts) None (join fs) (Some 0) = LOob.
Proof.
  exists [str "a"; plus], [str "a"; []].
  repeat split; try discriminate.
  - repeat constructor; cbn; lia.
  - apply LF_lit; [ split; cbn; lia | ]. apply LF_plus. constructor.
  - repeat constructor; cbn; lia.
Qed.
Print Assumptions topic_linear_agrees_refuted.

(** C21. Every match is a match by the rules of the MQTT standard, and the
    converse holds for topics without '$' levels which are at least as deep as
    the filter. *)
Theorem topic_match_standard_partial : forall fs ts,
  is_levels fs -> legal_filter fs -> join fs <> [] -> is_levels ts -> join ts <> [] ->
  (match_str (join fs) (join ts) = TMatch -> std_match fs ts) /\
  (std_match fs ts -> Forall (fun t => ~ dollar t) ts -> (List.length fs <= List.length ts)%nat ->
   match_str (join fs) (join ts) = TMatch).
Proof.
  intros fs ts HF HL HFn HT HTn.
  destruct (topic_match_exact fs ts HF HL HFn HT HTn) as (_ & _ & H & _). rewrite H. split.
  - apply filter_match_std.
  - intros [H1 _]. apply std_filter_match. auto.
Qed.
Print Assumptions topic_match_standard_partial.

Example topic_match_standard_ex :
  std_match [str "a"; hash] [str "a"; str "b"] /\ match_str (str "a/#") (str "a/b") = TMatch.
Proof.
  split; [ | reflexivity ]. split.
  - apply SL_lit; [ split; cbn; lia | ]. apply SL_hash.
  - intros [_ (t & H & r & E)]. cbn in H. injection H as <-. discriminate.
Qed.

(** C21, findings: by the standard "a/#" matches "a", and "a/+" matches "a/$b". *)
Theorem topic_match_standard_refuted :
  (std_match [str "a"; hash] [str "a"] /\ match_str (str "a/#") (str "a") = TMismatch) /\
  (std_match [str "a"; plus] [str "a"; str "$b"] /\ match_str (str "a/+") (str "a/$b") = TMismatch).
Proof.
  assert (HA : no_wildcard (str "a")) by (split; cbn; lia).
  split; (split; [ | reflexivity ]); split.
  - apply SL_lit; auto. apply SL_hash.
  - intros [_ (t & H & r & E)]. cbn in H. injection H as <-. discriminate.
  - apply SL_lit; auto. apply SL_plus. apply SL_end.
  - intros [_ (t & H & r & E)]. cbn in H. injection H as <-. discriminate.
Qed.
Print Assumptions topic_match_standard_refuted.

(** C22. A filter is accepted exactly when it is well formed UTF-8 of at most 65535
    octets whose levels are legal: '+' and '#' only as whole levels, '#' only
    last. *)
Theorem filter_validate_exact : forall s, bytes s -> ~ In 0 s ->
  (filter_validate s = Some 0 <->
   utf8_well_formed s /\ zlen s <= 65535 /\ exists ls, is_levels ls /\ join ls = s /\ legal_filter ls) /\
  (filter_validate s = Some 0 \/ filter_validate s = Some 1).
Proof. exact filter_validate_iff. Qed.
Print Assumptions filter_validate_exact.

Example filter_validate_ex :
  filter_validate (str "a/+/b/#") = Some 0 /\ filter_validate (str "a+") = Some 1 /\
  filter_validate (str "a/#/b") = Some 1 /\ filter_validate (str "+a") = Some 1 /\
  filter_validate [195; 166; 47; 43] = Some 0 /\ filter_validate [195; 47; 43] = Some 1.
Proof. repeat split. Qed.

(** C22, finding: the empty filter is accepted too. *)
Theorem filter_validate_nonempty_refuted : filter_validate [] = Some 0.
Proof. reflexivity. Qed.
Print Assumptions filter_validate_nonempty_refuted.

(** C22. A topic name is accepted exactly when it is well formed UTF-8, non-empty
    and without wildcard characters; both entry points agree. *)
Theorem name_validate_exact : forall s, bytes s -> ~ In 0 s ->
  (name_validate s = Some 0 <-> utf8_well_formed s /\ s <> [] /\ no_wildcard s) /\
  (name_validate s = Some 0 \/ name_validate s = Some 1) /\
  name_validate_with_end s = name_validate s.
Proof. exact name_validate_iff. Qed.
Print Assumptions name_validate_exact.

Example name_validate_ex :
  name_validate (str "a/b") = Some 0 /\ name_validate (str "a/+") = Some 1 /\ name_validate [] = Some 1 /\
  name_validate [226; 130; 172] = Some 0 /\ name_validate [226; 130] = Some 1.
Proof. repeat split. Qed.

(** C21 and C22 together: a filter and a topic which passed validation are matched
    without an abort. *)
Theorem validated_match_never_aborts : forall f t, bytes f -> bytes t -> ~ In 0 f -> ~ In 0 t ->
  filter_validate f = Some 0 -> f <> [] -> name_validate t = Some 0 ->
  match_str f t <> TBug /\
  linear_match t (Some 0) f (Some 0) = match match_str f t with TMatch => LMatch | _ => LMismatch end.
Proof.
  intros f t Bf Bt Nf Nt Hf Hfn Ht.
  apply filter_validate_exact in Hf as (_ & _ & fs & F1 & F2 & F3); auto.
  apply name_validate_exact in Ht as (_ & Ht & _); auto.
  subst f. rewrite <- (join_split t) in *.
  pose proof (split_levels t) as HL. rewrite join_split in Nt. specialize (HL Nt).
  split.
  - unfold match_str. rewrite (tokenize_join fs F1 Hfn). rewrite (tokenize_join _ HL Ht).
    apply (match_tokens_spec fs (split t) F3 (proj1 F1)).
  - apply topic_linear_agrees_partial; auto; lia.
Qed.
Print Assumptions validated_match_never_aborts.

Example validated_match_ex :
  filter_validate (str "+/b") = Some 0 /\ name_validate (str "a/b") = Some 0 /\ match_str (str "+/b") (str "a/b") = TMatch.
Proof. repeat split. Qed.

(** C23. Publishing: access is decided by the last entry matching the topic, with
    the last line for the user going before the default; without a matching entry
    it is denied.  The answer is always ALLOW (0) or DENY (2). *)
Theorem acl_publish_exact : forall rules ts user,
  Forall (fun r => rule_filter r <> [] /\ legal_filter (rule_filter r)) rules ->
  is_levels ts -> join ts <> [] ->
  (broker_acl_publish (map entry_of rules) (join ts) user = Some 0 <->
   exists r action, last_such (fun r => filter_match (rule_filter r) ts) rules r /\
     rule_action r (user_str user) action /\ may_write action) /\
  (broker_acl_publish (map entry_of rules) (join ts) user = Some 0 \/
   broker_acl_publish (map entry_of rules) (join ts) user = Some 2).
Proof.
  intros rules ts user HR HT HTn. unfold broker_acl_publish, acl_check_access.
  rewrite (tokenize_join ts HT HTn).
  destruct (acl_check_spec match_tokens (fun f => filter_match f ts) ts rules acl_rw user acl_result_deny (or_intror eq_refl))
    as (ret & -> & H).
  { eapply Forall_impl; [ | exact HR ]. intros r [H1 H2]. cbn beta.
    destruct (match_tokens_spec (rule_filter r) ts H2 H1). auto. }
  destruct H as [(r & Hr & ->) | [HF ->]].
  - split; [ | destruct (grant_02 (eff r (user_str user)) acl_rw) as [-> | ->]; auto ].
    split.
    + intros E. injection E as E. apply grant_rw in E. exists r, (eff r (user_str user)).
      split; auto. split; auto. apply rule_action_eff. auto.
    + intros (r' & a & Hr' & Ha & Hw). apply rule_action_eff in Ha. subst a.
      assert (r = r') by (eapply last_such_unique; eauto). subst r'. f_equal. apply grant_rw. auto.
  - split; [ | auto ]. split; [ discriminate | ].
    intros (r' & a & Hr' & _ & _). exfalso. apply last_such_in in Hr' as [Hi Hp].
    rewrite Forall_forall in HF. apply (HF r' Hi Hp).
Qed.
Print Assumptions acl_publish_exact.

(** A general entry giving everyone READ, "a/+" giving user u WRITE and others
    nothing. *)
Definition acl_ex : list acl_rule :=
  [ mk_rule [hash] 1 []; mk_rule [str "a"; plus] 0 [(str "u", 0); (str "u", 2)] ].
Example acl_publish_ex :
  Forall (fun r => rule_filter r <> [] /\ legal_filter (rule_filter r)) acl_ex /\
  broker_acl_publish (map entry_of acl_ex) (str "a/b") (Some (str "u")) = Some 0 /\
  broker_acl_publish (map entry_of acl_ex) (str "a/b") (Some (str "v")) = Some 2 /\
  broker_acl_publish (map entry_of acl_ex) (str "a/b") None = Some 2 /\
  broker_acl_publish (map entry_of acl_ex) (str "a") (Some (str "u")) = Some 2.
Proof.
  split.
  - repeat constructor; try discriminate; cbn; lia.
  - repeat split.
Qed.

(** C23. Subscribing, the decision: the last entry which applies to the request
    decides. *)
Theorem acl_subscribe_exact : forall rules fs user,
  Forall (fun r => rule_filter r <> [] /\ legal_filter (rule_filter r)) rules ->
  is_levels fs -> legal_filter fs -> join fs <> [] ->
  (broker_acl_subscribe (map entry_of rules) (join fs) user = Some 0 <->
   exists r action, last_such (fun r => acl_match (rule_filter r) fs) rules r /\
     rule_action r (user_str user) action /\ may_read action) /\
  (broker_acl_subscribe (map entry_of rules) (join fs) user = Some 0 \/
   broker_acl_subscribe (map entry_of rules) (join fs) user = Some 2).
Proof.
  intros rules fs user HR HT HL HTn. unfold broker_acl_subscribe, acl_check_access.
  rewrite (tokenize_join fs HT HTn).
  destruct (acl_check_spec match_tokens_acl (fun f => acl_match f fs) fs rules acl_ro user acl_result_deny (or_introl eq_refl))
    as (ret & -> & H).
  { eapply Forall_impl; [ | exact HR ]. intros r [H1 H2]. cbn beta.
    destruct (match_acl_spec (rule_filter r) fs H2 HL H1). auto. }
  destruct H as [(r & Hr & ->) | [HF ->]].
  - split; [ | destruct (grant_02 (eff r (user_str user)) acl_ro) as [-> | ->]; auto ].
    split.
    + intros E. injection E as E. apply grant_ro in E. exists r, (eff r (user_str user)).
      split; auto. split; auto. apply rule_action_eff. auto.
    + intros (r' & a & Hr' & Ha & Hw). apply rule_action_eff in Ha. subst a.
      assert (r = r') by (eapply last_such_unique; eauto). subst r'. f_equal. apply grant_ro. auto.
  - split; [ | auto ]. split; [ discriminate | ].
    intros (r' & a & Hr' & _ & _). exfalso. apply last_such_in in Hr' as [Hi Hp].
    rewrite Forall_forall in HF. apply (HF r' Hi Hp).
Qed.
Print Assumptions acl_subscribe_exact.

Example acl_subscribe_ex :
  broker_acl_subscribe (map entry_of acl_ex) (str "a/b") (Some (str "v")) = Some 2 /\
  broker_acl_subscribe (map entry_of acl_ex) (str "a/b") (Some (str "u")) = Some 0 /\
  broker_acl_subscribe (map entry_of acl_ex) (str "b/+") None = Some 0.
Proof. repeat split. Qed.

(** C23, in part.  A granted subscription is granted by an entry giving read
    access, and every topic delivered through it lies under the filter of that
    entry, provided each '+' of the subscription lies opposite a wildcard of the
    entry.  Missing: a '+' opposite a literal level, and entries further down
    which deny some of the topics but do not apply to the request as a whole;
    both cases are really granted, see below. *)
Theorem acl_subscribe_sound_partial : forall rules fs user,
  Forall (fun r => rule_filter r <> [] /\ legal_filter (rule_filter r)) rules ->
  is_levels fs -> legal_filter fs -> join fs <> [] ->
  broker_acl_subscribe (map entry_of rules) (join fs) user = Some 0 ->
  exists r action, In r rules /\ rule_action r (user_str user) action /\ may_read action /\
    (plus_covered (rule_filter r) fs ->
     forall ts, filter_match fs ts -> std_levels (rule_filter r) ts).
Proof.
  intros rules fs user HR HT HL HTn HG.
  apply acl_subscribe_exact in HG as (r & a & H1 & H2 & H3); auto.
  apply last_such_in in H1 as [Hi Hm]. exists r, a. repeat split; auto.
  intros HP ts. apply acl_match_covers; auto.
Qed.
Print Assumptions acl_subscribe_sound_partial.

Example acl_subscribe_sound_ex :
  broker_acl_subscribe (map entry_of acl_ex) (str "b/+") None = Some 0 /\ plus_covered [hash] [str "b"; plus] /\
  filter_match [str "b"; plus] [str "b"; str "c"].
Proof.
  split; [ reflexivity | split ].
  - intros i _. right. exists O. split; [ lia | reflexivity ].
  - apply FM_lit; [ split; cbn; lia | ]. apply FM_plus; [ intros [r E]; discriminate | apply FM_end ].
Qed.

(** C23, findings.  An access list with the only entry "a/b" grants "a/+", which
    delivers "a/c" although no entry covers it.  An entry denying "secret" after
    one allowing "#" does not keep a "#" subscription from delivering it. *)
Theorem acl_subscribe_sound_refuted :
  (exists r ts, broker_acl_subscribe [entry_of r] (str "a/+") None = Some 0 /\
    filter_match [str "a"; plus] ts /\ ~ std_levels (rule_filter r) ts) /\
  (exists r1 r2 ts, broker_acl_subscribe [entry_of r1; entry_of r2] (str "#") None = Some 0 /\
    filter_match [hash] ts /\ std_levels (rule_filter r2) ts /\ rule_action r2 [] 0 /\
    broker_acl_subscribe [entry_of r1; entry_of r2] (join ts) None = Some 2).
Proof.
  assert (HA : no_wildcard (str "a")) by (split; cbn; lia).
  split.
  - exists (mk_rule [str "a"; str "b"] 1 []), [str "a"; str "c"]. split; [ reflexivity | split ].
    + apply FM_lit; auto. apply FM_plus; [ intros [r E]; discriminate | apply FM_end ].
    + change (~ std_levels [[97]; [98]] [[97]; [99]]). intros H. inversion H as [| | |? ? ? _ H']; subst. inversion H'.
  - exists (mk_rule [hash] 1 []), (mk_rule [str "secret"] 0 []), [str "secret"].
    split; [ reflexivity | ]. split; [ constructor; intros [r E]; discriminate | ].
    split; [ apply SL_lit; [ split; cbn; lia | apply SL_end ] | ].
    split; [ right; auto | reflexivity ].
Qed.
Print Assumptions acl_subscribe_sound_refuted.
