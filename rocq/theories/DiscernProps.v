(** Properties C60 to C62: route and method definitions. *)
From Coq Require Import Strings.String.
From Coq Require Import ZArith List Bool Lia.
From Verif Require Import Common ParseModel ParseSpec ParseProofs ConfigProofs MsgModel TypeModel ArrayModel TopicModel TopicSpec DiscernModel DiscernSpec DiscernProofs DiscernParse DiscernRun DiscernRoute.
Import ListNotations.
Open Scope Z_scope.

(** ** C60: a definition does what is written *)

(** Callbacks which give the answers [a] and keep a list of the decisions; with the answer for a
    tag an index of the tags there are may be given, by first and last character. *)
Definition ask_topic (a : answers) (s : decisions) (f : list Z) : res (Z * Z * decisions) := Ok (0, b2z (matches a f), s).
Definition ask_tag (a : answers) (index : option (list Z)) (s : decisions) (t : list Z) : res (Z * Z * option (list Z) * decisions) := Ok (0, b2z (has a t), index, s).
Definition note_decision (b : bool) (s : decisions) (d : list Z) : res (Z * decisions) := Ok (0, s ++ [(b, d)]).

(** Wherever a definition is in a text, after control characters, it is accepted, the position is
    moved just behind it, and executing it takes the decisions written. *)
Theorem discern_runs_as_written : forall t p c0 s is tail,
  t_nul t = true -> bytes (t_data t) -> located t p -> at_ t p = c0 ++ s ++ tail -> Forall (fun c => 0 <= c <= 31) c0 ->
  written s is -> definition is ->
  exists d p', interpret t p = Ok (0, FOk, Some d, p') /\ located t p' /\ at_ t p' = tail /\
    forall a index, (forall i x, index = Some i -> has a x = true -> In (first_last x) i) ->
    exists ds bailed, run a is [] = Some (ds, bailed) /\
      execute decisions (ask_topic a) (ask_tag a index) note_decision d [] = Ok (if bailed : bool then BAIL else 0, FOk, ds).
Proof.
  intros t p c0 s is tail N B L A F W D. destruct (interpret_accepts t p c0 s is tail N B L A F W D) as (d & p' & E & L' & A' & M).
  exists d, p'. split; [ exact E | ]. split; [ exact L' | ]. split; [ exact A' | ]. intros a index Hi.
  destruct (execute_def decisions (ask_topic a) (ask_tag a index) note_decision a (fun s ev => s = ev) is) with (d := d) (is := is) (s := [] : decisions) (ev := [] : decisions) as (ds & bl & s' & E1 & E2 & E3); auto.
  - intros x ev f _ ->. eexists. split; reflexivity.
  - intros x ev tg _ ->. exists index, ev. split; [ reflexivity | ]. split; [ reflexivity | ]. intros i Ei. destruct i as [ | i0 i ]; [ now left | ]. right. intros tg0 _ H0. exact (Hi _ tg0 Ei H0).
  - intros x ev b dd _ ->. eexists. split; reflexivity.
  - intros x Hx. exact Hx.
  - cbn [app] in E3. subst. exists ds, bl. auto.
Qed.
Print Assumptions discern_runs_as_written.

(** Nothing else is accepted, other than a definition without instructions at the end of the text,
    and what is accepted takes the decisions written. *)
Theorem discern_accepts_written_only : forall t p x d p',
  t_nul t = true -> bytes (t_data t) -> located t p -> interpret t p = Ok (0, x, Some d, p') ->
  exists c0 s is, at_ t p = c0 ++ s ++ at_ t p' /\ Forall (fun c => 0 <= c <= 31) c0 /\
    ((written s is /\ definition is) \/ (is = [] /\ at_ t p' = [] /\ s <> [] /\ empty_text s)) /\
    forall a index, (forall i x, index = Some i -> has a x = true -> In (first_last x) i) ->
    exists ds bailed, run a is [] = Some (ds, bailed) /\
      execute decisions (ask_topic a) (ask_tag a index) note_decision d [] = Ok (if bailed : bool then BAIL else 0, FOk, ds).
Proof.
  intros t p x d p' N B L E. destruct (interpret_total t p N B L) as (r & x0 & d0 & p0 & E0 & L0 & _ & _ & H). rewrite E in E0. injection E0 as <- <- <- <-.
  destruct (H d eq_refl) as (_ & c0 & s & is & A & F & M & W). exists c0, s, is. split; [ exact A | ]. split; [ exact F | ]. split; [ exact W | ]. intros a index Hi.
  destruct (execute_def decisions (ask_topic a) (ask_tag a index) note_decision a (fun s ev => s = ev) is) with (d := d) (is := is) (s := [] : decisions) (ev := [] : decisions) as (ds & bl & s' & E1 & E2 & E3); auto.
  - intros y ev f _ ->. eexists. split; reflexivity.
  - intros y ev tg _ ->. exists index, ev. split; [ reflexivity | ]. split; [ reflexivity | ]. intros i Ei. destruct i as [ | i0 i ]; [ now left | ]. right. intros tg0 _ H0. exact (Hi _ tg0 Ei H0).
  - intros y ev b dd _ ->. eexists. split; reflexivity.
  - intros y Hy. exact Hy.
  - destruct W as [ (_ & W) | (W & _) ]; auto.
  - cbn [app] in E3. subst. exists ds, bl. auto.
Qed.
Print Assumptions discern_accepts_written_only.

(** A comment; T a/+ and H tag; AND; I one APPLY; NOT; BAIL; and another definition behind it. *)
Definition one_text : list Z := str_bytes "# one" ++ [10] ++ str_bytes "T a/+" ++ [10] ++ str_bytes "H tag AND I one APPLY NOT BAIL".
Definition one_route : list instr := [Topic (str_bytes "a/+"); Has (str_bytes "tag"); And; Dest (str_bytes "one"); Apply; Not; Bail].
Ltac chars := repeat (apply Forall_cons; [ cbv; intuition congruence | ]); apply Forall_nil.
Example one_written : written one_text one_route /\ definition one_route.
Proof.
  split.
  - apply (W_cons (str_bytes "# one" ++ [10]) (str_bytes "T a/+") (Topic (str_bytes "a/+")) ([10] ++ str_bytes "H tag AND I one APPLY NOT BAIL")).
    + apply (G_comment [] (str_bytes " one") 10 []); [ constructor | chars | right; reflexivity | constructor; constructor ].
    + apply (T_topic [32] (str_bytes "a/+")); [ constructor; [ left; reflexivity | constructor ] | discriminate | ].
      split; [ chars | ]. split; [ discriminate | ]. split; [ cbv; discriminate | ]. exists [str_bytes "a"; plus]. split; [ split; [ discriminate | repeat constructor; cbv; intuition congruence ] | ]. split; [ reflexivity | ].
      apply LF_lit; [ split; cbv; intuition congruence | apply LF_plus, LF_nil ].
    + exists 10, (str_bytes "H tag AND I one APPLY NOT BAIL"). split; [ reflexivity | right; now right ].
    + apply (W_cons [10] (str_bytes "H tag") (Has (str_bytes "tag")) (str_bytes " AND I one APPLY NOT BAIL")); [ constructor; chars | apply (T_has [32] (str_bytes "tag")); [ chars | discriminate | discriminate | chars ] | exists 32, (str_bytes "AND I one APPLY NOT BAIL"); split; [ reflexivity | now left ] | ].
      apply (W_cons [32] (str_bytes "AND") And (str_bytes " I one APPLY NOT BAIL")); [ constructor; chars | now constructor | exact I | ].
      apply (W_cons [32] (str_bytes "I one") (Dest (str_bytes "one")) (str_bytes " APPLY NOT BAIL")); [ constructor; chars | apply (T_dest "I" [32] (str_bytes "one")); [ now right | chars | discriminate | discriminate | chars ] | exists 32, (str_bytes "APPLY NOT BAIL"); split; [ reflexivity | now left ] | ].
      apply (W_cons [32] (str_bytes "APPLY") Apply (str_bytes " NOT BAIL")); [ constructor; chars | now constructor | exact I | ].
      apply (W_cons [32] (str_bytes "NOT") Not (str_bytes " BAIL")); [ constructor; chars | now constructor | exact I | ].
      apply (W_cons [32] (str_bytes "BAIL") Bail []); [ constructor; chars | now constructor | exact I | constructor ].
  - unfold definition, one_route. repeat (eapply L_step; [ reflexivity | discriminate | cbv; discriminate | ]). now apply L_last.
Qed.
Definition some_answers (x y : bool) : answers := mk_answers (fun _ => x) (fun _ => y).
Example one_decides : run (some_answers true true) one_route [] = Some ([(true, str_bytes "one")], false) /\
  run (some_answers true false) one_route [] = Some ([(false, str_bytes "one")], true).
Proof. split; reflexivity. Qed.

(** FINDING: the definition of a method written in the manual with the keyword M is refused, as
    there is no such keyword. *)
Theorem discern_method_keyword_refuted : exists p', interpret (mk_text (str_bytes "T a/b" ++ [10] ++ str_bytes "M method APPLY POP" ++ [10]) true) pos_init = Ok (1, FSyntax, None, p').
Proof. eexists. vm_compute. reflexivity. Qed.
Print Assumptions discern_method_keyword_refuted.

(** ** C61: definitions cannot break the parser or the executor *)

(** Whatever the text, parsing ends within the text, either with a definition or with an error. *)
Theorem discern_parse_safe : forall t p, t_nul t = true -> bytes (t_data t) -> located t p ->
  exists ret x d p', interpret t p = Ok (ret, x, d, p') /\ located t p' /\ (ret = 0 \/ ret = 1) /\ (ret = 0 <-> d <> None).
Proof. intros t p N B L. destruct (interpret_total t p N B L) as (r & x & d & p' & E & L' & R & D & _). exists r, x, d, p'. auto. Qed.
Print Assumptions discern_parse_safe.

(** Whatever the answers given when an accepted definition is executed, and also if they are
    errors: execution ends without breaking an assertion or leaving the stack. *)
Theorem discern_execute_safe : forall t p x d p' S topic_cb tag_cb apply_cb (s : S),
  t_nul t = true -> bytes (t_data t) -> located t p -> interpret t p = Ok (0, x, Some d, p') ->
  (forall s f, exists r, topic_cb s f = Ok r) -> (forall s f, exists r, tag_cb s f = Ok r) -> (forall b s f, exists r, apply_cb b s f = Ok r) ->
  exists r, execute S topic_cb tag_cb apply_cb d s = Ok r.
Proof.
  intros t p x d p' S topic_cb tag_cb apply_cb s N B L E H1 H2 H3. destruct (interpret_total t p N B L) as (r & x0 & d0 & p0 & E0 & L0 & _ & _ & H). rewrite E in E0. injection E0 as <- <- <- <-.
  destruct (H d eq_refl) as (_ & c0 & sx & is & A & F & M & W). apply (execute_never_breaks S topic_cb tag_cb apply_cb H1 H2 H3 d is s M). destruct W as [ (_ & W) | (W & _) ]; auto.
Qed.
Print Assumptions discern_execute_safe.
Example discern_safe_case : (exists d p', interpret (mk_text (one_text ++ str_bytes "T") true) pos_init = Ok (0, FOk, Some d, p')) /\
  (exists p', interpret (mk_text (str_bytes "T a/#b" ++ [10]) true) pos_init = Ok (1, FInvalidValue, None, p')) /\
  (exists p', interpret (mk_text (str_bytes "TRUE D x AND POP") true) pos_init = Ok (1, FInvalidType, None, p')) /\
  (exists p', interpret (mk_text (str_bytes "TRUE TRUE ") true) pos_init = Ok (1, FStackCount, None, p')).
Proof. split; [ do 2 eexists; vm_compute; reflexivity | ]. split; [ eexists; vm_compute; reflexivity | ]. split; eexists; vm_compute; reflexivity. Qed.

(** ** C62: the receivers of messages *)

(** The definitions of an instance are only accepted if all names are those of its readers. *)
Theorem route_names_checked : forall readers routes iss, Forall2 read_from routes iss ->
  (check_destinations readers routes = Some 0 <-> incl (names (concat iss)) readers) /\
  (check_destinations readers routes = Some 0 \/ check_destinations readers routes = Some 1).
Proof.
  intros readers routes iss F. apply check_names. induction F as [ | d is ds iss H _ IH ]; constructor; [ now apply read_from_means | exact IH ].
Qed.
Print Assumptions route_names_checked.

(** Missing from the full statement: topics followed by data starting with $ or by no data
    ([route_topic_data_refuted]) and tags with NUL characters ([route_tag_nul_refuted]).  For all
    other messages, [vs] being the values of an array message: the readers it is passed to are
    those decided upon by the definitions run one after the other.  If the definitions choose
    nobody they are the readers already on the message's list, all readers if it has none. *)
Theorem route_receivers_partial : forall after known readers routes iss m old vs a,
  Forall2 read_from routes iss -> check_destinations readers routes = Some 0 -> incl readers known ->
  ordinary after m vs -> truthful a (MSG_TOPIC m) (tags_of vs) ->
  exists ds bailed hops, run_all a iss = Some (ds, bailed) /\ postprocess after known routes m old = Ok (0, hops) /\
    forall r, nexthop_ok hops r = true <-> receives ds (fun x => old = [] \/ In x old) r.
Proof. exact receivers_in. Qed.
Print Assumptions route_receivers_partial.

Definition route_of (s : list Z) : list dstack := match interpret (mk_text s true) pos_init with Ok (_, _, Some d, _) => [d] | _ => [] end.
Definition route_message (topic data : list Z) : rrr_msg_msg := mk_mm (mk_msg 0 (30 + zlen topic + zlen data) 1 0 0) 0 0 0 (zlen topic) (topic ++ data).
Definition array_of (vs : list value) (topic : list Z) : rrr_msg_msg := match new_message_from_array vs 0 topic with ROk m => m | _ => route_message [] [] end.
Definition tag_value (tag : list Z) : value := mk_value TYPE_STR 0 tag 1 1 [120].

Definition all_readers : list (list Z) := [str_bytes "one"; str_bytes "two"].
Example route_case :
  exists d, route_of one_text = [d] /\ read_from d one_route /\ check_destinations all_readers [d] = Some 0 /\
  ordinary [] (array_of [tag_value (str_bytes "tag")] (str_bytes "a/b")) [tag_value (str_bytes "tag")] /\
  postprocess [] all_readers [d] (array_of [tag_value (str_bytes "tag")] (str_bytes "a/b")) [] = Ok (0, [str_bytes "one"]) /\
  postprocess [] all_readers [d] (array_of [tag_value (str_bytes "tog")] (str_bytes "a/b")) [] = Ok (0, []).
Proof.
  eexists. split; [ vm_compute; reflexivity | ]. split.
  { exists (mk_text one_text true), pos_init. eexists. exists [], one_text. split; [ reflexivity | ]. split; [ chars | ]. split; [ vm_compute; intuition congruence | ]. split; [ vm_compute; reflexivity | ]. split; [ vm_compute; reflexivity | ]. split; [ constructor | exact one_written ]. }
  split; [ vm_compute; reflexivity | ]. split; [ | split; vm_compute; reflexivity ].
  split; [ right | split; [ vm_compute; reflexivity | constructor; [ vm_compute; intuition congruence | constructor ] ] ].
  split; [ vm_compute; congruence | ]. split.
  - exists [str_bytes "a"; str_bytes "b"]. split; [ split; [ discriminate | repeat constructor; cbv; intuition congruence ] | ]. split; [ vm_compute; reflexivity | discriminate ].
  - eexists. split; [ vm_compute; reflexivity | congruence ].
Qed.

(** FINDING: if a message has a topic ending with / then the data behind the topic decides if a
    filter ending with + matches: data starting with $ prevents it.  Without data, memory
    outside the message is read. *)
Theorem route_topic_data_refuted : exists d, route_of (str_bytes "T a/+" ++ [10] ++ str_bytes "I one APPLY POP") = [d] /\
  postprocess [] all_readers [d] (route_message (str_bytes "a/") (str_bytes "x")) [str_bytes "two"] = Ok (0, [str_bytes "one"]) /\
  postprocess [] all_readers [d] (route_message (str_bytes "a/") (str_bytes "$")) [str_bytes "two"] = Ok (0, [str_bytes "two"]) /\
  postprocess [] all_readers [d] (route_message (str_bytes "a/") []) [str_bytes "two"] = Ub.
Proof. eexists. split; [ vm_compute; reflexivity | ]. split; [ vm_compute; reflexivity | ]. split; vm_compute; reflexivity. Qed.
Print Assumptions route_topic_data_refuted.

(** FINDING: a tag with a NUL character is found up to the NUL character the first time it is asked
    for, and not found when asked for again in the same definition. *)
Theorem route_tag_nul_refuted : exists d1 d2, route_of (str_bytes "H tag I one APPLY POP") = [d1] /\
  route_of (str_bytes "H x H tag OR I one APPLY POP") = [d2] /\
  let m := array_of [tag_value (str_bytes "tag" ++ [0; 98])] (str_bytes "a") in
  postprocess [] all_readers [d1] m [str_bytes "two"] = Ok (0, [str_bytes "one"]) /\
  postprocess [] all_readers [d2] m [str_bytes "two"] = Ok (0, [str_bytes "two"]).
Proof. eexists _, _. split; [ vm_compute; reflexivity | ]. split; [ vm_compute; reflexivity | ]. split; vm_compute; reflexivity. Qed.
Print Assumptions route_tag_nul_refuted.
