(** Properties C17, C18 and C40: ids handed out by the incrementer. *)
From Coq Require Import ZArith List Bool Lia.
From Verif Require Import Common Dec MapModel MapProofs IncModel IncSpec IncProofs.
Import ListNotations.
Open Scope Z_scope.

(** C17. With verified settings, any current value leads to a value in the range
    and of the instance's residue class; from a value of the class it leads to the
    next one, wrapping from the last to the first. *)
Theorem increment_mod_next_in_class : forall m min max pos prefix value,
  0 <= m < 2^64 -> 0 <= min < 2^64 -> 0 <= max < 2^64 -> 0 <= pos < 2^64 -> 0 <= prefix < 2^64 ->
  increment_verify m min max pos prefix = 0 -> 0 <= value < 2^32 ->
  min <= increment_mod value m min max pos <= max /\
  increment_mod value m min max pos mod m = pos /\
  (in_class m min max pos value -> next_in_class m min max pos value (increment_mod value m min max pos)).
Proof.
  intros m min max pos prefix value H1 H2 H3 H4 H5 HV Hv. apply verify_iff in HV; auto.
  destruct (increment_mod_class _ _ _ _ _ HV value Hv) as [HR HM].
  split; [ auto | ]. split; [ auto | ]. intros HC. eapply increment_mod_next; eauto.
Qed.
Print Assumptions increment_mod_next_in_class.

Example increment_mod_ex :
  increment_verify 3 5 20 1 7 = 0 /\ increment_mod 7 3 5 20 1 = 10 /\ increment_mod 19 3 5 20 1 = 7 /\
  increment_mod 0xffffffff 200 1 0xffffffff 1 = 1.
Proof. vm_compute. auto. Qed.

(** C17. Instances with the same modulus and different positions never produce
    the same value, whatever their current values and ranges. *)
Theorem increment_mod_no_collision : forall m min max pos prefix value min' max' pos' prefix' value',
  0 <= m < 2^64 -> 0 <= min < 2^64 -> 0 <= max < 2^64 -> 0 <= pos < 2^64 -> 0 <= prefix < 2^64 ->
  0 <= min' < 2^64 -> 0 <= max' < 2^64 -> 0 <= pos' < 2^64 -> 0 <= prefix' < 2^64 ->
  increment_verify m min max pos prefix = 0 -> increment_verify m min' max' pos' prefix' = 0 ->
  0 <= value < 2^32 -> 0 <= value' < 2^32 -> pos <> pos' ->
  increment_mod value m min max pos <> increment_mod value' m min' max' pos'.
Proof.
  intros m min max pos prefix value min' max' pos' prefix' value'; intros.
  destruct (increment_mod_next_in_class m min max pos prefix value) as (_ & E1 & _); auto.
  destruct (increment_mod_next_in_class m min' max' pos' prefix' value') as (_ & E2 & _); auto.
  congruence.
Qed.
Print Assumptions increment_mod_no_collision.

(** C17. The plain incrementer stays in its range for every value and step ... *)
Theorem increment_basic_in_range : forall value step min max,
  0 <= value < 2^32 -> 0 <= step < 2^32 -> 0 <= min -> min <= max -> max < 2^32 ->
  min <= increment_basic value step min max <= max /\
  (value + step < 2^32 ->
   increment_basic value step min max = if (min <=? value + step) && (value + step <=? max) then value + step else min).
Proof.
  intros value step min max Hv Hs H1 H2 H3. unfold increment_basic, u32.
  rewrite (Z.mod_small min) by lia. rewrite (Z.mod_small (_ mod _)) by (pose proof (Z.mod_pos_bound (value + step) (2^32)); lia).
  split.
  - set (t := (value + step) mod 2^32). destruct ((max <? t) || (t <? min)) eqn:E; lia.
  - intros Hlt. rewrite (Z.mod_small (value + step)) by lia.
    destruct ((max <? value + step) || (value + step <? min)) eqn:E; destruct ((min <=? value + step) && (value + step <=? max)) eqn:E2; lia.
Qed.
Print Assumptions increment_basic_in_range.

Example increment_basic_ex : increment_basic 9 1 5 10 = 10 /\ increment_basic 10 1 5 10 = 5.
Proof. vm_compute. auto. Qed.

(** ... but finding: past the end of the range it does not always restart at
    [min]; the 32 bit sum may wrap to some other value of the range. *)
Theorem increment_basic_restart_refuted : exists value step min max,
  increment_verify step min max 0 0 = 0 /\ min <= value <= max /\ max < value + step /\
  increment_basic value step min max <> min.
Proof. exists 0xffffffff, 200, 1, 0xffffffff. vm_compute. repeat split; congruence. Qed.
Print Assumptions increment_basic_restart_refuted.

(** C18. Prefix and value are recovered from an id and are stored side by side. *)
Theorem prefix_roundtrip : forall m min max pos prefix value,
  0 <= m < 2^64 -> 0 <= min < 2^64 -> 0 <= max < 2^64 -> 0 <= pos < 2^64 -> 0 <= prefix < 2^64 ->
  increment_verify m min max pos prefix = 0 -> 0 <= value <= max ->
  apply_prefix value max prefix = with_prefix max prefix value /\
  0 <= apply_prefix value max prefix < 2^64 /\
  strip_prefix (apply_prefix value max prefix) max = Some (prefix, value).
Proof.
  intros m min max pos prefix value H1 H2 H3 H4 H5 HV Hv. apply verify_iff in HV; auto.
  destruct HV as (_ & _ & Hmax & _ & _ & _ & Hfit). unfold with_prefix. rewrite <- bit_requirement_width by lia.
  destruct (bit_requirement_spec max H3) as [Hb Hb2]. pose proof (pow_pos _ (proj1 Hb)) as HP.
  assert (R : 0 <= prefix * 2 ^ bit_requirement max + value < 2^64) by (apply fit_plus; auto using pow_divides; lia).
  rewrite apply_prefix_spec by (auto; lia).
  split; [ reflexivity | ]. split; [ auto | ]. rewrite strip_prefix_spec by lia.
  rewrite Z.div_add_l, Z.div_small, mod_mul_add by lia. f_equal. f_equal. lia.
Qed.
Print Assumptions prefix_roundtrip.

Example prefix_roundtrip_ex :
  increment_verify 1 1 1000 0 5 = 0 /\ apply_prefix 3 1000 5 = 5 * 1024 + 3 /\ strip_prefix (5 * 1024 + 3) 1000 = Some (5, 3).
Proof. vm_compute. auto. Qed.

(** C18. Different prefixes or values give different ids. *)
Theorem prefix_injective : forall m min max pos p p' v v',
  0 <= m < 2^64 -> 0 <= min < 2^64 -> 0 <= max < 2^64 -> 0 <= pos < 2^64 -> 0 <= p < 2^64 -> 0 <= p' < 2^64 ->
  increment_verify m min max pos p = 0 -> increment_verify m min max pos p' = 0 ->
  0 <= v <= max -> 0 <= v' <= max ->
  apply_prefix v max p = apply_prefix v' max p' -> p = p' /\ v = v'.
Proof.
  intros m min max pos p p' v v' H1 H2 H3 H4 H5 H6 V V' Hv Hv' E.
  destruct (prefix_roundtrip m min max pos p v) as (_ & _ & S); auto.
  destruct (prefix_roundtrip m min max pos p' v') as (_ & _ & S'); auto.
  rewrite E, S' in S. injection S as -> ->. auto.
Qed.
Print Assumptions prefix_injective.

(** C18. The prefix check accepts exactly the ids with that prefix. *)
Theorem prefix_check_exact : forall m min max pos prefix id,
  0 <= m < 2^64 -> 0 <= min < 2^64 -> 0 <= max < 2^64 -> 0 <= pos < 2^64 -> 0 <= prefix < 2^64 ->
  increment_verify m min max pos prefix = 0 -> 0 <= id < 2^64 ->
  verify_value_prefix id max prefix = 0 <-> exists v, 0 <= v < 2 ^ width max /\ id = with_prefix max prefix v.
Proof.
  intros m min max pos prefix id H1 H2 H3 H4 H5 HV Hi. apply verify_iff in HV; auto.
  destruct HV as (_ & _ & Hmax & _ & _ & _ & Hfit). unfold with_prefix. rewrite <- bit_requirement_width by lia.
  destruct (bit_requirement_spec max H3) as [Hb Hb2]. pose proof (pow_pos _ (proj1 Hb)) as HP.
  rewrite verify_value_prefix_spec by (auto; lia). set (P := 2 ^ bit_requirement max) in *.
  destruct (Z.eqb_spec (id / P) prefix) as [E|N]; split; intros H; try discriminate.
  - exists (id mod P). split; [ apply Z.mod_pos_bound; lia | ]. rewrite <- E. rewrite (Z.div_mod id P) at 1 by lia. lia.
  - reflexivity.
  - exfalso. destruct H as (v & Hv & ->). apply N. rewrite Z.div_add_l, Z.div_small by lia. lia.
Qed.
Print Assumptions prefix_check_exact.

(** C18. The verification accepts exactly the meaningful settings. *)
Theorem increment_verify_exact : forall m min max pos prefix,
  0 <= m < 2^64 -> 0 <= min < 2^64 -> 0 <= max < 2^64 -> 0 <= pos < 2^64 -> 0 <= prefix < 2^64 ->
  increment_verify m min max pos prefix = 0 <->
  1 <= m <= 255 /\ min <= max /\ max < 2^32 /\ m <= max - min + 1 /\ pos < m /\ with_prefix max prefix max < 2^64.
Proof.
  intros m min max pos prefix H1 H2 H3 H4 H5. rewrite verify_iff by auto. unfold settings_ok, with_prefix.
  rewrite <- bit_requirement_width by lia. destruct (bit_requirement_spec max H3) as [Hb Hb2].
  pose proof (pow_pos _ (proj1 Hb)) as HP.
  split; [ intros (A & B & C & D & E & F & G) | intros (A & B & C & D & E & G) ]; repeat split; try lia.
  apply fit_plus; auto using pow_divides; lia.
Qed.
Print Assumptions increment_verify_exact.

Example increment_verify_ex : increment_verify 1 1 0xffffffff 0 0xffffffff = 0 /\ increment_verify 1 1 0xffffffff 0 0x100000000 = 1.
Proof. vm_compute. auto. Qed.

Theorem bits_to_max_exact : forall bits, (bits <= 64)%nat -> bits_to_max bits = 2 ^ Z.of_nat bits - 1.
Proof. intros. unfold bits_to_max. rewrite (bits_to_max_spec bits 0 ltac:(lia) 0) by (cbn; lia). f_equal. Qed.
Print Assumptions bits_to_max_exact.

(** ** C40: the module *)
(** Settings as read from a configuration file: 64 bit numbers. *)
Definition settings_u64 (c : inc_config) : Prop :=
  0 <= c_mod c < 2^64 /\ 0 <= c_min c < 2^64 /\ 0 <= c_max c < 2^64 /\ 0 <= c_pos c < 2^64 /\ 0 <= c_prefix c < 2^64.

(** C40. For every history of messages, initial ids, DB answers and, the DB being
    reliable, restarts: the ids given to the messages of one topic follow each
    other without gap or repetition, so that no id repeats within
    (max - min + 1) / modulus consecutive messages of the topic. *)
Theorem incrementer_ids_follow : forall c db ops topic,
  settings_u64 c -> cfg_accepted c = true -> db_ok db -> Forall op_ok ops ->
  (forallb (fun o => negb (is_restart o)) ops = true \/
   c_db c = true /\ 0 < c_min c /\ forallb (fun o => negb (is_lost o)) ops = true) ->
  let ids := emitted topic (inc_run c (mk_inc [] [] db) ops) in
  Forall (valid_id c) ids /\ linked (follows c) ids /\
  (forall before window after, ids = before ++ window ++ after ->
     zlen window <= (c_max c - c_min c + 1) / c_mod c -> NoDup window).
Proof.
  intros c db ops topic (U1 & U2 & U3 & U4 & U5) HA HD HO HM.
  pose proof (cfg_accepted_ok c U1 U2 U3 U4 U5 HA) as HC.
  assert (R : Forall (id_ok c) (emitted topic (inc_run c (mk_inc [] [] db) ops)) /\
              linked (next_id c) (emitted topic (inc_run c (mk_inc [] [] db) ops))).
  { destruct HM as [HM|(M1 & M2 & HM)]; rewrite forallb_forall in HM.
    - apply (run_chain c topic false ops (mk_inc [] [] db) None); auto; [ apply st_ok_init; auto | | exact I ].
      apply Forall_forall. intros o Ho. apply HM in Ho. cbn. destruct (is_restart o); [ discriminate | reflexivity ].
    - apply (run_chain c topic true ops (mk_inc [] [] db) None); auto; [ apply st_ok_init; auto | | ].
      + apply Forall_forall. intros o Ho. apply HM in Ho. cbn. destruct (is_lost o); [ discriminate | reflexivity ].
      + cbn. repeat split; auto. intros t v E. discriminate. }
  destruct R as [F L]. cbv zeta. split; [ eapply Forall_impl; [ | exact F ]; intros; apply valid_id_iff; auto | ].
  split; [ eapply linked_impl; [ | exact L ]; intros; apply follows_iff; auto | ].
  intros before window after E Hlen. rewrite E in F, L.
  apply (id_chain_nodup c); auto.
  - apply Forall_app in F as [_ F]. apply Forall_app in F. tauto.
  - clear - L. induction before as [|x b IH].
    + cbn [app] in L. revert L. induction window as [|x [|y w] IH]; intros L; [ exact I | exact I | ].
      destruct L as [H L]. split; [ exact H | apply IH; exact L ].
    + apply IH. cbn [app] in L. destruct (b ++ window ++ after); [ exact I | destruct L; auto ].
Qed.
Print Assumptions incrementer_ids_follow.

Example incrementer_ids_follow_ex :
  let c := mk_cfg 1 6 2 1 3 false true in
  let t := str_bytes "meter" in
  settings_u64 c /\ cfg_accepted c = true /\
  emitted t (inc_run c (mk_inc [] [] []) [Subject t DbOk DbOk; Subject t DbOk DbOk; Restart; Subject t DbFail DbOk;
                                          Subject t DbOk DbFail; Subject t DbOk DbOk; Subject t DbOk DbOk]) = [27; 29; 25; 27].
Proof. vm_compute. repeat split; congruence. Qed.

(** C40. Output topics identify topic and id; two instances sharing maximum and
    modulus but not position never emit the same topic. *)
Theorem incrementer_outputs_distinct : forall c c' db db' ops ops' topic id nt topic' id' nt',
  settings_u64 c -> cfg_accepted c = true -> db_ok db -> Forall op_ok ops ->
  settings_u64 c' -> cfg_accepted c' = true -> db_ok db' -> Forall op_ok ops' ->
  In (Emit topic id nt) (inc_run c (mk_inc [] [] db) ops) ->
  In (Emit topic' id' nt') (inc_run c' (mk_inc [] [] db') ops') ->
  nt = nt' -> topic = topic' /\ id = id' /\ (c_max c = c_max c' -> c_mod c = c_mod c' -> c_pos c = c_pos c').
Proof.
  intros c c' db db' ops ops' t i n t' i' n' (U1 & U2 & U3 & U4 & U5) A D O (U1' & U2' & U3' & U4' & U5') A' D' O' HI HI' E.
  pose proof (cfg_accepted_ok c U1 U2 U3 U4 U5 A) as HC. pose proof (cfg_accepted_ok c' U1' U2' U3' U4' U5' A') as HC'.
  apply run_emits in HI as [V N]; auto using st_ok_init. apply run_emits in HI' as [V' N']; auto using st_ok_init.
  pose proof (id_ok_range _ _ HC V) as R. pose proof (id_ok_range _ _ HC' V') as R'.
  rewrite N, N' in E. apply app_slash_inj in E as [-> E]; auto using dec_str_no_slash.
  apply dec_str_inj in E; auto. subst i'. split; [ auto | ]. split; [ auto | ]. intros EM Em.
  destruct V as (p & v & E1 & [Hv1 Hv2] & _), V' as (p' & v' & E2 & [Hv1' Hv2'] & _).
  destruct HC as (_ & B & B2 & _), HC' as (_ & B' & _).
  rewrite <- EM in *. rewrite <- Em in *.
  destruct (bit_requirement_spec (c_max c) ltac:(lia)) as [Hb Hb2]. pose proof (pow_pos _ (proj1 Hb)) as HP.
  set (P := 2 ^ bit_requirement (c_max c)) in *.
  assert (v = v'); [ | congruence ].
  rewrite <- (mod_mul_add p P v), <- (mod_mul_add p' P v') by lia. congruence.
Qed.
Print Assumptions incrementer_outputs_distinct.

(** C40. No history makes the module fail its assertion. *)
Theorem incrementer_no_assertion : forall c db ops, settings_u64 c -> cfg_accepted c = true -> db_ok db -> Forall op_ok ops ->
  ~ In Assertion (inc_run c (mk_inc [] [] db) ops).
Proof.
  intros c db ops (U1 & U2 & U3 & U4 & U5) A D O. apply run_no_assertion; auto using st_ok_init. apply cfg_accepted_ok; auto.
Qed.
Print Assumptions incrementer_no_assertion.

(** C40, finding: the hypothesis 0 < min is needed.  An id of 0 in the DB reads as
    missing, so after a restart the ids jump back to the initial id. *)
Theorem incrementer_restart_refuted : exists c ops topic,
  settings_u64 c /\ cfg_accepted c = true /\ c_db c = true /\ Forall op_ok ops /\
  forallb (fun o => negb (is_lost o)) ops = true /\
  ~ linked (follows c) (emitted topic (inc_run c (mk_inc [] [] []) ops)).
Proof.
  set (t := str_bytes "t").
  exists (mk_cfg 0 3 1 0 0 true true), [Initial t 3; Subject t DbOk DbOk; Restart; Initial t 3; Subject t DbOk DbOk], t.
  assert (E : emitted t (inc_run (mk_cfg 0 3 1 0 0 true true) (mk_inc [] [] [])
    [Initial t 3; Subject t DbOk DbOk; Restart; Initial t 3; Subject t DbOk DbOk]) = [0; 0]) by (vm_compute; reflexivity).
  rewrite E. split; [ repeat split; vm_compute; congruence | ]. do 2 (split; [ reflexivity | ]).
  split; [ repeat constructor; cbn; lia | ]. split; [ reflexivity | ].
  - cbn [linked]. intros [(p & v & v' & E1 & E2 & [Hv _] & [_ Hn]) _]. cbn [c_mod c_min c_max c_pos] in *.
    unfold with_prefix in *. change (2 ^ width 3) with 4 in *. assert (v = 0 /\ v' = 0) as [-> ->] by lia.
    destruct Hn as [[Hn _]|[_ Hn]]; [ lia | ]. specialize (Hn 1). unfold in_class in Hn.
    change (1 mod 1) with 0 in Hn. lia.
Qed.
Print Assumptions incrementer_restart_refuted.
