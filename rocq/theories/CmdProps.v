(** Properties of reading the command line. *)
From Coq Require Import Strings.String.
From Coq Require Import ZArith List Bool Lia.
From Verif Require Import Common CmdModel CmdSpec CmdProofs.
Import ListNotations.
Open Scope Z_scope.

Definition ex_rules : list rule :=
  [mk_rule false false false true false 0 (str_bytes "config"); mk_rule true false false false false 100 (str_bytes "debuglevel");
   mk_rule false false false false false 118 (str_bytes "version"); mk_rule false false false false false 104 (str_bytes "help");
   mk_rule true true false false true 116 (str_bytes "tags")].

Definition ex_rule (n : nat) : rule := nth n ex_rules (mk_rule false false false false false 0 []).

(** C117: arguments written in any of the ways of the manual are read as what they say: each option in
    turn with its values, words by their place, and everything after two dashes as words. *)
Theorem cmd_written : forall rules args ps,
  reads false rules false 0 args ps -> parse rules false 0 args = Some ps.
Proof. exact (fun rules args ps => reads_parse false rules false 0 args ps). Qed.
Print Assumptions cmd_written.
Example cmd_written_ex :
  reads false ex_rules false 0 [str_bytes "--debuglevel=3"; str_bytes "a.conf"; str_bytes "--"; str_bytes "--help"]
    [mk_pair (ex_rule 1) [str_bytes "3"];
     mk_pair (ex_rule 0) [str_bytes "a.conf"];
     mk_pair (ex_rule 0) [str_bytes "--help"]].
Proof.
  refine (reads_long_equal false ex_rules 0 (str_bytes "debuglevel") (str_bytes "3") _ _ (ex_rule 1) _ _ _ _ _ _).
  - vm_compute. discriminate.
  - vm_compute. intuition discriminate.
  - apply rule_long_ok. vm_compute. reflexivity.
  - left. reflexivity.
  - left. vm_compute. discriminate.
  - refine (reads_word false ex_rules false 0 (str_bytes "a.conf") _ _ (ex_rule 0) _ _ _ _).
    + right. split; vm_compute; discriminate.
    + apply word_rule_ok. vm_compute. reflexivity.
    + left. vm_compute. discriminate.
    + apply reads_dashes. refine (reads_word false ex_rules true 1 (str_bytes "--help") _ _ (ex_rule 0) _ _ _ _).
      * left. reflexivity.
      * apply word_rule_ok. vm_compute. reflexivity.
      * left. vm_compute. discriminate.
      * apply reads_end.
Qed.

(** C117: whatever is taken is written in one of these ways, or in one of three others, and is read as
    that; all else is refused. *)
Theorem cmd_taken_partial : forall rules with_command args command ps,
  cmd_parse rules with_command args = Some (command, ps) <->
  (args = [] /\ command = [] /\ ps = []) \/
  (with_command = false /\ args <> [] /\ command = [] /\ reads true rules false 0 args ps) \/
  (with_command = true /\ exists rest, args = command :: rest /\ reads true rules false 0 rest ps).
Proof. exact cmd_parse_iff. Qed.
Print Assumptions cmd_taken_partial.
Example cmd_taken_ex :
  cmd_parse ex_rules true [str_bytes "run"; str_bytes "-hv"; str_bytes "-t"; str_bytes "a,,b"; str_bytes "x"] =
    Some (str_bytes "run", [mk_pair (ex_rule 3) [];
                            mk_pair (ex_rule 2) [];
                            mk_pair (ex_rule 4) [str_bytes "a"; []; str_bytes "b"];
                            mk_pair (ex_rule 0) [str_bytes "x"]]) /\
  cmd_parse ex_rules false [str_bytes "--nothing"] = None /\ cmd_parse ex_rules false [str_bytes "-d"] = None /\
  cmd_parse ex_rules false [str_bytes "--help=1"] = None /\ cmd_parse ex_rules false [str_bytes "-hd"; str_bytes "1"] = None.
Proof. repeat apply conj; vm_compute; reflexivity. Qed.

(** C117: values which are asked for are those of the option with the name, in order. *)
Theorem cmd_found : forall ps key i j,
  get_subvalue ps key i j =
    match nth_error (filter (fun p => text_eqb (r_long (p_rule p)) key) ps) i with
    | Some p => nth_error (p_values p) j
    | None => None
    end /\
  exists_pair ps key i = (if (i <? length (filter (fun p => text_eqb (r_long (p_rule p)) key) ps))%nat then true else false).
Proof.
  intros. unfold get_subvalue, exists_pair. rewrite find_pair_ok. split; [reflexivity|].
  destruct (nth_error (filter (fun p => text_eqb (r_long (p_rule p)) key) ps) i) eqn:E.
  - assert (i < length (filter (fun p => text_eqb (r_long (p_rule p)) key) ps))%nat by (apply nth_error_Some; rewrite E; discriminate).
    apply Nat.ltb_lt in H. rewrite H. reflexivity.
  - apply nth_error_None in E. destruct (Nat.ltb_spec i (length (filter (fun p => text_eqb (r_long (p_rule p)) key) ps))); [lia|reflexivity].
Qed.
Print Assumptions cmd_found.
Example cmd_found_ex :
  match cmd_parse ex_rules false [str_bytes "-t"; str_bytes "a,b"; str_bytes "x"; str_bytes "--tags=c"] with
  | Some (_, ps) => get_subvalue ps (str_bytes "tags") 0 1 = Some (str_bytes "b") /\ get_subvalue ps (str_bytes "tags") 1 0 = Some (str_bytes "c") /\ exists_pair ps (str_bytes "tags") 2 = false
  | None => False
  end.
Proof. vm_compute. repeat split. Qed.

(** C117: values between commas are read as they were, if the last one is not empty. *)
Theorem cmd_commas_partial : forall r vs,
  r_split r = true -> vs <> [] -> last vs [] <> [] -> Forall (fun v => ~ In comma v) vs ->
  p_values (make_pair r (joined vs)) = vs.
Proof. exact split_joined. Qed.
Print Assumptions cmd_commas_partial.
Example cmd_commas_ex : joined [str_bytes "a"; []; str_bytes "bc"] = str_bytes "a,,bc" /\ split_comma (str_bytes "a,,bc") = [str_bytes "a"; []; str_bytes "bc"].
Proof. split; vm_compute; reflexivity. Qed.

(** C117: FINDING: an empty value at the end of values between commas is lost, and an option with an
    empty value has no value at all. *)
Theorem cmd_commas_refuted :
  ~ forall r vs, r_split r = true -> vs <> [] -> Forall (fun v => ~ In comma v) vs -> p_values (make_pair r (joined vs)) = vs.
Proof.
  intros H. specialize (H (mk_rule true true false false true 116 []) [str_bytes "a"; []] eq_refl ltac:(discriminate)).
  assert (F : Forall (fun v => ~ In comma v) [str_bytes "a"; []]) by (apply Forall_cons; [vm_compute; intuition discriminate|apply Forall_cons; [auto|apply Forall_nil]]).
  specialize (H F). vm_compute in H. discriminate H.
Qed.
Print Assumptions cmd_commas_refuted.
Example cmd_commas_refuted_ex : split_comma [] = [] /\ split_comma (str_bytes "a,") = split_comma (str_bytes "a").
Proof. split; vm_compute; reflexivity. Qed.

(** C117: FINDING: a rule for any number of words, such as config of the program rrr, can be given by
    its name with two dashes, and then the option itself is taken to be the word: with
    --config a.conf the files are --config and a.conf. *)
Theorem cmd_own_name_refuted :
  ~ forall rules args ps, parse rules false 0 args = Some ps -> reads false rules false 0 args ps.
Proof.
  intros H. specialize (H ex_rules [str_bytes "--config"]).
  destruct (parse ex_rules false 0 [str_bytes "--config"]) as [ps|] eqn:E; [|vm_compute in E; discriminate E]. specialize (H ps eq_refl).
  apply (own_name ex_rules (str_bytes "config") ps) in H; [exact H|vm_compute; intuition discriminate|vm_compute; discriminate|].
  intros r R. apply rule_long_ok in R. vm_compute in R. injection R as <-. reflexivity.
Qed.
Print Assumptions cmd_own_name_refuted.
Example cmd_own_name_ex :
  match cmd_parse ex_rules false [str_bytes "--config"; str_bytes "a.conf"] with
  | Some (_, ps) => get_subvalue ps (str_bytes "config") 0 0 = Some (str_bytes "--config") /\ get_subvalue ps (str_bytes "config") 1 0 = Some (str_bytes "a.conf")
  | None => False
  end.
Proof. vm_compute. split; reflexivity. Qed.

(** C117: FINDING: a value given to letters which take none is lost without an error, while it is an
    error for the same options by their names. *)
Theorem cmd_letter_value_refuted :
  ~ forall rules c v args r, c <> dash -> c <> equal_sign -> lettered rules c r -> r_argument r = false ->
      parse rules false 0 ((dash :: c :: equal_sign :: v) :: args) = None.
Proof.
  intros H. specialize (H ex_rules 104 (str_bytes "5") [] (ex_rule 3) ltac:(discriminate) ltac:(discriminate)).
  assert (L : lettered ex_rules 104 (ex_rule 3)) by (apply rule_short_ok; vm_compute; reflexivity).
  specialize (H L eq_refl). vm_compute in H. discriminate H.
Qed.
Print Assumptions cmd_letter_value_refuted.
Example cmd_letter_value_ex : cmd_parse ex_rules false [str_bytes "-h=5"] = cmd_parse ex_rules false [str_bytes "-h"] /\ cmd_parse ex_rules false [str_bytes "--help=5"] = None.
Proof. split; vm_compute; reflexivity. Qed.

(** C117: FINDING: the check that all arguments were used finds no error, whatever was not used. *)
Theorem cmd_unused_refuted :
  ~ forall used, In false used -> check_all_args_used used <> 0.
Proof. intros H. apply (H [false]); [left; reflexivity|reflexivity]. Qed.
Print Assumptions cmd_unused_refuted.
Example cmd_unused_ex : check_all_args_used [true; false; false] = 0.
Proof. reflexivity. Qed.
