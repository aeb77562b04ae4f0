(** C56: configuration files. *)
From Coq Require Import Strings.String.
From Coq Require Import ZArith List Bool Lia.
From Verif Require Import Common ParseModel ParseSpec ConfigModel ConfigSpec ConfigProofs ConfigSafe.
From Verif Require SettingsModel.
Import ListNotations.
Open Scope Z_scope.

Definition b := str_bytes.
Definition no_other (x : Z) (t : text) (p : pos) : res (Z * pos) := Ok (1, p).

(** C56: a configuration file of instance blocks, however it is laid out with blanks and
    comments, gives exactly the instances written in it, in order, with their names and settings. *)
Theorem config_roundtrip : forall other f, layout_ok f -> content_ok (content f) ->
  parse_string other (mk_text (render f) true) = Ok (Some (map instance_of (content f))).
Proof. intros other f H1 H2. exact (roundtrip other f _ eq_refl H1 H2). Qed.
Print Assumptions config_roundtrip.

Definition sp (n : nat) : list Z := repeat 32 n.
Definition plain (n v : string) : around * (list Z * list Z) := (mk_around (mk_gap [10; 32] []) (sp 1) [9] (sp 2) 10, (b n, b v)).
Definition noted (n v : string) : around * (list Z * list Z) := (mk_around (mk_gap [] [(b " note [x]", 10, sp 1); ([], 13, [10])]) [] [] [] 13, (b n, b v)).
Definition demo : file :=
  mk_file (mk_gap [10] [(b "# heading", 10, [10; 32])])
    [ mk_laid (mk_frame [] [] [] [] [] (mk_gap [10] [])) (b "in-1") None [plain "module" "udp reader"; noted "port" "2222 # not a comment"];
      mk_laid (mk_frame (sp 1) (sp 1) [10] [] (sp 2) (mk_gap [] [(b "end", 10, [])])) (b "in-1") (Some (b "method_x")) [];
      mk_laid (mk_frame [] [] [] [] [] (mk_gap [] [])) (b "out") None [noted "senders" "in-1,[x]"] ].
Ltac all_forall := repeat (first [ apply Forall_nil | apply Forall_cons; [ reflexivity | ] ]).
Example config_roundtrip_ex : layout_ok demo /\ content_ok (content demo) /\
  content demo = [ mk_block (b "in-1") None [(b "module", b "udp reader"); (b "port", b "2222 # not a comment")];
                   mk_block (b "in-1") (Some (b "method_x")) []; mk_block (b "out") None [(b "senders", b "in-1,[x]")] ].
Proof.
  assert (V : forall v : list Z, forallb (fun c => negb (is_newline c) && negb (c =? 0)) v = true -> negb (is_space_tab (hd 32 v)) && negb (is_space_tab (last v 32)) = true -> value_ok v).
  { intros v H1 H2. rewrite forallb_forall in H1. apply andb_true_iff in H2. destruct H2 as (H2 & H3). destruct v as [ | c v ]; [ discriminate | ]. split; [ | split; [ | split ] ].
    - apply Forall_forall. intros x Hx. apply H1, andb_true_iff in Hx. destruct Hx as (Hx & _). now apply negb_true_iff in Hx.
    - intros H0. specialize (H1 0 H0). cbn in H1. discriminate.
    - exists c, v. split; [ reflexivity | ]. now apply negb_true_iff in H2.
    - destruct (exists_last (l := c :: v) ltac:(discriminate)) as (r & x & E). exists r, x. split; [ exact E | ]. rewrite E, last_last in H3. now apply negb_true_iff in H3. }
  assert (N : forall n : list Z, n <> [] -> forallb name_octet n = true -> name_ok n).
  { intros n H1 H2. split; [ exact H1 | ]. rewrite forallb_forall in H2. apply Forall_forall. exact H2. }
  assert (G0 : forall l, forallb is_spaces l = true -> gap_ok (mk_gap l [])) by (intros l H; split; [ rewrite forallb_forall in H; apply Forall_forall; exact H | constructor ]).
  assert (P : forall n v, name_ok (b n) -> zlen (b n) < 244 -> value_ok (b v) -> setting_ok (plain n v)).
  { intros n v H1 H2 H3. unfold plain, setting_ok. cbn [a_gap a_eq a_before a_after a_nl]. split; [ now apply G0 | ]. split; [ all_forall | ]. split; [ all_forall | ]. split; [ all_forall | ]. auto. }
  assert (Q : forall n v, name_ok (b n) -> zlen (b n) < 244 -> value_ok (b v) -> setting_ok (noted n v)).
  { intros n v H1 H2 H3. unfold noted, setting_ok. cbn [a_gap a_eq a_before a_after a_nl]. split.
    - split; [ constructor | ]. cbn [g_comments]. repeat apply Forall_cons; [ | | apply Forall_nil ]; cbn beta iota; (split; [ all_forall | split; [ reflexivity | all_forall ] ]).
    - split; [ constructor | ]. split; [ constructor | ]. split; [ constructor | ]. auto. }
  split; [ | split ].
  - split.
    + split; [ all_forall | ]. cbn [f_head g_comments demo]. apply Forall_cons; [ | apply Forall_nil ]. cbn beta iota. split; [ all_forall | split; [ reflexivity | all_forall ] ].
    + unfold demo. cbn [f_blocks].
      assert (X : forall l, block_ok l -> block_ok l) by auto.
      apply Forall_cons; [ | apply Forall_cons; [ | apply Forall_cons; [ | apply Forall_nil ] ] ]; unfold block_ok; cbn [l_frame l_main l_sub l_settings f_1 f_2 f_3 f_4 f_5 f_gap];
        (split; [ all_forall | ]; split; [ all_forall | ]; split; [ all_forall | ]; split; [ all_forall | ]; split; [ all_forall | ]).
      * split; [ now apply G0 | ]. split; [ apply N; [ discriminate | reflexivity ] | ]. split; [ exact I | ]. split.
        -- apply Forall_cons; [ apply P | apply Forall_cons; [ apply Q | apply Forall_nil ] ]; first [ apply N; [ discriminate | reflexivity ] | apply V; reflexivity | reflexivity ].
        -- discriminate.
      * split; [ split; [ constructor | cbn [g_comments]; apply Forall_cons; [ cbn beta iota; split; [ all_forall | split; [ reflexivity | constructor ] ] | apply Forall_nil ] ] | ].
        split; [ apply N; [ discriminate | reflexivity ] | ]. split; [ apply N; [ discriminate | reflexivity ] | ]. split; [ constructor | ]. intros _. vm_compute. discriminate.
      * split; [ now apply G0 | ]. split; [ apply N; [ discriminate | reflexivity ] | ]. split; [ exact I | ]. split; [ | discriminate ].
        apply Forall_cons; [ apply Q | apply Forall_nil ]; first [ apply N; [ discriminate | reflexivity ] | apply V; reflexivity | reflexivity ].
  - split; [ | split ].
    + repeat (apply NoDup_cons; [ vm_compute; intuition discriminate | ]). apply NoDup_nil.
    + unfold content, demo. cbn [f_blocks map]. repeat (apply Forall_cons; [ split; [ cbn [b_settings l_settings map snd fst plain noted]; repeat (apply NoDup_cons; [ vm_compute; intuition discriminate | ]); apply NoDup_nil | vm_compute; discriminate ] | ]). apply Forall_nil.
    + unfold content, demo. cbn [f_blocks map]. apply Forall_cons; [ intros X; exfalso; apply X; reflexivity | ]. apply Forall_cons; [ | apply Forall_cons; [ intros X; exfalso; apply X; reflexivity | apply Forall_nil ] ].
      intros _. eexists. split; [ left; reflexivity | ]. split; reflexivity.
  - reflexivity.
Qed.
(** C56: no text of a configuration file makes the parser read outside it or run for ever, and it
    aborts the program only if a name is missing between brackets. *)
Theorem config_safe : forall other d, zlen d < 2^32 -> other_ok other (mk_text d true) ->
  match parse_string other (mk_text d true) with Ok _ => True | Ub => False | Bug => missing_name d end.
Proof. intros other d H O. exact (parse_safe other (mk_text d true) eq_refl H O). Qed.
Print Assumptions config_safe.
Example config_safe_ex : parse_string no_other (mk_text (b "[a]
x = [
y =
z = 1") true) = Ok None /\ other_ok no_other (mk_text (b "[a]") true).
Proof. split; [ vm_compute; reflexivity | ]. intros x p L. exists 1, p. split; [ reflexivity | ]. split; [ lia | exact L ]. Qed.

(** * Findings *)

(** Where a name is missing the program is aborted instead of the file being refused. *)
Theorem config_missing_name_refuted : forall other blanks e rest, blank blanks -> e = 91 \/ e = 93 ->
  parse_string other (mk_text (91 :: blanks ++ e :: rest) true) = Bug.
Proof. exact missing_aborts. Qed.
Print Assumptions config_missing_name_refuted.
Example config_missing_name_refuted_ex : parse_string no_other (mk_text (b "[ ]
module = udp") true) = Bug.
Proof. vm_compute. reflexivity. Qed.

(** A file which ends in an opening bracket and blanks is accepted. *)
Theorem config_truncated_refuted : forall other c blanks, blank (c :: blanks) -> parse_string other (mk_text (91 :: c :: blanks) true) = Ok (Some []).
Proof. exact truncated_accepted. Qed.
Print Assumptions config_truncated_refuted.
Example config_truncated_refuted_ex : blank [10].
Proof. all_forall. Qed.

(** A last block without settings is refused when nothing, not even a line end, comes after it. *)
Theorem config_unended_refuted : forall other n, name_ok n -> zlen n < 2^31 -> parse_string other (mk_text (91 :: n ++ [93]) true) = Ok None.
Proof. exact unended_refused. Qed.
Print Assumptions config_unended_refuted.
Example config_unended_refuted_ex : parse_string no_other (mk_text (b "[abc]
") true) <> Ok None.
Proof. vm_compute. discriminate. Qed.
