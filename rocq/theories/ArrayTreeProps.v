(** Properties C90-C92: reading data by an array definition. *)
From Coq Require Import Strings.String.
From Coq Require Import ZArith List Bool Lia.
From Verif Require Import Common TypeModel ParseModel CondModel ArrayTreeModel ArrayTreeSpec CondProofs ArrayTreeProofs ArrayDefModel.
Import ListNotations.
Open Scope Z_scope.

(** The definition a text stands for. *)
Definition def (s : string) : tree := match interpret_raw (mk_text (str_bytes s) true) with Ok (inl u) => u | _ => TEnd end.

(** A number, as many octets, and if the number is more than 1, a look at the first of them again. *)
Definition ex_def : string := "be1#n,blob{n}#x IF ({n} > 1) REWIND1 blob1#y; ELSE sep1; be1@2#z;".
Lemma gt_defined cb : evaluate cb [CVal [123; 110; 125]; CVal [49]; COp Gt] <> EUb /\ evaluate cb [CVal [123; 110; 125]; CVal [49]; COp Gt] <> EBug.
Proof.
  unfold evaluate. rewrite evaluate_ev. cbn [ev compact].
  assert (V1 : evaluate_value cb [49] = EOk (1, false)) by reflexivity. rewrite V1.
  unfold evaluate_value. cbn [removelast]. destruct (cb [110]) as [[r x] s]. destruct (negb (r =? 0)); cbn [lift]; [ split; discriminate | ].
  generalize (u64 x). intros y. assert (P : prio Gt =? PRIO_SINGULAR = false) by reflexivity. rewrite P.
  unfold apply_op. cbn [orb]. destruct s.
  - destruct (ensure_signed (y, true)); [ | split; discriminate ]. destruct (ensure_signed (1, false)); [ | split; discriminate ].
    cbn [evaluate_signed lift ev]. split; discriminate.
  - cbn [evaluate_unsigned of_ores lift ev]. split; discriminate.
Qed.
Lemma ex_plain : plain (def ex_def).
Proof.
  set (u := def ex_def). vm_compute in u. subst u. split; [ | split; [ | split ] ].
  - repeat (apply Forall_cons; [ split; [ reflexivity | ]; split; [ cbn [In]; vm_compute; tauto | ]; split; [ vm_compute; discriminate | ]; split; [ vm_compute; intuition discriminate | intros ?; discriminate ] | ]). apply Forall_nil.
  - intros name d s [ (e & He & Hr) | (c & r & Hc & Hr & ->) ] Hd Ht E.
    + vm_compute in He. assert (name = [110]).
      { decompose [or] He; try contradiction; subst e; cbn [d_length_ref d_count_ref] in Hr; destruct Hr as [ Hr | Hr ]; congruence. }
      rewrite H in E. clear H. vm_compute in Hd. decompose [or] Hd; try contradiction; subst d; cbn [d_value v_tag app] in E; try discriminate E; try (now contradiction Ht); injection E as <-; reflexivity.
    + vm_compute in Hc. destruct Hc as [ <- | [ ] ]. vm_compute in Hr. destruct Hr as [ Hr | [ Hr | [ Hr | [ ] ] ] ]; try discriminate Hr. injection Hr as <-. cbn [removelast] in E.
      vm_compute in Hd. decompose [or] Hd; try contradiction; subst d; cbn [d_value v_tag app] in E; try discriminate E; try (now contradiction Ht); injection E as <-; reflexivity.
  - split; [ repeat (apply Forall_cons; [ vm_compute; discriminate | ]); apply Forall_nil | ]. intros _ d Hd Hi. vm_compute in Hd. decompose [or] Hd; try contradiction; subst d; vm_compute in Hi; intuition discriminate.
  - intros c cb Hc. vm_compute in Hc. destruct Hc as [ <- | [ ] ]. apply gt_defined.
Qed.

(** ** C90: the values read are those the definition asks for *)

(** Partial: definitions in [plain], see ArrayTreeSpec.v; the findings below say what happens with
    others.  [vs] are the values handed on and [n] is the number of octets taken. *)
Theorem array_tree_import_exact_partial : forall after t buf vs n, plain t -> bytes buf -> zlen buf < 2^32 ->
  import_from_buffer after buf t = ROk (vs, n) <->
  exists h rest, follows after t [] buf h rest /\ vs = values h /\ n = zlen (octets h).
Proof. exact import_exact. Qed.
Example array_tree_import_exact_ex : plain (def ex_def) /\ exists vs, import_from_buffer [] [2; 65; 66; 7; 9; 1] (def ex_def) = ROk (vs, 4) /\
  map (fun v => (v_tag v, v_data v)) vs = [(str_bytes "n", [2; 0; 0; 0; 0; 0; 0; 0]); (str_bytes "y", [65]); (str_bytes "z", [66; 0; 0; 0; 0; 0; 0; 0; 7; 0; 0; 0; 0; 0; 0; 0])].
Proof. split; [ exact ex_plain | ]. eexists. split; [ vm_compute; reflexivity | reflexivity ]. Qed.
Print Assumptions array_tree_import_exact_partial.

(** The octets of the values, one after the other, are those at the start of the data. *)
Theorem array_tree_octets : forall after t h i h' i', follows after t h i h' i' -> octets h ++ i = octets h' ++ i'.
Proof. exact follows_octets. Qed.
Example array_tree_octets_ex : follows [] (def "be1#a,REWIND1,be2#b;") [] [1; 2; 3] [(mk_value TYPE_H 0 [98] 2 1 [2; 1; 0; 0; 0; 0; 0; 0], [1; 2])] [3].
Proof.
  set (u := def _). vm_compute in u. subst u.
  eapply F_value with (o := [1]) (i := [2; 3]).
  { exists 1, 1, [2; 3]. split; [ reflexivity | ]. split; [ reflexivity | ]. split; [ reflexivity | ]. split; [ lia | ]. split; [ discriminate | ]. split; [ vm_compute; intuition discriminate | vm_compute; reflexivity ]. }
  apply F_none. eapply (F_rewind [] [] [(_, [1])]). cbn [app].
  eapply F_value with (o := [1; 2]) (i := [3]).
  { exists 2, 1, [3]. split; [ reflexivity | ]. split; [ reflexivity | ]. split; [ reflexivity | ]. split; [ lia | ]. split; [ discriminate | ]. split; [ vm_compute; intuition discriminate | vm_compute; reflexivity ]. }
  apply F_none. apply F_end.
Qed.
Print Assumptions array_tree_octets.

(** FINDING: a tag is found by a name it is only the beginning of, since the comparison is as long
    as the tag.  With the tags "length" and "len", a blob of length {length} takes the number of
    "len", which is the wrong one. *)
Theorem array_tree_prefix_refuted : exists vs, import_from_buffer [] [2; 1; 65; 66] (def "be1#length,be1#len,blob{length};") = ROk (vs, 3) /\
  map (fun v => (v_tag v, v_data v)) vs = [(str_bytes "length", [2; 0; 0; 0; 0; 0; 0; 0]); (str_bytes "len", [1; 0; 0; 0; 0; 0; 0; 0]); ([], [65])].
Proof. eexists. split; [ vm_compute; reflexivity | reflexivity ]. Qed.
Print Assumptions array_tree_prefix_refuted.

(** FINDING: REWIND does not go back over decimal numbers written as text and over frames, as the
    length of those is not known when it goes back: after REWIND2 over "25" and a comma, reading
    continues at the comma, not at the "2". *)
Theorem array_tree_rewind_refuted : exists vs, import_from_buffer [] (str_bytes "25,x") (def "ustr#n,sep1,REWIND2,blob1;") = ROk (vs, 3) /\ map v_data vs = [[44]].
Proof. eexists. split; [ vm_compute; reflexivity | reflexivity ]. Qed.
Print Assumptions array_tree_rewind_refuted.

(** FINDING: the manual says that REWIND past the beginning of the array is refused before the
    program starts.  The definition is accepted, and all data refused afterwards. *)
Theorem array_tree_rewind_checked_refuted : exists u, interpret_raw (mk_text (str_bytes "REWIND1,be1;") true) = good u /\
  forall after buf, import_from_buffer after buf u = RErr 2.
Proof. eexists. split; [ vm_compute; reflexivity | reflexivity ]. Qed.
Print Assumptions array_tree_rewind_checked_refuted.

(** ** C91: any data is either read, refused or too short *)

(** 1 and 2 are errors, 4 says that more octets are needed; [RUb] and [RBug] (the program aborts)
    do not occur.  Partial as above. *)
Theorem array_tree_import_safe_partial : forall after t buf, plain t -> bytes buf -> zlen buf < 2^32 ->
  (exists vs n, import_from_buffer after buf t = ROk (vs, n) /\ 0 <= n <= zlen buf) \/
  (exists c, import_from_buffer after buf t = RErr c /\ In c [1; 2; 4]).
Proof. exact import_safe_all. Qed.
Example array_tree_import_safe_ex : plain (def ex_def) /\ import_from_buffer [] [2; 65; 66] (def ex_def) = RErr 4 /\ import_from_buffer [] [1; 65; 66; 7; 9; 1] (def ex_def) = RErr 2 /\
  exists vs, import_from_buffer [] [1; 65; 59; 7; 9; 1] (def ex_def) = ROk (vs, 5).
Proof. split; [ exact ex_plain | ]. split; [ vm_compute; reflexivity | ]. split; [ vm_compute; reflexivity | ]. eexists. vm_compute. reflexivity. Qed.
Print Assumptions array_tree_import_safe_partial.

(** FINDING: a count taken from the data is only checked to be below 2^32.  With "be4#n,be8@{n};"
    the four octets 32, 0, 0, 0 make 2^29 elements of eight octets: the size of the memory for them
    wraps around to 0 and the elements are written behind it. *)
Theorem array_tree_count_refuted : import_from_buffer [] [32; 0; 0; 0; 1; 2; 3; 4; 5; 6; 7; 8] (def "be4#n,be8@{n};") = RUb.
Proof. vm_compute. reflexivity. Qed.
Print Assumptions array_tree_count_refuted.
(** FINDING: with blobs of 1024 octets and a count of 2^22, the multiplication of the two aborts
    the program: four octets of data are enough. *)
Theorem array_tree_abort_refuted : import_from_buffer [] [0; 64; 0; 0] (def "be4#n,blob1024@{n};") = RBug.
Proof. vm_compute. reflexivity. Qed.
Print Assumptions array_tree_abort_refuted.

(** ** C92: more data does not change a result *)

Theorem array_tree_import_decided_partial : forall after t buf more, plain t -> bytes buf -> zlen buf < 2^32 -> import_from_buffer after buf t <> RErr 4 ->
  import_from_buffer after (buf ++ more) t = import_from_buffer after buf t.
Proof. exact import_more. Qed.
Example array_tree_import_decided_ex : plain (def ex_def) /\ import_from_buffer [] [2; 65; 66; 7] (def ex_def) <> RErr 4 /\ import_from_buffer [] [1; 65; 66] (def ex_def) = RErr 2.
Proof. split; [ exact ex_plain | ]. split; [ vm_compute; discriminate | vm_compute; reflexivity ]. Qed.
Print Assumptions array_tree_import_decided_partial.
