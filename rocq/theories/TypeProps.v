(** Properties of typed values (type.c): C28 and C41 to C47. *)
From Coq Require Import Strings.String.
From Coq Require Import ZArith List Bool Lia.
From Verif Require Import Common MsgModel MsgProofs HdlcModel FixpModel TypeModel TypeSpec TypeProofs.
Import ListNotations.
Open Scope Z_scope.
Local Notation str := str_bytes.

(** C28. An exported string imports to the same octets, whatever follows. *)
Theorem str_export_import : forall v rest w after,
  v_type v = TYPE_STR -> 2 + 2 * zlen (v_data v) < 2^32 ->
  v_type w = TYPE_STR -> v_elements w = 1 -> v_import_length w = 0 ->
  exists text w', allocate_and_export v = ROk text /\
    do_import after w (text ++ rest) = ROk (w', zlen text) /\ v_type w' = TYPE_STR /\ v_data w' = v_data v.
Proof.
  intros v rest w after Ht HL Hw H1 H0. exists (34 :: str_escape (v_data v) ++ [34]).
  exists (set_data (set_import_length w (zlen (str_escape (v_data v)) + 2)) (v_data v)).
  split; [apply str_export_ok; assumption|]. split; [|split; [exact Hw|reflexivity]].
  assert (E : do_import after w = import_str w) by (unfold do_import; rewrite Hw; reflexivity). rewrite E.
  cbn [app]. rewrite <- app_assoc. cbn [app].
  rewrite (import_str_accepts w _ (v_data v) rest H1 H0 (escape_quoted (v_data v))).
  - f_equal. f_equal. rewrite zlen_cons, zlen_app, zlen_cons, zlen_nil. lia.
  - rewrite escape_len. assert (zlen (filter needs_escape (v_data v)) <= zlen (v_data v)).
    { clear. induction (v_data v) as [|c d IH]; [reflexivity|]. cbn [filter]. destruct (needs_escape c); rewrite ?zlen_cons; lia. }
    lia.
Qed.
Print Assumptions str_export_import.
Example str_export_import_ex :
  allocate_and_export (mk_value TYPE_STR 0 [] 0 1 [97; 34; 92; 0; 200]) = ROk [34; 97; 92; 34; 92; 92; 0; 200; 34].
Proof. reflexivity. Qed.

(** C28. Exactly the texts in quotes are accepted, with escapes removed. *)
Theorem str_import_iff : forall v buf w n after,
  v_type v = TYPE_STR -> v_elements v = 1 -> v_import_length v = 0 -> zlen buf < 2^32 ->
  do_import after v buf = ROk (w, n) <->
  exists text data rest, buf = 34 :: text ++ 34 :: rest /\ quoted text data /\
    w = set_data (set_import_length v (zlen text + 2)) data /\ n = zlen text + 2.
Proof.
  intros v buf w n after Ht H1 H0 HL.
  assert (E : do_import after v = import_str v) by (unfold do_import; rewrite Ht; reflexivity). rewrite E. split.
  - apply import_str_sound; assumption.
  - intros (text & data & rest & -> & HQ & -> & ->). apply import_str_accepts; try assumption.
    rewrite zlen_cons, zlen_app, zlen_cons in HL. pose proof (zlen_nonneg _ rest). lia.
Qed.
Print Assumptions str_import_iff.
Example str_import_iff_ex : quoted [97; 92; 34; 92; 92] [97; 34; 92].
Proof. apply Q_plain; try lia. apply Q_escape. apply Q_escape. apply Q_nil. Qed.

(** C41. Integers of 1 to 8 octets, signed or unsigned, in either octet order,
    singly or in arrays: the stored 64 bit integers are the ones in the data. *)
Theorem int_import_exact : forall after v groups rest,
  let big := v_type v =? TYPE_BE in
  let sgn := is_signed (v_flags v) in
  In (v_type v) [TYPE_BE; TYPE_LE; TYPE_H] ->
  1 <= v_import_length v <= 8 -> Forall (fun g => bytes g /\ zlen g = v_import_length v) groups ->
  v_elements v = zlen groups -> zlen groups * 8 < 2^32 ->
  do_import after v (concat groups ++ rest) =
  ROk (set_type_data v TYPE_H (int64_memory (map (group_value big sgn) groups)), zlen (concat groups)).
Proof.
  intros after v groups rest big sgn Hin Hil HF Hn HL.
  assert (E : do_import after v = import_int (if big then expand_be else expand_le) v).
  { unfold big, do_import. cbn [In] in Hin. destruct Hin as [<-|[<-|[<-|[]]]]; reflexivity. }
  rewrite E. apply import_int_groups; try assumption.
  intros g Hb Hg. unfold big in *. destruct (v_type v =? TYPE_BE); [apply expand_be_value|apply expand_le_value]; assumption.
Qed.
Print Assumptions int_import_exact.
Example int_import_exact_ex :
  map (group_value true true) [[255; 254]; [1; 2]] = [-2; 258] /\
  do_import [] (mk_value TYPE_BE 1 [] 2 2 []) [255; 254; 1; 2; 9] =
  ROk (mk_value TYPE_H 1 [] 2 2 (int64_memory [-2; 258]), 4).
Proof. split; reflexivity. Qed.
(** The groups can always be found: shorter data is reported incomplete. *)
Theorem int_import_incomplete : forall after v buf,
  In (v_type v) [TYPE_BE; TYPE_LE; TYPE_H] ->
  1 <= v_import_length v <= 8 -> 1 <= v_elements v -> v_elements v * 8 < 2^32 ->
  zlen buf < v_elements v * v_import_length v ->
  do_import after v buf = RErr PARSE_INCOMPLETE.
Proof.
  intros after v buf Hin Hil Hn HL Hs.
  assert (E : exists expand, do_import after v = import_int expand v).
  { unfold do_import. cbn [In] in Hin. destruct Hin as [<-|[<-|[<-|[]]]]; eexists; reflexivity. }
  destruct E as (expand & ->). unfold import_int. replace (8 <? v_import_length v) with false by lia.
  cbv zeta. unfold u32. rewrite (Z.mod_small (v_elements v * v_import_length v)) by nia.
  replace (zlen buf <? v_elements v * v_import_length v) with true by lia. reflexivity.
Qed.
Print Assumptions int_import_incomplete.
Example int_import_incomplete_ex :
  do_import [] (mk_value TYPE_BE 1 [] 3 2 []) [1; 2; 3; 4; 5] = RErr PARSE_INCOMPLETE.
Proof. reflexivity. Qed.
(** An array of 2^29 eight octet integers makes the size wrap to zero: memory
    outside the buffer is accessed, even for an empty buffer. *)
Theorem int_import_size_refuted : exists v, v_type v = TYPE_BE /\ v_import_length v = 8 /\ v_elements v = 2^29 /\
  forall after buf, zlen buf < 2^32 -> do_import after v buf = RUb.
Proof.
  exists (mk_value TYPE_BE 0 [] 8 (2^29) []). repeat apply conj; try reflexivity.
  intros after buf HL. change (do_import after (mk_value TYPE_BE 0 [] 8 (2^29) []) buf) with (import_int expand_be (mk_value TYPE_BE 0 [] 8 (2^29) []) buf).
  unfold import_int. cbn [v_import_length v_elements v_flags]. cbv zeta.
  change (8 <? 8) with false. change (u32 (2^29 * 8)) with 0. pose proof (zlen_nonneg _ buf).
  replace (zlen buf <? 0) with false by lia. replace (zlen buf <? 2^29 * 8) with true by lia. reflexivity.
Qed.
Print Assumptions int_import_size_refuted.

(** C42. Decimal numbers in text: blanks, number, and a character which ends it;
    numbers outside 64 bits are replaced by the nearest limit. *)
Theorem decimal_import_iff : forall after v buf w n,
  let sgn := v_type v =? TYPE_ISTR in
  In (v_type v) [TYPE_USTR; TYPE_ISTR] -> v_elements v = 1 -> v_import_length v = 0 ->
  do_import after v buf = ROk (w, n) <->
  exists blanks text c rest x, buf = blanks ++ text ++ c :: rest /\
    Forall (fun b => b = 32 \/ b = 9) blanks /\ decimal sgn text x /\ zlen text <= 63 /\ ~ in_number sgn c /\
    w = set_flags (set_type_data v TYPE_H (int64_memory [clamp64 sgn x]))
                  (if sgn then Z.lor (v_flags v) 1 else Z.land (v_flags v) 254) /\
    n = zlen blanks + zlen text.
Proof.
  intros after v buf w n sgn Hin H1 H0.
  assert (E : do_import after v = import_num_str sgn v).
  { unfold sgn, do_import. cbn [In] in Hin. destruct Hin as [<-|[<-|[]]]; reflexivity. }
  rewrite E. unfold import_num_str. rewrite H1, H0. change (1 =? 1) with true. change (0 =? 0) with true. cbn [negb].
  assert (EM : forall x, le_enc 8 (u64 x) = int64_memory [x]) by (intros x; unfold int64_memory; cbn [flat_map]; rewrite app_nil_r; reflexivity).
  split.
  - destruct (import_numeric_str_raw sgn buf) as [[y k]| | |] eqn:EN; try discriminate. cbn [rbind]. intros HH.
    destruct (numeric_sound sgn buf y k EN) as (bl & text & c & rest & x & Eb & HB & HD & HL & HC & -> & ->).
    exists bl, text, c, rest, x. injection HH as <- <-. rewrite EM.
    split; [exact Eb|]. split; [exact HB|]. split; [exact HD|]. split; [exact HL|]. split; [exact HC|].
    split; [destruct sgn; reflexivity|reflexivity].
  - intros (bl & text & c & rest & x & -> & HB & HD & HL & HC & -> & ->).
    rewrite (numeric_accepts sgn bl text x c rest HB HD HL HC). cbn [rbind]. rewrite EM. destruct sgn; reflexivity.
Qed.
Print Assumptions decimal_import_iff.
Example decimal_import_iff_ex :
  do_import [] (mk_value TYPE_ISTR 0 [] 0 1 []) (str "  -17;") = ROk (mk_value TYPE_H 1 [] 0 1 (int64_memory [-17]), 5).
Proof. reflexivity. Qed.
(** A number too large for 64 bits is accepted as a different one. *)
Theorem decimal_import_range_refuted : exists text x w, decimal false text x /\
  do_import [] (mk_value TYPE_USTR 0 [] 0 1 []) (text ++ [59]) = ROk (w, zlen text) /\
  v_data w <> int64_memory [x] /\ v_data w = int64_memory [2^64 - 1] /\ x = 2^64.
Proof.
  exists (str "18446744073709551616"), (2^64), (mk_value TYPE_H 0 [] 0 1 (int64_memory [2^64 - 1])).
  split.
  - exists false, [], (str "18446744073709551616"). repeat apply conj; [constructor|discriminate| |reflexivity|reflexivity].
    vm_compute. repeat (constructor; [split; discriminate|]). constructor.
  - repeat apply conj; [vm_compute; reflexivity|vm_compute; discriminate|reflexivity|reflexivity].
Qed.
Print Assumptions decimal_import_range_refuted.

(** C43. Fixed length octets, separators and unseparated text. *)
Theorem blob_import_iff : forall after v buf w n,
  v_type v = TYPE_BLOB -> 0 <= v_import_length v * v_elements v < 2^32 ->
  do_import after v buf = ROk (w, n) <->
  exists data rest, buf = data ++ rest /\ zlen data = v_import_length v * v_elements v /\ w = set_data v data /\ n = zlen data.
Proof.
  intros after v buf w n Ht HL.
  assert (E : do_import after v = import_blob v) by (unfold do_import; rewrite Ht; reflexivity). rewrite E.
  unfold import_blob, u32. rewrite Z.mod_small by lia. cbv zeta. set (s := v_import_length v * v_elements v) in *. split.
  - destruct (Z.ltb_spec (zlen buf) s) as [|HS]; [discriminate|]. intros H. injection H as <- <-.
    exists (sub_mem buf 0 s), (skipn (Z.to_nat s) buf). assert (EL : zlen (sub_mem buf 0 s) = s) by (apply sub_len; lia).
    repeat apply conj; auto. unfold sub_mem. cbn [Z.to_nat skipn]. symmetry. apply firstn_skipn.
  - intros (data & rest & -> & Hd & -> & ->). rewrite zlen_app. pose proof (zlen_nonneg _ rest).
    replace (zlen data + zlen rest <? s) with false by lia. rewrite sub_here by lia. rewrite Hd. reflexivity.
Qed.
Print Assumptions blob_import_iff.
Example blob_import_iff_ex : do_import [] (mk_value TYPE_BLOB 0 [] 2 2 []) [1; 2; 3; 4; 5] = ROk (mk_value TYPE_BLOB 0 [] 2 2 [1; 2; 3; 4], 4).
Proof. reflexivity. Qed.
Theorem separator_import_iff : forall after v buf w n, bytes buf ->
  v_type v = TYPE_SEP -> 0 <= v_import_length v * v_elements v < 2^32 ->
  do_import after v buf = ROk (w, n) <->
  exists data rest, buf = data ++ rest /\ zlen data = v_import_length v * v_elements v /\ Forall separator data /\
    w = set_data v data /\ n = zlen data.
Proof.
  intros after v buf w n HB Ht HL.
  assert (E : do_import after v = import_sep_stx is_sep v) by (unfold do_import; rewrite Ht; reflexivity). rewrite E.
  unfold import_sep_stx, u32. rewrite Z.mod_small by lia. cbv zeta. set (s := v_import_length v * v_elements v) in *.
  assert (G : forall l, bytes l -> (forallb is_sep l = true <-> Forall separator l)).
  { intros l Hl. rewrite forallb_forall, Forall_forall. unfold bytes in Hl. rewrite Forall_forall in Hl.
    split; intros H c Hc; apply is_sep_iff; auto. }
  split.
  - destruct (Z.ltb_spec (zlen buf) s) as [|HS]; [discriminate|].
    destruct (forallb is_sep (sub_mem buf 0 s)) eqn:EF; [|discriminate]. intros H. injection H as <- <-.
    exists (sub_mem buf 0 s), (skipn (Z.to_nat s) buf). assert (EL : zlen (sub_mem buf 0 s) = s) by (apply sub_len; lia).
    split; [unfold sub_mem; cbn [Z.to_nat skipn]; symmetry; apply firstn_skipn|]. split; [exact EL|].
    split; [apply G; [apply sub_bytes; exact HB|exact EF]|auto].
  - intros (data & rest & -> & Hd & HF & -> & ->). rewrite zlen_app. pose proof (zlen_nonneg _ rest).
    replace (zlen data + zlen rest <? s) with false by lia. rewrite sub_here by lia.
    replace (forallb is_sep data) with true by (symmetry; apply G; [apply bytes_app in HB; tauto|exact HF]). rewrite Hd. reflexivity.
Qed.
Print Assumptions separator_import_iff.
Example separator_import_iff_ex :
  do_import [] (mk_value TYPE_SEP 0 [] 2 1 []) (str "; a") = RErr PARSE_SOFT /\
  do_import [] (mk_value TYPE_SEP 0 [] 2 1 []) (str ";,a") = ROk (mk_value TYPE_SEP 0 [] 2 1 (str ";,"), 2).
Proof. split; reflexivity. Qed.
Theorem stx_import_iff : forall after v buf w n,
  v_type v = TYPE_STX -> 0 <= v_import_length v * v_elements v < 2^32 ->
  do_import after v buf = ROk (w, n) <->
  exists data rest, buf = data ++ rest /\ zlen data = v_import_length v * v_elements v /\ Forall (fun c => c = 1 \/ c = 2) data /\
    w = set_data v data /\ n = zlen data.
Proof.
  intros after v buf w n Ht HL.
  assert (E : do_import after v = import_sep_stx is_stx v) by (unfold do_import; rewrite Ht; reflexivity). rewrite E.
  unfold import_sep_stx, u32. rewrite Z.mod_small by lia. cbv zeta. set (s := v_import_length v * v_elements v) in *.
  assert (G : forall l, forallb is_stx l = true <-> Forall (fun c => c = 1 \/ c = 2) l).
  { intros l. rewrite forallb_forall, Forall_forall. split; intros H c Hc; specialize (H c Hc); unfold is_stx in *; lia. }
  split.
  - destruct (Z.ltb_spec (zlen buf) s) as [|HS]; [discriminate|].
    destruct (forallb is_stx (sub_mem buf 0 s)) eqn:EF; [|discriminate]. intros H. injection H as <- <-.
    exists (sub_mem buf 0 s), (skipn (Z.to_nat s) buf). assert (EL : zlen (sub_mem buf 0 s) = s) by (apply sub_len; lia).
    split; [unfold sub_mem; cbn [Z.to_nat skipn]; symmetry; apply firstn_skipn|]. split; [exact EL|].
    split; [apply G; exact EF|auto].
  - intros (data & rest & -> & Hd & HF & -> & ->). rewrite zlen_app. pose proof (zlen_nonneg _ rest).
    replace (zlen data + zlen rest <? s) with false by lia. rewrite sub_here by lia.
    replace (forallb is_stx data) with true by (symmetry; apply G; exact HF). rewrite Hd. reflexivity.
Qed.
Print Assumptions stx_import_iff.
Example stx_import_iff_ex : do_import [] (mk_value TYPE_STX 0 [] 1 1 []) [2; 65] = ROk (mk_value TYPE_STX 0 [] 1 1 [2], 1).
Proof. reflexivity. Qed.
Theorem nsep_import_iff : forall after v buf w n,
  v_type v = TYPE_NSEP -> v_elements v = 1 -> v_import_length v = 0 -> zlen buf < 2^32 ->
  do_import after v buf = ROk (w, n) <->
  exists text c rest, buf = text ++ c :: rest /\ text <> [] /\ Forall (fun c => ~ field_end c) text /\ field_end c /\
    w = set_data (set_import_length v (zlen text)) text /\ n = zlen text.
Proof.
  intros after v buf w n Ht H1 H0 HL.
  assert (E : do_import after v = import_nsep v) by (unfold do_import; rewrite Ht; reflexivity). rewrite E.
  apply import_nsep_iff; assumption.
Qed.
Print Assumptions nsep_import_iff.
Example nsep_import_iff_ex :
  do_import [] (mk_value TYPE_NSEP 0 [] 0 1 []) ([97; 59; 98] ++ [10; 99]) = ROk (mk_value TYPE_NSEP 0 [] 3 1 [97; 59; 98], 3).
Proof. reflexivity. Qed.

(** C44. Reading on does not change a result: what was accepted or refused on some
    octets is accepted or refused the same way when more follow. *)
Theorem import_decided_partial : forall after v buf more r,
  ~ In (v_type v) [TYPE_MSG; TYPE_FIXP] -> 0 <= v_import_length v -> 0 <= v_elements v ->
  do_import after v buf = r -> r <> RErr PARSE_INCOMPLETE -> r <> RUb ->
  do_import after v (buf ++ more) = r.
Proof.
  intros after v buf more r Hin Hil He. unfold do_import.
  repeat match goal with
  | |- context [if v_type v =? ?t then _ else _] => destruct (Z.eqb_spec (v_type v) t)
  end; intros H Hr Hu.
  all: first [ apply (int_app _ v buf more r Hil He H Hr Hu) | apply (blob_app v buf more r H Hr)
             | apply (num_str_app _ v buf more r H Hr) | apply (sep_app _ v buf more r H Hr)
             | apply (str_app v buf more r H Hr) | apply (nsep_app v buf more r H Hr)
             | apply (hdlc_app v buf more r H Hr) | exact H | exfalso; apply Hin; cbn [In]; auto ].
Qed.
Print Assumptions import_decided_partial.
Example import_decided_ex :
  do_import [] (mk_value TYPE_USTR 0 [] 0 1 []) (str "12") = RErr PARSE_INCOMPLETE /\
  do_import [] (mk_value TYPE_USTR 0 [] 0 1 []) (str "12,") = do_import [] (mk_value TYPE_USTR 0 [] 0 1 []) (str "12,34").
Proof. split; reflexivity. Qed.
(** Not so for fixed point numbers: a prefix of the text is taken as another number,
    or refused. *)
Theorem import_decided_fixp_refuted :
  let v := mk_value TYPE_FIXP 0 [] 0 1 [] in
  (exists w w', do_import [] v (str "16#") = ROk (w, 2) /\ do_import [] v (str "16#" ++ str "1f;") = ROk (w', 5) /\ v_data w <> v_data w') /\
  do_import [] v (str "-") = RErr PARSE_SOFT /\ (exists w', do_import [] v (str "-" ++ str "1;") = ROk (w', 2)).
Proof.
  split; [|split].
  - eexists. eexists. split; [vm_compute; reflexivity|]. split; [vm_compute; reflexivity|]. vm_compute. discriminate.
  - vm_compute. reflexivity.
  - eexists. vm_compute. reflexivity.
Qed.
Print Assumptions import_decided_fixp_refuted.
(** Nor for messages: with nothing read yet the import is refused instead of
    reported incomplete. *)
Theorem import_decided_msg_refuted : forall after m, mm_ok m ->
  let v := mk_value TYPE_MSG 0 [] 0 1 [] in
  do_import after v [] = RErr PARSE_SOFT /\ exists w n, do_import after v ([] ++ msg_msg_to_network m) = ROk (w, n).
Proof.
  intros after m HM v. split; [reflexivity|]. cbn [app].
  change (do_import after v) with (import_msg after v). rewrite <- (app_nil_r (msg_msg_to_network m)).
  rewrite import_msg_one by (try reflexivity; exact HM). eauto.
Qed.
Print Assumptions import_decided_msg_refuted.

(** C45. Import neither aborts the process nor accesses memory outside the buffer,
    uses no more octets than given, and at least one unless the type is vain. *)
Theorem import_safe_partial : forall after v buf, sane v -> zlen buf < 2^32 ->
  do_import after v buf <> RBug /\
  (v_type v <> TYPE_FIXP -> do_import after v buf <> RUb) /\
  (forall w n, do_import after v buf = ROk (w, n) -> n <= zlen buf /\ (v_type v <> TYPE_VAIN -> 0 < n)).
Proof.
  intros after v buf HS HL. pose proof (import_safe after v buf HS HL) as H.
  destruct (do_import after v buf) as [[w n]| | |]; repeat apply conj; try discriminate; try contradiction.
  all: try (intros w' n' E; injection E as <- <-; exact H).
Qed.
Print Assumptions import_safe_partial.
Example import_safe_ex : sane (mk_value TYPE_BE 1 [] 3 2 []) /\ sane (mk_value TYPE_HDLC 0 [] 0 1 []).
Proof. split; vm_compute; intuition (try lia; try discriminate). Qed.
(** Blobs whose total size wraps to zero are imported using nothing (the caller
    aborts then, array_tree.c:1364). *)
Theorem import_blob_size_refuted : forall after buf,
  exists w, do_import after (mk_value TYPE_BLOB 0 [] 1024 4194304 []) buf = ROk (w, 0).
Proof.
  intros after buf. change (do_import after (mk_value TYPE_BLOB 0 [] 1024 4194304 []) buf) with (import_blob (mk_value TYPE_BLOB 0 [] 1024 4194304 []) buf).
  unfold import_blob. cbn [v_import_length v_elements]. change (u32 (1024 * 4194304)) with 0. cbv zeta. pose proof (zlen_nonneg _ buf).
  replace (zlen buf <? 0) with false by lia. eexists. reflexivity.
Qed.
Print Assumptions import_blob_size_refuted.
(** A message header stating size zero, with correct checksum, also imports using
    nothing. *)
Theorem import_msg_size_refuted : exists buf, zlen buf = 30 /\
  forall after, exists w, do_import after (mk_value TYPE_MSG 0 [] 0 1 []) buf = ROk (w, 0).
Proof.
  exists (be_enc 4 (Crc32Model.crc32buf (repeat 0 14)) ++ repeat 0 26). split; [vm_compute; reflexivity|].
  intros after. eexists. vm_compute. reflexivity.
Qed.
Print Assumptions import_msg_size_refuted.
(** A fixed point number of 21 digits is converted with undefined result. *)
Theorem import_fixp_range_refuted :
  do_import [] (mk_value TYPE_FIXP 0 [] 0 1 []) (str "100000000000000000000;") = RUb.
Proof. vm_compute. reflexivity. Qed.
Print Assumptions import_fixp_range_refuted.

(** C46. A message inside the data is imported unchanged (checksum fields zero), and
    exactly its octets are used. *)
Theorem msg_import_exact : forall after v m rest, v_type v = TYPE_MSG -> v_elements v = 1 -> mm_ok m ->
  exists w, do_import after v (msg_msg_to_network m ++ rest) = ROk (w, zlen (msg_msg_to_network m)) /\
    v_elements w = 1 /\ v_data w = host_msg (mm_clear_crc m) /\ read_host_msg (v_data w) = mm_clear_crc m.
Proof.
  intros after v m rest Ht H1 HM.
  assert (E : do_import after v = import_msg after v) by (unfold do_import; rewrite Ht; reflexivity). rewrite E.
  rewrite import_msg_one by assumption. eexists. split; [reflexivity|]. split; [reflexivity|]. split; [reflexivity|].
  apply read_host; [apply mm_clear_ok; exact HM|cbn; lia|cbn; lia].
Qed.
Print Assumptions msg_import_exact.
Definition small_msg (data : list Z) : rrr_msg_msg :=
  mk_mm (mk_msg 0 (30 + zlen data) T_MESSAGE 0 0) 5 (set_class (set_type 0 1) 1) 0 0 data.
Example msg_import_exact_ex : mm_ok (small_msg [7; 8]).
Proof. unfold mm_ok, small_msg. cbn. unfold byte, bytes. repeat split; try lia; try reflexivity. repeat constructor; unfold byte; lia. Qed.
(** Two messages of different size in one field are refused although they are
    complete and correct: the size of the first is used for both. *)
Theorem msg_import_many_refuted : exists m1 m2, mm_ok m1 /\ mm_ok m2 /\
  do_import [] (mk_value TYPE_MSG 0 [] 0 2 []) (msg_msg_to_network m1 ++ msg_msg_to_network m2 ++ [0]) = RErr PARSE_SOFT.
Proof.
  exists (small_msg [7; 8]), (small_msg [7; 8; 9]). split; [exact msg_import_exact_ex|]. split.
  - unfold mm_ok, small_msg. cbn. unfold byte, bytes. repeat split; try lia; try reflexivity. repeat constructor; unfold byte; lia.
  - vm_compute. reflexivity.
Qed.
Print Assumptions msg_import_many_refuted.

(** C47. A value packed for the network and unpacked again is the same value: type,
    flags, tag, element count and data; the packed data has the same length. *)
Theorem value_pack_unpack : forall v after, packable v ->
  exists t d, pack v = ROk (t, d) /\ zlen d = zlen (v_data v) /\ bytes d /\
    value_new_and_unpack after t (v_flags v) (v_tag v) d (v_elements v) = ROk v.
Proof.
  intros v after H. destruct (pack_unpack v after H) as (t & d & H1 & H2 & H3 & _ & _ & H4). exists t, d. auto.
Qed.
Print Assumptions value_pack_unpack.
Example value_pack_unpack_ex :
  packable (mk_value TYPE_H 1 (str "x") 16 2 (int64_memory [-2; 258])) /\
  pack (mk_value TYPE_H 1 (str "x") 16 2 (int64_memory [-2; 258])) = ROk (TYPE_BE, be_enc 8 (2^64 - 2) ++ be_enc 8 258).
Proof.
  split; [|reflexivity]. unfold packable. cbn [v_data v_import_length v_type]. repeat apply conj.
  - unfold bytes. vm_compute. repeat (constructor; [split; [discriminate|reflexivity]|]). constructor.
  - reflexivity.
  - reflexivity.
  - left. split; [cbn [In]; auto|reflexivity].
Qed.
(** Messages are packed to the octets sent over the network. *)
Theorem value_pack_messages : forall v ms,
  v_type v = TYPE_MSG -> v_data v = concat (map host_msg ms) -> zlen (v_data v) < 2^32 ->
  Forall (fun m => mm_ok m /\ header_crc32 (mm_head m) = 0 /\ data_crc32 (mm_head m) = 0) ms ->
  pack v = ROk (TYPE_MSG, concat (map msg_msg_to_network ms)).
Proof.
  intros v ms Ht Hd HL HF. rewrite Hd in HL. destruct (msg_pack_ok ms [] HF HL) as (E1 & _).
  unfold pack. rewrite Ht, Hd, E1. reflexivity.
Qed.
Print Assumptions value_pack_messages.
Example value_pack_messages_ex :
  match pack (mk_value TYPE_MSG 0 [] 32 1 (host_msg (small_msg [7; 8]))) with ROk (_, d) => zlen d | _ => 0 end = 32.
Proof. vm_compute. reflexivity. Qed.
(** Zero-length octet values cannot be packed (an error, not a crash). *)
Theorem value_pack_empty_refused : forall v,
  In (v_type v) [TYPE_BLOB; TYPE_SEP; TYPE_NSEP; TYPE_STX; TYPE_HDLC] -> v_data v = [] -> pack v = RErr 1.
Proof.
  intros v Hin Hd. unfold pack. rewrite Hd. change (zlen (@nil Z) =? 0) with true.
  cbn [In] in Hin. destruct Hin as [<-|[<-|[<-|[<-|[<-|[]]]]]]; reflexivity.
Qed.
Print Assumptions value_pack_empty_refused.

(** C48. Integers convert to text as their decimal numbers separated by commas. *)
Theorem int_to_text_exact_partial : forall v xs,
  Forall (int64_range (is_signed (v_flags v))) xs -> v_data v = int64_memory xs -> xs <> [] -> zlen (v_data v) < 2^30 ->
  exists out, h_to_str v = ROk out /\ number_list (is_signed (v_flags v)) xs out.
Proof.
  intros v xs HF HD Hne HL. eexists. split; [apply (h_to_str_ok v xs); assumption|].
  eexists. split; [reflexivity|]. clear - HF. induction HF as [|x xs Hx HF IH]; cbn [map]; constructor; [|exact IH].
  apply item_decimal. exact Hx.
Qed.
Print Assumptions int_to_text_exact_partial.
Example int_to_text_ex :
  h_to_str (mk_value TYPE_H 1 [] 24 3 (int64_memory [-12; 0; 2^63 - 1])) = ROk (str "-12,0,9223372036854775807").
Proof. vm_compute. reflexivity. Qed.
(** A value without numbers makes the conversion write outside its buffer. *)
Theorem int_to_text_empty_refuted : forall flags tag il el, h_to_str (mk_value TYPE_H flags tag il el []) = RUb.
Proof. reflexivity. Qed.
Print Assumptions int_to_text_empty_refuted.
(** So does a value of 2^30 octets or a little more. *)
Theorem int_to_text_large_refuted : forall v, zlen (v_data v) = 2^30 -> h_to_str v = RUb.
Proof.
  intros v HL. unfold h_to_str. rewrite HL. change (u32 (2^30 * 4)) with 0. cbv zeta.
  change (2^30 mod 8 =? 0) with true. cbn [negb].
  destruct (Z.to_nat (2^30 / 8)) as [|n] eqn:E; [lia|]. cbn [numbers h_to_str_loop].
  match goal with |- context [0 <? zlen ?t + 1] => pose proof (zlen_nonneg _ t); replace (0 <? zlen t + 1) with true by lia end.
  reflexivity.
Qed.
Print Assumptions int_to_text_large_refuted.
(** A string value with element count zero makes the conversion to a number divide
    by zero; such values arrive in array messages. *)
Theorem str_to_number_elements_refuted : forall flags tag il c d, str_to_ull (mk_value TYPE_STR flags tag il 0 (c :: d)) = RUb.
Proof.
  intros. unfold str_to_ull. cbn [v_data v_elements]. rewrite zlen_cons. pose proof (zlen_nonneg _ d).
  replace (1 + zlen d =? 0) with false by lia. reflexivity.
Qed.
Print Assumptions str_to_number_elements_refuted.
