(** Properties of arrays and array messages (array.c): C14 to C16 and C49 to C53. *)
From Coq Require Import Strings.String.
From Coq Require Import ZArith List Bool Lia.
From Verif Require Import Common MsgModel MsgSpec MsgProofs Utf8Spec Utf8Props HdlcModel TypeModel TypeSpec TypeProofs ArrayModel ArraySpec ArrayProofs.
Import ListNotations.
Open Scope Z_scope.
Local Notation str := str_bytes.

(** C14. An array made into a message and read back is the same array. *)
Theorem array_round_trip : forall vs time topic target after,
  Forall array_value vs -> 30 + zlen topic + wire_size vs < 2^32 ->
  exists m, new_message_from_array vs time topic = ROk m /\
    MSG_TOPIC m = topic /\ mm_timestamp m = time /\ MSG_CLASS m = 11 /\
    append_to_array after m target = ROk (target ++ vs, 0).
Proof.
  intros vs time topic target after HF Hsz. destruct (new_message_ok vs time topic HF Hsz) as (o & HI & E).
  exists (array_msg time topic o). split; [exact E|]. split; [apply topic_of|]. split; [reflexivity|]. split; [reflexivity|].
  apply append_ok; [exact HI|]. rewrite (images_len _ _ HI). exact Hsz.
Qed.
Print Assumptions array_round_trip.

Definition sample_array : list value :=
  [ mk_value TYPE_H 1 (str "n") 16 2 (int64_memory [-5; 70000]);
    mk_value TYPE_STR 0 (str "name") 3 1 (str "xyz");
    mk_value TYPE_VAIN 0 [] 0 1 [];
    mk_value TYPE_BLOB 0 (str "n") 2 1 [0; 255] ].
Example array_round_trip_ex : Forall array_value sample_array /\ 30 + 1 + wire_size sample_array < 2^32.
Proof.
  assert (HB : forall l, forallb byteb l = true -> bytes l).
  { intros l H. apply Forall_forall. intros x Hx. apply byteb_iff. rewrite forallb_forall in H. apply H, Hx. }
  split; [|reflexivity]. unfold sample_array. repeat (apply Forall_cons || apply Forall_nil).
  all: unfold array_value, packable; cbn [v_type v_flags v_tag v_import_length v_elements v_data].
  all: split; [split; [apply HB; vm_compute; reflexivity|split; [vm_compute; reflexivity|split; [vm_compute; reflexivity|]]]|
       split; [unfold byte; lia|split; [apply HB; vm_compute; reflexivity|split; [vm_compute; reflexivity|lia]]]].
  - left. split; [left; reflexivity|vm_compute; reflexivity].
  - right; right; left; reflexivity.
  - right; right; right; left. split; reflexivity.
  - right; left. split; [left; reflexivity|discriminate].
Qed.

(** C14, over the network: sent, received and read back. *)
Theorem array_network_round_trip : forall vs time topic target after after',
  Forall array_value vs -> 30 + zlen topic + wire_size vs < 2^32 -> 0 <= time < 2^64 ->
  bytes topic -> ~ In 0 topic -> utf8_well_formed topic -> zlen topic < 2^16 ->
  exists m m', new_message_from_array vs time topic = ROk m /\
    receive (msg_msg_to_network m) after = Ok (DMsg m') /\
    append_to_array after' m' target = ROk (target ++ vs, 0).
Proof.
  intros vs time topic target after after' HF Hsz Ht HB H0 HU HT. destruct (new_message_ok vs time topic HF Hsz) as (o & HI & E).
  pose proof (images_len _ _ HI) as HL. pose proof (zlen_nonneg _ topic). pose proof (zlen_nonneg _ o).
  exists (array_msg time topic o), (array_msg time topic o). split; [exact E|]. split.
  - change (array_msg time topic o) with (mm_clear_crc (array_msg time topic o)) at 2. apply mm_receive.
    unfold mm_ok. cbn [array_msg mm_head mm_data mm_timestamp mm_type_and_class mm_version mm_topic_length msg_type msg_size msg_value].
    rewrite zlen_app. split; [reflexivity|]. split; [lia|]. split; [lia|]. split; [lia|]. split; [exact Ht|].
    split; [vm_compute; intuition discriminate|]. split; [unfold byte; lia|]. split; [lia|]. split; [lia|].
    split; [apply bytes_app; split; [exact HB|exact (images_bytes _ _ HI)]|].
    split; [reflexivity|]. split; [reflexivity|].
    replace (MSG_TOPIC _) with topic by (symmetry; apply topic_of). apply utf8_validate_iff_well_formed; auto.
  - apply append_ok; [exact HI|lia].
Qed.
Print Assumptions array_network_round_trip.
Example array_network_round_trip_ex :
  match new_message_from_array sample_array 1700000000000000 (str "t") with
  | ROk m => match receive (msg_msg_to_network m) [] with
             | Ok (DMsg m') => append_to_array [] m' [] = ROk (sample_array, 0)
             | _ => False
             end
  | _ => False
  end.
Proof. vm_compute. reflexivity. Qed.

(** C14. An array too large for a message is refused, not cut. *)
Theorem array_too_large_refused : forall vs time topic,
  Forall (fun v => zlen (v_tag v) + zlen (v_data v) < 2^32) vs -> wire_size vs < 2^64 ->
  2^32 <= 30 + zlen topic + wire_size vs ->
  new_message_from_array vs time topic = RErr ARRAY_SOFT_ERROR.
Proof.
  intros vs time topic HF HS HL. pose proof (wire_nonneg vs). unfold new_message_from_array.
  rewrite (packed_length_ok vs 0) by (auto; lia). rewrite Z.add_0_l. destruct (2^32 - 1 <? wire_size vs); [reflexivity|].
  unfold msg_msg_new_empty, MSG_MSG_MIN. cbv zeta. replace (_ <? _) with true by lia. reflexivity.
Qed.
Print Assumptions array_too_large_refused.
Example array_too_large_ex : exists d, zlen d = 2^32 - 40 /\ 2^32 <= 30 + 0 + wire_size [mk_value TYPE_BLOB 0 [] 0 1 d].
Proof.
  exists (repeat 0 (Z.to_nat (2^32 - 40))). set (d := repeat _ _). assert (E : zlen d = 2^32 - 40) by (unfold d, zlen; rewrite repeat_length; lia).
  clearbody d. cbn [wire_size v_tag v_data]. rewrite E, zlen_nil. lia.
Qed.

(** C14. Without that limit on single values it fails: the length of tag and data
    is added in 32 bit, the message is allocated too small and written past its
    end. *)
Theorem array_pack_overflow_refuted : exists v, array_value v /\ zlen (v_data v) = 2^32 - 1 /\ zlen (v_tag v) = 1 /\
  forall time, new_message_from_array [v] time [] = RUb.
Proof. exact big_pack_ub. Qed.
Print Assumptions array_pack_overflow_refuted.

(** C15. Whatever the content and whatever the callback answers, iterating ends,
    stays in the message, and shows tags and data that follow each other. *)
Theorem array_iterate_in_bounds : forall m decide, whole_array_message m ->
  exists rs code, message_iterate (visit decide) m [] = ROk (rs, code) /\
    regions (mm_topic_length m) (zlen (mm_data m)) rs /\ 14 * zlen rs <= zlen (mm_data m).
Proof. intros m decide HW. destruct (iterate_bounds m decide HW) as (rs & code & E1 & E2 & _ & E4). eauto 6. Qed.
Print Assumptions array_iterate_in_bounds.
Definition damaged_message : rrr_msg_msg :=
  mk_mm (mk_msg 0 60 2 0 0) 0 177 7 1 ([116] ++ [5; 0; 0; 0; 0; 0; 0; 0; 0; 1; 0; 0; 0; 1; 9] ++ [5; 0; 255; 255; 255; 255; 0; 0; 0; 1; 0; 0; 0; 1]).
Example array_iterate_in_bounds_ex : whole_array_message damaged_message /\
  message_iterate (visit (fun _ _ => 0)) damaged_message [] = ROk ([mk_raw 15 5 0 0 1 1], 1).
Proof.
  split; [|vm_compute; reflexivity]. unfold whole_array_message. split; [reflexivity|]. split.
  - apply Forall_forall. intros x Hx. apply byteb_iff. revert x Hx. apply forallb_forall. vm_compute. reflexivity.
  - vm_compute. intuition discriminate.
Qed.

(** C15. Reading into an array never leaves the message, and adds all values or
    none. *)
Theorem array_read_in_bounds : forall after m target, whole_array_message m ->
  append_to_array after m target <> RUb /\
  (forall l c, append_to_array after m target = ROk (l, c) ->
    (c <> 0 /\ l = target) \/
    (c = 0 /\ exists new, l = target ++ new /\ forall other, append_to_array after m other = ROk (other ++ new, 0))).
Proof. intros after m target HW. split; [apply append_no_ub; exact HW|apply append_all_or_nothing]. Qed.
Print Assumptions array_read_in_bounds.
Example array_read_in_bounds_ex : append_to_array [] damaged_message sample_array = ROk (sample_array, 1).
Proof. vm_compute. reflexivity. Qed.

(** C15. Without embedded messages reading always returns. *)
Theorem array_read_returns_partial : forall after m target rs code, whole_array_message m ->
  message_iterate (visit (fun _ _ => 0)) m [] = ROk (rs, code) -> Forall (fun r => r_type r <> TYPE_MSG) rs ->
  exists l c, append_to_array after m target = ROk (l, c).
Proof. exact append_total. Qed.
Print Assumptions array_read_returns_partial.
Example array_read_returns_partial_ex : Forall (fun r => r_type r <> TYPE_MSG) [mk_raw 15 5 0 0 1 1].
Proof. repeat constructor. discriminate. Qed.

(** With them the process can be made to abort: an embedded header stating a size
    below eighteen. *)
Definition abort_message : rrr_msg_msg :=
  mk_mm (mk_msg 0 62 2 0 0) 0 177 7 0 ([9; 0; 0; 0; 0; 0; 0; 0; 0; 18; 0; 0; 0; 1] ++ short_buf).
Theorem array_read_returns_refuted : exists m, whole_array_message m /\ MSG_CLASS_OK m = true /\ MSG_TYPE_OK m = true /\
  forall after target, append_to_array after m target = RBug.
Proof.
  exists abort_message. split.
  - unfold whole_array_message. split; [reflexivity|]. split.
    + apply Forall_forall. intros x Hx. apply byteb_iff. revert x Hx. apply forallb_forall. vm_compute. reflexivity.
    + vm_compute. intuition discriminate.
  - split; [reflexivity|]. split; [reflexivity|]. intros after target. vm_compute. reflexivity.
Qed.
Print Assumptions array_read_returns_refuted.

(** C15. A message whose topic length is larger than the message is accepted by
    the receiver (C12) and iterated outside its memory. *)
Theorem array_iterate_long_topic_refuted : exists m, msg_size (mm_head m) = 30 + zlen (mm_data m) /\ mm_topic_length m < 2^16 /\ MSG_CLASS m = 11 /\
  message_iterate (visit (fun _ _ => 0)) m [] = RUb.
Proof. exists (mk_mm (mk_msg 0 31 2 0 0) 0 177 7 65535 [0]). repeat split; vm_compute; reflexivity. Qed.
Print Assumptions array_iterate_long_topic_refuted.

(** C16. The first number of a value is read exactly; a number which does not fit
    the wanted signedness is refused. *)
Theorem array_number_first_partial : forall vs tag v x sgn,
  first_tagged vs tag v -> 1 <= v_elements v -> stored_number (v_data v) 0 x ->
  get_value_64 vs tag 0 sgn =
  (if sgn then if negb (is_signed (v_flags v)) && (2^63 <=? x) then RErr 1 else ROk (if x <? 2^63 then x else x - 2^64)
   else if is_signed (v_flags v) && (2^63 <=? x) then RErr 1 else ROk x).
Proof.
  intros vs tag v x sgn HT He (b & a & Ed & Eb & Hx). apply get_by_tag_some in HT. apply zlen_0 in Eb. subst b.
  rewrite (get_64_first vs tag v _ x a sgn HT He eq_refl Ed Hx). unfold as_signed. destruct sgn.
  - replace (2^63 - 1 <? x) with (2^63 <=? x) by lia. reflexivity.
  - destruct (Z.ltb_spec x (2^63)).
    + replace (x <? 0) with false by lia. replace (2^63 <=? x) with false by lia. reflexivity.
    + replace (x - 2^64 <? 0) with true by lia. replace (2^63 <=? x) with true by lia. reflexivity.
Qed.
Print Assumptions array_number_first_partial.
Example array_number_first_ex : get_value_64 sample_array (str "n") 0 true = ROk (-5).
Proof. vm_compute. reflexivity. Qed.

(** C16 fails for other indexes: another element, or memory outside the value, is
    read. *)
Theorem array_number_index_refuted : exists vs tag v,
  first_tagged vs tag v /\ v_elements v = 9 /\ stored_number (v_data v) 1 11 /\
  get_value_64 vs tag 1 false = ROk 18 /\ get_value_64 vs tag 2 false = RUb.
Proof.
  set (v := mk_value TYPE_H 0 (str "n") 72 9 (int64_memory [10; 11; 12; 13; 14; 15; 16; 17; 18])).
  exists [v], (str "n"), v. split; [|split; [reflexivity|split; [|split; vm_compute; reflexivity]]].
  - exists [], []. split; [reflexivity|]. split; [reflexivity|constructor].
  - exists (firstn 8 (v_data v)), (skipn 16 (v_data v)). split; [vm_compute; reflexivity|]. split; [reflexivity|lia].
Qed.
Print Assumptions array_number_index_refuted.

(** C49. A number pushed under a new tag is the number read under that tag, and
    everything already in the array is read as before. *)
Theorem array_push_unsigned_get : forall vs tag x, 0 <= x < 2^64 -> Forall (fun w => ~ tagged tag w) vs ->
  exists vs', push_u64 vs tag x = ROk vs' /\
    get_value_64 vs' tag 0 false = ROk x /\
    get_value_64 vs' tag 0 true = (if x <? 2^63 then ROk x else RErr 1) /\
    (forall other v, get_by_tag vs other = Some v -> get_by_tag vs' other = Some v).
Proof.
  intros vs tag x Hx HN. unfold push_u64. rewrite push_64_ok by exact Hx. eexists. split; [reflexivity|].
  apply get_by_tag_none in HN. set (v := mk_value _ _ _ _ _ _).
  assert (HG : get_by_tag (vs ++ [v]) tag = Some v).
  { rewrite get_by_tag_app, HN. replace (is_tag v tag) with true; [reflexivity|]. symmetry. apply is_tag_iff. unfold tagged, v. cbn [v_tag].
    rewrite (c_string_id (c_string tag)); [reflexivity|apply c_string_no0]. }
  split; [|split].
  - rewrite (get_64_first _ _ v (le_enc 8 x) x [] false HG); [|cbn; lia|reflexivity|rewrite app_nil_r; reflexivity|exact Hx]. reflexivity.
  - rewrite (get_64_first _ _ v (le_enc 8 x) x [] true HG); [|cbn; lia|reflexivity|rewrite app_nil_r; reflexivity|exact Hx]. cbn [v v_flags]. change (is_signed 0) with false. cbn [negb andb].
    unfold as_signed. destruct (Z.ltb_spec x (2^63)); [replace (_ <? _) with false by lia|replace (_ <? _) with true by lia]; reflexivity.
  - intros other w Hw. rewrite get_by_tag_app, Hw. reflexivity.
Qed.
Print Assumptions array_push_unsigned_get.
Theorem array_push_signed_get : forall vs tag x, - 2^63 <= x < 2^63 -> Forall (fun w => ~ tagged tag w) vs ->
  exists vs', push_i64 vs tag x = ROk vs' /\
    get_value_64 vs' tag 0 true = ROk x /\
    get_value_64 vs' tag 0 false = (if x <? 0 then RErr 1 else ROk x) /\
    (forall other v, get_by_tag vs other = Some v -> get_by_tag vs' other = Some v).
Proof.
  intros vs tag x Hx HN. assert (Hu : 0 <= u64 x < 2^64) by (unfold u64; apply Z.mod_pos_bound; lia).
  unfold push_i64. rewrite push_64_ok by exact Hu. eexists. split; [reflexivity|].
  apply get_by_tag_none in HN. set (v := mk_value _ _ _ _ _ _).
  assert (HG : get_by_tag (vs ++ [v]) tag = Some v).
  { rewrite get_by_tag_app, HN. replace (is_tag v tag) with true; [reflexivity|]. symmetry. apply is_tag_iff. unfold tagged, v. cbn [v_tag].
    rewrite (c_string_id (c_string tag)); [reflexivity|apply c_string_no0]. }
  assert (EA : as_signed (u64 x) = x) by (apply as_signed_mod; exact Hx).
  split; [|split].
  - rewrite (get_64_first _ _ v (le_enc 8 (u64 x)) (u64 x) [] true HG); [|cbn; lia|reflexivity|rewrite app_nil_r; reflexivity|exact Hu]. rewrite EA. reflexivity.
  - rewrite (get_64_first _ _ v (le_enc 8 (u64 x)) (u64 x) [] false HG); [|cbn; lia|reflexivity|rewrite app_nil_r; reflexivity|exact Hu]. rewrite EA. cbn [v v_flags]. change (is_signed 1) with true. cbn [andb].
    destruct (Z.ltb_spec x 0); [reflexivity|]. unfold u64. rewrite Z.mod_small by lia. reflexivity.
  - intros other w Hw. rewrite get_by_tag_app, Hw. reflexivity.
Qed.
Print Assumptions array_push_signed_get.
Example array_push_get_ex : Forall (fun w => ~ tagged (str "m") w) sample_array.
Proof. repeat constructor; vm_compute; discriminate. Qed.

(** C50. Looking a tag up finds the first value with it, in an array and, with the
    same result, in the message made from the array. *)
Theorem array_tag_lookup : forall vs tag,
  (forall v, get_by_tag vs tag = Some v <-> first_tagged vs tag v) /\
  (array_has_tag vs tag = true <-> Exists (tagged tag) vs).
Proof.
  intros vs tag. split; [intros v; apply get_by_tag_some|]. unfold array_has_tag. destruct (get_by_tag vs tag) as [v|] eqn:E.
  - split; [intros _|reflexivity]. apply get_by_tag_some in E as (b & a & -> & Ht & _). apply Exists_app. right. constructor. exact Ht.
  - split; [discriminate|]. intros HE. apply get_by_tag_none in E. rewrite Exists_exists in HE. destruct HE as (w & Hin & Hw). rewrite Forall_forall in E. destruct (E w Hin Hw).
Qed.
Print Assumptions array_tag_lookup.
Theorem array_message_tag_lookup : forall vs time topic tag after,
  Forall array_value vs -> Forall (fun v => ~ In 0 (v_tag v)) vs -> 30 + zlen topic + wire_size vs < 2^32 ->
  exists m, new_message_from_array vs time topic = ROk m /\
    clone_value_by_tag after m tag = ROk (get_by_tag vs tag, 0) /\
    message_has_tag m tag = ROk (if array_has_tag vs tag then 1 else 0).
Proof.
  intros vs time topic tag after HF HN Hsz. destruct (new_message_ok vs time topic HF Hsz) as (o & HI & E).
  assert (Hsz' : 30 + zlen topic + zlen o < 2^32) by (rewrite (images_len _ _ HI); exact Hsz).
  exists (array_msg time topic o). split; [exact E|]. split; [apply clone_msg; assumption|].
  rewrite (has_tag_msg vs) by assumption. f_equal.
  replace (existsb _ vs) with (array_has_tag vs tag); [reflexivity|]. clear - HN. unfold array_has_tag. induction HN as [|v vs Hv HN IH]; cbn [get_by_tag existsb]; [reflexivity|].
  unfold is_tag at 1. rewrite (c_string_id (v_tag v) Hv). destruct (list_eq_dec _ _ _); [reflexivity|exact IH].
Qed.
Print Assumptions array_message_tag_lookup.
Example array_message_tag_lookup_ex : Forall (fun v => ~ In 0 (v_tag v)) sample_array /\
  get_by_tag sample_array (str "n") = Some (mk_value TYPE_H 1 (str "n") 16 2 (int64_memory [-5; 70000])) /\ get_by_tag sample_array (str "z") = None.
Proof. split; [repeat constructor; vm_compute; intuition discriminate|]. split; reflexivity. Qed.

(** C50. On a message that is not readable the tag is reported as present. *)
Theorem array_message_has_tag_refuted : exists m, whole_array_message m /\ mm_data m = [] /\ message_has_tag m (str "tag") = ROk 1.
Proof. exists (mk_mm (mk_msg 0 30 2 0 0) 0 177 6 0 []). split; [|split; reflexivity]. unfold whole_array_message. repeat split; try (vm_compute; intuition discriminate). constructor. Qed.
Print Assumptions array_message_has_tag_refuted.

(** C51. A value with several elements is split into exactly its elements; data
    that cannot be split evenly is reported. *)
Theorem array_split_exact : forall v, zlen (v_data v) < 2^32 -> 1 <= v_elements v ->
  (zlen (v_data v) mod v_elements v = 0 -> exists l, split_value v = ROk l /\ split_of v l) /\
  (zlen (v_data v) mod v_elements v <> 0 -> split_value v = RErr 1).
Proof. exact split_value_ok. Qed.
Print Assumptions array_split_exact.
Example array_split_ex : split_value (mk_value TYPE_H 1 (str "n") 16 2 (int64_memory [-5; 70000])) =
  ROk [mk_value TYPE_H 1 [] 0 1 (int64_memory [-5]); mk_value TYPE_H 1 [] 0 1 (int64_memory [70000])].
Proof. vm_compute. reflexivity. Qed.
(** A message stating an element count of zero is read without complaint, and
    splitting the value then divides by zero. *)
Definition no_elements_message : rrr_msg_msg :=
  mk_mm (mk_msg 0 45 2 0 0) 0 177 7 0 [11; 0; 0; 0; 0; 0; 0; 0; 0; 1; 0; 0; 0; 0; 97].
Theorem array_split_zero_refuted : exists m vs, whole_array_message m /\
  (forall after, append_to_array after m [] = ROk (vs, 0)) /\ selected_tags_split vs None = RUb.
Proof.
  exists no_elements_message, [mk_value TYPE_STR 0 [] 1 0 [97]]. split; [|split; [intros after|]; vm_compute; reflexivity].
  unfold whole_array_message. split; [reflexivity|]. split.
  - apply Forall_forall. intros x Hx. apply byteb_iff. revert x Hx. apply forallb_forall. vm_compute. reflexivity.
  - vm_compute. intuition discriminate.
Qed.
Print Assumptions array_split_zero_refuted.

(** C52. Removing, shortening, rotating and indexing are the list operations. *)
Theorem array_edit_exact : forall vs,
  (forall tag, let '(l, n) := clear_by_tag vs tag 0 in
     l = filter (fun v => negb (is_tag v tag)) vs /\ Forall (fun v => ~ tagged tag v) l /\ n = zlen vs - zlen l) /\
  (forall t, strip_type vs t = filter (fun v => negb (v_type v =? t)) vs) /\
  (forall n, 0 <= n <= zlen vs -> exists l rest, trim vs n = ROk l /\ vs = l ++ rest /\ zlen l = n) /\
  (forall idx, get_by_index vs idx = if idx <? 0 then None else nth_error vs (Z.to_nat idx)).
Proof.
  intros vs. split; [|split; [intros t; apply strip_type_ok|split]].
  - intros tag. rewrite clear_by_tag_ok. split; [reflexivity|]. split.
    + apply Forall_forall. intros v Hv. apply filter_In in Hv as (_ & Hv). apply is_tag_false. destruct (is_tag v tag); [discriminate|reflexivity].
    + clear. induction vs as [|v vs IH]; [reflexivity|]. cbn [filter]. destruct (is_tag v tag); cbn [negb]; rewrite !zlen_cons; lia.
  - intros n Hn. exists (firstn (Z.to_nat n) vs), (skipn (Z.to_nat n) vs). split; [apply trim_ok; exact Hn|]. split; [symmetry; apply firstn_skipn|].
    unfold zlen in *. rewrite firstn_length. lia.
  - intros idx. unfold get_by_index. rewrite get_by_index_ok by lia. rewrite Z.sub_0_r. destruct (Z.leb_spec 0 idx); [replace (idx <? 0) with false by lia|replace (idx <? 0) with true by lia]; reflexivity.
Qed.
Print Assumptions array_edit_exact.
Theorem array_rotate_exact : forall v vs,
  rotate_reverse (v :: vs) = vs ++ [v] /\ rotate_forward (vs ++ [v]) = v :: vs /\ rotate_reverse [] = [] /\ rotate_forward [] = [].
Proof.
  intros v vs. split; [reflexivity|]. split; [|split; reflexivity]. unfold rotate_forward. rewrite rev_app_distr. cbn. rewrite rev_involutive. reflexivity.
Qed.
Print Assumptions array_rotate_exact.
Example array_edit_ex : clear_by_tag sample_array (str "n") 0 = ([mk_value TYPE_STR 0 (str "name") 3 1 (str "xyz"); mk_value TYPE_VAIN 0 [] 0 1 []], 2).
Proof. reflexivity. Qed.

(** C53. Exporting selected tags gives the exports of the values with one of the
    tags, in the order of the array, without writing past the buffer. *)
Theorem array_export_exact : forall vs tags, Forall exportable vs ->
  exists os, Forall2 (fun v o => allocate_and_export v = ROk o) vs os /\
    (zlen (concat os) < 2^32 ->
     exists picks, (forall v o, In (v, o) picks -> selected tags v) /\
       picks = filter (fun p => chosen tags (fst p)) (combine vs os) /\
       selected_tags_export vs tags = ROk (concat (map snd picks), zlen picks)) /\
    (2^32 <= zlen (concat os) < 2^64 -> selected_tags_export vs tags = RErr ARRAY_SOFT_ERROR).
Proof.
  intros vs tags HF. destruct (exports_exist vs HF) as (os & H2). exists os. split; [exact H2|]. pose proof (zlen_nonneg _ (concat os)).
  unfold selected_tags_export. split; intros HL.
  - exists (filter (fun p => chosen tags (fst p)) (combine vs os)). split; [|split; [reflexivity|]].
    + intros v o Hin. apply filter_In in Hin as (_ & Hc). cbn [fst] in Hc. unfold chosen, selected in *. destruct tags as [ts|]; [|exact I].
      apply existsb_exists in Hc as (tag & Ht & Hi). exists tag. split; [exact Ht|apply is_tag_iff; exact Hi].
    + rewrite (exported_length_ok vs os HF H2) by lia. cbn [rbind]. rewrite Z.add_0_l. replace (2^32 - 1 <? _) with false by lia. rewrite (export_values_ok tags vs os HF H2) by lia.
      f_equal. f_equal. clear - H2. induction H2 as [|v o vs os Hv H2 IH]; [reflexivity|]. cbn [filter combine fst]. destruct (chosen tags v); rewrite ?zlen_cons; lia.
  - rewrite (exported_length_ok vs os HF H2) by lia. cbn [rbind]. rewrite Z.add_0_l. replace (2^32 - 1 <? _) with true by lia. reflexivity.
Qed.
Print Assumptions array_export_exact.
Theorem array_export_selection : forall tags v, chosen tags v = true <-> selected tags v.
Proof.
  intros [ts|] v; cbn [chosen selected]; [|tauto]. rewrite existsb_exists. split; intros (tag & H1 & H2); exists tag; split; auto; apply is_tag_iff; exact H2.
Qed.
Print Assumptions array_export_selection.
Example array_export_ex : selected_tags_export sample_array (Some [str "n"; str "name"]) =
  ROk ([255; 255; 255; 255; 255; 255; 255; 251; 0; 0; 0; 0; 0; 1; 17; 112] ++ [34; 120; 121; 122; 34] ++ [0; 255], 3).
Proof. vm_compute. reflexivity. Qed.
(** A fixed point value makes the process abort. *)
Theorem array_export_fixp_refuted : exists v, packable v /\ selected_tags_export [v] None = RBug.
Proof.
  exists (mk_value TYPE_FIXP 0 [] 8 1 [0; 0; 0; 1; 0; 0; 0; 0]). split; [|reflexivity]. unfold packable. cbn [v_type v_data v_import_length].
  split; [repeat constructor; unfold byte; lia|]. split; [reflexivity|]. split; [reflexivity|]. left. split; [right; left; reflexivity|reflexivity].
Qed.
Print Assumptions array_export_fixp_refuted.
