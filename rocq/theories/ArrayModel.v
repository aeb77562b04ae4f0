(** Model of src/lib/array.c and the tag comparison of src/lib/type.h.

    An array is the list of its values ([value] of TypeModel).  Memory allocation
    always succeeds.  Tags given by a caller are C strings: octets up to the first
    NUL, and no tag is the same as the empty tag. *)
From Coq Require Import ZArith List Bool.
From Verif Require Import Common MsgModel HdlcModel TypeModel.
Import ListNotations.
Open Scope Z_scope.

(** array.h:35-42; array.h:48-55: 14 octets before the data of a packed value *)
Definition ARRAY_VERSION : Z := 7.
Definition VALUE_HEAD : Z := 14.
Definition ITERATE_STOP : Z := 8.
Definition ARRAY_SOFT_ERROR : Z := 2.
(** msg_msg_struct.h:34-47 *)
Definition TYPE_MSG_MSG : Z := 1.
Definition CLASS_ARRAY : Z := 11.

(** type.h:296-321 [rrr_type_value_is_tag] *)
Definition is_tag (v : value) (tag : list Z) : bool :=
  if list_eq_dec Z.eq_dec (c_string (v_tag v)) (c_string tag) then true else false.

(** ** Lists of values *)

(** array.c:690-704 [rrr_array_value_get_by_index] *)
Fixpoint get_by_index_loop (vs : list value) (i idx : Z) : option value :=
  match vs with
  | [] => None
  | v :: r => if i =? idx then Some v else get_by_index_loop r (i + 1) idx
  end.
Definition get_by_index (vs : list value) (idx : Z) : option value := get_by_index_loop vs 0 idx.
(** array.c:706-717 [rrr_array_value_get_by_tag], [.._const] *)
Fixpoint get_by_tag (vs : list value) (tag : list Z) : option value :=
  match vs with
  | [] => None
  | v :: r => if is_tag v tag then Some v else get_by_tag r tag
  end.
(** array.c:732-743 [rrr_array_has_tag] *)
Definition array_has_tag (vs : list value) (tag : list Z) : bool :=
  match get_by_tag vs tag with Some _ => true | None => false end.
(** array.c:610-619 [rrr_array_strip_type] *)
Fixpoint strip_type (vs : list value) (t : Z) : list value :=
  match vs with
  | [] => []
  | v :: r => if v_type v =? t then strip_type r t else v :: strip_type r t
  end.
(** array.c:629-639 [rrr_array_clear_by_tag_checked]: what remains and the count *)
Fixpoint clear_by_tag (vs : list value) (tag : list Z) (count : Z) : list value * Z :=
  match vs with
  | [] => ([], count)
  | v :: r =>
      if negb (is_tag v tag) then let '(l, n) := clear_by_tag r tag count in (v :: l, n)
      else clear_by_tag r tag (count + 1)
  end.
(** array.c:655-670 [rrr_array_trim]: values are removed from the end while the
    count is above the target. *)
Fixpoint trim_loop (rev_vs : list value) (target : Z) : list value :=
  match rev_vs with
  | [] => []
  | v :: r => if target <? zlen rev_vs then trim_loop r target else rev_vs
  end.
Definition trim (vs : list value) (target : Z) : res (list value) :=
  if (zlen vs <? target) || (target <? 0) then RBug else ROk (rev (trim_loop (rev vs) target)).
(** array.c:672-679 [rrr_array_rotate_reverse] *)
Definition rotate_reverse (vs : list value) : list value :=
  match vs with [] => [] | v :: r => r ++ [v] end.
(** array.c:681-688 [rrr_array_rotate_forward] *)
Definition rotate_forward (vs : list value) : list value :=
  match rev vs with [] => [] | v :: r => v :: rev r end.

(** ** Pushing and reading numbers *)

(** array.c:183-233 [__rrr_array_push_value_64_with_tag]: the number is imported
    from its host memory. *)
Definition push_value_64 (vs : list value) (tag : list Z) (x : Z) (flags : Z) : res (list value) :=
  match do_import [] (mk_value TYPE_H flags (c_string tag) 8 1 []) (le_enc 8 x) with
  | ROk (v, _) => ROk (vs ++ [v])
  | RErr _ => RErr 1
  | RBug => RBug
  | RUb => RUb
  end.
(** array.c:235-261: the unsigned number, and the two's complement of the signed *)
Definition push_u64 (vs : list value) (tag : list Z) (x : Z) := push_value_64 vs tag x 0.
Definition push_i64 (vs : list value) (tag : list Z) (x : Z) := push_value_64 vs tag (u64 x) 1.
(** array.c:263-299 [__rrr_array_push_value_x_with_tag_with_size_with_flags] *)
Definition push_x (vs : list value) (tag data : list Z) (type flags : Z) : list value :=
  vs ++ [mk_value type flags (c_string tag) (zlen data) 1 data].
Definition push_str (vs : list value) (tag data : list Z) := push_x vs tag data TYPE_STR 0.
Definition push_blob (vs : list value) (tag data : list Z) := push_x vs tag data TYPE_BLOB 0.
(** array.c:301-314 [rrr_array_push_value_fixp_with_tag] *)
Definition push_fixp (vs : list value) (tag : list Z) (x : Z) := push_x vs tag (le_enc 8 (u64 x)) TYPE_FIXP 0.
(** array.c:146-181 [rrr_array_push_value_vain_with_tag] *)
Definition push_vain (vs : list value) (tag : list Z) : list value :=
  vs ++ [mk_value TYPE_VAIN 0 (c_string tag) 0 1 []].

(** array.c:456-505 [__rrr_array_get_value_64_by_tag].  The index is scaled by the
    element size on a pointer that is already typed, hence the 64. *)
Definition get_value_64 (vs : list value) (tag : list Z) (index : Z) (do_signed : bool) : res Z :=
  match get_by_tag vs tag with
  | None => RErr 1
  | Some v =>
      if v_elements v <=? index then RErr 1
      else if zlen (v_data v) <? 64 * index + 8 then RUb
      else
        let u := le_dec (sub_mem (v_data v) (64 * index) 8) in
        if do_signed then
          if negb (is_signed (v_flags v)) && (2^63 - 1 <? u) then RErr 1 else ROk (as_signed u)
        else
          if is_signed (v_flags v) && (as_signed u <? 0) then RErr 1 else ROk u
  end.

(** ** Splitting *)

(** array.c:794-837, the choice made by [__rrr_array_array_iterate_chosen_tags] *)
Definition chosen (tags : option (list (list Z))) (v : value) : bool :=
  match tags with None => true | Some ts => existsb (is_tag v) ts end.

Fixpoint chunks (n : nat) (size : nat) (d : list Z) : list (list Z) :=
  match n with
  | O => []
  | S m => firstn size d :: chunks m size (skipn size d)
  end.
(** array.c:895-934 [__rrr_array_selected_tags_split_callback]; dividing by an
    element count of zero is undefined. *)
Definition split_value (v : value) : res (list value) :=
  let new := mk_value (v_type v) (v_flags v) [] 0 1 in
  if zlen (v_data v) =? 0 then ROk (map new (repeat [] (Z.to_nat (v_elements v))))
  else if v_elements v =? 0 then RUb
  else
    let element_size := zlen (v_data v) / v_elements v in
    if negb (u32 (element_size * v_elements v) =? zlen (v_data v)) then RErr 1
    else ROk (map new (chunks (Z.to_nat (v_elements v)) (Z.to_nat element_size) (v_data v))).
(** array.c:936-955 [rrr_array_selected_tags_split]: what the caller's callback is
    given (it is assumed to succeed). *)
Fixpoint selected_tags_split (vs : list value) (tags : option (list (list Z))) : res (list (value * list value)) :=
  match vs with
  | [] => ROk []
  | v :: r =>
      if chosen tags v then
        match split_value v with
        | ROk l => rbind (selected_tags_split r tags) (fun o => ROk ((v, l) :: o))
        | RErr _ => RErr 1
        | RBug => RBug
        | RUb => RUb
        end
      else selected_tags_split r tags
  end.

(** ** Conversion to messages *)

(** array.c:745-763 [__rrr_array_get_packed_length]: tag length plus data length
    is a 32 bit sum. *)
Fixpoint packed_length (vs : list value) (sum : Z) : res Z :=
  match vs with
  | [] => ROk sum
  | v :: r =>
      let a := u64 (u32 (zlen (v_tag v) + zlen (v_data v)) + VALUE_HEAD) in
      let b := u64 (sum + a) in
      if (b <? sum) || (b <? a) then RErr 1 else packed_length r b
  end.

(** array.c:844-888 [__rrr_array_array_pack_callback]: the octets written. *)
Definition pack_value (v : value) : res (list Z) :=
  rbind (pack v) (fun td =>
    let '(t, d) := td in
    if zlen d <? zlen (v_data v) then RBug
    else ROk ([t; v_flags v] ++ be_enc 4 (zlen (v_tag v)) ++ be_enc 4 (zlen d) ++ be_enc 4 (v_elements v) ++ v_tag v ++ d)).

(** array.c:986-1023 [__rrr_array_array_pack_or_export] with the pack callback and
    all values.  [room] is the memory left from the write position; writing past
    it is undefined.  Errors of the callback become 1 (array.c:822-831). *)
Fixpoint pack_values (vs : list value) (room : Z) : res (list Z) :=
  match vs with
  | [] => ROk []
  | v :: r =>
      if room <? VALUE_HEAD + zlen (v_tag v) then RUb
      else
        match pack_value v with
        | ROk o => if room <? zlen o then RUb else rbind (pack_values r (room - zlen o)) (fun p => ROk (o ++ p))
        | RErr _ => RErr 1
        | RBug => RBug
        | RUb => RUb
        end
  end.

(** array.c:1082-1151 [rrr_array_new_message_from_array], with msg_msg.c:44-63
    [rrr_msg_msg_new_array] *)
Definition new_message_from_array (vs : list value) (time : Z) (topic : list Z) : res rrr_msg_msg :=
  match packed_length vs 0 with
  | ROk total =>
      if 2^32 - 1 <? total then RErr ARRAY_SOFT_ERROR
      else
        match msg_msg_new_empty TYPE_MSG_MSG CLASS_ARRAY time (zlen topic) total with
        | Ok m =>
            rbind (pack_values vs total) (fun o =>
            if negb (zlen o =? total) then RBug
            else ROk (mk_mm (mm_head m) (mm_timestamp m) (mm_type_and_class m) ARRAY_VERSION (zlen topic) (topic ++ o)))
        | _ => RErr ARRAY_SOFT_ERROR
        end
  | _ => RErr ARRAY_SOFT_ERROR
  end.

(** array.c:1153-1235 [rrr_array_message_iterate].  The callback is given a
    position and lengths; positions count from the start of the topic. *)
Record raw := mk_raw { r_pos : Z; r_type : Z; r_flags : Z; r_tag_length : Z; r_total_length : Z; r_elements : Z }.

Section Iterate.
  Context {S : Type}.
  Variable callback : S -> raw -> res (S * Z).
  Variable mem : list Z.
  Variable end_ : Z.
  (** The while loop.  Reading a value head outside the memory of the message is
      undefined. *)
  Fixpoint iterate_loop (fuel : nat) (pos : Z) (s : S) : res (S * Z) :=
    match fuel with
    | O => RBug
    | Datatypes.S f =>
        if pos <? end_ then
          let start := pos + VALUE_HEAD in
          if end_ <? start then ROk (s, 1)
          else if zlen mem <? start then RUb
          else
            let type := be_field mem pos 1 in
            let flags := be_field mem (pos + 1) 1 in
            let tag_length := be_field mem (pos + 2) 4 in
            let total_length := be_field mem (pos + 6) 4 in
            let elements := be_field mem (pos + 10) 4 in
            if end_ <? start + tag_length + total_length then ROk (s, 1)
            else if negb (has_unpack type) then ROk (s, 1)
            else
              rbind (callback s (mk_raw start type flags tag_length total_length elements)) (fun sc =>
              let '(s', code) := sc in
              if negb (code =? 0) then ROk (s', if code =? ITERATE_STOP then 0 else code)
              else iterate_loop f (start + u32 (tag_length + total_length)) s')
        else ROk (s, 0)
    end.
End Iterate.

Definition message_iterate {S} (callback : S -> raw -> res (S * Z)) (m : rrr_msg_msg) (s : S) : res (S * Z) :=
  if negb (MSG_CLASS m =? CLASS_ARRAY) then RBug
  else if negb (mm_version m =? ARRAY_VERSION) then ROk (s, 1)
  else iterate_loop callback (mm_data m) (mm_topic_length m + MSG_DATA_LENGTH m)
         (Datatypes.S (length (mm_data m))) (mm_topic_length m) s.

(** type.c:1549-1600 [rrr_type_value_new_and_unpack] on a visited value; [after]
    is the memory behind the new allocation. *)
Definition raw_tag (mem : list Z) (r : raw) : list Z := sub_mem mem (r_pos r) (r_tag_length r).
Definition raw_data (mem : list Z) (r : raw) : list Z := sub_mem mem (r_pos r + r_tag_length r) (r_total_length r).
Definition unpack_raw (after mem : list Z) (r : raw) : res value :=
  if zlen mem <? r_pos r + r_tag_length r + r_total_length r then RUb
  else value_new_and_unpack after (r_type r) (r_flags r) (raw_tag mem r) (raw_data mem r) (r_elements r).

(** array.c:1385-1417 [__rrr_array_message_append_to_array_callback] *)
Definition append_callback (after mem : list Z) (s : list value) (r : raw) : res (list value * Z) :=
  match unpack_raw after mem r with
  | ROk v => ROk (s ++ [v], 0)
  | RErr e => ROk (s, e)
  | RBug => RBug
  | RUb => RUb
  end.
(** array.c:1419-1446 [rrr_array_message_append_to_array]: the target afterwards
    and the return value *)
Definition append_to_array (after : list Z) (m : rrr_msg_msg) (target : list value) : res (list value * Z) :=
  rbind (message_iterate (append_callback after (mm_data m)) m []) (fun sc =>
  let '(tmp, code) := sc in
  ROk (if code =? 0 then target ++ tmp else target, code)).

(** array.c:1275-1310 [rrr_array_message_has_tag] and its callback *)
Definition MSG_IS_ARRAY (m : rrr_msg_msg) : bool := MSG_CLASS m =? CLASS_ARRAY.
Definition has_tag_callback (mem tag : list Z) (s : unit) (r : raw) : res (unit * Z) :=
  if negb (zlen (c_string tag) =? r_tag_length r) then ROk (tt, 0)
  else if zlen mem <? r_pos r + r_tag_length r then RUb
  else if list_eq_dec Z.eq_dec (raw_tag mem r) (c_string tag) then ROk (tt, 1) else ROk (tt, 0).
Definition message_has_tag (m : rrr_msg_msg) (tag : list Z) : res Z :=
  if negb (MSG_IS_ARRAY m) then ROk 0
  else rbind (message_iterate (has_tag_callback (mm_data m) tag) m tt) (fun sc => ROk (snd sc)).

(** array.c:1312-1356 [rrr_array_message_clone_value_by_tag] and its callback, with
    type.c:1878-1908 [rrr_type_value_with_tmp_do] *)
Definition clone_by_tag_callback (after mem tag : list Z) (s : option value) (r : raw) : res (option value * Z) :=
  match unpack_raw after mem r with
  | ROk v =>
      if negb (is_tag v tag) then ROk (s, 0)
      else match s with Some _ => RBug | None => ROk (Some v, ITERATE_STOP) end
  | RErr e => ROk (s, e)
  | RBug => RBug
  | RUb => RUb
  end.
Definition clone_value_by_tag (after : list Z) (m : rrr_msg_msg) (tag : list Z) : res (option value * Z) :=
  if negb (MSG_IS_ARRAY m) then ROk (None, 0)
  else message_iterate (clone_by_tag_callback after (mm_data m) tag) m None.

(** ** Export *)

(** array.c:765-792 [__rrr_array_get_exported_length] *)
Fixpoint exported_length (vs : list value) (sum : Z) : res Z :=
  match vs with
  | [] => ROk sum
  | v :: r =>
      match get_export_length v with
      | ROk a =>
          let b := u64 (sum + a) in
          if (b <? sum) || (b <? a) then RErr ARRAY_SOFT_ERROR else exported_length r b
      | RErr _ => RErr ARRAY_SOFT_ERROR
      | RBug => RBug
      | RUb => RUb
      end
  end.
(** array.c:957-984 [__rrr_array_array_export_callback] over the chosen values *)
Fixpoint export_values (vs : list value) (tags : option (list (list Z))) (room : Z) : res (list Z * Z) :=
  match vs with
  | [] => ROk ([], 0)
  | v :: r =>
      if chosen tags v then
        match do_export v with
        | ROk o =>
            if room <? zlen o then RUb
            else if zlen o <? zlen (v_data v) then RBug
            else rbind (export_values r tags (room - zlen o)) (fun p => ROk (o ++ fst p, snd p + 1))
        | RErr _ => RErr 1
        | RBug => RBug
        | RUb => RUb
        end
      else export_values r tags room
  end.
(** array.c:1025-1080 [rrr_array_selected_tags_export]: octets and number of values
    found *)
Definition selected_tags_export (vs : list value) (tags : option (list (list Z))) : res (list Z * Z) :=
  rbind (exported_length vs 0) (fun total =>
  if 2^32 - 1 <? total then RErr ARRAY_SOFT_ERROR else export_values vs tags total).
