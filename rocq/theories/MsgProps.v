(** Properties C10 to C13 and C36 to C38: messages. *)
From Coq Require Import ZArith List Bool Lia.
From Verif Require Import Common Crc32Model Crc32Spec Utf8Model Utf8Spec Utf8Props MsgModel MsgSpec MsgProofs.
Import ListNotations.
Open Scope Z_scope.

(** C10. Create, send, receive: the receiver gets exactly what the sender put in,
    whatever memory follows the received block. *)
Theorem msg_create_send_receive : forall type class timestamp topic data after,
  1 <= type <= 5 -> class = 1 \/ class = 11 -> 0 <= timestamp < 2^64 ->
  bytes topic -> ~ In 0 topic -> utf8_well_formed topic -> zlen topic < 2^16 ->
  bytes data -> 30 + zlen topic + zlen data < 2^32 ->
  exists m m', msg_msg_new_with_data type class timestamp topic data = Ok m /\
    receive (msg_msg_to_network m) after = Ok (DMsg m') /\
    MSG_TYPE m' = type /\ MSG_CLASS m' = class /\ mm_timestamp m' = timestamp /\
    MSG_TOPIC m' = topic /\ MSG_DATA m' = data.
Proof.
  intros type class ts topic data after Ht Hc Hts HBt HN HU Hlt HBd Hmax.
  destruct (set_type_class type class Ht Hc) as (S1 & S2 & S3).
  rewrite new_with_data_lemma by auto. eexists. eexists. split; [ reflexivity | ].
  pose proof (zlen_nonneg _ topic). pose proof (zlen_nonneg _ data).
  split; [ apply mm_receive | ].
  - unfold mm_ok. cbn [mm_head mm_data mm_timestamp mm_type_and_class mm_version mm_topic_length msg_type msg_size msg_value].
    rewrite zlen_app, topic_of. unfold byte, MSG_CLASS_OK, MSG_TYPE_OK, MSG_CLASS, MSG_TYPE in *. cbn [mm_type_and_class].
    rewrite S2, S3. repeat split; try lia.
    + apply bytes_app; auto.
    + apply utf8_validate_iff_well_formed; auto.
  - unfold mm_clear_crc, clear_crc. cbn [mm_head mm_timestamp mm_type_and_class mm_version mm_topic_length mm_data msg_size msg_type msg_value].
    rewrite topic_of. split; [ exact S2 | ]. split; [ exact S3 | ]. split; [ reflexivity | ]. split; [ reflexivity | ].
    apply data_of; cbn; auto.
Qed.
Print Assumptions msg_create_send_receive.

Example msg_create_send_receive_ex :
  match msg_msg_new_with_data 1 11 1700000000000000 (str_bytes "a/b") [0; 255; 7] with
  | Ok m => match receive (msg_msg_to_network m) [9; 9] with
            | Ok (DMsg m') => MSG_TOPIC m' = str_bytes "a/b" /\ MSG_DATA m' = [0; 255; 7] /\ zlen (msg_msg_to_network m) = 36
            | _ => False end
  | _ => False end.
Proof. vm_compute. auto. Qed.

(** C10, for any well formed message (also after topic changes): all fields
    survive; only the checksum fields are cleared. *)
Theorem msg_send_receive : forall m after, mm_ok m ->
  receive (msg_msg_to_network m) after = Ok (DMsg (mm_clear_crc m)).
Proof. exact mm_receive. Qed.
Print Assumptions msg_send_receive.

Example msg_send_receive_ex :
  mm_ok (mk_mm (mk_msg 5 34 2 77 8) 12345 21 3 2 (str_bytes "xy" ++ [1; 2])).
Proof.
  unfold mm_ok, byte. cbn [mm_head mm_data mm_timestamp mm_type_and_class mm_version mm_topic_length msg_type msg_size msg_value].
  repeat split; try (vm_compute; congruence); try reflexivity.
  repeat constructor; vm_compute; congruence.
Qed.

(** C11. A burst of at most 32 bits in the protected part of the header is
    detected before anything else is done with the message. *)
Theorem msg_header_burst_rejected : forall buf buf' size, bytes buf -> bytes buf' ->
  get_target_size buf = Ok size -> zlen buf' = zlen buf ->
  sub_mem buf' 0 4 = sub_mem buf 0 4 ->
  burst_error (sub_mem buf 4 14) (sub_mem buf' 4 14) ->
  forall after, receive buf' after = Err SOFT_ERROR.
Proof.
  intros buf buf' size H1 H2 H3 H4 H5 H6 after. unfold receive.
  rewrite (header_burst_lemma buf buf' size); auto.
Qed.
Print Assumptions msg_header_burst_rejected.

(** C11. So is any change of the header checksum itself. *)
Theorem msg_header_checksum_altered_rejected : forall buf buf' size, bytes buf -> bytes buf' ->
  get_target_size buf = Ok size -> zlen buf' = zlen buf ->
  sub_mem buf' 4 14 = sub_mem buf 4 14 -> sub_mem buf' 0 4 <> sub_mem buf 0 4 ->
  forall after, receive buf' after = Err SOFT_ERROR.
Proof.
  intros buf buf' size H1 H2 H3 H4 H5 H6 after. unfold receive.
  rewrite (header_crc_altered_lemma buf buf' size); auto.
Qed.
Print Assumptions msg_header_checksum_altered_rejected.

(** C11. A burst of at most 32 bits after the header of an accepted message makes
    the receiver refuse it. *)
Theorem msg_data_burst_rejected : forall buf buf' after after' d, bytes buf -> bytes buf' ->
  get_target_size buf = Ok (zlen buf) -> zlen buf' = zlen buf ->
  receive buf after = Ok d ->
  sub_mem buf' 0 18 = sub_mem buf 0 18 ->
  burst_error (sub_mem buf 18 (zlen buf - 18)) (sub_mem buf' 18 (zlen buf - 18)) ->
  receive buf' after' = Err SOFT_ERROR.
Proof. exact data_burst_lemma. Qed.
Print Assumptions msg_data_burst_rejected.

(** A flipped bit in the data of a sent message. *)
Example msg_burst_ex :
  let buf := msg_msg_to_network (mk_mm (mk_msg 0 34 2 0 0) 5 17 0 2 (str_bytes "xy" ++ [1; 2])) in
  let buf' := firstn 33 buf ++ [3] in
  let bufh := firstn 7 buf ++ [35] ++ skipn 8 buf in
  get_target_size buf = Ok 34 /\ receive buf' [] = Err SOFT_ERROR /\ receive bufh [] = Err SOFT_ERROR /\
  burst_error (sub_mem buf 18 (zlen buf - 18)) (sub_mem buf' 18 (zlen buf - 18)).
Proof.
  cbv zeta. split; [ vm_compute; reflexivity | ]. split; [ vm_compute; reflexivity | ]. split; [ vm_compute; reflexivity | ].
  exists (firstn 120 (bits_of (sub_mem (msg_msg_to_network (mk_mm (mk_msg 0 34 2 0 0) 5 17 0 2 (str_bytes "xy" ++ [1; 2]))) 18 16))), [false; true], [true; true], [false; false; false; false; false; false].
  vm_compute. repeat split; try lia. discriminate.
Qed.

(** C12. What acceptance does guarantee: the declared size is the received size
    and at least the fixed part, class and type are known; and whenever the topic
    length fits in the declared size, topic and data are inside the block and
    make it up exactly.  Missing for the full claim: that the topic length fits;
    that is not checked, see the next theorem. *)
Theorem msg_accepted_in_bounds_partial : forall buf after m, bytes buf ->
  receive buf after = Ok (DMsg m) -> msg_size (mm_head m) <= zlen buf ->
  30 <= msg_size (mm_head m) /\ zlen (mm_data m) = msg_size (mm_head m) - 30 /\
  MSG_CLASS_OK m = true /\ MSG_TYPE_OK m = true /\
  (mm_topic_length m <= msg_size (mm_head m) - 30 ->
   mm_data m = MSG_TOPIC m ++ MSG_DATA m /\ zlen (MSG_TOPIC m) = mm_topic_length m /\
   mm_topic_length m + MSG_DATA_LENGTH m = zlen (mm_data m)).
Proof.
  intros buf after m HB H HL. apply receive_dmsg in H as (size & h & HT & Hs & Hty & HV & _).
  destruct (target_ok_crc buf _ HB HT) as (_ & _ & _ & Hr).
  apply mm_accept in HV as (-> & H30 & _ & HC & HTy).
  assert (Eh : mm_head (read_msg_msg h (sub_mem buf 0 size)) = h) by reflexivity.
  rewrite Eh in *.
  assert (LD : zlen (mm_data (read_msg_msg h (sub_mem buf 0 size))) = msg_size h - 30).
  { cbn [read_msg_msg mm_data]. rewrite (sub_len buf 0 size) by lia. rewrite sub_len; rewrite ?(sub_len buf 0 size); lia. }
  split; [ lia | ]. split; [ exact LD | ]. split; [ auto | ]. split; [ auto | ]. intros HTL.
  destruct (consistent_split (read_msg_msg h (sub_mem buf 0 size))) as (E1 & E2 & E3 & E4).
  { unfold mm_consistent. rewrite Eh, LD.
    assert (0 <= mm_topic_length (read_msg_msg h (sub_mem buf 0 size))).
    { cbn [read_msg_msg mm_topic_length]. unfold be_field. apply be_dec_bound. apply sub_bytes, sub_bytes. auto. }
    lia. }
  split; [ exact E1 | ]. split; [ exact E2 | ]. lia.
Qed.
Print Assumptions msg_accepted_in_bounds_partial.

Example msg_accepted_in_bounds_ex :
  match receive (msg_msg_to_network (mk_mm (mk_msg 0 34 2 0 0) 5 17 0 2 (str_bytes "xy" ++ [1; 2]))) [] with
  | Ok (DMsg m) => mm_topic_length m = 2 /\ msg_size (mm_head m) - 30 = 4
  | _ => False end.
Proof. vm_compute. auto. Qed.

(** C12, finding: a 31 octet message announcing a topic of 65535 octets is
    accepted whatever memory follows it; its data length reads as 2^32 - 65534. *)
Theorem msg_accepted_in_bounds_refuted : exists buf, forall after, exists m,
  receive buf after = Ok (DMsg m) /\ zlen buf = 31 /\
  mm_topic_length m = 65535 /\ MSG_DATA_LENGTH m = 2^32 - 65534.
Proof. exists evil_topic_buf. exact evil_topic_lemma. Qed.
Print Assumptions msg_accepted_in_bounds_refuted.

(** C13. Creation: parts read back, size is the sum. *)
Theorem msg_new_reads_back : forall type class timestamp topic data,
  1 <= type <= 5 -> class = 1 \/ class = 11 -> 30 + zlen topic + zlen data < 2^32 ->
  exists m, msg_msg_new_with_data type class timestamp topic data = Ok m /\
    MSG_TYPE m = type /\ MSG_CLASS m = class /\ mm_timestamp m = timestamp /\
    MSG_TOPIC m = topic /\ MSG_DATA m = data /\ MSG_DATA_LENGTH m = zlen data /\
    msg_size (mm_head m) = 30 + zlen topic + zlen data /\ zlen (mm_data m) = zlen topic + zlen data.
Proof.
  intros type class ts topic data Ht Hc Hmax. destruct (set_type_class type class Ht Hc) as (S1 & S2 & S3).
  rewrite new_with_data_lemma by auto. eexists. split; [ reflexivity | ].
  split; [ exact S2 | ]. split; [ exact S3 | ]. split; [ reflexivity | ]. rewrite topic_of.
  destruct (data_of (mk_msg 0 (30 + zlen topic + zlen data) T_MESSAGE 0 0) ts (set_class (set_type 0 type) class) 0 topic data) as [D1 D2]; auto.
  rewrite D1, D2. cbn [mm_head msg_size mm_data]. rewrite zlen_app. auto.
Qed.
Print Assumptions msg_new_reads_back.

(** C13. Too large a message is refused, not wrapped. *)
Theorem msg_new_too_large_refused : forall type class timestamp topic data,
  2^32 <= 30 + zlen topic + zlen data -> msg_msg_new_with_data type class timestamp topic data = Err 1.
Proof.
  intros. unfold msg_msg_new_with_data, msg_msg_new_empty, MSG_MSG_MIN. cbv zeta.
  replace (2^32 - 1 <? 30 + zlen topic + zlen data) with true by lia. reflexivity.
Qed.
Print Assumptions msg_new_too_large_refused.

(** C13. Replacing the topic: new topic, same data, type, class, timestamp,
    version, value; the size is again the sum, so the operation can be repeated. *)
Theorem msg_topic_set_exact : forall m topic, mm_consistent m -> zlen topic < 2^16 ->
  30 + zlen topic + zlen (MSG_DATA m) < 2^32 ->
  exists m', msg_msg_topic_set m topic = Ok m' /\
    MSG_TOPIC m' = topic /\ MSG_DATA m' = MSG_DATA m /\
    MSG_TYPE m' = MSG_TYPE m /\ MSG_CLASS m' = MSG_CLASS m /\ mm_timestamp m' = mm_timestamp m /\
    mm_version m' = mm_version m /\ msg_value (mm_head m') = msg_value (mm_head m) /\
    msg_type (mm_head m') = msg_type (mm_head m) /\
    mm_consistent m' /\ msg_size (mm_head m') = 30 + zlen topic + zlen (MSG_DATA m).
Proof.
  intros m topic HC HT Hmax. rewrite topic_set_lemma by auto. eexists. split; [ reflexivity | ].
  rewrite topic_of. split; [ reflexivity | ].
  split; [ apply data_of; cbn [msg_size]; auto | ].
  pose proof (zlen_nonneg _ topic). pose proof (zlen_nonneg _ (MSG_DATA m)).
  repeat split; cbn [mm_head msg_size mm_topic_length mm_data]; rewrite ?zlen_app; lia.
Qed.
Print Assumptions msg_topic_set_exact.

Example msg_topic_set_ex :
  let m := mk_mm (mk_msg 0 34 2 0 0) 5 17 0 2 (str_bytes "xy" ++ [1; 2]) in
  mm_consistent m /\
  match msg_msg_topic_set m (str_bytes "longer/topic") with
  | Ok m' => msg_msg_topic_equals m' (str_bytes "longer/topic") = true /\ MSG_DATA m' = [1; 2] /\ msg_size (mm_head m') = 44
  | _ => False end.
Proof. unfold mm_consistent. vm_compute. intuition congruence. Qed.

(** C13. Setting type or class replaces just that, for every message and value. *)
Definition with_type (m : rrr_msg_msg) (n : Z) : rrr_msg_msg :=
  mk_mm (mm_head m) (mm_timestamp m) (set_type (mm_type_and_class m) n) (mm_version m) (mm_topic_length m) (mm_data m).
Definition with_class (m : rrr_msg_msg) (n : Z) : rrr_msg_msg :=
  mk_mm (mm_head m) (mm_timestamp m) (set_class (mm_type_and_class m) n) (mm_version m) (mm_topic_length m) (mm_data m).
Theorem msg_set_type_class_exact : forall m n, byte (mm_type_and_class m) -> 0 <= n < 16 ->
  MSG_TYPE (with_type m n) = n /\ MSG_CLASS (with_type m n) = MSG_CLASS m /\ byte (mm_type_and_class (with_type m n)) /\
  MSG_CLASS (with_class m n) = n /\ MSG_TYPE (with_class m n) = MSG_TYPE m /\ byte (mm_type_and_class (with_class m n)).
Proof.
  intros m n Hb Hn. unfold MSG_TYPE, MSG_CLASS, with_type, with_class. cbn [mm_type_and_class].
  set (tc := mm_type_and_class m) in *. clearbody tc. clear m.
  set (chk := fun tc => forallb (fun n =>
    (Z.land (set_type tc n) 15 =? n) && (Z.shiftr (Z.land (set_type tc n) 240) 4 =? Z.shiftr (Z.land tc 240) 4) && byteb (set_type tc n) &&
    (Z.shiftr (Z.land (set_class tc n) 240) 4 =? n) && (Z.land (set_class tc n) 15 =? Z.land tc 15) && byteb (set_class tc n)) (map Z.of_nat (seq 0 16))).
  assert (A : chk tc = true) by (apply sweep_byte; [ vm_compute; reflexivity | exact Hb ]).
  unfold chk in A. rewrite forallb_forall in A. specialize (A n).
  rewrite !andb_true_iff, !Z.eqb_eq, !byteb_iff in A.
  assert (I : In n (map Z.of_nat (seq 0 16))) by (apply in_map_iff; exists (Z.to_nat n); split; [ lia | apply in_seq; lia ]).
  specialize (A I). tauto.
Qed.
Print Assumptions msg_set_type_class_exact.

Example msg_set_type_class_ex :
  let m := mk_mm (mk_msg 0 30 3 0 0) 5 (16 * 11 + 2) 0 0 [] in
  MSG_TYPE m = 2 /\ MSG_CLASS m = 11 /\ MSG_TYPE (with_type m 5) = 5 /\ MSG_CLASS (with_class m 1) = 1 /\ MSG_TYPE (with_class m 1) = 2.
Proof. repeat split. Qed.

(** C13. The topic comparison says whether the topic is the given C string. *)
Theorem msg_topic_equals_iff : forall m topic, mm_consistent m ->
  (msg_msg_topic_equals m topic = true <-> MSG_TOPIC m = topic).
Proof.
  intros m topic HC. destruct (consistent_split m HC) as (_ & E2 & _ & _). unfold msg_msg_topic_equals.
  destruct (Z.eqb_spec (mm_topic_length m) (zlen topic)) as [El|El]; cbn [negb].
  - destruct (Z.eqb_spec (mm_topic_length m) 0) as [E0|E0].
    + split; intros; [ | reflexivity ]. rewrite (zlen_0 _ (MSG_TOPIC m)), (zlen_0 _ topic); auto; lia.
    + destruct (list_eq_dec Z.eq_dec (MSG_TOPIC m) topic); split; intros; auto; congruence.
  - split; intros H; [ discriminate | ]. subst. congruence.
Qed.
Print Assumptions msg_topic_equals_iff.

(** C36. Reception neither aborts nor touches memory outside the received block,
    for every octet string whose stated size is at least a header, except for log
    messages stating less than 157 octets and statistics messages whose path or
    data exceed the receiving struct.  Missing for the full claim: those three
    cases, which really occur (next theorems).  Reads of the topic are covered by
    C12. *)
Theorem msg_receive_safe_partial : forall buf after size, bytes buf -> get_target_size buf = Ok size -> size <= zlen buf ->
  18 <= size ->
  (be_field buf 8 2 = T_LOG -> 157 <= size) ->
  (be_field buf 8 2 = T_STATS -> 25 <= size -> be_field buf 23 2 <= 513 /\ size - 25 - be_field buf 23 2 <= 512) ->
  receive buf after <> Abort /\ receive buf after <> Ok DMemoryError.
Proof. exact receive_safe_lemma. Qed.
Print Assumptions msg_receive_safe_partial.

Example msg_receive_safe_ex :
  let buf := stats_to_network 1 2 5 (str_bytes "path") (str_bytes "text") in
  get_target_size buf = Ok (zlen buf) /\ be_field buf 8 2 = T_STATS /\ be_field buf 23 2 = 5 /\ zlen buf = 34.
Proof. vm_compute. auto. Qed.

(** C36, finding: 18 octets with a correct header checksum stating a size of 17
    abort the process. *)
Theorem msg_receive_aborts_refuted : exists buf, zlen buf = 18 /\ forall after, receive buf after = Abort.
Proof. exists short_buf. split; [ reflexivity | exact short_abort ]. Qed.
Print Assumptions msg_receive_aborts_refuted.

(** C37. Log messages arrive with their prefix and text, for every C string prefix
    below 65535 octets and every non-empty C string text below 65536 octets. *)
Theorem log_send_receive : forall flags file line so lt lo prefix message after,
  0 <= flags < 2^32 -> bytes file -> zlen file = 128 -> byte so -> byte lt -> byte lo ->
  c_text prefix -> zlen prefix < 65535 -> c_text message -> message <> [] -> zlen message < 65536 ->
  receive (log_to_network flags file line so lt lo prefix message) after
  = Ok (DLog (clear_crc (log_head flags prefix message)) prefix message).
Proof.
  intros flags file line so lt lo prefix message after Hf HB HL H1 H2 H3 [HP NP] LP [HM NM] Hne LM.
  rewrite log_receive by auto. cbn [clear_crc msg_size].
  destruct (log_to_host_sent flags file line so lt lo prefix message HL NP NM) as [E1 E2].
  cbn [log_head msg_size] in *. rewrite E1, E2 by auto.
  assert (1 <= zlen message).
  { destruct message as [|x l]; [ congruence | ]. rewrite zlen_cons. pose proof (zlen_nonneg _ l). lia. }
  replace ((zlen prefix <? 65535) && (1 <=? zlen message) && (zlen message <? 65536)) with true by lia. reflexivity.
Qed.
Print Assumptions log_send_receive.

Example log_send_receive_ex :
  match receive (log_to_network 0 (str_bytes "main.c" ++ repeat 0 122) 7 0 3 3 (str_bytes "main") (str_bytes "hello")) [] with
  | Ok (DLog _ p t) => p = str_bytes "main" /\ t = str_bytes "hello"
  | _ => False end.
Proof. vm_compute. auto. Qed.

(** C37, finding: an empty text, a text of 65536 or more octets (truncated by the
    sender) or a prefix of 65535 or more is always refused by the receiver. *)
Theorem log_send_receive_refuted : forall flags file line so lt lo prefix message after,
  0 <= flags < 2^32 -> bytes file -> zlen file = 128 -> byte so -> byte lt -> byte lo ->
  c_text prefix -> c_text message ->
  message = [] \/ 65536 <= zlen message \/ 65535 <= zlen prefix ->
  receive (log_to_network flags file line so lt lo prefix message) after = Err SOFT_ERROR.
Proof.
  intros flags file line so lt lo prefix message after Hf HB HL H1 H2 H3 [HP NP] [HM NM] HC.
  rewrite log_receive by auto. cbn [clear_crc msg_size].
  destruct (log_to_host_sent flags file line so lt lo prefix message HL NP NM) as [E1 _].
  cbn [log_head msg_size] in *. rewrite E1.
  replace ((zlen prefix <? 65535) && (1 <=? zlen message) && (zlen message <? 65536)) with false; [ reflexivity | ].
  destruct HC as [->|[H|H]]; [ rewrite zlen_nil | | ]; lia.
Qed.
Print Assumptions log_send_receive_refuted.

Example log_send_receive_refuted_ex :
  receive (log_to_network 0 (str_bytes "main.c" ++ repeat 0 122) 7 0 3 3 (str_bytes "main") []) [] = Err SOFT_ERROR.
Proof. vm_compute. reflexivity. Qed.

(** C37, finding: a log message of 18 octets passes the size check (the
    subtraction wraps) and is read outside its memory. *)
Theorem log_out_of_bounds_refuted : exists buf, zlen buf = 18 /\ forall after, receive buf after = Ok DMemoryError.
Proof. exists short_log_buf. split; [ reflexivity | exact short_log_oob ]. Qed.
Print Assumptions log_out_of_bounds_refuted.

(** C38. Statistics messages built within the sender's limits arrive intact. *)
Theorem stats_send_receive : forall type flags value path data after,
  0 <= type <= 3 -> 0 <= flags < 16 -> 0 <= value < 2^32 ->
  bytes path -> bytes data -> zlen path <= 512 -> zlen data <= 512 ->
  receive (stats_to_network type flags value path data) after = Ok (DStats type flags (path ++ [0]) data).
Proof. exact stats_receive. Qed.
Print Assumptions stats_send_receive.

Example stats_send_receive_ex :
  receive (stats_to_network 1 2 5 (str_bytes "path") (str_bytes "text")) []
  = Ok (DStats 1 2 (str_bytes "path" ++ [0]) (str_bytes "text")).
Proof. vm_compute. reflexivity. Qed.

(** C38, finding: a received statistics message with 600 octets of data, within
    the accepted total size, overruns the 512 octet member of the (stack
    allocated) struct it is unpacked into. *)
Theorem stats_unpack_overflow_refuted : exists buf, zlen buf = 625 /\ forall after, receive buf after = Ok DMemoryError.
Proof. exists long_stats_buf. split; [ reflexivity | exact long_stats_overflow ]. Qed.
Print Assumptions stats_unpack_overflow_refuted.
