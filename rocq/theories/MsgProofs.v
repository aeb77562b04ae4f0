From Coq Require Import ZArith List Bool Lia.
From Verif Require Import Common Crc32Model Crc32Spec Crc32Proofs Crc32Props Utf8Model Utf8Spec Utf8Props MsgModel MsgSpec.
Import ListNotations.
Open Scope Z_scope.

(** ** Sub-blocks *)
Lemma sub_skip : forall a l off n k, zlen a = k -> k <= off -> sub_mem (a ++ l) off n = sub_mem l (off - k) n.
Proof.
  intros a l off n k Ha Hk. unfold sub_mem. f_equal. unfold zlen in Ha.
  rewrite skipn_app, skipn_all2 by lia. cbn [app]. f_equal. lia.
Qed.
Lemma sub_here : forall a l off n, off = 0 -> zlen a = n -> sub_mem (a ++ l) off n = a.
Proof.
  intros a l off n -> Ha. unfold sub_mem. cbn [Z.to_nat skipn]. unfold zlen in Ha.
  rewrite firstn_app, firstn_all2 by lia. replace (Z.to_nat n - length a)%nat with 0%nat by lia.
  cbn. apply app_nil_r.
Qed.
Lemma sub_all : forall a off n, off = 0 -> zlen a <= n -> sub_mem a off n = a.
Proof.
  intros a off n -> Ha. unfold sub_mem. cbn [Z.to_nat skipn]. unfold zlen in Ha. apply firstn_all2. lia.
Qed.
Lemma sub_bytes : forall l off n, bytes l -> bytes (sub_mem l off n).
Proof.
  intros l off n H. unfold sub_mem, bytes in *. rewrite Forall_forall in *. intros x Hx.
  apply H. rewrite <- (firstn_skipn (Z.to_nat off) l). apply in_or_app. right.
  rewrite <- (firstn_skipn (Z.to_nat n) (skipn (Z.to_nat off) l)). apply in_or_app. left. exact Hx.
Qed.
Lemma sub_len : forall l off n, 0 <= off -> 0 <= n -> off + n <= zlen l -> zlen (sub_mem l off n) = n.
Proof. intros. unfold sub_mem, zlen in *. rewrite firstn_length, skipn_length. lia. Qed.
Lemma sub_sub0 : forall l size off n, 0 <= off -> 0 <= n -> off + n <= size ->
  sub_mem (sub_mem l 0 size) off n = sub_mem l off n.
Proof.
  intros. unfold sub_mem. cbn [Z.to_nat skipn]. rewrite skipn_firstn_comm, firstn_firstn. f_equal. lia.
Qed.

Ltac skip_tac := erewrite sub_skip; [ | rewrite ?be_enc_len, ?zlen_cons, ?zlen_nil; reflexivity | lia ].
(** Find a field of a concatenation. *)
Ltac fld := unfold be_field; repeat skip_tac; rewrite sub_here; [ | lia | rewrite ?be_enc_len, ?zlen_cons, ?zlen_nil; reflexivity ].
Lemma field_enc : forall n x, 0 <= x < 256 ^ Z.of_nat n -> be_dec (be_enc n x) = x.
Proof. exact be_dec_enc. Qed.

Lemma crc_nil : crc32buf [] = 0. Proof. reflexivity. Qed.

(** ** The common header *)
Definition head_ok (h : rrr_msg) (n : Z) : Prop :=
  msg_size h = 18 + n /\ 0 <= n /\ 18 + n < 2^32 /\ 0 <= msg_type h < 2^16 /\ 0 <= msg_value h < 2^32.

Lemma cn_expand : forall h data,
  checksum_and_to_network h data =
  let h' := mk_msg 0 (msg_size h) (msg_type h) (msg_value h) (crc32buf data) in
  be_enc 4 (crc32buf (head_tail_bytes h')) ++ head_tail_bytes h' ++ data.
Proof.
  intros. unfold checksum_and_to_network. destruct data as [|x data].
  - cbn [app]. change (0 <? zlen (@nil Z)) with false. rewrite crc_nil. reflexivity.
  - replace (0 <? zlen (x :: data)) with true by (rewrite zlen_cons; pose proof (zlen_nonneg _ data); lia). reflexivity.
Qed.
Lemma head_tail_len : forall h, zlen (head_tail_bytes h) = 14.
Proof. intros. unfold head_tail_bytes. rewrite !zlen_app, !be_enc_len. reflexivity. Qed.
Lemma head_tail_bytes_ok : forall h, bytes (head_tail_bytes h).
Proof. intros. unfold head_tail_bytes. repeat (apply bytes_app; split); apply be_enc_bytes. Qed.
Lemma cn_len : forall h data, zlen (checksum_and_to_network h data) = 18 + zlen data.
Proof. intros. rewrite cn_expand. cbv zeta. rewrite !zlen_app, be_enc_len, head_tail_len. lia. Qed.
Lemma cn_bytes : forall h data, bytes data -> bytes (checksum_and_to_network h data).
Proof.
  intros. rewrite cn_expand. cbv zeta. apply bytes_app; split; [ apply be_enc_bytes | ].
  apply bytes_app; split; auto using head_tail_bytes_ok.
Qed.

Lemma cn_fields : forall h data, bytes data -> head_ok h (zlen data) ->
  let buf := checksum_and_to_network h data in
  get_target_size buf = Ok (18 + zlen data) /\
  be_field buf 4 4 = msg_size h /\ be_field buf 8 2 = msg_type h /\
  be_field buf 10 4 = msg_value h /\ be_field buf 14 4 = crc32buf data /\
  sub_mem buf 18 (zlen data) = data.
Proof.
  intros h data HB (Hs & Hn & Hmax & Ht & Hv) buf.
  pose proof (crc32buf_bound data HB) as HC.
  set (h' := mk_msg 0 (msg_size h) (msg_type h) (msg_value h) (crc32buf data)).
  assert (HC' : 0 <= crc32buf (head_tail_bytes h') < 2^32) by (apply crc32buf_bound, head_tail_bytes_ok).
  assert (Eb : buf = be_enc 4 (crc32buf (head_tail_bytes h')) ++ head_tail_bytes h' ++ data)
    by (unfold buf; rewrite cn_expand; reflexivity).
  assert (E2 : be_field buf 4 4 = msg_size h).
  { rewrite Eb. unfold head_tail_bytes. rewrite <- !app_assoc. fld. cbn [msg_size h']. apply field_enc. cbn. lia. }
  assert (E3 : be_field buf 8 2 = msg_type h).
  { rewrite Eb. unfold head_tail_bytes. rewrite <- !app_assoc. fld. apply field_enc. cbn. lia. }
  assert (E4 : be_field buf 10 4 = msg_value h).
  { rewrite Eb. unfold head_tail_bytes. rewrite <- !app_assoc. fld. apply field_enc. cbn. lia. }
  assert (E5 : be_field buf 14 4 = crc32buf data).
  { rewrite Eb. unfold head_tail_bytes. rewrite <- !app_assoc. fld. apply field_enc. cbn. lia. }
  assert (E6 : sub_mem buf 18 (zlen data) = data).
  { rewrite Eb. skip_tac. erewrite sub_skip; [ | apply head_tail_len | lia ]. apply sub_all; lia. }
  repeat split; auto.
  unfold get_target_size. replace (zlen buf <? MSG_HEAD_SIZE) with false
    by (unfold buf; rewrite cn_len; unfold MSG_HEAD_SIZE; lia).
  rewrite E2, Hs.
  assert (E1 : be_field buf 0 4 = crc32buf (head_tail_bytes h')).
  { rewrite Eb. fld. apply field_enc. exact HC'. }
  assert (E7 : sub_mem buf 4 14 = head_tail_bytes h').
  { rewrite Eb. skip_tac. apply sub_here; [ lia | apply head_tail_len ]. }
  rewrite E1, E7.
  replace (crc32cmp (head_tail_bytes h') (crc32buf (head_tail_bytes h'))) with 0; [ reflexivity | ].
  symmetry. apply crc32cmp_zero; auto. apply head_tail_bytes_ok.
Qed.

(** What the receiver does with a message as sent: down to the dispatch. *)
Lemma receive_sent : forall h data after, bytes data -> head_ok h (zlen data) ->
  (if is_ctrl (msg_type h) then Z.land (msg_type h) (Z.lxor CTRL_F_ALL 65535) =? 0 else type_ok (msg_type h)) = true ->
  let buf := checksum_and_to_network h data in
  let h' := mk_msg 0 (msg_size h) (msg_type h) (msg_value h) 0 in
  receive buf after =
      (if msg_type h' =? T_MESSAGE then
        match msg_msg_to_host_and_verify h' buf after (18 + zlen data) with
        | Ok m => Ok (DMsg m)
        | Err _ => Err SOFT_ERROR
        | Abort => Abort
        end
      else if is_ctrl (msg_type h') then Ok (DCtrl h')
      else if msg_type h' =? T_ADDR then
        if 19 <=? msg_size h' then Ok (DAddr h') else Err SOFT_ERROR
      else if msg_type h' =? T_LOG then
        match log_to_host (msg_size h') buf with
        | LogOk => let '(p, t) := log_to_str (msg_size h') buf in Ok (DLog h' p t)
        | LogRefused => Err SOFT_ERROR
        | LogOutOfBounds => Ok DMemoryError
        end
      else if msg_type h' =? T_STATS then
        match stats_unpack buf (18 + zlen data) with
        | StatsOk t f p d => Ok (DStats t f p d)
        | StatsRefused => Err SOFT_ERROR
        | StatsOverflow => Ok DMemoryError
        end
      else Err SOFT_ERROR).
Proof.
  intros h data after HB HH HT buf h'.
  destruct (cn_fields h data HB HH) as (E1 & E2 & E3 & E4 & E5 & E6). fold buf in E1, E2, E3, E4, E5, E6.
  destruct HH as (Hs & Hn & Hmax & Ht & Hv).
  unfold receive. rewrite E1. rewrite (sub_all buf) by (unfold buf; try rewrite cn_len; lia).
  unfold to_host_and_verify_with_callback, head_to_host_and_verify, head_validate.
  rewrite E2, E3, E4, E5. cbn [msg_size msg_type].
  rewrite Hs, Z.eqb_refl. cbn [negb]. rewrite HT.
  unfold check_data_checksum_and_length. cbn [msg_size msg_type msg_value data_crc32].
  replace (18 + zlen data <? MSG_HEAD_SIZE) with false by (unfold MSG_HEAD_SIZE; lia).
  rewrite Z.eqb_refl. cbn [negb].
  replace (18 + zlen data - 18) with (zlen data) by lia. rewrite E6.
  replace (crc32cmp data (crc32buf data)) with 0
    by (symmetry; apply crc32cmp_zero; auto using crc32buf_bound).
  change (0 =? 0) with true. cbn [negb]. unfold h'. rewrite Hs. reflexivity.
Qed.

(** ** Data messages *)
Definition mm_ok (m : rrr_msg_msg) : Prop :=
  msg_type (mm_head m) = T_MESSAGE /\ msg_size (mm_head m) = 30 + zlen (mm_data m) /\
  30 + zlen (mm_data m) < 2^32 /\ 0 <= msg_value (mm_head m) < 2^32 /\
  0 <= mm_timestamp m < 2^64 /\ byte (mm_type_and_class m) /\ byte (mm_version m) /\
  0 <= mm_topic_length m <= zlen (mm_data m) /\ mm_topic_length m < 2^16 /\ bytes (mm_data m) /\
  MSG_CLASS_OK m = true /\ MSG_TYPE_OK m = true /\
  utf8_validate (MSG_TOPIC m) = Some 0.

Definition clear_crc (h : rrr_msg) : rrr_msg := mk_msg 0 (msg_size h) (msg_type h) (msg_value h) 0.
Definition mm_clear_crc (m : rrr_msg_msg) : rrr_msg_msg :=
  mk_mm (clear_crc (mm_head m)) (mm_timestamp m) (mm_type_and_class m) (mm_version m) (mm_topic_length m) (mm_data m).

Lemma mm_tail_len : forall m, zlen (msg_msg_tail_bytes m) = 12 + zlen (mm_data m).
Proof. intros. unfold msg_msg_tail_bytes. rewrite !zlen_app, !be_enc_len. rewrite !zlen_cons, zlen_nil. lia. Qed.

Lemma mm_receive : forall m after, mm_ok m ->
  receive (msg_msg_to_network m) after = Ok (DMsg (mm_clear_crc m)).
Proof.
  intros m after (Ht & Hs & Hmax & Hv & Hts & Htc & Hver & Htl & Htl2 & HB & HC & HT & HU).
  unfold msg_msg_to_network.
  assert (HBt : bytes (msg_msg_tail_bytes m)).
  { unfold msg_msg_tail_bytes. repeat (apply bytes_app; split); auto using be_enc_bytes.
    - apply bytes_cons; split; [ auto | constructor ].
    - apply bytes_cons; split; [ auto | constructor ]. }
  pose proof (zlen_nonneg _ (mm_data m)).
  rewrite receive_sent; auto.
  2: { unfold head_ok. rewrite mm_tail_len, Ht, Hs. unfold T_MESSAGE. lia. }
  2: { rewrite Ht. reflexivity. }
  cbn [msg_type msg_size]. rewrite Ht. change (T_MESSAGE =? T_MESSAGE) with true. cbn [negb].
  set (buf := checksum_and_to_network (mm_head m) (msg_msg_tail_bytes m)).
  rewrite mm_tail_len.
  unfold msg_msg_to_host_and_verify. replace (18 + (12 + zlen (mm_data m)) <? MSG_MSG_MIN) with false
    by (unfold MSG_MSG_MIN; lia).
  set (h' := mk_msg 0 (msg_size (mm_head m)) T_MESSAGE (msg_value (mm_head m)) 0).
  assert (ER : read_msg_msg h' buf = mm_clear_crc m).
  { unfold read_msg_msg, mm_clear_crc, clear_crc.
    assert (Eb : exists h0, zlen h0 = 18 /\ buf = h0 ++ msg_msg_tail_bytes m).
    { unfold buf. rewrite cn_expand. cbv zeta. rewrite app_assoc. eexists. split; [ | reflexivity ].
      rewrite zlen_app, be_enc_len, head_tail_len. reflexivity. }
    destruct Eb as (h0 & L0 & Eb).
    assert (Lb : zlen buf = 30 + zlen (mm_data m)) by (rewrite Eb, zlen_app, mm_tail_len; lia).
    rewrite Lb. rewrite Eb. unfold msg_msg_tail_bytes.
    assert (F : forall off n, 18 <= off -> sub_mem (h0 ++ msg_msg_tail_bytes m) off n = sub_mem (msg_msg_tail_bytes m) (off - 18) n)
      by (intros; apply sub_skip; auto).
    unfold be_field. fold (msg_msg_tail_bytes m). rewrite !F by lia. unfold msg_msg_tail_bytes.
    f_equal.
    1: (unfold h'; rewrite Ht; reflexivity).
    all: try (fld; first [ reflexivity | apply field_enc; cbn; lia ]).
    repeat skip_tac. apply sub_all; lia. }
  rewrite ER. cbn [mm_clear_crc mm_head clear_crc msg_size].
  replace (msg_size (mm_head m) =? 18 + (12 + zlen (mm_data m))) with true by lia. cbn [negb].
  unfold message_validate. cbn [mm_clear_crc mm_head clear_crc msg_size mm_data mm_topic_length].
  replace (msg_size (mm_head m) <? MSG_MSG_MIN) with false by (unfold MSG_MSG_MIN; lia).
  change (MSG_CLASS_OK (mm_clear_crc m)) with (MSG_CLASS_OK m).
  change (MSG_TYPE_OK (mm_clear_crc m)) with (MSG_TYPE_OK m). rewrite HC, HT. cbn [andb].
  replace (sub_mem (mm_data m ++ after) 0 (mm_topic_length m)) with (MSG_TOPIC m).
  - rewrite HU. reflexivity.
  - unfold MSG_TOPIC, sub_mem. cbn [Z.to_nat skipn]. rewrite firstn_app.
    replace (Z.to_nat (mm_topic_length m) - length (mm_data m))%nat with 0%nat by (unfold zlen in *; lia).
    cbn. rewrite app_nil_r. reflexivity.
Qed.

(** ** Creation *)
Lemma set_type_class : forall t c, 1 <= t <= 5 -> c = 1 \/ c = 11 ->
  byte (set_class (set_type 0 t) c) /\ Z.land (set_class (set_type 0 t) c) 15 = t /\
  Z.shiftr (Z.land (set_class (set_type 0 t) c) 240) 4 = c.
Proof.
  intros t c Ht Hc. assert (t = 1 \/ t = 2 \/ t = 3 \/ t = 4 \/ t = 5) as HT by lia.
  destruct HT as [->|[->|[->|[->| ->]]]]; destruct Hc as [->| ->]; vm_compute; repeat split; discriminate.
Qed.

Lemma repeat_app_split : forall (A : Type) (x : A) n m, 0 <= n -> 0 <= m ->
  repeat x (Z.to_nat (n + m)) = repeat x (Z.to_nat n) ++ repeat x (Z.to_nat m).
Proof. intros. rewrite <- repeat_app. f_equal. lia. Qed.
Lemma zlen_repeat : forall (A : Type) (x : A) n, 0 <= n -> zlen (repeat x (Z.to_nat n)) = n.
Proof. intros. unfold zlen. rewrite repeat_length. lia. Qed.

(** Storing topic and data into a zeroed block. *)
Lemma store_both : forall topic data,
  exists d, mem_store (repeat 0 (Z.to_nat (zlen topic + zlen data))) 0 topic = Some d /\
    mem_store d (zlen topic) data = Some (topic ++ data).
Proof.
  intros. pose proof (zlen_nonneg _ topic). pose proof (zlen_nonneg _ data).
  exists (topic ++ repeat 0 (Z.to_nat (zlen data))). split.
  - rewrite repeat_app_split by lia. apply (mem_store_app []). apply zlen_repeat; lia.
  - rewrite <- (app_nil_r (repeat 0 (Z.to_nat (zlen data)))).
    rewrite mem_store_app by (apply zlen_repeat; lia). rewrite app_nil_r. reflexivity.
Qed.

Lemma new_with_data_lemma : forall type class ts topic data,
  30 + zlen topic + zlen data < 2^32 ->
  msg_msg_new_with_data type class ts topic data =
  Ok (mk_mm (mk_msg 0 (30 + zlen topic + zlen data) T_MESSAGE 0 0) ts (set_class (set_type 0 type) class) 0
        (zlen topic) (topic ++ data)).
Proof.
  intros. unfold msg_msg_new_with_data, msg_msg_new_empty, MSG_MSG_MIN. cbv zeta.
  replace (2^32 - 1 <? 30 + zlen topic + zlen data) with false by lia. cbn [mm_data mm_topic_length].
  destruct (store_both topic data) as (d & E1 & E2). rewrite E1, E2. reflexivity.
Qed.

Lemma topic_of : forall h ts tc v topic data,
  MSG_TOPIC (mk_mm h ts tc v (zlen topic) (topic ++ data)) = topic.
Proof. intros. unfold MSG_TOPIC. cbn [mm_data mm_topic_length]. apply sub_here; reflexivity. Qed.
Lemma data_of : forall h ts tc v topic data, msg_size h = 30 + zlen topic + zlen data -> msg_size h < 2^32 ->
  MSG_DATA_LENGTH (mk_mm h ts tc v (zlen topic) (topic ++ data)) = zlen data /\
  MSG_DATA (mk_mm h ts tc v (zlen topic) (topic ++ data)) = data.
Proof.
  intros h ts tc v topic data Hs Hm. pose proof (zlen_nonneg _ topic). pose proof (zlen_nonneg _ data).
  assert (E : MSG_DATA_LENGTH (mk_mm h ts tc v (zlen topic) (topic ++ data)) = zlen data).
  { unfold MSG_DATA_LENGTH, u32. cbn [mm_head mm_topic_length]. rewrite Hs. unfold MSG_MSG_MIN.
    rewrite (Z.mod_small (30 + zlen topic + zlen data - 30)) by lia. rewrite Z.mod_small by lia. lia. }
  split; [ exact E | ]. unfold MSG_DATA. rewrite E. cbn [mm_data mm_topic_length].
  erewrite sub_skip; [ | reflexivity | lia ]. apply sub_all; lia.
Qed.

(** A consistent message: declared size is the sum of its parts. *)
Definition mm_consistent (m : rrr_msg_msg) : Prop :=
  msg_size (mm_head m) = 30 + zlen (mm_data m) /\ msg_size (mm_head m) < 2^32 /\
  0 <= mm_topic_length m <= zlen (mm_data m).

Lemma consistent_split : forall m, mm_consistent m ->
  mm_data m = MSG_TOPIC m ++ MSG_DATA m /\ zlen (MSG_TOPIC m) = mm_topic_length m /\
  MSG_DATA_LENGTH m = zlen (mm_data m) - mm_topic_length m /\ zlen (MSG_DATA m) = MSG_DATA_LENGTH m.
Proof.
  intros m (Hs & Hm & Ht).
  assert (E : MSG_DATA_LENGTH m = zlen (mm_data m) - mm_topic_length m).
  { unfold MSG_DATA_LENGTH, u32. rewrite Hs. unfold MSG_MSG_MIN.
    rewrite (Z.mod_small (30 + zlen (mm_data m) - 30)) by lia. rewrite Z.mod_small by lia. lia. }
  assert (ET : zlen (MSG_TOPIC m) = mm_topic_length m) by (apply sub_len; lia).
  assert (ED : zlen (MSG_DATA m) = MSG_DATA_LENGTH m) by (apply sub_len; lia).
  repeat split; auto.
  unfold MSG_TOPIC, MSG_DATA, sub_mem in *. cbn [Z.to_nat skipn] in *.
  rewrite (firstn_all2 (n := Z.to_nat (MSG_DATA_LENGTH m)))
    by (rewrite skipn_length; unfold zlen in *; lia).
  symmetry. apply firstn_skipn.
Qed.

Lemma topic_set_lemma : forall m topic, mm_consistent m ->
  30 + zlen topic + zlen (MSG_DATA m) < 2^32 ->
  msg_msg_topic_set m topic =
  Ok (mk_mm (mk_msg (header_crc32 (mm_head m)) (30 + zlen topic + zlen (MSG_DATA m)) (msg_type (mm_head m))
                    (msg_value (mm_head m)) (data_crc32 (mm_head m)))
            (mm_timestamp m) (mm_type_and_class m) (mm_version m) (zlen topic) (topic ++ MSG_DATA m)).
Proof.
  intros m topic HC Hmax. destruct (consistent_split m HC) as (E1 & E2 & E3 & E4).
  destruct HC as (Hs & Hm & Ht).
  unfold msg_msg_topic_set, duplicate_no_data_with_size, MSG_MSG_MIN. cbv zeta.
  rewrite E4 in Hmax. replace (2^32 - 1 <? 30 + zlen topic + MSG_DATA_LENGTH m) with false by lia.
  replace (zlen (mm_data m) <? mm_topic_length m + MSG_DATA_LENGTH m) with false by lia.
  cbn [mm_data mm_topic_length]. rewrite <- E4.
  destruct (store_both topic (MSG_DATA m)) as (d & S1 & S2). rewrite S1, S2. reflexivity.
Qed.

(** ** Corruption *)
Lemma cmp_nonzero : forall m c, bytes m -> 0 <= c < 2^32 -> crc32buf m <> c -> (crc32cmp m c =? 0) = false.
Proof. intros. apply Z.eqb_neq. rewrite crc32cmp_zero by auto. auto. Qed.

Lemma be_field_bound : forall l off n k, bytes l -> 0 <= off -> 0 <= n -> off + n <= zlen l -> k = 256 ^ n -> 0 <= be_field l off n < k.
Proof.
  intros l off n k HB H1 H2 H3 ->. unfold be_field.
  pose proof (be_dec_bound (sub_mem l off n) (sub_bytes l off n HB)) as H. rewrite sub_len in H by lia. exact H.
Qed.

Lemma target_ok_crc : forall buf s, bytes buf -> get_target_size buf = Ok s ->
  18 <= zlen buf /\ crc32buf (sub_mem buf 4 14) = be_field buf 0 4 /\ s = be_field buf 4 4 /\ 0 <= s < 2^32.
Proof.
  intros buf s HB H. unfold get_target_size, MSG_HEAD_SIZE in H.
  destruct (Z.ltb_spec (zlen buf) 18); [ discriminate | ].
  destruct (Z.eqb_spec (crc32cmp (sub_mem buf 4 14) (be_field buf 0 4)) 0) as [E|E]; cbn [negb] in H; [ | discriminate ].
  injection H as <-. split; [ lia | ]. split; [ | split; [ reflexivity | apply be_field_bound; auto; try reflexivity; lia ] ].
  apply crc32cmp_zero; auto using sub_bytes. apply be_field_bound; auto; try reflexivity; lia.
Qed.

Lemma header_burst_lemma : forall buf buf' s, bytes buf -> bytes buf' ->
  get_target_size buf = Ok s -> zlen buf' = zlen buf ->
  sub_mem buf' 0 4 = sub_mem buf 0 4 ->
  burst_error (sub_mem buf 4 14) (sub_mem buf' 4 14) ->
  get_target_size buf' = Err SOFT_ERROR.
Proof.
  intros buf buf' s HB HB' H HL H4 (p & w & w' & q & E1 & E2 & L1 & L2 & Hne).
  destruct (target_ok_crc buf s HB H) as (Hlen & Hc & _ & _).
  unfold get_target_size, MSG_HEAD_SIZE. rewrite HL. replace (zlen buf <? 18) with false by lia.
  rewrite cmp_nonzero; [ reflexivity | apply sub_bytes; auto | apply be_field_bound; auto; try reflexivity; lia | ].
  unfold be_field at 1. rewrite H4. fold (be_field buf 0 4). rewrite <- Hc. intros E. symmetry in E. revert E.
  apply (crc32_detects_bursts _ _ p w w' q); auto using sub_bytes.
Qed.

Lemma header_crc_altered_lemma : forall buf buf' s, bytes buf -> bytes buf' ->
  get_target_size buf = Ok s -> zlen buf' = zlen buf ->
  sub_mem buf' 4 14 = sub_mem buf 4 14 -> sub_mem buf' 0 4 <> sub_mem buf 0 4 ->
  get_target_size buf' = Err SOFT_ERROR.
Proof.
  intros buf buf' s HB HB' H HL H4 Hne.
  destruct (target_ok_crc buf s HB H) as (Hlen & Hc & _ & _).
  unfold get_target_size, MSG_HEAD_SIZE. rewrite HL. replace (zlen buf <? 18) with false by lia.
  rewrite cmp_nonzero; [ reflexivity | apply sub_bytes; auto | apply be_field_bound; auto; try reflexivity; lia | ].
  rewrite H4, Hc. intros E. apply Hne.
  assert (L1 : zlen (sub_mem buf 0 4) = 4) by (apply sub_len; lia).
  assert (L2 : zlen (sub_mem buf' 0 4) = 4) by (apply sub_len; lia).
  unfold be_field in E.
  pose proof (sub_bytes buf 0 4 HB) as B1. pose proof (sub_bytes buf' 0 4 HB') as B2.
  set (x := sub_mem buf 0 4) in *. set (y := sub_mem buf' 0 4) in *. clearbody x y. clear - E L1 L2 B1 B2.
  destruct x as [|a [|b [|c [|d [|? ?]]]]]; try (unfold zlen in L1; cbn [length] in L1; lia).
  destruct y as [|a' [|b' [|c' [|d' [|? ?]]]]]; try (unfold zlen in L2; cbn [length] in L2; lia).
  unfold be_dec in E. cbn [fold_left] in E.
  repeat (apply bytes_cons in B1 as [? B1]). repeat (apply bytes_cons in B2 as [? B2]).
  unfold byte in *. assert (a = a') by lia. assert (b = b') by lia. assert (c = c') by lia. assert (d = d') by lia.
  subst. reflexivity.
Qed.

Lemma sub_mem_data_eq : forall buf size, 18 <= size -> zlen buf = size ->
  buf = sub_mem buf 0 18 ++ sub_mem buf 18 (size - 18).
Proof.
  intros. unfold sub_mem. cbn [Z.to_nat skipn]. change (Z.to_nat 18) with 18%nat.
  rewrite (firstn_all2 (n := Z.to_nat (size - 18))) by (rewrite skipn_length; unfold zlen in *; lia).
  symmetry. apply firstn_skipn.
Qed.

(** Fields inside the header depend on the first 18 octets only. *)
Lemma field_same : forall buf buf' off n, sub_mem buf' 0 18 = sub_mem buf 0 18 -> 0 <= off -> 0 <= n -> off + n <= 18 ->
  sub_mem buf' off n = sub_mem buf off n.
Proof.
  intros buf buf' off n H H1 H2 H3.
  rewrite <- (sub_sub0 buf' 18), <- (sub_sub0 buf 18) by lia. rewrite H. reflexivity.
Qed.

Lemma data_burst_lemma : forall buf buf' after after' d, bytes buf -> bytes buf' ->
  get_target_size buf = Ok (zlen buf) -> zlen buf' = zlen buf ->
  receive buf after = Ok d ->
  sub_mem buf' 0 18 = sub_mem buf 0 18 ->
  burst_error (sub_mem buf 18 (zlen buf - 18)) (sub_mem buf' 18 (zlen buf - 18)) ->
  receive buf' after' = Err SOFT_ERROR.
Proof.
  intros buf buf' after after' d HB HB' HT HL HR HS (p & w & w' & q & E1 & E2 & L1 & L2 & Hne).
  destruct (target_ok_crc buf _ HB HT) as (Hlen & Hc & Hf & Hr).
  assert (HT' : get_target_size buf' = Ok (zlen buf)).
  { rewrite <- HT. unfold get_target_size, be_field. rewrite HL.
    rewrite !(field_same buf buf') by (auto; lia). reflexivity. }
  unfold receive in *. rewrite HT in HR. rewrite HT'. rewrite sub_all in HR by lia. rewrite sub_all by lia.
  unfold to_host_and_verify_with_callback, head_to_host_and_verify in *.
  unfold be_field in *. rewrite !(field_same buf buf') by (auto; lia).
  set (h := mk_msg 0 (be_dec (sub_mem buf 4 4)) (be_dec (sub_mem buf 8 2)) (be_dec (sub_mem buf 10 4)) (be_dec (sub_mem buf 14 4))) in *.
  destruct (head_validate h (zlen buf)); [ | discriminate ].
  unfold check_data_checksum_and_length in *.
  destruct (zlen buf <? MSG_HEAD_SIZE) eqn:E3; [ discriminate | ].
  destruct (negb (msg_size h =? zlen buf)) eqn:E4; [ discriminate | ].
  destruct (negb (crc32cmp (sub_mem buf 18 (zlen buf - 18)) (data_crc32 h) =? 0)) eqn:E5; [ discriminate | ].
  apply negb_false_iff, Z.eqb_eq in E5.
  assert (HD : 0 <= data_crc32 h < 2^32).
  { cbn [h data_crc32]. apply (be_field_bound buf 14 4); auto; try reflexivity; lia. }
  apply crc32cmp_zero in E5; auto using sub_bytes.
  rewrite cmp_nonzero; [ reflexivity | apply sub_bytes; auto | exact HD | ].
  rewrite <- E5. intros E. symmetry in E. revert E. apply (crc32_detects_bursts _ _ p w w' q); auto using sub_bytes.
Qed.

(** ** What an accepted message guarantees *)
Lemma mm_accept : forall h buf after n m, msg_msg_to_host_and_verify h buf after n = Ok m ->
  m = read_msg_msg h buf /\ 30 <= n /\ msg_size h = n /\ MSG_CLASS_OK m = true /\ MSG_TYPE_OK m = true.
Proof.
  intros h buf after n m H. unfold msg_msg_to_host_and_verify, MSG_MSG_MIN in H.
  destruct (Z.ltb_spec n 30); [ discriminate | ].
  destruct (Z.eqb_spec (msg_size (mm_head (read_msg_msg h buf))) n) as [E|E]; cbn [negb] in H; [ | discriminate ].
  destruct (message_validate (read_msg_msg h buf) after) eqn:V; [ | discriminate ].
  injection H as <-. unfold message_validate in V.
  destruct (_ <? _); [ discriminate | ].
  apply andb_true_iff in V as [V _]. apply andb_true_iff in V as [V1 V2]. auto.
Qed.

Lemma receive_dmsg : forall buf after m, receive buf after = Ok (DMsg m) ->
  exists size h, get_target_size buf = Ok size /\ msg_size h = size /\ msg_type h = T_MESSAGE /\
    msg_msg_to_host_and_verify h (sub_mem buf 0 size) after size = Ok m /\ msg_type h = be_field (sub_mem buf 0 size) 8 2.
Proof.
  intros buf after m H. unfold receive in H. destruct (get_target_size buf) as [size| |]; try discriminate.
  exists size. unfold to_host_and_verify_with_callback in H.
  destruct (head_to_host_and_verify (sub_mem buf 0 size) size) as [h| |] eqn:E1; try discriminate.
  destruct (check_data_checksum_and_length h (sub_mem buf 0 size) size) as [h2| |] eqn:E2; try discriminate.
  exists h2. split; [ reflexivity | ].
  unfold check_data_checksum_and_length in E2.
  destruct (_ <? _); [ discriminate | ].
  destruct (Z.eqb_spec (msg_size h) size) as [Es|]; cbn [negb] in E2; [ | discriminate ].
  destruct (negb _) in E2; [ discriminate | ]. injection E2 as <-.
  unfold head_to_host_and_verify in E1. destruct (head_validate _ _); [ | discriminate ]. injection E1 as <-.
  cbn [msg_type msg_size] in *.
  destruct (Z.eqb_spec (be_field (sub_mem buf 0 size) 8 2) T_MESSAGE) as [Et|].
  - split; [ auto | ]. split; [ auto | ].
    destruct (msg_msg_to_host_and_verify _ _ _ _); try discriminate. injection H as <-. auto.
  - destruct (is_ctrl _); [ discriminate | ].
    destruct (_ =? T_ADDR); [ destruct (_ <=? _); discriminate | ].
    destruct (_ =? T_LOG); [ destruct (log_to_host _ _); try discriminate; destruct (log_to_str _ _); discriminate | ].
    destruct (_ =? T_STATS); [ destruct (stats_unpack _ _); discriminate | discriminate ].
Qed.

(** ** Log messages *)
Lemma mem_octet_at : forall a x b off, off = zlen a -> mem_octet (a ++ x :: b) off = Some x.
Proof.
  intros a x b off ->. unfold mem_octet. pose proof (zlen_nonneg _ a). pose proof (zlen_nonneg _ b).
  rewrite zlen_app, zlen_cons. replace ((0 <=? zlen a) && _) with true by lia.
  f_equal. unfold zlen. rewrite Nat2Z.id, app_nth2, Nat.sub_diag by lia. reflexivity.
Qed.
Lemma mem_octet_in : forall b off, 0 <= off < zlen b -> exists c, mem_octet b off = Some c.
Proof. intros. unfold mem_octet. replace ((0 <=? off) && _) with true by lia. eauto. Qed.
Lemma c_string_text : forall s r, ~ In 0 s -> c_string (s ++ 0 :: r) = s.
Proof.
  induction s as [|c s IH]; intros r H; cbn [app c_string]; [ reflexivity | ].
  destruct (Z.eqb_spec c 0); [ exfalso; apply H; left; auto | ]. f_equal. apply IH. intros HI. apply H. right. auto.
Qed.

Lemma log_prefix_small : forall p, zlen p < 65535 -> log_prefix_size p = zlen p + 1.
Proof. intros. unfold log_prefix_size. lia. Qed.
Lemma log_message_small : forall p, zlen p < 65536 -> log_message_size p = zlen p + 1.
Proof. intros. unfold log_message_size, LOG_MESSAGE_MAX. lia. Qed.
Lemma log_area : forall s k, log_prefix_size s = k \/ log_message_size s = k -> 1 <= k <= zlen s + 1 ->
  zlen (sub_mem (s ++ [0]) 0 k) = k.
Proof. intros. apply sub_len; rewrite ?zlen_app, ?zlen_cons, ?zlen_nil; lia. Qed.

(** The block of a sent log message: 153 octets, the prefix size, the strings. *)
Lemma log_wire : forall flags file line so lt lo prefix message,
  zlen file = 128 ->
  exists h0, zlen h0 = 153 /\
    log_to_network flags file line so lt lo prefix message =
    h0 ++ be_enc 2 (log_prefix_size prefix) ++ sub_mem (prefix ++ [0]) 0 (log_prefix_size prefix)
       ++ sub_mem (message ++ [0]) 0 (log_message_size message).
Proof.
  intros flags file line so lt lo prefix message HF. unfold log_to_network. rewrite cn_expand. cbv zeta.
  unfold log_tail_bytes at 2.
  set (x := be_enc 4 _). set (y := head_tail_bytes _).
  exists ((x ++ y) ++ (file ++ be_enc 4 line ++ [so; lt; lo])). split.
  - subst x y. rewrite !zlen_app, !be_enc_len, head_tail_len, HF. reflexivity.
  - rewrite <- !app_assoc. reflexivity.
Qed.

Lemma log_prefix_range : forall p, 1 <= log_prefix_size p <= 65535 /\ log_prefix_size p <= zlen p + 1.
Proof. intros. unfold log_prefix_size. pose proof (zlen_nonneg _ p). lia. Qed.
Lemma log_message_range : forall p, 1 <= log_message_size p <= 65536 /\ log_message_size p <= zlen p + 1.
Proof. intros. unfold log_message_size, LOG_MESSAGE_MAX. pose proof (zlen_nonneg _ p). lia. Qed.

Lemma log_tail_len : forall file line so lt lo prefix message, zlen file = 128 ->
  zlen (log_tail_bytes file line so lt lo prefix message) = 137 + log_prefix_size prefix + log_message_size message.
Proof.
  intros. unfold log_tail_bytes. pose proof (log_prefix_range prefix). pose proof (log_message_range message).
  rewrite !zlen_app, !be_enc_len, !log_area by (auto; lia). rewrite !zlen_cons, zlen_nil. lia.
Qed.

Lemma log_tail_bytes_ok : forall file line so lt lo prefix message, bytes file -> byte so -> byte lt -> byte lo ->
  bytes prefix -> bytes message -> bytes (log_tail_bytes file line so lt lo prefix message).
Proof.
  intros. unfold log_tail_bytes. assert (bytes [0]) by (apply bytes_cons; split; [ unfold byte; lia | constructor ]).
  repeat (apply bytes_app; split); auto using be_enc_bytes.
  - repeat (apply bytes_cons; split; auto). constructor.
  - apply sub_bytes, bytes_app; auto.
  - apply sub_bytes, bytes_app; auto.
Qed.

Lemma log_receive : forall flags file line so lt lo prefix message after,
  0 <= flags < 2^32 -> bytes file -> zlen file = 128 -> byte so -> byte lt -> byte lo ->
  bytes prefix -> bytes message ->
  let buf := log_to_network flags file line so lt lo prefix message in
  let h := clear_crc (log_head flags prefix message) in
  receive buf after =
    match log_to_host (msg_size h) buf with
    | LogOk => let '(p, t) := log_to_str (msg_size h) buf in Ok (DLog h p t)
    | LogRefused => Err SOFT_ERROR
    | LogOutOfBounds => Ok DMemoryError
    end.
Proof.
  intros. unfold buf, log_to_network. rewrite receive_sent.
  - reflexivity.
  - apply log_tail_bytes_ok; auto.
  - unfold head_ok. rewrite log_tail_len by auto. cbn [log_head msg_size msg_type msg_value].
    pose proof (log_prefix_range prefix). pose proof (log_message_range message).
    unfold LOG_FIXED, T_LOG. lia.
  - reflexivity.
Qed.

(** The verification of a sent log message. *)
Lemma log_to_host_sent : forall flags file line so lt lo prefix message,
  zlen file = 128 -> ~ In 0 prefix -> ~ In 0 message ->
  let buf := log_to_network flags file line so lt lo prefix message in
  log_to_host (msg_size (log_head flags prefix message)) buf =
    (if (zlen prefix <? 65535) && (1 <=? zlen message) && (zlen message <? 65536) then LogOk else LogRefused) /\
  (zlen prefix < 65535 -> zlen message < 65536 ->
   log_to_str (msg_size (log_head flags prefix message)) buf = (prefix, message)).
Proof.
  intros flags file line so lt lo prefix message HF HP HM buf.
  destruct (log_wire flags file line so lt lo prefix message HF) as (h0 & L0 & E). fold buf in E.
  pose proof (log_prefix_range prefix) as RP. pose proof (log_message_range message) as RM.
  pose proof (zlen_nonneg _ prefix). pose proof (zlen_nonneg _ message).
  set (P := sub_mem (prefix ++ [0]) 0 (log_prefix_size prefix)) in *.
  set (M := sub_mem (message ++ [0]) 0 (log_message_size message)) in *.
  assert (LP : zlen P = log_prefix_size prefix) by (apply log_area; auto; lia).
  assert (LM : zlen M = log_message_size message) by (apply log_area; auto; lia).
  assert (Lb : zlen buf = 155 + log_prefix_size prefix + log_message_size message)
    by (rewrite E, !zlen_app, be_enc_len, L0, LP, LM; lia).
  assert (Fp : be_field buf 153 2 = log_prefix_size prefix).
  { rewrite E. unfold be_field. erewrite sub_skip; [ | exact L0 | lia ].
    rewrite sub_here; [ | lia | rewrite be_enc_len; reflexivity ]. apply field_enc. cbn. lia. }
  split.
  - unfold log_to_host. rewrite Fp, Lb. cbn [log_head msg_size]. unfold LOG_FIXED.
    replace (155 + log_prefix_size prefix + log_message_size message <? 155) with false by lia.
    unfold log_size_ok, u64, LOG_FIXED.
    replace ((155 + log_prefix_size prefix + log_message_size message - (155 + 1) - 1) mod 2 ^ 64)
      with (log_prefix_size prefix + log_message_size message - 2) by (rewrite Z.mod_small by lia; lia).
    destruct (Z.ltb_spec (log_prefix_size prefix + log_message_size message - 2) (log_prefix_size prefix)) as [Hlt|Hge]; cbn [negb].
    + assert (log_message_size message = 1) as E1 by lia.
      unfold log_message_size, LOG_MESSAGE_MAX in E1.
      replace (1 <=? zlen message) with false by lia. rewrite andb_false_r. reflexivity.
    + assert (1 <= zlen message) by (unfold log_message_size in *; lia).
      replace (0 <? log_prefix_size prefix) with true by lia.
      replace (1 <=? zlen message) with true by lia. rewrite andb_true_r.
      (* last octet of a truncated or complete string *)
      assert (LAST : forall s k (Hs : ~ In 0 s) (Hk : 1 <= k <= zlen s + 1),
        exists a x, sub_mem (s ++ [0]) 0 k = a ++ [x] /\ zlen a = k - 1 /\ (x = 0 <-> k = zlen s + 1)).
      { intros s k Hs Hk. destruct (Z.eq_dec k (zlen s + 1)) as [->|Hne].
        - exists s, 0. split; [ apply sub_all; [ lia | rewrite zlen_app, zlen_cons, zlen_nil; lia ] | ]. split; [ lia | tauto ].
        - destruct (zlen_split _ s (k - 1)) as (a & b & Es & La); [ lia | ].
          destruct b as [|x b]; [ rewrite app_nil_r in Es; subst a; lia | ].
          exists a, x. subst s. split.
          + replace ((a ++ x :: b) ++ [0]) with ((a ++ [x]) ++ (b ++ [0])) by (rewrite <- !app_assoc; reflexivity).
            apply sub_here; [ reflexivity | rewrite zlen_app, zlen_cons, zlen_nil; lia ].
          + split; [ auto | ]. split; [ | lia ]. intros ->. exfalso. apply Hs. apply in_or_app. right. left. reflexivity. }
      destruct (LAST prefix (log_prefix_size prefix) HP) as (a & x & Ea & La & Hx); [ lia | ].
      destruct (LAST message (log_message_size message) HM) as (b & y & Eb & Lby & Hy); [ lia | ].
      fold P in Ea. fold M in Eb.
      assert (M1 : mem_octet buf (155 + log_prefix_size prefix - 1) = Some x).
      { rewrite E, Ea.
        replace (h0 ++ be_enc 2 (log_prefix_size prefix) ++ (a ++ [x]) ++ M)
          with ((h0 ++ be_enc 2 (log_prefix_size prefix) ++ a) ++ x :: M) by (rewrite <- !app_assoc; reflexivity).
        apply mem_octet_at. rewrite !zlen_app, be_enc_len, L0. lia. }
      assert (M2 : mem_octet buf (155 + log_prefix_size prefix + log_message_size message - 1) = Some y).
      { rewrite E, Eb.
        replace (h0 ++ be_enc 2 (log_prefix_size prefix) ++ P ++ b ++ [y])
          with ((h0 ++ be_enc 2 (log_prefix_size prefix) ++ P ++ b) ++ y :: []) by (rewrite <- !app_assoc; reflexivity).
        apply mem_octet_at. rewrite !zlen_app, be_enc_len, L0. lia. }
      rewrite M1, M2.
      assert (HX : x = 0 <-> zlen prefix < 65535) by (unfold log_prefix_size in *; lia).
      assert (HY : y = 0 <-> zlen message < 65536) by (unfold log_message_size, LOG_MESSAGE_MAX in *; lia).
      destruct (Z.eqb_spec x 0); destruct (Z.eqb_spec y 0); cbn [negb];
        destruct (Z.ltb_spec (zlen prefix) 65535); destruct (Z.ltb_spec (zlen message) 65536); cbn [andb]; try reflexivity; exfalso; tauto || lia.
  - intros H1 H2. unfold log_to_str. rewrite Fp. cbn [log_head msg_size]. unfold LOG_FIXED.
    assert (EP : P = prefix ++ [0]).
    { apply sub_all; [ reflexivity | rewrite zlen_app, zlen_cons, zlen_nil, log_prefix_small; lia ]. }
    assert (EM : M = message ++ [0]).
    { apply sub_all; [ reflexivity | rewrite zlen_app, zlen_cons, zlen_nil, log_message_small; lia ]. }
    f_equal.
    + replace (sub_mem buf 155 (log_prefix_size prefix)) with P.
      { rewrite EP. apply c_string_text; auto. }
      rewrite E. erewrite sub_skip; [ | exact L0 | lia ]. erewrite sub_skip; [ | apply be_enc_len | lia ].
      symmetry. apply sub_here; [ lia | auto ].
    + match goal with |- c_string ?z = _ => replace z with M end.
      { rewrite EM. apply c_string_text; auto. }
      rewrite E. erewrite sub_skip; [ | exact L0 | lia ]. erewrite sub_skip; [ | apply be_enc_len | lia ].
      erewrite sub_skip; [ | exact LP | lia ]. symmetry. apply sub_all; lia.
Qed.

Lemma log_in_bounds : forall size buf, bytes buf -> zlen buf = size -> 157 <= size < 2^32 ->
  log_to_host size buf <> LogOutOfBounds.
Proof.
  intros size buf HB HL Hs. unfold log_to_host, LOG_FIXED. replace (zlen buf <? 155) with false by lia.
  assert (HF : 0 <= be_field buf 153 2 < 2^16) by (apply be_field_bound; auto; try reflexivity; lia).
  set (ps := be_field buf 153 2) in *. clearbody ps.
  unfold log_size_ok, u64, LOG_FIXED. rewrite Z.mod_small by lia.
  destruct (Z.ltb_spec (size - (155 + 1) - 1) ps); cbn [negb]; [ discriminate | ].
  assert (E : exists c, (if 0 <? ps then mem_octet buf (155 + ps - 1) else Some 0) = Some c).
  { destruct (Z.ltb_spec 0 ps); [ | eauto ]. apply mem_octet_in. lia. }
  destruct E as [c ->]. destruct (negb (c =? 0)); [ discriminate | ].
  destruct (mem_octet_in buf (size - 1)) as [d ->]; [ lia | ]. destruct (d =? 0); discriminate.
Qed.

(** ** Statistics messages *)
Lemma stats_tail_len : forall t f p d, zlen (stats_tail_bytes t f p d) = 7 + (zlen p + 1) + zlen d.
Proof. intros. unfold stats_tail_bytes. rewrite !zlen_app, !be_enc_len, !zlen_cons, zlen_nil. lia. Qed.

Lemma stats_receive : forall type flags value path data after,
  0 <= type <= 3 -> 0 <= flags < 16 -> 0 <= value < 2^32 ->
  bytes path -> bytes data -> zlen path <= 512 -> zlen data <= 512 ->
  receive (stats_to_network type flags value path data) after = Ok (DStats type flags (path ++ [0]) data).
Proof.
  intros type flags value path data after Ht Hf Hv HP HD LP LD.
  pose proof (zlen_nonneg _ path). pose proof (zlen_nonneg _ data).
  assert (HB : bytes (stats_tail_bytes type flags path data)).
  { unfold stats_tail_bytes. repeat (apply bytes_app; split); auto using be_enc_bytes;
      apply bytes_cons; split; try constructor; unfold byte; lia. }
  unfold stats_to_network. rewrite receive_sent; auto.
  2: { unfold head_ok. rewrite stats_tail_len. cbn [msg_size msg_type msg_value]. unfold STATS_FIXED, T_STATS. lia. }
  cbn [msg_type msg_size]. change (T_STATS =? T_MESSAGE) with false. change (is_ctrl T_STATS) with false.
  change (T_STATS =? T_ADDR) with false. change (T_STATS =? T_LOG) with false. change (T_STATS =? T_STATS) with true.
  cbv iota. rewrite stats_tail_len.
  set (hd := mk_msg _ _ _ _ _).
  assert (Eb : exists h0, zlen h0 = 18 /\ checksum_and_to_network hd (stats_tail_bytes type flags path data) = h0 ++ stats_tail_bytes type flags path data).
  { rewrite cn_expand. cbv zeta. rewrite app_assoc. eexists. split; [ | reflexivity ].
    rewrite zlen_app, be_enc_len, head_tail_len. reflexivity. }
  destruct Eb as (h0 & L0 & ->). unfold stats_tail_bytes.
  unfold stats_unpack, STATS_FIXED, STATS_PATH_ROOM, STATS_DATA_ROOM.
  replace (18 + (7 + (zlen path + 1) + zlen data) <? 25) with false by lia.
  replace (25 + 513 + 512 <? 18 + (7 + (zlen path + 1) + zlen data)) with false by lia.
  assert (F1 : be_field (h0 ++ [type] ++ be_enc 4 flags ++ be_enc 2 (u16 (zlen path + 1)) ++ (path ++ [0]) ++ data) 18 1 = type).
  { unfold be_field. erewrite sub_skip; [ | exact L0 | lia ]. fld. reflexivity. }
  assert (F2 : be_field (h0 ++ [type] ++ be_enc 4 flags ++ be_enc 2 (u16 (zlen path + 1)) ++ (path ++ [0]) ++ data) 19 4 = flags).
  { unfold be_field. erewrite sub_skip; [ | exact L0 | lia ]. fld. apply field_enc. cbn. lia. }
  assert (F3 : be_field (h0 ++ [type] ++ be_enc 4 flags ++ be_enc 2 (u16 (zlen path + 1)) ++ (path ++ [0]) ++ data) 23 2 = zlen path + 1).
  { unfold be_field. erewrite sub_skip; [ | exact L0 | lia ]. fld.
    unfold u16. rewrite Z.mod_small by lia. apply field_enc. cbn. lia. }
  rewrite F1, F2, F3.
  assert (FL : Z.land flags (Z.lxor 15 (2^32 - 1)) = 0).
  { assert (S : forallb (fun f => Z.land f (Z.lxor 15 (2^32 - 1)) =? 0) (map Z.of_nat (seq 0 16)) = true) by (vm_compute; reflexivity).
    rewrite forallb_forall in S. apply Z.eqb_eq, S. apply in_map_iff. exists (Z.to_nat flags). split; [ lia | apply in_seq; lia ]. }
  rewrite FL. cbv zeta. change (0 =? 0) with true. cbn [negb].
  replace ((0 <=? type) && (type <=? 3)) with true by lia. cbn [negb].
  replace (18 + (7 + (zlen path + 1) + zlen data) - 25) with (zlen path + 1 + zlen data) by lia.
  replace (zlen path + 1 + zlen data <? zlen path + 1) with false by lia.
  replace (zlen path + 1 + zlen data - (zlen path + 1)) with (zlen data) by lia.
  replace (512 <? zlen data) with false by lia.
  replace (0 <? zlen path + 1) with true by lia.
  assert (N : nth (Z.to_nat (25 + (zlen path + 1) - 1)) (h0 ++ [type] ++ be_enc 4 flags ++ be_enc 2 (u16 (zlen path + 1)) ++ (path ++ [0]) ++ data) 0 = 0).
  { assert (M : mem_octet ((h0 ++ [type] ++ be_enc 4 flags ++ be_enc 2 (u16 (zlen path + 1)) ++ path) ++ 0 :: data) (25 + (zlen path + 1) - 1) = Some 0).
    { apply mem_octet_at. rewrite !zlen_app, !be_enc_len, !zlen_cons, zlen_nil, L0. lia. }
    unfold mem_octet in M. destruct (_ && _) in M; [ | discriminate M ].
    injection M as M'. rewrite <- !app_assoc in *. exact M'. }
  rewrite N. change (0 =? 0) with true. cbn [negb andb].
  replace (513 <? zlen path + 1) with false by lia.
  f_equal. f_equal.
  - erewrite sub_skip; [ | exact L0 | lia ]. repeat skip_tac. apply sub_here; [ lia | rewrite zlen_app, zlen_cons, zlen_nil; lia ].
  - erewrite sub_skip; [ | exact L0 | lia ]. repeat skip_tac.
    erewrite sub_skip; [ | rewrite zlen_app, zlen_cons, zlen_nil; reflexivity | lia ]. apply sub_all; lia.
Qed.

(** ** Findings *)
Definition evil_topic_buf : list Z :=
  checksum_and_to_network (mk_msg 0 31 T_MESSAGE 0 0) (be_enc 8 0 ++ [177] ++ [0] ++ be_enc 2 65535 ++ [0]).

Lemma evil_topic_lemma : forall after, exists m,
  receive evil_topic_buf after = Ok (DMsg m) /\ zlen evil_topic_buf = 31 /\
  mm_topic_length m = 65535 /\ MSG_DATA_LENGTH m = 2^32 - 65534.
Proof.
  intros after.
  exists (mk_mm (mk_msg 0 31 2 0 0) 0 177 0 65535 [0]).
  split; [ | split; [ | split ]; vm_compute; reflexivity ].
  unfold evil_topic_buf. rewrite receive_sent.
  - change (msg_type _ =? T_MESSAGE) with true. cbv iota.
    change (18 + zlen _) with 31.
    cbn [msg_size msg_type msg_value].
    set (h' := mk_msg 0 31 T_MESSAGE 0 0) at 1.
    assert (E : msg_msg_to_host_and_verify h' (checksum_and_to_network (mk_msg 0 31 T_MESSAGE 0 0) (be_enc 8 0 ++ [177] ++ [0] ++ be_enc 2 65535 ++ [0])) after 31
       = Ok (mk_mm (mk_msg 0 31 2 0 0) 0 177 0 65535 [0])).
    { unfold msg_msg_to_host_and_verify. change (31 <? MSG_MSG_MIN) with false. cbv iota zeta.
      replace (read_msg_msg h' _) with (mk_mm (mk_msg 0 31 2 0 0) 0 177 0 65535 [0]) by (vm_compute; reflexivity).
      cbn [mm_head msg_size]. change (31 =? 31) with true. cbn [negb].
      unfold message_validate. cbn [mm_head msg_size mm_data mm_topic_length]. change (31 <? MSG_MSG_MIN) with false. cbv iota.
      change (MSG_CLASS_OK _) with true. change (MSG_TYPE_OK _) with true. cbn [andb].
      assert (S : exists t, sub_mem ([0] ++ after) 0 65535 = 0 :: t).
      { unfold sub_mem. change (Z.to_nat 0) with 0%nat. cbn [skipn app].
        destruct (Z.to_nat 65535) as [|k] eqn:K; [ lia | ]. eexists. cbn [firstn]. reflexivity. }
      destruct S as [t ->].
      change (utf8_validate (0 :: t)) with (Some 0). reflexivity. }
    rewrite E. reflexivity.
  - apply Forall_forall. intros x Hx. apply byteb_iff. revert x Hx. apply forallb_forall. vm_compute. reflexivity.
  - unfold head_ok. vm_compute. intuition discriminate.
  - reflexivity.
Qed.

(** A sequence of 18 octets with a valid header checksum stating size 17. *)
Definition short_buf : list Z :=
  let t := be_enc 4 17 ++ be_enc 2 1 ++ be_enc 4 0 ++ be_enc 4 0 in be_enc 4 (crc32buf t) ++ t.
Lemma short_abort : forall after, receive short_buf after = Abort.
Proof. intros. vm_compute. reflexivity. Qed.

Definition short_log_buf : list Z := checksum_and_to_network (mk_msg 0 18 T_LOG 0 0) [].
Lemma short_log_oob : forall after, receive short_log_buf after = Ok DMemoryError.
Proof. intros. vm_compute. reflexivity. Qed.

(** A statistics message of 25 + 600 octets without a path. *)
Definition long_stats_buf : list Z :=
  checksum_and_to_network (mk_msg 0 625 T_STATS 0 0) ([1] ++ be_enc 4 0 ++ be_enc 2 0 ++ repeat 65 600).
Lemma long_stats_overflow : forall after, receive long_stats_buf after = Ok DMemoryError.
Proof. intros. vm_compute. reflexivity. Qed.

Lemma receive_safe_lemma : forall buf after size, bytes buf -> get_target_size buf = Ok size -> size <= zlen buf ->
  18 <= size ->
  (be_field buf 8 2 = T_LOG -> 157 <= size) ->
  (be_field buf 8 2 = T_STATS -> 25 <= size -> be_field buf 23 2 <= 513 /\ size - 25 - be_field buf 23 2 <= 512) ->
  receive buf after <> Abort /\ receive buf after <> Ok DMemoryError.
Proof.
  intros buf after size HB HT HL HS HLog HSt.
  destruct (target_ok_crc buf _ HB HT) as (_ & _ & _ & Hr).
  unfold receive. rewrite HT. unfold to_host_and_verify_with_callback, head_to_host_and_verify.
  set (b := sub_mem buf 0 size).
  assert (HBb : bytes b) by (apply sub_bytes; auto).
  assert (HLb : zlen b = size) by (apply sub_len; lia).
  assert (F : forall off n, 0 <= off -> 0 <= n -> off + n <= size -> be_field b off n = be_field buf off n).
  { intros. unfold be_field, b. rewrite sub_sub0 by lia. reflexivity. }
  destruct (head_validate _ _); [ | split; discriminate ].
  unfold check_data_checksum_and_length. cbn [msg_size msg_type msg_value data_crc32].
  replace (size <? MSG_HEAD_SIZE) with false by (unfold MSG_HEAD_SIZE; lia).
  destruct (Z.eqb_spec (be_field b 4 4) size) as [Es|]; cbn [negb]; [ | split; discriminate ].
  destruct (negb (crc32cmp _ _ =? 0)); [ split; discriminate | ].
  cbn [msg_size msg_type]. rewrite (F 8 2) by lia.
  destruct (_ =? T_MESSAGE).
  { destruct (msg_msg_to_host_and_verify _ _ _ _) eqn:E; split; try discriminate.
    unfold msg_msg_to_host_and_verify in E. destruct (_ <? _); [ discriminate | ].
    destruct (negb _); [ discriminate | ]. destruct (message_validate _ _); discriminate. }
  destruct (is_ctrl _); [ split; discriminate | ].
  destruct (_ =? T_ADDR); [ destruct (_ <=? _); split; discriminate | ].
  destruct (Z.eqb_spec (be_field buf 8 2) T_LOG) as [El|].
  { specialize (HLog El). rewrite Es.
    pose proof (log_in_bounds size b HBb HLb ltac:(lia)) as NO.
    destruct (log_to_host size b); [ | split; discriminate | congruence ].
    destruct (log_to_str size b). split; discriminate. }
  destruct (Z.eqb_spec (be_field buf 8 2) T_STATS) as [Et|]; [ | split; discriminate ].
  specialize (HSt Et). unfold stats_unpack, STATS_FIXED, STATS_PATH_ROOM, STATS_DATA_ROOM.
  destruct (Z.ltb_spec size 25); [ split; discriminate | ].
  destruct (25 + 513 + 512 <? size); [ split; discriminate | ].
  rewrite !F by lia.
  destruct (negb _); [ split; discriminate | ].
  destruct (negb _); [ split; discriminate | ].
  destruct (_ <? _); [ split; discriminate | ].
  destruct HSt as [H1 H2]; [ lia | ].
  replace (512 <? size - 25 - be_field buf 23 2) with false by lia.
  destruct (_ && _); [ split; discriminate | ].
  replace (513 <? be_field buf 23 2) with false by lia.
  split; discriminate.
Qed.
