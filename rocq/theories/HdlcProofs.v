From Coq Require Import ZArith List Bool Lia.
From Verif Require Import Common HdlcModel HdlcSpec.
Import ListNotations.
Open Scope Z_scope.

(** ** Chunking *)
Lemma parse_app : forall a s b,
  hdlc_parse s (a ++ b) =
  match hdlc_parse s a with
  | (HIncomplete, s', _) => hdlc_parse s' b
  | (r, s', rest) => (r, s', rest ++ b)
  end.
Proof.
  induction a as [|c a IH]; intros s b; [ reflexivity | ].
  cbn [app hdlc_parse]. destruct (h_flag s).
  - destruct (c =? BYTE_FRAME); apply IH.
  - destruct (c =? BYTE_ESCAPE); [ apply IH | ].
    destruct (c =? BYTE_FRAME).
    + destruct (zlen (h_result s) =? 0); [ apply IH | ]. unfold hdlc_verify_size. cbn.
      destruct (zlen (h_result s) =? 0); reflexivity.
    + destruct (hdlc_push _ _ _); [ apply IH | reflexivity | reflexivity ].
  - destruct (hdlc_push _ _ _); [ apply IH | reflexivity | reflexivity ].
  - unfold hdlc_verify_size. destruct (_ =? 0); reflexivity.
Qed.

Lemma parse_incomplete_rest : forall a s s' rest, hdlc_parse s a = (HIncomplete, s', rest) -> rest = [].
Proof.
  induction a as [|c a IH]; intros s s' rest; cbn [hdlc_parse]; [ congruence | ].
  destruct (h_flag s).
  - destruct (c =? BYTE_FRAME); apply IH.
  - destruct (c =? BYTE_ESCAPE); [ apply IH | ]. destruct (c =? BYTE_FRAME).
    + destruct (zlen (h_result s) =? 0); [ apply IH | ]. unfold hdlc_verify_size. destruct (_ =? 0); discriminate.
    + destruct (hdlc_push _ _ _); [ apply IH | discriminate | discriminate ].
  - destruct (hdlc_push _ _ _); [ apply IH | discriminate | discriminate ].
  - unfold hdlc_verify_size. destruct (_ =? 0); discriminate.
Qed.

(** ** Buffer bound *)
Definition hdlc_inv (s : hdlc_state) : Prop := zlen (h_result s) <= HDLC_MAX - 1.

Lemma push_inv : forall f s c, hdlc_inv s ->
  match hdlc_push f s c with PushOk s' => hdlc_inv s' | PushFull => True | PushOverflow => False end.
Proof.
  unfold hdlc_inv, hdlc_push. intros f s c H.
  destruct (Z.eqb_spec (zlen (h_result s)) (HDLC_MAX - 1)); [ auto | ].
  destruct (Z.leb_spec HDLC_MAX (zlen (h_result s))); [ lia | ].
  cbn [h_result]. rewrite zlen_app. change (zlen [c]) with 1. lia.
Qed.

Lemma parse_inv : forall a s, hdlc_inv s ->
  fst (fst (hdlc_parse s a)) <> HOverflow /\ hdlc_inv (snd (fst (hdlc_parse s a))).
Proof.
  induction a as [|c a IH]; intros s H; cbn [hdlc_parse]; [ split; [ discriminate | auto ] | ].
  destruct (h_flag s).
  - destruct (c =? BYTE_FRAME); apply IH; auto.
  - destruct (c =? BYTE_ESCAPE); [ apply IH; auto | ]. destruct (c =? BYTE_FRAME).
    + destruct (zlen (h_result s) =? 0); [ apply IH; auto | ]. unfold hdlc_verify_size.
      cbn. destruct (_ =? 0); split; try discriminate; auto.
    + pose proof (push_inv HFrame s c H). destruct (hdlc_push _ _ _); [ apply IH; auto | split; [ discriminate | auto ] | tauto ].
  - pose proof (push_inv HFrame s (Z.lxor c BYTE_XOR) H).
    destruct (hdlc_push _ _ _); [ apply IH; auto | split; [ discriminate | auto ] | tauto ].
  - unfold hdlc_verify_size. cbn. destruct (_ =? 0); split; try discriminate; auto.
Qed.

(** ** Frames *)
Lemma idle_noise : forall noise r rest, ~ In 126 noise ->
  hdlc_parse {| h_flag := HIdle; h_result := r |} (noise ++ rest) =
  hdlc_parse {| h_flag := HIdle; h_result := r |} rest.
Proof.
  induction noise as [|c n IH]; intros r rest H; [ reflexivity | ].
  cbn [app hdlc_parse h_flag]. destruct (Z.eqb_spec c BYTE_FRAME) as [->|].
  - exfalso. apply H. left. reflexivity.
  - apply IH. intros HI. apply H. right. auto.
Qed.

Lemma frame_flags : forall k rest,
  hdlc_parse {| h_flag := HFrame; h_result := [] |} (repeat 126 k ++ rest) =
  hdlc_parse {| h_flag := HFrame; h_result := [] |} rest.
Proof. induction k as [|k IH]; intros; [ reflexivity | ]. cbn [repeat app]. apply IH. Qed.

Lemma stuffed_parse : forall body data, stuffed body data -> forall r rest,
  zlen r + zlen data <= HDLC_MAX - 1 ->
  hdlc_parse {| h_flag := HFrame; h_result := r |} (body ++ rest) =
  hdlc_parse {| h_flag := HFrame; h_result := r ++ data |} rest.
Proof.
  induction 1 as [|c body data H1 H2 H IH|c body data H IH]; intros r rest HL.
  - now rewrite app_nil_r.
  - rewrite zlen_cons in HL. pose proof (zlen_nonneg _ data). cbn [app hdlc_parse h_flag].
    destruct (Z.eqb_spec c BYTE_ESCAPE); [ contradiction | ].
    destruct (Z.eqb_spec c BYTE_FRAME); [ contradiction | ].
    unfold hdlc_push. cbn [h_result].
    destruct (Z.eqb_spec (zlen r) (HDLC_MAX - 1)); [ lia | ].
    destruct (Z.leb_spec HDLC_MAX (zlen r)); [ lia | ].
    rewrite IH by (rewrite zlen_app; change (zlen [c]) with 1; lia).
    rewrite <- app_assoc. reflexivity.
  - rewrite zlen_cons in HL. pose proof (zlen_nonneg _ data). cbn [app hdlc_parse h_flag].
    change (125 =? BYTE_ESCAPE) with true. cbv iota. cbn [h_flag h_result].
    unfold hdlc_push. cbn [h_result].
    destruct (Z.eqb_spec (zlen r) (HDLC_MAX - 1)); [ lia | ].
    destruct (Z.leb_spec HDLC_MAX (zlen r)); [ lia | ].
    rewrite IH by (rewrite zlen_app; change (zlen [_]) with 1; lia).
    rewrite <- app_assoc. reflexivity.
Qed.

Lemma framed_parse : forall stream data rest,
  framed stream data rest -> data <> [] -> zlen data <= HDLC_MAX - 1 ->
  hdlc_parse hdlc_init stream = (HOk, {| h_flag := HDone; h_result := data |}, rest).
Proof.
  intros stream data rest (noise & k & body & HN & HS & ->) Hne HL.
  unfold hdlc_init. rewrite idle_noise by auto. cbn [repeat app hdlc_parse h_flag].
  change (126 =? BYTE_FRAME) with true. cbv iota. cbn [h_result].
  rewrite frame_flags. rewrite (stuffed_parse _ _ HS) by (change (zlen (@nil Z)) with 0; lia).
  cbn [app hdlc_parse h_flag h_result].
  change (126 =? BYTE_ESCAPE) with false. change (126 =? BYTE_FRAME) with true. cbv iota.
  destruct data as [|d data]; [ congruence | ].
  unfold hdlc_verify_size. cbn [h_result].
  assert (E : (zlen (d :: data) =? 0) = false) by (rewrite zlen_cons; pose proof (zlen_nonneg _ data); lia).
  rewrite E. reflexivity.
Qed.

(** ** Soundness: what the parser accepts is a frame *)
(** Resuming in state [HFrame]/[HEscape] with data [r] parsed so far. *)
Lemma parse_frame_sound : forall n stream, (length stream <= n)%nat -> forall r s rest,
  hdlc_parse {| h_flag := HFrame; h_result := r |} stream = (HOk, s, rest) ->
  zlen r <= HDLC_MAX - 1 ->
  exists k body d, stuffed body d /\ h_result s = r ++ d /\ h_result s <> [] /\
     zlen (h_result s) <= HDLC_MAX - 1 /\ (r <> [] -> k = O) /\ h_flag s = HDone /\
     stream = repeat 126 k ++ body ++ [126] ++ rest.
Proof.
  induction n as [|n IH]; intros stream Hn r s rest H HL.
  { destruct stream; [ discriminate | cbn in Hn; lia ]. }
  destruct stream as [|c stream]; [ discriminate | ].
  cbn [hdlc_parse h_flag] in H. cbn [length] in Hn.
  destruct (Z.eqb_spec c BYTE_ESCAPE) as [->|Hc].
  - destruct stream as [|e stream]; [ discriminate | ].
    cbn [hdlc_parse h_flag h_result] in H. unfold hdlc_push in H. cbn [h_result] in H.
    destruct (Z.eqb_spec (zlen r) (HDLC_MAX - 1)); [ discriminate | ].
    destruct (Z.leb_spec HDLC_MAX (zlen r)); [ discriminate | ].
    cbn [length] in Hn.
    destruct (IH stream ltac:(lia) _ _ _ H) as (k & body & d & HS & HR & HN & HB & Hk & HF & ->).
    { rewrite zlen_app. change (zlen [_]) with 1. lia. }
    rewrite Hk by (intros E; apply app_eq_nil in E as [_ E]; discriminate).
    exists O, (125 :: e :: body), (Z.lxor e 32 :: d). cbn [repeat app].
    repeat split; auto.
    + constructor; auto.
    + rewrite HR, <- app_assoc. reflexivity.
  - destruct (Z.eqb_spec c BYTE_FRAME) as [->|Hc2].
    + cbn [h_result] in H. destruct (Z.eqb_spec (zlen r) 0) as [E|E].
      * apply zlen_0 in E. subst r.
        destruct (IH stream ltac:(lia) _ _ _ H HL) as (k & body & d & HS & HR & HN & HB & Hk & HF & ->).
        exists (S k), body, d. repeat split; auto. congruence.
      * unfold hdlc_verify_size in H. cbn [h_result] in H.
        destruct (zlen r =? 0); inversion H; subst. cbn.
        exists O, [], []. rewrite app_nil_r. repeat split; auto.
        -- constructor.
        -- intros ->. apply E. reflexivity.
    + unfold hdlc_push in H. cbn [h_result] in H.
      destruct (Z.eqb_spec (zlen r) (HDLC_MAX - 1)); [ discriminate | ].
      destruct (Z.leb_spec HDLC_MAX (zlen r)); [ discriminate | ].
      destruct (IH stream ltac:(lia) _ _ _ H) as (k & body & d & HS & HR & HN & HB & Hk & HF & ->).
      { rewrite zlen_app. change (zlen [_]) with 1. lia. }
      rewrite Hk by (intros E; apply app_eq_nil in E as [_ E]; discriminate).
      exists O, (c :: body), (c :: d). cbn [repeat app].
      repeat split; auto.
      * constructor; auto.
      * rewrite HR, <- app_assoc. reflexivity.
Qed.

Lemma parse_sound : forall stream s rest,
  hdlc_parse hdlc_init stream = (HOk, s, rest) ->
  framed stream (h_result s) rest /\ h_result s <> [] /\ zlen (h_result s) <= HDLC_MAX - 1.
Proof.
  unfold hdlc_init. induction stream as [|c stream IH]; intros s rest H; [ discriminate | ].
  cbn [hdlc_parse h_flag h_result] in H.
  destruct (Z.eqb_spec c BYTE_FRAME) as [->|Hc].
  - destruct (parse_frame_sound _ _ (le_n _) _ _ _ H) as (k & body & d & HS & HR & HN & HB & Hk & HF & ->).
    { cbn. lia. }
    cbn [app] in HR. subst d. repeat split; auto.
    exists [], k, body. repeat split; auto.
  - destruct (IH _ _ H) as ((noise & k & body & HN & HS & ->) & Hne & HL). repeat split; auto.
    exists (c :: noise), k, body. repeat split; auto.
    intros [E|E]; [ apply Hc; auto | auto ].
Qed.

(** ** Exporter *)
Lemma lxor32 : forall c, Z.lxor (Z.lxor c 32) 32 = c.
Proof. intros. rewrite Z.lxor_assoc, Z.lxor_nilpotent, Z.lxor_0_r. reflexivity. Qed.

Lemma escape_stuffed : forall data, stuffed (hdlc_escape data) data.
Proof.
  induction data as [|c d IH]; cbn [hdlc_escape]; [ constructor | ].
  destruct (must_escape c) eqn:E.
  - cbn [app]. rewrite <- (lxor32 c) at 2. constructor. auto.
  - unfold must_escape in E. apply orb_false_iff in E as [E1 E2].
    apply Z.eqb_neq in E1, E2. cbn [app]. constructor; auto.
Qed.

Lemma escape_count : forall data, zlen (hdlc_escape data) = hdlc_count data.
Proof.
  induction data as [|c d IH]; [ reflexivity | ]. cbn [hdlc_escape hdlc_count].
  rewrite zlen_app, IH. destruct (must_escape c); reflexivity.
Qed.
Lemma count_ge : forall data, zlen data <= hdlc_count data.
Proof.
  induction data as [|c d IH]; [ cbn; lia | ]. rewrite zlen_cons. cbn [hdlc_count].
  destruct (must_escape c); lia.
Qed.

Lemma export_length_written : forall data n, hdlc_export_length data = Some n ->
  zlen (hdlc_export data) = n /\ n <= HDLC_MAX.
Proof.
  unfold hdlc_export_length, hdlc_export. intros data n H.
  destruct (Z.ltb_spec HDLC_MAX (hdlc_count data + 2)); inversion H; subst.
  rewrite !zlen_app, escape_count. change (zlen [BYTE_FRAME]) with 1. lia.
Qed.

Lemma export_framed : forall noise k data rest, ~ In 126 noise ->
  framed (noise ++ repeat 126 k ++ hdlc_export data ++ rest) data rest.
Proof.
  intros. exists noise, k, (hdlc_escape data). split; auto. split; [ apply escape_stuffed | ].
  f_equal. unfold hdlc_export.
  replace (repeat 126 (S k)) with (repeat 126 k ++ [126])
    by (rewrite <- repeat_cons; reflexivity).
  rewrite <- !app_assoc. reflexivity.
Qed.

Lemma escape_no_flag : forall data, bytes data -> ~ In 126 (hdlc_escape data).
Proof.
  induction data as [|c d IH]; intros HB H; [ destruct H | ].
  apply bytes_cons in HB as [Hc HB]. cbn [hdlc_escape] in H.
  apply in_app_or in H as [H|H]; [ | apply IH; auto ].
  destruct (must_escape c) eqn:E; cbn in H.
  - destruct H as [H|[H|[]]]; [ discriminate | ].
    unfold must_escape in E. apply orb_true_iff in E as [E|E]; apply Z.eqb_eq in E; subst; discriminate.
  - destruct H as [H|[]]. subst. discriminate.
Qed.

Lemma parse_many_frames : forall (frames : list (list Z * nat * list Z)) rest,
  Forall (fun '(noise, k, data) => ~ In 126 noise /\ data <> [] /\ hdlc_export_length data <> None) frames ->
  hdlc_parse_many (length frames)
    (concat (map (fun '(noise, k, data) => noise ++ repeat 126 k ++ hdlc_export data) frames) ++ rest) =
  (map snd frames, rest).
Proof.
  induction frames as [|[[noise k] data] fr IH]; intros rest HF; [ reflexivity | ].
  apply Forall_cons_iff in HF as [H0 HF']. cbv beta iota in H0. destruct H0 as (HN & Hne & HE).
  cbn [length hdlc_parse_many map concat].
  rewrite <- !app_assoc.
  rewrite (framed_parse _ data (concat (map (fun '(noise, k, data) => noise ++ repeat 126 k ++ hdlc_export data) fr) ++ rest)).
  - rewrite IH by auto. reflexivity.
  - apply export_framed; auto.
  - auto.
  - destruct (hdlc_export_length data) as [n|] eqn:E; [ | congruence ].
    destruct (export_length_written _ _ E) as [E1 E2].
    pose proof (count_ge data). unfold hdlc_export_length in E.
    destruct (Z.ltb_spec HDLC_MAX (hdlc_count data + 2)); [ discriminate | ]. lia.
Qed.
