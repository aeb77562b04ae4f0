From Coq Require Import ZArith List Bool Lia.
From Verif Require Import Common MsgModel MsgSpec MsgProofs HdlcModel TypeModel TypeSpec TypeProofs ArrayModel ArraySpec.
Import ListNotations.
Open Scope Z_scope.

(** ** Packing *)
Definition head_bytes (t fl tl dl el : Z) : list Z := [t; fl] ++ be_enc 4 tl ++ be_enc 4 dl ++ be_enc 4 el.
Lemma head_len t fl tl dl el : zlen (head_bytes t fl tl dl el) = 14.
Proof. unfold head_bytes. rewrite !zlen_app, !be_enc_len, !zlen_cons, zlen_nil. reflexivity. Qed.

(** What a value looks like in the message. *)
Definition packed (v : value) (t : Z) (d : list Z) : Prop :=
  pack v = ROk (t, d) /\ zlen d = zlen (v_data v) /\ bytes d /\ has_unpack t = true /\ byte t /\
  forall after, value_new_and_unpack after t (v_flags v) (v_tag v) d (v_elements v) = ROk v.
Definition image (v : value) (t : Z) (d : list Z) : list Z :=
  head_bytes t (v_flags v) (zlen (v_tag v)) (zlen d) (v_elements v) ++ v_tag v ++ d.

Lemma packable_packed v : packable v -> exists t d, packed v t d.
Proof.
  intros H. destruct (pack_unpack v [] H) as (t & d & E1 & E2 & E3 & E4 & E5 & _).
  exists t, d. unfold packed. split; [exact E1|]. split; [exact E2|]. split; [exact E3|]. split; [exact E4|]. split; [exact E5|].
  intros after. destruct (pack_unpack v after H) as (t' & d' & E1' & _ & _ & _ & _ & E6').
  rewrite E1 in E1'. injection E1' as -> ->. exact E6'.
Qed.
Lemma image_len v t d : packed v t d -> zlen (image v t d) = 14 + zlen (v_tag v) + zlen (v_data v).
Proof. intros (_ & E & _). unfold image. rewrite !zlen_app, head_len, E. lia. Qed.
Lemma pack_value_image v t d : packed v t d -> pack_value v = ROk (image v t d).
Proof.
  intros (E1 & E2 & _). unfold pack_value. rewrite E1. cbn [rbind]. rewrite E2, Z.ltb_irrefl. unfold image, head_bytes. rewrite E2, <- !app_assoc. reflexivity.
Qed.

Inductive images : list value -> list Z -> Prop :=
| images_nil : images [] []
| images_cons v vs t d o : array_value v -> packed v t d -> images vs o -> images (v :: vs) (image v t d ++ o).

Lemma images_exist vs : Forall array_value vs -> exists o, images vs o.
Proof.
  induction 1 as [|v vs H HF (o & IH)]; [exists []; constructor|]. destruct (packable_packed v (proj1 H)) as (t & d & HP).
  exists (image v t d ++ o). constructor; assumption.
Qed.
Lemma wire_nonneg vs : 0 <= wire_size vs.
Proof. induction vs as [|v vs IH]; cbn [wire_size]; [lia|]. pose proof (zlen_nonneg _ (v_tag v)). pose proof (zlen_nonneg _ (v_data v)). lia. Qed.
Lemma images_len vs o : images vs o -> zlen o = wire_size vs.
Proof. induction 1 as [|v vs t d o HA HP HI IH]; [reflexivity|]. rewrite zlen_app, (image_len _ _ _ HP), IH. reflexivity. Qed.
Lemma image_bytes v t d : array_value v -> packed v t d -> bytes (image v t d).
Proof.
  intros (_ & Hf & Ht & _ & _) (_ & _ & Hd & _ & Hb & _). unfold image, head_bytes.
  repeat (apply bytes_app; split); auto using be_enc_bytes.
  apply bytes_cons; split; [exact Hb|]. apply bytes_cons; split; [exact Hf|constructor].
Qed.
Lemma images_bytes vs o : images vs o -> bytes o.
Proof. induction 1 as [|v vs t d o HA HP HI IH]; [constructor|]. apply bytes_app. split; [eapply image_bytes; eassumption|exact IH]. Qed.

Lemma packed_length_ok vs : forall sum, 0 <= sum -> sum + wire_size vs < 2^64 ->
  Forall (fun v => zlen (v_tag v) + zlen (v_data v) < 2^32) vs -> packed_length vs sum = ROk (sum + wire_size vs).
Proof.
  induction vs as [|v vs IH]; intros sum H0 H1 HF; cbn [packed_length wire_size]; [f_equal; lia|].
  apply Forall_cons_iff in HF as (Hv & HF). cbn [wire_size] in H1. pose proof (wire_nonneg vs).
  pose proof (zlen_nonneg _ (v_tag v)). pose proof (zlen_nonneg _ (v_data v)). unfold u32. rewrite Z.mod_small by lia.
  unfold VALUE_HEAD, u64. rewrite (Z.mod_small (_ + _ + 14)) by lia. rewrite Z.mod_small by lia.
  replace (_ || _) with false by lia. rewrite IH by (auto; lia). f_equal. lia.
Qed.

Lemma wire_small vs : forall n, 30 + n + wire_size vs < 2^32 -> 0 <= n -> Forall (fun v => zlen (v_tag v) + zlen (v_data v) < 2^32) vs.
Proof.
  induction vs as [|v vs IH]; intros n H Hn; [constructor|]. cbn [wire_size] in H. pose proof (wire_nonneg vs).
  pose proof (zlen_nonneg _ (v_tag v)). pose proof (zlen_nonneg _ (v_data v)). constructor; [lia|]. apply (IH n); lia.
Qed.

Lemma pack_values_ok vs o : images vs o -> forall room, zlen o <= room -> pack_values vs room = ROk o.
Proof.
  induction 1 as [|v vs t d o HA HP HI IH]; intros room Hr; [reflexivity|]. cbn [pack_values].
  rewrite zlen_app in Hr. pose proof (image_len _ _ _ HP) as HL. pose proof (zlen_nonneg _ o). pose proof (zlen_nonneg _ (v_data v)).
  unfold VALUE_HEAD. replace (room <? 14 + zlen (v_tag v)) with false by lia. rewrite (pack_value_image _ _ _ HP).
  replace (room <? zlen (image v t d)) with false by lia. rewrite IH by lia. reflexivity.
Qed.

(** ** Reading *)
Section Loop.
  Context {S : Type}.
  Variable cb : S -> raw -> res (S * Z).

  (** One turn of the loop on a well formed value. *)
  Lemma step_ok v t d pre post fuel s : array_value v -> packed v t d ->
    zlen pre + zlen (image v t d) < 2^32 ->
    let mem := pre ++ image v t d ++ post in
    iterate_loop cb mem (zlen mem) (Datatypes.S fuel) (zlen pre) s =
    rbind (cb s (mk_raw (zlen pre + 14) t (v_flags v) (zlen (v_tag v)) (zlen d) (v_elements v))) (fun sc =>
    let '(s', code) := sc in
    if negb (code =? 0) then ROk (s', if code =? ITERATE_STOP then 0 else code)
    else iterate_loop cb mem (zlen mem) fuel (zlen pre + zlen (image v t d)) s').
  Proof.
    intros HA HP Hsz mem. pose proof (image_len _ _ _ HP) as HL. destruct HA as (HPk & Hf & Ht & HtL & He). destruct HP as (_ & Ed & _ & Hu & Hb & _).
    pose proof (zlen_nonneg _ (v_tag v)). pose proof (zlen_nonneg _ (v_data v)). pose proof (zlen_nonneg _ pre). pose proof (zlen_nonneg _ post).
    assert (HM : zlen mem = zlen pre + zlen (image v t d) + zlen post) by (unfold mem; rewrite !zlen_app; lia).
    cbn [iterate_loop]. replace (zlen pre <? zlen mem) with true by lia. cbv zeta. unfold VALUE_HEAD.
    replace (zlen mem <? zlen pre + 14) with false by lia.
    assert (Emem : mem = pre ++ [t] ++ [v_flags v] ++ be_enc 4 (zlen (v_tag v)) ++ be_enc 4 (zlen d) ++ be_enc 4 (v_elements v) ++ (v_tag v ++ d ++ post)).
    { unfold mem, image, head_bytes. rewrite <- !app_assoc. reflexivity. }
    assert (F1 : be_field mem (zlen pre) 1 = t).
    { rewrite Emem. unfold be_field. erewrite sub_skip; [ | reflexivity | lia ]. rewrite sub_here by (reflexivity || lia). cbn. unfold byte in Hb. lia. }
    assert (F2 : be_field mem (zlen pre + 1) 1 = v_flags v).
    { rewrite Emem. unfold be_field. erewrite sub_skip; [ | reflexivity | lia ]. rewrite (sub_skip [t] _ _ _ 1) by (reflexivity || lia).
      rewrite sub_here by (reflexivity || lia). cbn. unfold byte in Hf. lia. }
    assert (F3 : be_field mem (zlen pre + 2) 4 = zlen (v_tag v)).
    { rewrite Emem. unfold be_field. erewrite sub_skip; [ | reflexivity | lia ]. rewrite (sub_skip [t] _ _ _ 1) by (reflexivity || lia).
      rewrite (sub_skip [v_flags v] _ _ _ 1) by (reflexivity || lia). rewrite sub_here by (rewrite ?be_enc_len; lia).
      apply be_dec_enc. change (256 ^ Z.of_nat 4) with (2^32). lia. }
    assert (F4 : be_field mem (zlen pre + 6) 4 = zlen d).
    { rewrite Emem. unfold be_field. erewrite sub_skip; [ | reflexivity | lia ]. rewrite (sub_skip [t] _ _ _ 1) by (reflexivity || lia).
      rewrite (sub_skip [v_flags v] _ _ _ 1) by (reflexivity || lia). rewrite (sub_skip (be_enc 4 _) _ _ _ 4) by (rewrite ?be_enc_len; lia).
      rewrite sub_here by (rewrite ?be_enc_len; lia).
      apply be_dec_enc. change (256 ^ Z.of_nat 4) with (2^32). lia. }
    assert (F5 : be_field mem (zlen pre + 10) 4 = v_elements v).
    { rewrite Emem. unfold be_field. erewrite sub_skip; [ | reflexivity | lia ]. rewrite (sub_skip [t] _ _ _ 1) by (reflexivity || lia).
      rewrite (sub_skip [v_flags v] _ _ _ 1) by (reflexivity || lia). rewrite (sub_skip (be_enc 4 _) _ _ _ 4) by (rewrite ?be_enc_len; lia).
      rewrite (sub_skip (be_enc 4 _) _ _ _ 4) by (rewrite ?be_enc_len; lia).
      rewrite sub_here by (rewrite ?be_enc_len; lia).
      apply be_dec_enc. change (256 ^ Z.of_nat 4) with (2^32). lia. }
    rewrite F1, F2, F3, F4, F5. replace (zlen mem <? _) with false by lia. rewrite Hu. cbn [negb].
    replace (zlen pre + 14 + u32 (zlen (v_tag v) + zlen d)) with (zlen pre + zlen (image v t d)); [reflexivity|].
    rewrite HL, Ed. unfold u32. rewrite Z.mod_small by lia. lia.
  Qed.

  Variable g : S -> value -> S * Z.
  Fixpoint run (vs : list value) (s : S) : S * Z :=
    match vs with
    | [] => (s, 0)
    | v :: r => let '(s', c) := g s v in if c =? 0 then run r s' else (s', if c =? ITERATE_STOP then 0 else c)
    end.
  Lemma loop_run vs o : images vs o -> forall pre fuel s, zlen (pre ++ o) < 2^32 -> (length vs < fuel)%nat ->
    (forall s v t d p q, In v vs -> packed v t d -> pre ++ o = p ++ image v t d ++ q ->
       cb s (mk_raw (zlen p + 14) t (v_flags v) (zlen (v_tag v)) (zlen d) (v_elements v)) = ROk (g s v)) ->
    iterate_loop cb (pre ++ o) (zlen (pre ++ o)) fuel (zlen pre) s = ROk (run vs s).
  Proof.
    induction 1 as [|v vs t d o HA HP HI IH]; intros pre fuel s Hsz Hfuel Hcb.
    - destruct fuel; [cbn in Hfuel; lia|]. cbn [iterate_loop]. rewrite app_nil_r, Z.ltb_irrefl. reflexivity.
    - destruct fuel; [cbn in Hfuel; lia|]. rewrite !zlen_app in Hsz. pose proof (zlen_nonneg _ o).
      rewrite (step_ok v t d pre o fuel s HA HP) by lia. rewrite (Hcb s v t d pre o (or_introl eq_refl) HP eq_refl).
      cbn [rbind run]. destruct (g s v) as [s' c]. destruct (Z.eqb_spec c 0) as [->|Hc]; cbn [negb]; [|reflexivity].
      replace (pre ++ image v t d ++ o) with ((pre ++ image v t d) ++ o) by (rewrite <- app_assoc; reflexivity).
      rewrite <- zlen_app. apply IH.
      + rewrite !zlen_app. lia.
      + cbn in Hfuel. lia.
      + intros s0 v0 t0 d0 p q Hin HP0 E. apply (Hcb s0 v0 t0 d0 p q (or_intror Hin) HP0). rewrite <- E, <- app_assoc. reflexivity.
  Qed.
End Loop.

Lemma raw_parts v t d p q : packed v t d ->
  let r := mk_raw (zlen p + 14) t (v_flags v) (zlen (v_tag v)) (zlen d) (v_elements v) in
  let mem := p ++ image v t d ++ q in
  raw_tag mem r = v_tag v /\ raw_data mem r = d /\ r_pos r + r_tag_length r + r_total_length r <= zlen mem.
Proof.
  intros HP r mem. unfold raw_tag, raw_data, r. cbn [r_pos r_tag_length r_total_length].
  assert (E : mem = (p ++ head_bytes t (v_flags v) (zlen (v_tag v)) (zlen d) (v_elements v)) ++ v_tag v ++ d ++ q).
  { unfold mem, image. rewrite <- !app_assoc. reflexivity. }
  assert (EL : zlen (p ++ head_bytes t (v_flags v) (zlen (v_tag v)) (zlen d) (v_elements v)) = zlen p + 14) by (rewrite zlen_app, head_len; lia).
  rewrite E. split; [|split].
  - rewrite (sub_skip _ _ _ _ (zlen p + 14)) by (auto; lia). apply sub_here; [lia|reflexivity].
  - pose proof (zlen_nonneg _ (v_tag v)). rewrite (sub_skip _ _ _ _ (zlen p + 14)) by (auto; lia). rewrite (sub_skip _ _ _ _ (zlen (v_tag v))) by (auto; lia).
    apply sub_here; [lia|reflexivity].
  - rewrite !zlen_app in *. pose proof (zlen_nonneg _ q). lia.
Qed.
Lemma unpack_raw_ok after v t d p q : packed v t d ->
  unpack_raw after (p ++ image v t d ++ q) (mk_raw (zlen p + 14) t (v_flags v) (zlen (v_tag v)) (zlen d) (v_elements v)) = ROk v.
Proof.
  intros HP. destruct (raw_parts v t d p q HP) as (E1 & E2 & E3). cbv zeta in *. unfold unpack_raw. rewrite E1, E2.
  replace (_ <? _) with false by lia. cbn [r_type r_flags r_elements]. apply HP.
Qed.

(** ** The message made from an array *)
Definition array_msg (time : Z) (topic o : list Z) : rrr_msg_msg :=
  mk_mm (mk_msg 0 (30 + zlen topic + zlen o) T_MESSAGE 0 0) time (set_class (set_type 0 1) 11) 7 (zlen topic) (topic ++ o).

Lemma new_message_ok vs time topic : Forall array_value vs -> 30 + zlen topic + wire_size vs < 2^32 ->
  exists o, images vs o /\ new_message_from_array vs time topic = ROk (array_msg time topic o).
Proof.
  intros HF Hsz. destruct (images_exist vs HF) as (o & HI). exists o. split; [exact HI|].
  pose proof (zlen_nonneg _ topic). pose proof (wire_nonneg vs). pose proof (images_len _ _ HI) as HL.
  unfold new_message_from_array. rewrite (packed_length_ok vs 0); [|lia|lia|eapply wire_small; [exact Hsz|lia]].
  replace (0 + wire_size vs) with (wire_size vs) by lia. replace (2^32 - 1 <? wire_size vs) with false by lia.
  unfold msg_msg_new_empty, MSG_MSG_MIN. cbv zeta. replace (2^32 - 1 <? _) with false by lia.
  rewrite (pack_values_ok vs o HI) by lia. cbn [rbind]. rewrite HL, Z.eqb_refl. cbn [negb]. unfold array_msg. rewrite HL. reflexivity.
Qed.

Lemma array_msg_iterate {S} (cb : S -> raw -> res (S * Z)) g vs time topic o s : images vs o -> 30 + zlen topic + zlen o < 2^32 ->
  (forall s v t d p q, In v vs -> packed v t d -> topic ++ o = p ++ image v t d ++ q ->
       cb s (mk_raw (zlen p + 14) t (v_flags v) (zlen (v_tag v)) (zlen d) (v_elements v)) = ROk (g s v)) ->
  message_iterate cb (array_msg time topic o) s = ROk (run g vs s).
Proof.
  intros HI Hsz Hcb. pose proof (zlen_nonneg _ topic). pose proof (zlen_nonneg _ o). unfold message_iterate, array_msg, MSG_CLASS, MSG_DATA_LENGTH, MSG_MSG_MIN.
  cbn [mm_head mm_type_and_class mm_version mm_topic_length mm_data msg_size].
  change (_ =? CLASS_ARRAY) with true. change (7 =? ARRAY_VERSION) with true. cbn [negb].
  assert (E : zlen topic + u32 (u32 (30 + zlen topic + zlen o - 30) - zlen topic) = zlen (topic ++ o)).
  { unfold u32. rewrite (Z.mod_small (_ - 30)) by lia. rewrite Z.mod_small by lia. rewrite zlen_app. lia. }
  rewrite E. apply loop_run; auto.
  - rewrite zlen_app. lia.
  - assert (length vs <= length o)%nat; [|rewrite app_length; lia].
    clear - HI. induction HI as [|v vs t d o HA HP HI IH]; [cbn; lia|]. pose proof (image_len _ _ _ HP). rewrite app_length. cbn [length].
    pose proof (zlen_nonneg _ (v_tag v)). pose proof (zlen_nonneg _ (v_data v)). unfold zlen in *. lia.
Qed.

Lemma run_append vs : forall s, run (fun s v => (s ++ [v], 0)) vs s = (s ++ vs, 0).
Proof.
  induction vs as [|v vs IH]; intros s; cbn [run]; [rewrite app_nil_r; reflexivity|]. change (0 =? 0) with true. cbv iota.
  rewrite IH, <- app_assoc. reflexivity.
Qed.
Lemma append_ok after vs time topic o target : images vs o -> 30 + zlen topic + zlen o < 2^32 ->
  append_to_array after (array_msg time topic o) target = ROk (target ++ vs, 0).
Proof.
  intros HI Hsz. unfold append_to_array. rewrite (array_msg_iterate _ (fun s v => (s ++ [v], 0)) vs); auto.
  - rewrite run_append. reflexivity.
  - intros s v t d p q Hin HP E. unfold append_callback. change (mm_data (array_msg time topic o)) with (topic ++ o). rewrite E, (unpack_raw_ok _ _ _ _ _ _ HP). reflexivity.
Qed.

(** ** Tags *)
Lemma is_tag_iff v tag : is_tag v tag = true <-> tagged tag v.
Proof. unfold is_tag, tagged. destruct (list_eq_dec _ _ _); split; auto; discriminate. Qed.
Lemma is_tag_false v tag : is_tag v tag = false <-> ~ tagged tag v.
Proof. rewrite <- is_tag_iff. destruct (is_tag v tag); split; congruence. Qed.
Lemma get_by_tag_some vs tag v : get_by_tag vs tag = Some v <-> first_tagged vs tag v.
Proof.
  split.
  - induction vs as [|w vs IH]; cbn [get_by_tag]; [discriminate|]. destruct (is_tag w tag) eqn:E.
    + intros [= <-]. exists [], vs. split; [reflexivity|]. split; [apply is_tag_iff; exact E|constructor].
    + intros H. destruct (IH H) as (b & a & -> & Ht & HF). exists (w :: b), a. split; [reflexivity|]. split; [exact Ht|].
      constructor; [apply is_tag_false; exact E|exact HF].
  - intros (b & a & -> & Ht & HF). induction HF as [|w b Hw HF IH]; cbn [app get_by_tag].
    + apply is_tag_iff in Ht. rewrite Ht. reflexivity.
    + apply is_tag_false in Hw. rewrite Hw. exact IH.
Qed.
Lemma get_by_tag_none vs tag : get_by_tag vs tag = None <-> Forall (fun w => ~ tagged tag w) vs.
Proof.
  induction vs as [|w vs IH]; cbn [get_by_tag]; [split; auto|]. rewrite Forall_cons_iff. destruct (is_tag w tag) eqn:E.
  - split; [discriminate|]. intros (H & _). apply is_tag_iff in E. contradiction.
  - apply is_tag_false in E. rewrite IH. tauto.
Qed.
Lemma get_by_tag_app vs v tag : get_by_tag (vs ++ [v]) tag = match get_by_tag vs tag with Some w => Some w | None => if is_tag v tag then Some v else None end.
Proof. induction vs as [|w vs IH]; cbn [app get_by_tag]; [reflexivity|]. destruct (is_tag w tag); auto. Qed.

Lemma c_string_no0 l : ~ In 0 (c_string l).
Proof. induction l as [|c l IH]; cbn [c_string]; [auto|]. destruct (Z.eqb_spec c 0) as [->|Hc]; cbn; [auto|]. intros [H|H]; auto. Qed.
Lemma c_string_id l : ~ In 0 l -> c_string l = l.
Proof.
  induction l as [|c l IH]; cbn [c_string]; intros H; [reflexivity|]. destruct (Z.eqb_spec c 0) as [->|Hc]; [cbn in H; tauto|].
  rewrite IH; [reflexivity|]. cbn in H. tauto.
Qed.

(** ** Indexes *)
Lemma get_by_index_ok vs : forall i idx, 0 <= i -> get_by_index_loop vs i idx = if i <=? idx then nth_error vs (Z.to_nat (idx - i)) else None.
Proof.
  induction vs as [|v vs IH]; intros i idx Hi; cbn [get_by_index_loop].
  - destruct (i <=? idx); [destruct (Z.to_nat (idx - i)); reflexivity|reflexivity].
  - destruct (Z.eqb_spec i idx) as [->|Hne].
    + rewrite Z.leb_refl, Z.sub_diag. reflexivity.
    + rewrite IH by lia. destruct (Z.leb_spec i idx); destruct (Z.leb_spec (i + 1) idx); try lia; [|reflexivity].
      replace (Z.to_nat (idx - i)) with (Datatypes.S (Z.to_nat (idx - (i + 1)))) by lia. reflexivity.
Qed.

(** ** Removing and moving values *)
Lemma strip_type_ok vs t : strip_type vs t = filter (fun v => negb (v_type v =? t)) vs.
Proof. induction vs as [|v vs IH]; cbn [strip_type filter]; [reflexivity|]. destruct (v_type v =? t); cbn [negb]; congruence. Qed.
Lemma clear_by_tag_ok vs tag : forall n, clear_by_tag vs tag n =
  (filter (fun v => negb (is_tag v tag)) vs, n + zlen (filter (fun v => is_tag v tag) vs)).
Proof.
  induction vs as [|v vs IH]; intros n; cbn [clear_by_tag filter]; [rewrite zlen_nil; f_equal; lia|].
  destruct (is_tag v tag); cbn [negb]; rewrite IH; [|reflexivity]. rewrite zlen_cons. f_equal. lia.
Qed.
Lemma trim_loop_ok r target : 0 <= target <= zlen r -> trim_loop r target = skipn (Z.to_nat (zlen r - target)) r.
Proof.
  induction r as [|v r IH]; intros H; cbn [trim_loop].
  - rewrite zlen_nil in *. destruct (Z.to_nat _); reflexivity.
  - rewrite zlen_cons in *. destruct (Z.ltb_spec target (1 + zlen r)).
    + rewrite IH by lia. replace (Z.to_nat (1 + zlen r - target)) with (Datatypes.S (Z.to_nat (zlen r - target))) by lia. reflexivity.
    + replace (1 + zlen r - target) with 0 by lia. reflexivity.
Qed.
Lemma trim_ok vs target : 0 <= target <= zlen vs -> trim vs target = ROk (firstn (Z.to_nat target) vs).
Proof.
  intros H. unfold trim. replace (_ || _) with false by lia. rewrite trim_loop_ok by (rewrite zlen_rev; lia).
  f_equal. rewrite zlen_rev. rewrite <- (rev_involutive vs) at 3. rewrite firstn_rev. f_equal. f_equal.
  rewrite rev_length. unfold zlen in *. lia.
Qed.
Lemma rotate_fr vs : rotate_forward (rotate_reverse vs) = vs.
Proof. destruct vs as [|v r]; [reflexivity|]. unfold rotate_forward, rotate_reverse. rewrite rev_app_distr. cbn. rewrite rev_involutive. reflexivity. Qed.
Lemma rotate_rf vs : rotate_reverse (rotate_forward vs) = vs.
Proof.
  unfold rotate_forward. destruct (rev vs) as [|v r] eqn:E.
  - rewrite <- (rev_involutive vs), E. reflexivity.
  - cbn. rewrite <- (rev_involutive vs), E. reflexivity.
Qed.

(** ** Numbers *)
Lemma le_host n x : le_enc n x = rev (be_enc n x). Proof. reflexivity. Qed.

Lemma push_64_ok vs tag x flags : 0 <= x < 2^64 ->
  push_value_64 vs tag x flags = ROk (vs ++ [mk_value TYPE_H flags (c_string tag) 8 1 (le_enc 8 x)]).
Proof.
  intros Hx. unfold push_value_64, do_import. cbn [v_type]. change (TYPE_H =? TYPE_BE) with false. change (TYPE_H =? TYPE_H) with true. cbv iota.
  unfold import_host, import_le, import_int. cbn [v_import_length v_elements v_flags].
  assert (HL : zlen (le_enc 8 x) = 8) by (rewrite le_enc_len; reflexivity).
  rewrite HL. change (8 <? 8) with false. change (u32 (1 * 8)) with 8. change (8 <? 8) with false. cbv zeta iota. change (8 <? 1 * 8) with false. cbn [orb].
  change (Z.to_nat 1) with 1%nat. change (Z.to_nat 8) with 8%nat. cbn [import_int_loop].
  assert (HL' : length (le_enc 8 x) = 8%nat) by (unfold zlen in HL; lia).
  rewrite firstn_all2 by lia. unfold expand_le at 1.
  assert (HD : le_dec (le_enc 8 x) = x) by (apply le_dec_enc; change (256 ^ Z.of_nat 8) with (2^64); lia).
  destruct (rev (le_enc 8 x)) as [|c r] eqn:ER.
  - exfalso. apply (f_equal (@length Z)) in ER. rewrite rev_length, HL' in ER. discriminate.
  - cbv zeta. rewrite HL', Nat.sub_diag. cbn [repeat]. rewrite app_nil_r, HD. cbn [rbind]. rewrite app_nil_r. reflexivity.
Qed.

Lemma get_64_first vs tag v d x rest sgn : get_by_tag vs tag = Some v -> 1 <= v_elements v -> v_data v = d -> d = le_enc 8 x ++ rest -> 0 <= x < 2^64 ->
  get_value_64 vs tag 0 sgn =
  (if sgn then if negb (is_signed (v_flags v)) && (2^63 - 1 <? x) then RErr 1 else ROk (as_signed x)
   else if is_signed (v_flags v) && (as_signed x <? 0) then RErr 1 else ROk x).
Proof.
  intros H He Ed -> Hx. unfold get_value_64. rewrite H, Ed. replace (v_elements v <=? 0) with false by lia.
  rewrite zlen_app, le_enc_len. pose proof (zlen_nonneg _ rest). replace (_ <? _) with false by lia.
  change (64 * 0) with 0. rewrite sub_here by (rewrite ?le_enc_len; lia).
  rewrite le_dec_enc by (change (256 ^ Z.of_nat 8) with (2^64); lia). reflexivity.
Qed.

(** ** Splitting *)
Lemma chunks_ok size : forall n d, length d = (n * size)%nat ->
  concat (chunks n size d) = d /\ length (chunks n size d) = n /\ Forall (fun c => length c = size) (chunks n size d).
Proof.
  induction n as [|n IH]; intros d H; cbn [chunks concat].
  - destruct d; [auto|discriminate].
  - cbn in H. destruct (IH (skipn size d)) as (E1 & E2 & E3); [rewrite skipn_length; lia|].
    rewrite E1, firstn_skipn. split; [reflexivity|]. split; [cbn; lia|]. constructor; [rewrite firstn_length; lia|exact E3].
Qed.
Lemma concat_repeat_nil {A} n : concat (repeat (@nil A) n) = [].
Proof. induction n; auto. Qed.

Lemma split_value_ok v : zlen (v_data v) < 2^32 -> 1 <= v_elements v ->
  (zlen (v_data v) mod v_elements v = 0 -> exists l, split_value v = ROk l /\ split_of v l) /\
  (zlen (v_data v) mod v_elements v <> 0 -> split_value v = RErr 1).
Proof.
  intros HL He. pose proof (zlen_nonneg _ (v_data v)) as Hn.
  assert (HD : v_elements v * (zlen (v_data v) / v_elements v) + zlen (v_data v) mod v_elements v = zlen (v_data v))
    by (rewrite <- Z.div_mod by lia; reflexivity).
  assert (HQ : 0 <= zlen (v_data v) / v_elements v) by (apply Z.div_pos; lia).
  assert (HB : 0 <= zlen (v_data v) mod v_elements v < v_elements v) by (apply Z.mod_pos_bound; lia).
  unfold split_value. cbv zeta. set (q := zlen (v_data v) / v_elements v) in *. set (m := zlen (v_data v) mod v_elements v) in *.
  destruct (Z.eqb_spec (zlen (v_data v)) 0) as [E0|E0].
  - assert (m = 0) by (clear - HD HQ HB E0 He; nia). split; [intros _|intros; contradiction]. eexists. split; [reflexivity|].
    unfold split_of. rewrite map_map. cbn [v_data]. rewrite map_id, concat_repeat_nil, (zlen_0 _ _ E0).
    split; [|split; [reflexivity|]].
    + unfold zlen. rewrite map_length, repeat_length. lia.
    + rewrite Forall_map. apply Forall_forall. intros d Hd. apply repeat_spec in Hd. subst d. cbn. repeat split; reflexivity.
  - replace (v_elements v =? 0) with false by lia.
    assert (Eu : u32 (q * v_elements v) = q * v_elements v) by (unfold u32; apply Z.mod_small; clear - HD HQ HB HL He; nia).
    rewrite Eu. split; intros Hm.
    + replace (q * v_elements v =? zlen (v_data v)) with true by (clear - HD Hm; symmetry; apply Z.eqb_eq; lia). cbn [negb].
      eexists. split; [reflexivity|].
      assert (HLn : length (v_data v) = (Z.to_nat (v_elements v) * Z.to_nat q)%nat).
      { clear - HD Hm HQ He. unfold zlen in HD. rewrite <- Z2Nat.inj_mul by lia. lia. }
      destruct (chunks_ok (Z.to_nat q) (Z.to_nat (v_elements v)) (v_data v) HLn) as (E1 & E2 & E3).
      unfold split_of. rewrite map_map. cbn [v_data]. rewrite map_id. split; [|split; [exact E1|]].
      * unfold zlen. rewrite map_length, E2. lia.
      * rewrite Forall_map. eapply Forall_impl; [|exact E3]. cbn. intros c Hc. repeat split; try reflexivity. unfold zlen at 1. rewrite Hc. clear - HD Hm HQ. lia.
    + replace (q * v_elements v =? zlen (v_data v)) with false; [reflexivity|]. symmetry. apply Z.eqb_neq. clear - HD Hm. lia.
Qed.

(** ** Iteration stays inside the message *)
Lemma field_nonneg mem pos n : bytes mem -> 0 <= be_field mem pos n.
Proof. intros H. unfold be_field. apply be_dec_bound, sub_bytes, H. Qed.
Lemma field_4 mem pos : bytes mem -> be_field mem pos 4 < 2^32.
Proof.
  intros H. unfold be_field. pose proof (be_dec_bound _ (sub_bytes mem pos 4 H)) as (_ & HB).
  eapply Z.lt_le_trans; [exact HB|]. change (2^32) with (256^4). apply Z.pow_le_mono_r; [lia|].
  unfold sub_mem, zlen. rewrite firstn_length. change (Z.to_nat 4) with 4%nat. lia.
Qed.

Lemma loop_visit decide mem : bytes mem -> zlen mem < 2^32 -> forall fuel pos seen, 0 <= pos <= zlen mem -> zlen mem - pos < Z.of_nat fuel ->
  exists rs code, iterate_loop (visit decide) mem (zlen mem) fuel pos seen = ROk (seen ++ rs, code) /\ regions pos (zlen mem) rs /\
    Forall (fun r => has_unpack (r_type r) = true) rs /\ 14 * zlen rs <= zlen mem - pos.
Proof.
  intros HB HM. induction fuel as [|fuel IH]; intros pos seen Hp Hf; [lia|]. cbn [iterate_loop]. cbv zeta. unfold VALUE_HEAD.
  destruct (Z.ltb_spec pos (zlen mem)) as [H1|H1].
  2:{ exists [], 0. rewrite app_nil_r, zlen_nil. cbn [regions]. repeat split; try lia. constructor. }
  destruct (Z.ltb_spec (zlen mem) (pos + 14)) as [H2|H2].
  { exists [], 1. rewrite app_nil_r, zlen_nil. cbn [regions]. repeat split; try lia. constructor. }
  set (tl := be_field mem (pos + 2) 4) in *. set (dl := be_field mem (pos + 6) 4) in *.
  assert (Ht : 0 <= tl) by (apply field_nonneg; exact HB). assert (Hd : 0 <= dl) by (apply field_nonneg; exact HB).
  destruct (Z.ltb_spec (zlen mem) (pos + 14 + tl + dl)) as [H3|H3].
  { exists [], 1. rewrite app_nil_r, zlen_nil. cbn [regions]. repeat split; try lia. constructor. }
  destruct (has_unpack _) eqn:HU; cbn [negb].
  2:{ exists [], 1. rewrite app_nil_r, zlen_nil. cbn [regions]. repeat split; try lia. constructor. }
  unfold visit at 1. cbn [rbind]. set (r := mk_raw _ _ _ _ _ _).
  destruct (Z.eqb_spec (decide seen r) 0) as [E|E]; cbn [negb].
  - assert (EU : u32 (tl + dl) = tl + dl) by (unfold u32; apply Z.mod_small; lia). rewrite EU.
    destruct (IH (pos + 14 + (tl + dl)) (seen ++ [r])) as (rs & code & E1 & E2 & E3 & E4); [lia|lia|].
    exists (r :: rs), code. rewrite E1, <- app_assoc. split; [reflexivity|]. rewrite zlen_cons. split; [|split; [|lia]].
    + cbn [regions]. unfold r. cbn [r_pos r_tag_length r_total_length].
      replace (pos + 14 + tl + dl) with (pos + 14 + (tl + dl)) by lia. split; [reflexivity|]. repeat split; try lia. exact E2.
    + constructor; [exact HU|exact E3].
  - exists [r], (if decide seen r =? ITERATE_STOP then 0 else decide seen r). split; [reflexivity|]. rewrite zlen_cons, zlen_nil. split; [|split; [|lia]].
    + cbn [regions]. unfold r. cbn [r_pos r_tag_length r_total_length]. repeat split; lia.
    + constructor; [exact HU|constructor].
Qed.

Lemma whole_end m : whole_array_message m -> mm_topic_length m + MSG_DATA_LENGTH m = zlen (mm_data m).
Proof.
  intros (_ & _ & Hs & HL & Ht). unfold MSG_DATA_LENGTH, MSG_MSG_MIN. rewrite Hs. unfold u32.
  rewrite (Z.mod_small (_ - 30)) by lia. rewrite Z.mod_small by lia. lia.
Qed.

Definition inside (mem : list Z) (r : raw) : Prop :=
  0 <= r_pos r /\ 0 <= r_tag_length r /\ 0 <= r_total_length r /\ r_pos r + r_tag_length r + r_total_length r <= zlen mem.
(** Whatever the callback, the loop is undefined only if the callback is, and it
    stops normally if the callback does so on everything there is to see. *)
Lemma loop_no_ub {S} (cb : S -> raw -> res (S * Z)) mem : bytes mem -> zlen mem < 2^32 ->
  (forall s r, inside mem r -> cb s r <> RUb) ->
  forall fuel pos s, 0 <= pos <= zlen mem -> iterate_loop cb mem (zlen mem) fuel pos s <> RUb.
Proof.
  intros HB HM Hcb. induction fuel as [|fuel IH]; intros pos s Hp; [discriminate|]. cbn [iterate_loop]. cbv zeta. unfold VALUE_HEAD.
  destruct (Z.ltb_spec pos (zlen mem)) as [H1|H1]; [|discriminate].
  destruct (Z.ltb_spec (zlen mem) (pos + 14)) as [H2|H2]; [discriminate|].
  set (tl := be_field mem (pos + 2) 4) in *. set (dl := be_field mem (pos + 6) 4) in *.
  assert (Ht : 0 <= tl) by (apply field_nonneg; exact HB). assert (Hd : 0 <= dl) by (apply field_nonneg; exact HB).
  destruct (Z.ltb_spec (zlen mem) (pos + 14 + tl + dl)) as [H3|H3]; [discriminate|].
  destruct (has_unpack _) eqn:HU; cbn [negb]; [|discriminate].
  set (r := mk_raw _ _ _ _ _ _). assert (HI : inside mem r) by (unfold inside, r; cbn [r_pos r_tag_length r_total_length]; lia).
  pose proof (Hcb s r HI) as HC. destruct (cb s r) as [[s' c]|e| |]; cbn [rbind]; try discriminate; [|contradiction].
  destruct (c =? 0); cbn [negb]; [|discriminate].
  assert (EU : u32 (tl + dl) = tl + dl) by (unfold u32; apply Z.mod_small; lia). rewrite EU. apply IH; lia.
Qed.
Lemma loop_total {S} (cb : S -> raw -> res (S * Z)) mem : bytes mem -> zlen mem < 2^32 ->
  forall fuel pos s seen rs code, 0 <= pos <= zlen mem -> zlen mem - pos < Z.of_nat fuel ->
  iterate_loop (visit (fun _ _ => 0)) mem (zlen mem) fuel pos seen = ROk (seen ++ rs, code) ->
  (forall s r, In r rs -> inside mem r -> exists s' c, cb s r = ROk (s', c)) ->
  exists s' c, iterate_loop cb mem (zlen mem) fuel pos s = ROk (s', c).
Proof.
  intros HB HM. induction fuel as [|fuel IH]; intros pos s seen rs code Hp Hf HV Hcb; [lia|]. cbn [iterate_loop] in *. cbv zeta in *. unfold VALUE_HEAD in *.
  destruct (Z.ltb_spec pos (zlen mem)) as [H1|H1]; [|eauto].
  destruct (Z.ltb_spec (zlen mem) (pos + 14)) as [H2|H2]; [eauto|].
  set (tl := be_field mem (pos + 2) 4) in *. set (dl := be_field mem (pos + 6) 4) in *.
  assert (Ht : 0 <= tl) by (apply field_nonneg; exact HB). assert (Hd : 0 <= dl) by (apply field_nonneg; exact HB).
  destruct (Z.ltb_spec (zlen mem) (pos + 14 + tl + dl)) as [H3|H3]; [eauto|].
  destruct (has_unpack _) eqn:HU; cbn [negb] in *; [|eauto].
  set (r := mk_raw _ _ _ _ _ _) in *. assert (HI : inside mem r) by (unfold inside, r; cbn [r_pos r_tag_length r_total_length]; lia).
  unfold visit at 1 in HV. cbn [rbind] in HV. change (0 =? 0) with true in HV. cbn [negb] in HV.
  assert (EU : u32 (tl + dl) = tl + dl) by (unfold u32; apply Z.mod_small; lia). rewrite EU in *.
  destruct (loop_visit (fun _ _ => 0) mem HB HM fuel (pos + 14 + (tl + dl)) (seen ++ [r])) as (rs' & code' & E1 & _); [lia|lia|].
  rewrite E1 in HV. assert (ER : rs = r :: rs').
  { assert (EE : (seen ++ [r]) ++ rs' = seen ++ rs) by congruence. rewrite <- app_assoc in EE. apply app_inv_head in EE. symmetry. exact EE. }
  destruct (Hcb s r) as (s' & c & E); [rewrite ER; left; reflexivity|exact HI|]. rewrite E. cbn [rbind]. destruct (c =? 0); cbn [negb]; [|eauto].
  apply (IH _ _ (seen ++ [r]) rs' code'); try lia; [exact E1|]. intros s0 r0 Hin. apply Hcb. rewrite ER. right. exact Hin.
Qed.

Lemma conv64_total d : exists r, (conv64 d = ROk r \/ conv64 d = RErr 1).
Proof. unfold conv64. destruct (_ =? 0); [eexists; left; reflexivity|exists []; right; reflexivity]. Qed.
Lemma single_no_ub d after : msg_to_host_single d after <> RUb.
Proof.
  unfold msg_to_host_single. destruct (get_target_size d); try discriminate. destruct (_ <? _); [discriminate|].
  destruct (head_to_host_and_verify _ _); try discriminate. destruct (check_data_checksum_and_length _ _ _); try discriminate.
  destruct (msg_msg_to_host_and_verify _ _ _ _); discriminate.
Qed.
Lemma unpack_loop_no_ub after fuel : forall d, msg_unpack_loop fuel d after <> RUb.
Proof.
  induction fuel as [|fuel IH]; intros d; destruct d as [|c d]; cbn [msg_unpack_loop]; try discriminate.
  pose proof (single_no_ub (c :: d) after). destruct (msg_to_host_single (c :: d) after) as [m| | |]; cbn [rbind]; try discriminate; [|contradiction].
  specialize (IH (skipn (Z.to_nat (msg_size (mm_head m))) (c :: d))). destruct (msg_unpack_loop fuel _ after) as [[? ?]| | |]; cbn [rbind]; try discriminate. contradiction.
Qed.
Lemma unpack_no_ub after t fl tag d el : value_new_and_unpack after t fl tag d el <> RUb.
Proof.
  unfold value_new_and_unpack, unpack. cbn [v_type v_data]. destruct (conv64_total d) as (r & HC).
  destruct (_ =? TYPE_BE); [destruct HC as [->| ->]; discriminate|]. destruct (_ =? TYPE_FIXP); [destruct HC as [->| ->]; discriminate|].
  destruct (_ || _); [destruct (_ =? 0); discriminate|]. destruct (_ || _); [discriminate|]. destruct (_ =? TYPE_MSG); [|discriminate].
  unfold msg_unpack. cbn [v_data]. pose proof (unpack_loop_no_ub after (length d) d). destruct (msg_unpack_loop _ d after) as [[? ?]| | |]; cbn [rbind]; try discriminate. contradiction.
Qed.
Lemma unpack_total after t fl tag d el : t <> TYPE_MSG -> exists r, value_new_and_unpack after t fl tag d el = ROk r \/ exists e, value_new_and_unpack after t fl tag d el = RErr e.
Proof.
  intros Ht. set (w := mk_value t fl tag (zlen d) el d). unfold value_new_and_unpack, unpack. cbn [v_type v_data]. destruct (conv64_total d) as (r & HC).
  destruct (_ =? TYPE_BE); [destruct HC as [->| ->]; cbn; [eauto|exists w; eauto]|]. destruct (_ =? TYPE_FIXP); [destruct HC as [->| ->]; cbn; [eauto|exists w; eauto]|].
  destruct (_ || _); [destruct (_ =? 0); [exists w; eauto|eauto]|]. destruct (_ || _); [eauto|]. destruct (Z.eqb_spec t TYPE_MSG); [contradiction|]. exists w. eauto.
Qed.

Lemma append_cb_no_ub after mem s r : inside mem r -> append_callback after mem s r <> RUb.
Proof.
  intros (H1 & H2 & H3 & H4). unfold append_callback, unpack_raw. replace (_ <? _) with false by lia.
  pose proof (unpack_no_ub after (r_type r) (r_flags r) (raw_tag mem r) (raw_data mem r) (r_elements r)).
  destruct (value_new_and_unpack _ _ _ _ _ _); try discriminate. contradiction.
Qed.
Lemma append_cb_total after mem s r : inside mem r -> r_type r <> TYPE_MSG -> exists s' c, append_callback after mem s r = ROk (s', c).
Proof.
  intros (H1 & H2 & H3 & H4) Ht. unfold append_callback, unpack_raw. replace (_ <? _) with false by lia.
  destruct (unpack_total after (r_type r) (r_flags r) (raw_tag mem r) (raw_data mem r) (r_elements r) Ht) as (v & [->|(e & ->)]); eauto.
Qed.

Lemma iterate_unfold {S} (cb : S -> raw -> res (S * Z)) m s : whole_array_message m ->
  message_iterate cb m s = if mm_version m =? ARRAY_VERSION
    then iterate_loop cb (mm_data m) (zlen (mm_data m)) (Datatypes.S (length (mm_data m))) (mm_topic_length m) s else ROk (s, 1).
Proof.
  intros HW. unfold message_iterate. rewrite (whole_end m HW). destruct HW as (HC & _). rewrite HC. change (11 =? CLASS_ARRAY) with true. cbn [negb].
  destruct (mm_version m =? ARRAY_VERSION); reflexivity.
Qed.
Lemma iterate_bounds m decide : whole_array_message m ->
  exists rs code, message_iterate (visit decide) m [] = ROk (rs, code) /\ regions (mm_topic_length m) (zlen (mm_data m)) rs /\
    Forall (fun r => has_unpack (r_type r) = true) rs /\ 14 * zlen rs <= zlen (mm_data m).
Proof.
  intros HW. rewrite (iterate_unfold _ _ _ HW). destruct HW as (HC & HB & HS & HL & HT). destruct (_ =? ARRAY_VERSION).
  - destruct (loop_visit decide (mm_data m) HB ltac:(lia) (Datatypes.S (length (mm_data m))) (mm_topic_length m) [] HT) as (rs & code & E1 & E2 & E3 & E4); [unfold zlen; lia|].
    exists rs, code. split; [exact E1|]. split; [exact E2|]. split; [exact E3|lia].
  - exists [], 1. split; [reflexivity|]. cbn [regions]. rewrite zlen_nil. repeat split; try lia. constructor.
Qed.
Lemma append_no_ub after m target : whole_array_message m -> append_to_array after m target <> RUb.
Proof.
  intros HW. unfold append_to_array. rewrite (iterate_unfold _ _ _ HW). destruct HW as (HC & HB & HS & HL & HT). destruct (_ =? ARRAY_VERSION); [|discriminate].
  pose proof (loop_no_ub (append_callback after (mm_data m)) (mm_data m) HB ltac:(lia) (fun s r => append_cb_no_ub after (mm_data m) s r) (Datatypes.S (length (mm_data m))) (mm_topic_length m) [] HT) as H.
  destruct (iterate_loop _ _ _ _ _ _) as [[? ?]| | |]; cbn [rbind]; try discriminate. contradiction.
Qed.
Lemma append_total after m target rs code : whole_array_message m ->
  message_iterate (visit (fun _ _ => 0)) m [] = ROk (rs, code) -> Forall (fun r => r_type r <> TYPE_MSG) rs ->
  exists l c, append_to_array after m target = ROk (l, c).
Proof.
  intros HW. unfold append_to_array. rewrite !(iterate_unfold _ _ _ HW). destruct HW as (HC & HB & HS & HL & HT). destruct (_ =? ARRAY_VERSION).
  - intros HV HF. destruct (loop_total (append_callback after (mm_data m)) (mm_data m) HB ltac:(lia) (Datatypes.S (length (mm_data m))) (mm_topic_length m) [] [] rs code HT) as (s' & c & E).
    + unfold zlen. lia.
    + exact HV.
    + intros s r Hin HI. apply append_cb_total; [exact HI|]. rewrite Forall_forall in HF. apply HF, Hin.
    + rewrite E. cbn [rbind]. eauto.
  - cbn [rbind]. eauto.
Qed.
Lemma append_all_or_nothing after m target l c : append_to_array after m target = ROk (l, c) ->
  (c <> 0 /\ l = target) \/ (c = 0 /\ exists new, l = target ++ new /\ forall other, append_to_array after m other = ROk (other ++ new, 0)).
Proof.
  unfold append_to_array. destruct (message_iterate _ m []) as [[tmp code]| | |]; cbn [rbind]; try discriminate.
  destruct (Z.eqb_spec code 0) as [->|Hc]; intros [= <- <-]; [right|left; auto]. split; [reflexivity|]. exists tmp. auto.
Qed.

(** ** Tags in messages *)
Lemma run_has vs tag : snd (run (fun (_ : unit) v => (tt, if list_eq_dec Z.eq_dec (v_tag v) (c_string tag) then 1 else 0)) vs tt) =
  if existsb (fun v => if list_eq_dec Z.eq_dec (v_tag v) (c_string tag) then true else false) vs then 1 else 0.
Proof.
  induction vs as [|v vs IH]; cbn [run existsb]; [reflexivity|]. destruct (list_eq_dec Z.eq_dec (v_tag v) (c_string tag)).
  - reflexivity.
  - change (0 =? 0) with true. cbv iota. exact IH.
Qed.
Lemma has_tag_msg vs time topic o tag : images vs o -> 30 + zlen topic + zlen o < 2^32 ->
  message_has_tag (array_msg time topic o) tag =
  ROk (if existsb (fun v => if list_eq_dec Z.eq_dec (v_tag v) (c_string tag) then true else false) vs then 1 else 0).
Proof.
  intros HI Hsz. unfold message_has_tag. change (MSG_IS_ARRAY (array_msg time topic o)) with true. cbn [negb].
  rewrite (array_msg_iterate _ (fun (_ : unit) v => (tt, if list_eq_dec Z.eq_dec (v_tag v) (c_string tag) then 1 else 0)) vs); auto.
  - cbn [rbind]. rewrite run_has. reflexivity.
  - intros s v t d p q Hin HP E. destruct (raw_parts v t d p q HP) as (E1 & E2 & E3). cbv zeta in *. unfold has_tag_callback.
    change (mm_data (array_msg time topic o)) with (topic ++ o). rewrite E, E1. cbn [r_tag_length r_pos r_total_length] in *.
    pose proof (zlen_nonneg _ d). replace (zlen (p ++ image v t d ++ q) <? zlen p + 14 + zlen (v_tag v)) with false by lia.
    destruct (list_eq_dec Z.eq_dec (v_tag v) (c_string tag)) as [->|Hne].
    + rewrite Z.eqb_refl. reflexivity.
    + destruct (_ =? _); reflexivity.
Qed.
Lemma run_clone vs tag : run (fun (s : option value) v => if negb (is_tag v tag) then (s, 0) else (Some v, ITERATE_STOP)) vs None = (get_by_tag vs tag, 0).
Proof.
  induction vs as [|v vs IH]; cbn [run get_by_tag]; [reflexivity|]. destruct (is_tag v tag); cbn [negb]; [reflexivity|].
  change (0 =? 0) with true. cbv iota. exact IH.
Qed.
Lemma array_msg_iterate_inv {S} (cb : S -> raw -> res (S * Z)) g (P : S -> Prop) vs time topic o s : images vs o -> 30 + zlen topic + zlen o < 2^32 -> P s ->
  (forall s v, P s -> snd (g s v) = 0 -> P (fst (g s v))) ->
  (forall s v t d p q, P s -> In v vs -> packed v t d -> topic ++ o = p ++ image v t d ++ q ->
       cb s (mk_raw (zlen p + 14) t (v_flags v) (zlen (v_tag v)) (zlen d) (v_elements v)) = ROk (g s v)) ->
  message_iterate cb (array_msg time topic o) s = ROk (run g vs s).
Proof.
  intros HI Hsz HP0 Hg Hcb. pose proof (zlen_nonneg _ topic). pose proof (zlen_nonneg _ o). unfold message_iterate, array_msg, MSG_CLASS, MSG_DATA_LENGTH, MSG_MSG_MIN.
  cbn [mm_head mm_type_and_class mm_version mm_topic_length mm_data msg_size].
  change (_ =? CLASS_ARRAY) with true. change (7 =? ARRAY_VERSION) with true. cbn [negb].
  assert (E : zlen topic + u32 (u32 (30 + zlen topic + zlen o - 30) - zlen topic) = zlen (topic ++ o)).
  { unfold u32. rewrite (Z.mod_small (_ - 30)) by lia. rewrite Z.mod_small by lia. rewrite zlen_app. lia. }
  rewrite E. assert (Hfuel : (length vs < Datatypes.S (length (topic ++ o)))%nat).
  { assert (length vs <= length o)%nat; [|rewrite app_length; lia].
    clear - HI. induction HI as [|v vs t d o HA HP HI IH]; [cbn; lia|]. pose proof (image_len _ _ _ HP). rewrite app_length. cbn [length].
    pose proof (zlen_nonneg _ (v_tag v)). pose proof (zlen_nonneg _ (v_data v)). unfold zlen in *. lia. }
  assert (Hsz' : zlen (topic ++ o) < 2^32) by (rewrite zlen_app; lia).
  generalize dependent (Datatypes.S (length (topic ++ o))). clear Hsz E H H0. revert s HP0. revert Hcb Hsz'. generalize topic as pre. clear topic.
  induction HI as [|v vs t d o HA HP HI IH]; intros pre Hcb Hsz s Hs fuel Hfuel.
  - destruct fuel; [cbn in Hfuel; lia|]. cbn [iterate_loop]. rewrite app_nil_r, Z.ltb_irrefl. reflexivity.
  - destruct fuel; [cbn in Hfuel; lia|]. rewrite !zlen_app in Hsz. pose proof (zlen_nonneg _ o).
    rewrite (step_ok cb v t d pre o fuel s HA HP) by lia. rewrite (Hcb s v t d pre o Hs (or_introl eq_refl) HP eq_refl).
    cbn [rbind run]. pose proof (Hg s v Hs) as Hgs. destruct (g s v) as [s' c]. cbn [fst snd] in Hgs. destruct (Z.eqb_spec c 0) as [->|Hc]; cbn [negb]; [|reflexivity].
    replace (pre ++ image v t d ++ o) with ((pre ++ image v t d) ++ o) by (rewrite <- app_assoc; reflexivity).
    rewrite <- zlen_app. apply IH.
    + intros s0 v0 t0 d0 p q Hs0 Hin HP0 E. apply (Hcb s0 v0 t0 d0 p q Hs0 (or_intror Hin) HP0). rewrite <- E, <- app_assoc. reflexivity.
    + rewrite !zlen_app. lia.
    + auto.
    + cbn in Hfuel. lia.
Qed.
Lemma clone_msg after vs time topic o tag : images vs o -> 30 + zlen topic + zlen o < 2^32 ->
  clone_value_by_tag after (array_msg time topic o) tag = ROk (get_by_tag vs tag, 0).
Proof.
  intros HI Hsz. unfold clone_value_by_tag. change (MSG_IS_ARRAY (array_msg time topic o)) with true. cbn [negb].
  rewrite (array_msg_iterate_inv _ (fun (s : option value) v => if negb (is_tag v tag) then (s, 0) else (Some v, ITERATE_STOP)) (fun s => s = None) vs); auto.
  - rewrite run_clone. reflexivity.
  - intros s v ->. destruct (is_tag v tag); cbn [negb fst snd]; [discriminate|reflexivity].
  - intros s v t d p q -> Hin HP E. unfold clone_by_tag_callback. change (mm_data (array_msg time topic o)) with (topic ++ o). rewrite E, (unpack_raw_ok _ _ _ _ _ _ HP).
    destruct (is_tag v tag); reflexivity.
Qed.

(** ** Export *)
Lemma export_one v : exportable v ->
  exists o, do_export v = ROk o /\ get_export_length v = ROk (zlen o) /\ zlen (v_data v) <= zlen o /\ zlen o < 2^32.
Proof.
  destruct v as [t fl tag il el d]. intros ((HB & HL & Hil & HC) & Hx & Hs & Hh). unfold do_export, get_export_length. cbn [v_type v_flags v_tag v_import_length v_elements v_data] in *.
  destruct HC as [[Hin H8]|[[Hin Hne]|[->|[[-> ->]|[-> (ms & HF & -> & ->)]]]]].
  - destruct (conv64_ok d H8) as (e & E1 & _ & E3 & _). cbn [In] in Hin. destruct Hin as [<-|[<-|[]]]; [|contradiction].
    change (TYPE_H =? TYPE_H) with true. change (TYPE_H =? TYPE_STR) with false. change (TYPE_H =? TYPE_HDLC) with false. cbv iota. exists e. rewrite E1, E3.
    split; [reflexivity|]. split; [reflexivity|lia].
  - assert (Hz : zlen d =? 0 = false). { destruct (Z.eqb_spec (zlen d) 0) as [E|]; [apply zlen_0 in E; contradiction|reflexivity]. }
    rewrite Hz. cbn [In] in Hin. destruct Hin as [<-|[<-|[<-|[<-|[<-|[]]]]]]; try (exists d; split; [reflexivity|]; split; [reflexivity|lia]).
    exists (hdlc_export d). specialize (Hh eq_refl). pose proof (HdlcProofs.count_ge d).
    assert (HN : exists n, hdlc_export_length d = Some n).
    { unfold hdlc_export_length, HDLC_MAX.
      assert (hdlc_count d <= 2 * zlen d); [|destruct (_ <? _) eqn:E; [lia|eauto]].
      clear. induction d as [|c d IH]; [reflexivity|]. rewrite zlen_cons. cbn [hdlc_count]. destruct (must_escape c); lia. }
    destruct HN as (n & EN). destruct (HdlcProofs.export_length_written d n EN) as (E1 & E2). rewrite EN, E1.
    split; [reflexivity|]. split; [reflexivity|]. unfold hdlc_export_length in EN. destruct (_ <? _); [discriminate|]. unfold HDLC_MAX in E2. injection EN as EN. lia.
  - change (TYPE_STR =? TYPE_STR) with true. exists (str_export d). split; [reflexivity|].
    assert (EL : zlen (str_export d) = zlen d + 2 + zlen (filter needs_escape d)) by (unfold str_export; rewrite !zlen_app, escape_len, !zlen_cons, zlen_nil; lia).
    pose proof (zlen_nonneg _ (filter needs_escape d)).
    assert (zlen (filter needs_escape d) <= zlen d).
    { clear. induction d as [|c d IH]; [reflexivity|]. cbn [filter]. destruct (needs_escape c); rewrite ?zlen_cons; lia. }
    unfold str_export_length. cbv zeta. replace (_ <? _) with false by lia. rewrite EL. split; [reflexivity|lia].
  - exists []. cbn. repeat split; lia.
  - destruct (msg_pack_ok ms [] HF HL) as (E1 & E2 & E3). exists (concat (map msg_msg_to_network ms)).
    change (TYPE_MSG =? TYPE_H) with false. change (TYPE_MSG =? TYPE_BLOB) with false. change (TYPE_MSG =? TYPE_SEP) with false. change (TYPE_MSG =? TYPE_NSEP) with false.
    change (TYPE_MSG =? TYPE_STX) with false. change (TYPE_MSG =? TYPE_MSG) with true. change (TYPE_MSG =? TYPE_STR) with false. change (TYPE_MSG =? TYPE_HDLC) with false. cbn [orb].
    rewrite E1, E2. split; [reflexivity|]. split; [reflexivity|lia].
Qed.
Lemma alloc_export_one v o : exportable v -> allocate_and_export v = ROk o -> do_export v = ROk o /\ get_export_length v = ROk (zlen o) /\ zlen (v_data v) <= zlen o /\ zlen o < 2^32.
Proof.
  intros HE. destruct (export_one v HE) as (o' & E1 & E2 & E3 & E4). unfold allocate_and_export. rewrite E2. cbn [rbind]. rewrite E1, Z.ltb_irrefl.
  intros [= <-]. auto.
Qed.
Lemma exports_exist vs : Forall exportable vs -> exists os, Forall2 (fun v o => allocate_and_export v = ROk o) vs os.
Proof.
  induction 1 as [|v vs H HF (os & IH)]; [exists []; constructor|]. destruct (export_one v H) as (o & E1 & E2 & E3 & E4). exists (o :: os). constructor; [|exact IH].
  unfold allocate_and_export. rewrite E2. cbn [rbind]. rewrite E1, Z.ltb_irrefl. reflexivity.
Qed.
Lemma exported_length_ok vs os : Forall exportable vs -> Forall2 (fun v o => allocate_and_export v = ROk o) vs os ->
  forall sum, 0 <= sum -> sum + zlen (concat os) < 2^64 -> exported_length vs sum = ROk (sum + zlen (concat os)).
Proof.
  intros HF H2. induction H2 as [|v o vs os Hv H2 IH]; intros sum H0 HS; cbn [exported_length concat]; [rewrite zlen_nil; f_equal; lia|].
  apply Forall_cons_iff in HF as (HE & HF). destruct (alloc_export_one v o HE Hv) as (_ & E2 & _ & _). rewrite E2. cbn [concat] in HS. rewrite zlen_app in *.
  pose proof (zlen_nonneg _ o). pose proof (zlen_nonneg _ (concat os)). unfold u64. rewrite Z.mod_small by lia. cbv zeta. replace (_ || _) with false by lia.
  rewrite IH by (auto; lia). f_equal. lia.
Qed.
Lemma export_values_ok tags vs os : Forall exportable vs -> Forall2 (fun v o => allocate_and_export v = ROk o) vs os ->
  forall room, zlen (concat os) <= room -> export_values vs tags room = ROk (concat (map snd (filter (fun p => chosen tags (fst p)) (combine vs os))), zlen (filter (chosen tags) vs)).
Proof.
  intros HF H2. induction H2 as [|v o vs os Hv H2 IH]; intros room Hr; cbn [export_values combine filter map concat]; [reflexivity|].
  apply Forall_cons_iff in HF as (HE & HF). destruct (alloc_export_one v o HE Hv) as (E1 & E2 & E3 & _). cbn [concat] in Hr. rewrite zlen_app in Hr.
  pose proof (zlen_nonneg _ o). pose proof (zlen_nonneg _ (concat os)). cbn [fst]. destruct (chosen tags v).
  - rewrite E1. replace (room <? zlen o) with false by lia. replace (zlen o <? zlen (v_data v)) with false by lia. rewrite IH by (auto; lia). cbn [rbind map concat fst snd].
    rewrite zlen_cons. f_equal. f_equal. lia.
  - apply IH; auto. lia.
Qed.

(** ** Wrong sizes *)
Lemma big_pack_ub : exists v, array_value v /\ zlen (v_data v) = 2^32 - 1 /\ zlen (v_tag v) = 1 /\
  forall time, new_message_from_array [v] time [] = RUb.
Proof.
  set (d := repeat 0 (Z.to_nat (2^32 - 1))). assert (HL : zlen d = 2^32 - 1) by (unfold d, zlen; rewrite repeat_length; lia).
  assert (HB : bytes d). { unfold d. apply Forall_forall. intros x Hx. apply repeat_spec in Hx. subst. unfold byte. lia. }
  clearbody d. exists (mk_value TYPE_STR 0 [97] (2^32 - 1) 1 d).
  split; [|split; [exact HL|split; [reflexivity|]]].
  - unfold array_value, packable. cbn [v_type v_flags v_tag v_import_length v_elements v_data]. rewrite HL.
    split; [|split; [unfold byte; lia|split; [repeat constructor; unfold byte; lia|split; [cbn; lia|lia]]]].
    split; [exact HB|]. split; [lia|]. split; [reflexivity|]. right. right. left. reflexivity.
  - intros time. unfold new_message_from_array. cbn [packed_length v_tag v_data]. rewrite HL. change (zlen [97]) with 1.
    change (u64 (u32 (1 + (2 ^ 32 - 1)) + VALUE_HEAD)) with 14. cbv zeta. change (u64 (0 + 14)) with 14. change ((14 <? 0) || (14 <? 14)) with false. cbv iota.
    change (2^32 - 1 <? 14) with false. cbv iota. unfold msg_msg_new_empty. cbv zeta. rewrite zlen_nil. change (2^32 - 1 <? MSG_MSG_MIN + 0 + 14) with false. cbv iota.
    cbn [pack_values v_tag]. reflexivity.
Qed.
