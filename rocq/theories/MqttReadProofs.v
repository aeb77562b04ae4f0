(** The parsers read what the standard writes. *)
From Coq Require Import Strings.String.
From Coq Require Import ZArith List Bool Lia.
From Verif Require Import Common Utf8Model Utf8Spec Utf8Proofs TopicModel TopicSpec TopicProofs MqttModel MqttSpec MqttGoodProofs.
Import ListNotations.
Open Scope Z_scope.
Notation len := Datatypes.length.

(** [reads]: wherever [w] stands, ending before the end of the packet, the parser gives [a]
    and stops behind it; [reads_end]: the same if [w] is the end of the packet. *)
Definition reads {A} (tgt : Z) (p : parser A) (w : list Z) (a : A) : Prop :=
  forall pre suf, zlen pre + zlen w <= tgt -> p (pre ++ w ++ suf) (zlen pre) = POk a (zlen pre + zlen w).
Definition reads_end {A} (tgt : Z) (p : parser A) (w : list Z) (a : A) : Prop :=
  forall pre suf, zlen pre + zlen w = tgt -> p (pre ++ w ++ suf) (zlen pre) = POk a tgt.
Lemma reads_reads_end : forall A tgt (p : parser A) w a, reads tgt p w a -> reads_end tgt p w a.
Proof. intros A tgt p w a H pre suf E. rewrite H by lia. rewrite E. reflexivity. Qed.

Lemma reads_bind : forall A B tgt (p : parser A) (f : A -> parser B) w1 w2 a b,
  reads tgt p w1 a -> reads tgt (f a) w2 b -> reads tgt (pbind p f) (w1 ++ w2) b.
Proof.
  intros A B tgt p f w1 w2 a b H1 H2 pre suf H. rewrite zlen_app in H. pose proof (zlen_nonneg _ w2).
  unfold pbind. rewrite <- app_assoc. rewrite H1 by lia. rewrite (app_assoc pre).
  specialize (H2 (pre ++ w1) suf). rewrite zlen_app in H2. rewrite H2 by lia. rewrite zlen_app. f_equal. lia.
Qed.
Lemma reads_end_bind : forall A B tgt (p : parser A) (f : A -> parser B) w1 w2 a b,
  reads tgt p w1 a -> reads_end tgt (f a) w2 b -> reads_end tgt (pbind p f) (w1 ++ w2) b.
Proof.
  intros A B tgt p f w1 w2 a b H1 H2 pre suf H. rewrite zlen_app in H. pose proof (zlen_nonneg _ w2).
  unfold pbind. rewrite <- app_assoc. rewrite H1 by lia. rewrite (app_assoc pre).
  specialize (H2 (pre ++ w1) suf). rewrite zlen_app in H2. rewrite H2 by lia. reflexivity.
Qed.
Lemma reads_ret : forall A tgt (a : A), reads tgt (pret a) [] a.
Proof. intros A tgt a pre suf H. unfold pret. rewrite zlen_nil. f_equal. lia. Qed.
Lemma reads_map : forall A B tgt (p : parser A) (g : A -> B) w a, reads tgt p w a -> reads tgt (pbind p (fun x => pret (g x))) w (g a).
Proof.
  intros. rewrite <- (app_nil_r w). eapply reads_bind; [eauto|]. apply reads_ret.
Qed.
Lemma reads_check : forall A tgt c (p : parser A) w a, c = true -> reads tgt p w a -> reads tgt (pcheck c p) w a.
Proof. intros A tgt c p w a -> H. exact H. Qed.

Lemma zsub_mid : forall pre w suf, zsub (pre ++ w ++ suf) (zlen pre) (zlen w) = w.
Proof.
  intros. unfold zsub, zlen. rewrite !Nat2Z.id. rewrite skipn_app, skipn_all, Nat.sub_diag. cbn [skipn app].
  rewrite firstn_app, firstn_all, Nat.sub_diag, firstn_O, app_nil_r. reflexivity.
Qed.
Lemma reads_take : forall tgt n w, zlen w = n -> reads tgt (p_take n) w w.
Proof.
  intros tgt n w <- pre suf H. unfold p_take.
  replace (zlen (pre ++ w ++ suf) <? zlen pre + zlen w) with false
    by (rewrite !zlen_app; pose proof (zlen_nonneg _ suf); lia).
  rewrite zsub_mid. reflexivity.
Qed.
Lemma reads_int : forall tgt (n : nat) x, 0 <= x < 256 ^ Z.of_nat n ->
  reads tgt (pbind (p_take (Z.of_nat n)) (fun b => pret (be_dec b))) (be_enc n x) x.
Proof.
  intros. replace x with (be_dec (be_enc n x)) at 2 by (apply be_dec_enc; auto).
  apply (reads_map _ _ tgt _ be_dec). apply reads_take. apply be_enc_len.
Qed.
Lemma reads_u8 : forall tgt x, byte x -> reads tgt p_u8 [x] x.
Proof.
  intros tgt x H. unfold byte in H. pose proof (reads_int tgt 1 x ltac:(cbn; lia)) as G.
  cbn [be_enc] in G. change (2 ^ (8 * Z.of_nat 0)) with 1 in G. rewrite Z.div_1_r, Z.mod_small in G by lia. exact G.
Qed.
Lemma reads_u16 : forall tgt x, 0 <= x < 65536 -> reads tgt p_u16 (be_enc 2 x) x.
Proof. intros tgt x H. apply (reads_int tgt 2 x). cbn; lia. Qed.
Lemma reads_pid : forall tgt x, 0 < x < 65536 -> reads tgt p_pid (be_enc 2 x) x.
Proof.
  intros tgt x H. unfold p_pid. rewrite <- (app_nil_r (be_enc 2 x)). eapply reads_bind; [apply reads_u16; lia|].
  apply reads_check; [lia|]. apply reads_ret.
Qed.

(** Variable byte integers *)
Lemma lo7 : forall x, 0 <= x < 128 -> Z.land x 127 = x /\ Z.land x 128 = 0 /\ Z.land (128 + x) 127 = x /\ Z.land (128 + x) 128 = 128.
Proof.
  intros x H.
  pose proof (sweep_byte (fun x => implb (x <? 128) ((Z.land x 127 =? x) && (Z.land x 128 =? 0) && (Z.land (128 + x) 127 =? x) && (Z.land (128 + x) 128 =? 128)))
    ltac:(vm_compute; reflexivity) x ltac:(unfold byte; lia)) as G.
  cbv beta in G. replace (x <? 128) with true in G by lia. cbn [implb] in G. rewrite !andb_true_iff in G. lia.
Qed.
Lemma be_dec1 : forall x, be_dec [x] = x.
Proof. intros. cbv [be_dec fold_left]. lia. Qed.
Lemma take1 : forall pre x suf, p_take 1 (pre ++ x :: suf) (zlen pre) = POk [x] (zlen pre + 1).
Proof.
  intros. pose proof (reads_take (zlen pre + 1) 1 [x] ltac:(reflexivity) pre suf) as G.
  change (zlen [x]) with 1 in G. apply G. lia.
Qed.
Lemma vint_step : forall k r e pre x suf, 0 <= x < 128 ->
  vint_loop (S k) r e (pre ++ (128 + x) :: suf) (zlen pre) =
  vint_loop k (u32 (r + x * e)) (u32 (e * 128)) ((pre ++ [128 + x]) ++ suf) (zlen (pre ++ [128 + x])).
Proof.
  intros k r e pre x suf H. cbn [vint_loop]. rewrite take1. cbv zeta. rewrite be_dec1.
  destruct (lo7 x H) as (_ & _ & -> & ->). change (128 =? 0) with false. cbv iota.
  rewrite <- app_assoc. cbn [app]. rewrite zlen_app. change (zlen [128 + x]) with 1. reflexivity.
Qed.
Lemma vint_last : forall k r e pre x suf, 0 <= x < 128 ->
  vint_loop (S k) r e (pre ++ x :: suf) (zlen pre) = POk (u32 (r + x * e)) (zlen pre + 1).
Proof.
  intros k r e pre x suf H. cbn [vint_loop]. rewrite take1. cbv zeta. rewrite be_dec1.
  destruct (lo7 x H) as (-> & -> & _). change (0 =? 0) with true. reflexivity.
Qed.
Lemma u32_id : forall x, 0 <= x < 4294967296 -> u32 x = x.
Proof. intros. unfold u32. apply Z.mod_small. change (2 ^ 32) with 4294967296. lia. Qed.
Lemma reads_vint : forall tgt n, 0 <= n <= VINT_MAX -> reads tgt p_vint (vint n) n.
Proof.
  intros tgt n H pre suf _. unfold VINT_MAX in H. unfold p_vint, vint.
  destruct (n <? 128) eqn:E1; [|destruct (n <? 16384) eqn:E2; [|destruct (n <? 2097152) eqn:E3]]; cbn [app].
  - rewrite vint_last by lia. rewrite u32_id by lia. f_equal. lia.
  - rewrite vint_step by lia. rewrite !u32_id by lia. rewrite vint_last by lia. rewrite u32_id by lia.
    rewrite zlen_app. f_equal; [lia|]. zl. lia.
  - rewrite vint_step by lia. rewrite !u32_id by lia. rewrite vint_step by lia. rewrite !u32_id by lia.
    rewrite vint_last by lia. rewrite u32_id by lia. f_equal; [lia|]. zl. lia.
  - rewrite vint_step by lia. rewrite !u32_id by lia. rewrite vint_step by lia. rewrite !u32_id by lia.
    rewrite vint_step by lia. rewrite !u32_id by lia.
    rewrite vint_last by lia. rewrite u32_id by lia. f_equal; [lia|]. zl. lia.
Qed.
Lemma vint_len : forall n, 1 <= zlen (vint n) <= 4.
Proof. intros. unfold vint. destruct (n <? 128); [|destruct (n <? 16384); [|destruct (n <? 2097152)]]; cbn; lia. Qed.

(** Strings *)
Lemma reads_blob : forall tgt s, zlen s <= 65535 -> reads tgt (p_blob tgt) (mstr s) s.
Proof.
  intros tgt s H. unfold p_blob, mstr. pose proof (zlen_nonneg _ s).
  eapply reads_bind; [apply reads_u16; lia|].
  intros pre suf L. replace (tgt <? zlen pre + zlen s) with false by lia.
  apply (reads_take tgt); auto.
Qed.
Lemma mqtt_utf8_legal : forall s mn, string_legal s -> mn <= zlen s -> mqtt_utf8_ok s mn = true.
Proof.
  intros s mn (B & (cs & Hcs & ->) & N & _) H. unfold mqtt_utf8_ok.
  replace (zlen (utf8_encode_all cs) <? mn) with false by lia.
  assert (N0 : ~ In 0 cs).
  { intros I. apply N. unfold utf8_encode_all. apply in_flat_map. exists 0. split; auto. cbn. auto. }
  unfold utf8_validate_and_iterate. rewrite iterate_wf; auto; [|pose proof (encode_all_len cs); lia].
  clear -Hcs N0. assert (G : cb_run mqtt_utf8_cb tt cs = (0, tt)).
  { induction cs as [|c cs IH]; [reflexivity|]. inversion Hcs as [|? ? Hc Hcs']; subst. cbn [cb_run].
    unfold mqtt_utf8_cb at 1. unfold scalar in Hc.
    replace ((c =? 0) || ((55296 <=? c) && (c <=? 57343))) with false.
    - cbn. apply IH; auto. intros X. apply N0. right; auto.
    - assert (c <> 0) by (intros ->; apply N0; left; auto). lia. }
  rewrite G. reflexivity.
Qed.
Lemma string_len : forall s, string_legal s -> zlen s <= 65535.
Proof. intros s (_ & _ & _ & H). auto. Qed.
Lemma string_cstr : forall s, string_legal s -> cstr s = s.
Proof. intros s (_ & _ & H & _). apply cstr_id; auto. Qed.
Lemma reads_utf8 : forall tgt mn s, string_legal s -> mn <= zlen s -> reads tgt (p_utf8 tgt mn) (mstr s) s.
Proof.
  intros tgt mn s H1 H2. unfold p_utf8. rewrite <- (app_nil_r (mstr s)).
  eapply reads_bind; [apply reads_blob, string_len; auto|].
  apply reads_check; [apply mqtt_utf8_legal; auto|]. apply reads_ret.
Qed.
Lemma nonempty_len : forall (s : list Z), s <> [] -> 1 <= zlen s.
Proof. intros [|c s] H; [congruence|]. rewrite zlen_cons. pose proof (zlen_nonneg _ s). lia. Qed.
Lemma topic_name_ok : forall s, topic_legal s -> name_ok s = true.
Proof.
  intros s (H & N & W). unfold name_ok. destruct H as (B & U & Z0 & L).
  destruct (name_validate_iff s B Z0) as ((_ & G) & _). rewrite G; auto.
Qed.
Lemma filter_legal_ok : forall s, filter_legal s -> filter_ok s = true.
Proof.
  intros s ((B & U & Z0 & L) & N & W). unfold filter_ok.
  destruct (filter_validate_iff s B Z0) as ((_ & G) & _). rewrite G; auto.
Qed.

(** Properties *)
Lemma kind_def : forall id, get_definition id = prop_kind id.
Proof.
  intros id. unfold get_definition, prop_kind, memb. cbn [property_definitions lookup_definition existsb].
  repeat match goal with
  | |- context [?k =? id] => is_ground k; destruct (Z.eqb_spec k id) as [<-|?]; [reflexivity|]
  end.
  repeat match goal with
  | |- context [id =? ?k] => replace (id =? k) with false by lia
  end. reflexivity.
Qed.
Lemma reads_prop_val : forall tgt t v, t <> TBlob -> val_legal t v -> reads tgt (p_prop_val tgt t) (wire_val t v) v.
Proof.
  intros tgt t v NB L.
  destruct t, v; cbn [val_legal] in L; try contradiction; cbn [p_prop_val wire_val];
    unfold p_prop_int, p_prop_vint, p_prop_utf8, p_prop_2utf8.
  - pose proof (reads_int tgt 1 n ltac:(cbn; lia)) as G. intros pre suf H. specialize (G pre suf H).
    unfold pbind, pret in *. change (Z.of_nat 1) with 1 in G. destruct (p_take 1 _ _); congruence.
  - pose proof (reads_int tgt 2 n ltac:(cbn; lia)) as G. intros pre suf H. specialize (G pre suf H).
    unfold pbind, pret in *. change (Z.of_nat 2) with 2 in G. destruct (p_take 2 _ _); congruence.
  - pose proof (reads_int tgt 4 n ltac:(cbn; lia)) as G. intros pre suf H. specialize (G pre suf H).
    unfold pbind, pret in *. change (Z.of_nat 4) with 4 in G. destruct (p_take 4 _ _); congruence.
  - apply (reads_map _ _ _ _ VInt). apply reads_vint; auto.
  - apply (reads_map _ _ _ _ VData). apply reads_utf8; auto. apply zlen_nonneg.
  - destruct L as [L1 L2]. eapply reads_bind; [apply reads_utf8; auto; apply zlen_nonneg|].
    apply (reads_map _ _ _ _ (VPair k)). apply reads_utf8; auto. apply zlen_nonneg.
Qed.
Lemma kind_byte : forall id t, prop_kind id = Some t -> byte id.
Proof.
  intros id t. unfold prop_kind, memb. cbn [existsb]. unfold byte.
  repeat match goal with |- context [if ?b then _ else _] => destruct b eqn:?; [intros _; lia|] end.
  discriminate.
Qed.
Lemma reads_prop : forall tgt p, prop_legal p -> not_blob p -> reads tgt (p_prop tgt) (wire_prop p) p.
Proof.
  intros tgt [id v] (t & K & L) NB. unfold not_blob in NB. cbn [pr_id pr_val] in *. unfold p_prop, wire_prop. cbn [pr_id pr_val].
  rewrite K. change (id :: wire_val t v) with ([id] ++ wire_val t v).
  eapply reads_bind; [apply reads_u8; eapply kind_byte; eauto|]. rewrite kind_def, K.
  apply (reads_map _ _ _ _ (mk_prop id)). apply reads_prop_val; auto. congruence.
Qed.
Lemma wire_prop_len : forall p, 1 <= zlen (wire_prop p).
Proof. intros. unfold wire_prop. rewrite zlen_cons. match goal with |- context [zlen ?l] => pose proof (zlen_nonneg _ l) end. lia. Qed.
Lemma reads_prop_loop : forall l fuel tgt e acc pre suf, Forall prop_legal l -> Forall not_blob l ->
  e = zlen pre + zlen (flat_map wire_prop l) -> e <= tgt -> (Z.to_nat (zlen (flat_map wire_prop l)) <= fuel)%nat ->
  p_prop_loop fuel tgt e acc (pre ++ flat_map wire_prop l ++ suf) (zlen pre) = POk (acc ++ l) e.
Proof.
  induction l as [|p l IH]; intros fuel tgt e acc pre suf L NB -> Ht Hf.
  - cbn [flat_map] in *. rewrite zlen_nil, Z.add_0_r. rewrite app_nil_r.
    destruct fuel; cbn [p_prop_loop]; rewrite Z.ltb_irrefl; reflexivity.
  - inversion L; inversion NB; subst. cbn [flat_map] in *. rewrite !zlen_app in *.
    pose proof (wire_prop_len p). pose proof (zlen_nonneg _ (flat_map wire_prop l)).
    destruct fuel as [|fuel]; [lia|]. cbn [p_prop_loop].
    replace (zlen pre <? _) with true by lia.
    rewrite <- app_assoc. rewrite (reads_prop tgt p); auto; [|lia].
    rewrite (app_assoc pre).
    replace (zlen pre + zlen (wire_prop p)) with (zlen (pre ++ wire_prop p)) by apply zlen_app.
    rewrite (IH fuel); auto; rewrite ?zlen_app; try lia.
    rewrite <- app_assoc. reflexivity.
Qed.
Lemma reads_props : forall tgt l, Forall prop_legal l -> Forall not_blob l -> zlen (flat_map wire_prop l) <= VINT_MAX ->
  reads tgt (p_props tgt) (wire_props l) l.
Proof.
  intros tgt l L NB H. unfold p_props, wire_props. cbv zeta. pose proof (zlen_nonneg _ (flat_map wire_prop l)).
  eapply reads_bind; [apply reads_vint; lia|].
  intros pre suf Ht. rewrite reads_prop_loop with (e := zlen pre + zlen (flat_map wire_prop l)); auto.
Qed.
Lemma reads_props_v5 : forall tgt ver l, props_legal ver l -> Forall not_blob l ->
  reads tgt (p_props_v5 tgt ver) (if5 ver (wire_props l)) l.
Proof.
  intros tgt ver l (L & H & V) NB. unfold p_props_v5, if5. destruct (5 <=? ver) eqn:E.
  - apply reads_props; auto.
  - rewrite V by lia. apply reads_ret.
Qed.
