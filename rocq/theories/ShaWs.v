(** Histories of calls on a SHA-1 context, and the WebSocket accept string. *)
From Coq Require Import ZArith List Bool Lia.
From Verif Require Import Common ShaSpec ShaModel ShaProofs ShaStream ShaCalls Base64Model Base64Spec Base64Proofs.
Import ListNotations.
Open Scope Z_scope.

(** A context which refuses everything. *)
Lemma calls_bad : forall junk l c m asked, c_corrupted c = true ->
  exists out, sha1_calls junk c l = Some out /\ map answer out = expected m asked true l.
Proof.
  intros junk. induction l as [|[d|] l IH]; intros c m asked H.
  - exists []. auto.
  - cbn [sha1_calls expected]. unfold rrr_SHA1Input. destruct d as [|x d].
    + apply IH; auto.
    + rewrite H, orb_true_r. cbn [orb]. destruct asked; apply IH; reflexivity.
  - cbn [sha1_calls expected]. unfold rrr_SHA1Result. rewrite H.
    destruct (IH c m true H) as (out & -> & E). eexists. split; [ reflexivity | ].
    cbn [map]. rewrite E. reflexivity.
Qed.
(** A context that has given a result. *)
Lemma calls_done : forall junk l c m, c_corrupted c = false -> c_computed c = true -> digest_octets c = SHA1 m ->
  exists out, sha1_calls junk c l = Some out /\ map answer out = expected m true false l.
Proof.
  intros junk. induction l as [|[d|] l IH]; intros c m H1 H2 H3.
  - exists []. auto.
  - cbn [sha1_calls expected]. unfold rrr_SHA1Input. destruct d as [|x d].
    + apply IH; auto.
    + rewrite H2. cbn [orb]. apply calls_bad. reflexivity.
  - cbn [sha1_calls expected]. unfold rrr_SHA1Result. rewrite H1, H2.
    destruct (IH c m H1 H2 H3) as (out & -> & E). eexists. split; [ reflexivity | ].
    cbn [map]. rewrite E. unfold answer. cbn [fst snd]. rewrite H3. reflexivity.
Qed.
Lemma calls_open : forall junk l c m, length junk = 80%nat -> rep1 c m -> bytes m -> zlen m < 2^61 ->
  Forall (fun x => bytes (octets_of x)) l ->
  exists out, sha1_calls junk c l = Some out /\ map answer out = expected m false false l.
Proof.
  intros junk l c m J. revert c m. induction l as [|[d|] l IH]; intros c m H BM ML BL.
  - exists []. auto.
  - inversion_clear BL as [|? ? BD BL']. cbn [octets_of] in BD. cbn [sha1_calls expected].
    unfold rrr_SHA1Input. destruct d as [|x d].
    + apply IH; auto.
    + rewrite (rep1_corrupted c m H), (rep1_computed c m H). cbn [orb].
      set (xd := x :: d) in *. clearbody xd.
      destruct (input_loop_ok junk J xd c m H BM BD ML) as (c1 & -> & [(L & R)|(L & C)]).
      * replace (2^64 <=? 8 * zlen (m ++ xd)) with false by (symmetry; apply Z.leb_gt; lia).
        apply IH; auto. apply bytes_app. auto.
      * replace (2^64 <=? 8 * zlen (m ++ xd)) with true by (symmetry; apply Z.leb_le; lia).
        apply calls_bad. auto.
  - inversion_clear BL as [|? ? _ BL']. cbn [sha1_calls expected].
    destruct (result_ok junk J c m H BM) as (c1 & -> & E & C1 & C2).
    destruct (calls_done junk l c1 m C1 C2 E) as (out & -> & F). eexists. split; [ reflexivity | ].
    cbn [map]. rewrite F. unfold answer. cbn [fst snd]. rewrite E. reflexivity.
Qed.
Lemma sha1_calls_proof : forall junk c l, length junk = 80%nat -> length (c_block c) = 64%nat ->
  Forall (fun x => bytes (octets_of x)) l ->
  exists out, sha1_calls junk (rrr_SHA1Reset c) l = Some out /\ map answer out = expected [] false false l.
Proof.
  intros junk c l J B F. apply calls_open; auto; [ apply reset_rep1; auto | constructor | reflexivity ].
Qed.

(** ** Base64 in one line *)
Lemma cut_line : forall l r, Forall (fun x => x <> 10) l -> cut_newline (l ++ 10 :: r) = l.
Proof.
  induction l as [|x l IH]; intros r H; [ reflexivity | ]. inversion_clear H.
  cbn [app cut_newline]. destruct (Z.eqb_spec x 10); [ contradiction | ]. rewrite IH; auto.
Qed.
Lemma rfc_no_newline : forall src, bytes src -> Forall (fun x => 32 <= x < 128) (rfc_encode 43 47 [61] src).
Proof.
  intros src B. apply rfc_encode_forall; auto.
  - intros v V. unfold rfc_char. destruct (Z.ltb_spec v 26); [ lia | ]. destruct (Z.ltb_spec v 52); [ lia | ].
    destruct (Z.ltb_spec v 62); [ lia | ]. destruct (Z.eqb_spec v 62); lia.
  - constructor; [ lia | constructor ].
Qed.
Lemma encode_line : forall src, bytes src -> 0 < zlen src <= 54 ->
  exists out, base64_encode src = B64Ok out /\ cut_newline out = rfc_encode 43 47 [61] src.
Proof.
  intros src B L. destruct (base64_encode_ok src B ltac:(lia)) as (out & E & lines & F & T & O).
  exists out. split; [ exact E | ].
  pose proof (rfc_encode_len_pad 43 47 src) as LL.
  pose proof (rfc_no_newline src B) as NN. rewrite T in *.
  destruct lines as [|l1 [|l2 r]].
  - cbn [concat] in LL. zl. lia.
  - cbn [concat map app] in *. rewrite !app_nil_r in *. rewrite O. apply cut_line.
    apply Forall_impl with (2 := NN). intros. lia.
  - exfalso. cbn [full_lines] in F. destruct F as [F1 F2]. cbn [concat] in LL. rewrite !zlen_app in LL.
    assert (0 < zlen l2) by (destruct r; lia). pose proof (zlen_nonneg _ (concat r)). lia.
Qed.

(** ** The accept string *)
Lemma be_concat : forall v n, length v = n -> zlen (concat (map (be_enc 4) v)) = 4 * Z.of_nat n /\ bytes (concat (map (be_enc 4) v)).
Proof.
  induction v as [|x v IH]; intros n <-; [ split; [ reflexivity | constructor ] | ].
  cbn [map concat length]. rewrite zlen_app, be_enc_len. destruct (IH (length v) eq_refl) as [A B]. split; [ lia | ].
  apply bytes_app. split; [ apply be_enc_bytes | exact B ].
Qed.
Lemma SHA1_len : forall m, zlen (SHA1 m) = 20 /\ bytes (SHA1 m).
Proof.
  intros m. unfold SHA1, digest. destruct (absorb1_ok (length (pad m) / 64) (pad m)) as [L _].
  apply (be_concat _ 5 L).
Qed.
Lemma SHA256_len : forall m, zlen (SHA256 m) = 32 /\ bytes (SHA256 m).
Proof.
  intros m. unfold SHA256, digest. destruct (absorb256_ok (length (pad m) / 64) (pad m)) as [L _].
  apply (be_concat _ 8 L).
Qed.

Lemma accept_ok : forall junk c key, length junk = 80%nat -> length (c_block c) = 64%nat ->
  bytes key -> zlen key < 2^32 - 36 ->
  make_accept_string junk c key = Some (rfc6455_accept key).
Proof.
  intros junk c key J CB BK LK. unfold make_accept_string.
  set (s := key ++ websocket_guid).
  assert (LG : zlen websocket_guid = 36) by reflexivity.
  assert (BG : bytes websocket_guid).
  { unfold websocket_guid. unfold bytes. apply Forall_forall. intros x X.
    assert (forallb byteb websocket_guid = true) by reflexivity.
    rewrite forallb_forall in H. specialize (H x X). unfold byteb in H. unfold byte. lia. }
  pose proof (zlen_nonneg _ key).
  assert (LS : zlen s = zlen key + 36) by (unfold s; zl; lia).
  assert (BS : bytes s) by (unfold s; apply bytes_app; auto).
  assert (FS : firstn (Z.to_nat (u32 (zlen s))) s = s).
  { unfold u32. rewrite Z.mod_small by lia. apply firstn_all2. unfold zlen. lia. }
  rewrite FS.
  pose proof (reset_rep1 c CB) as R0.
  assert (I : exists c1, rrr_SHA1Input junk (rrr_SHA1Reset c) s = Some c1 /\ rep1 c1 s).
  { unfold rrr_SHA1Input. destruct s as [|x q] eqn:E; [ zl; lia | ].
    rewrite (rep1_corrupted _ _ R0), (rep1_computed _ _ R0). cbn [orb]. rewrite <- E in *.
    destruct (input_loop_ok junk J s (rrr_SHA1Reset c) [] R0) as (c1 & E1 & [(_ & Q)|(Q & _)]); auto.
    - constructor.
    - rewrite zlen_nil. lia.
    - exists c1. auto.
    - exfalso. cbn [app] in Q. lia. }
  destruct I as (c1 & -> & R1).
  destruct (result_ok junk J c1 s R1 BS) as (c2 & -> & E & C1 & C2).
  rewrite C1, C2. cbn [negb orb]. rewrite E. destruct (SHA1_len s) as [L20 B20].
  destruct (encode_line (SHA1 s) B20 ltac:(lia)) as (out & -> & F). rewrite F. reflexivity.
Qed.

Lemma rfc6455_len : forall key, zlen (rfc6455_accept key) = 28.
Proof. intros. unfold rfc6455_accept. rewrite rfc_encode_len_pad. rewrite (proj1 (SHA1_len _)). reflexivity. Qed.
Lemma key_text : forall key, bytes key -> zlen key = 16 ->
  get_key_base64 key = Some (rfc_encode 43 47 [61] key) /\ zlen (rfc_encode 43 47 [61] key) = 24 /\
  Forall (fun x => 32 <= x < 128) (rfc_encode 43 47 [61] key).
Proof.
  intros key B L. destruct (encode_line key B ltac:(lia)) as (out & E & F). unfold get_key_base64. rewrite E, F.
  split; [ reflexivity | ]. split; [ rewrite rfc_encode_len_pad, L; reflexivity | apply rfc_no_newline; auto ].
Qed.
Lemma tmp_name_id : forall v, zlen v < 256 -> Forall (fun x => x <> 0) v -> tmp_name v = v.
Proof.
  intros v L F. unfold tmp_name. rewrite firstn_all2 by (unfold zlen in L; lia).
  induction F as [|x v X F IH]; [ reflexivity | ]. cbn [map]. rewrite zlen_cons in L. rewrite IH by lia.
  destruct (Z.eqb_spec x 0); [ contradiction | reflexivity ].
Qed.
Lemma text_bytes : forall l, Forall (fun x => 32 <= x < 128) l -> bytes l /\ Forall (fun x => x <> 0) l.
Proof.
  intros l H. split; (eapply Forall_impl; [ | exact H ]); unfold byte; cbv beta; intros; lia.
Qed.
Lemma list_eqb_spec : forall a b, list_eqb a b = true <-> a = b.
Proof. intros. unfold list_eqb. destruct (list_eq_dec Z.eq_dec a b); intuition congruence. Qed.

Lemma tmp_name_28 : forall v w, Forall (fun x => x <> 0) v -> zlen w = 28 -> tmp_name v = w -> v = w.
Proof.
  intros v w F L H. unfold tmp_name in H.
  assert (LV : zlen v = 28).
  { apply (f_equal zlen) in H. rewrite zlen_map, L in H. unfold zlen in *. rewrite firstn_length in H. lia. }
  rewrite <- H. symmetry. apply (tmp_name_id v); auto. lia.
Qed.

Lemma server_accept_proof : forall junk c text, length junk = 80%nat -> length (c_block c) = 64%nat ->
  bytes text -> zlen text < 256 -> Forall (fun x => x <> 0) text ->
  server_accept junk c text = Some (rfc6455_accept text).
Proof.
  intros. unfold server_accept. rewrite tmp_name_id by auto. apply accept_ok; auto. lia.
Qed.
Lemma client_takes_proof : forall junk c key value, length junk = 80%nat -> length (c_block c) = 64%nat ->
  bytes key -> zlen key = 16 -> Forall (fun x => x <> 0) value ->
  exists b, client_takes junk c key value = Some b /\
    (b = true <-> value = rfc6455_accept (rfc_encode 43 47 [61] key)).
Proof.
  intros junk c key value J B BK LK NZ. unfold client_takes.
  destruct (key_text key BK LK) as (E & L & F). rewrite E.
  destruct (text_bytes _ F) as [TB _]. rewrite accept_ok by (auto; lia).
  eexists. split; [ reflexivity | ]. rewrite list_eqb_spec. split.
  - intros H. apply tmp_name_28; auto. apply rfc6455_len.
  - intros ->. symmetry. apply tmp_name_id; [ rewrite rfc6455_len; lia | auto ].
Qed.
Lemma agree_proof : forall junk c junk' c' key,
  length junk = 80%nat -> length (c_block c) = 64%nat -> length junk' = 80%nat -> length (c_block c') = 64%nat ->
  bytes key -> zlen key = 16 ->
  exists text value, get_key_base64 key = Some text /\ rfc_decode 43 47 text = Some key /\
    server_accept junk c text = Some value /\ client_takes junk' c' key value = Some true.
Proof.
  intros junk c junk' c' key J C J' C' B L. destruct (key_text key B L) as (E & L24 & F).
  destruct (text_bytes _ F) as [TB TN].
  exists (rfc_encode 43 47 [61] key), (rfc6455_accept (rfc_encode 43 47 [61] key)).
  split; [ exact E | ]. split; [ apply rfc_roundtrip; auto; intros v V; split; apply (rfc_value_char v V) | ].
  split; [ apply server_accept_proof; auto; lia | ].
  assert (NZ : Forall (fun x => x <> 0) (rfc6455_accept (rfc_encode 43 47 [61] key))).
  { apply text_bytes, rfc_no_newline. apply SHA1_len. }
  destruct (client_takes_proof junk' c' key _ J' C' B L NZ) as (b & -> & I). f_equal. apply I. reflexivity.
Qed.
