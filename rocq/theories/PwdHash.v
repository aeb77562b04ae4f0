(** Proofs about making and checking hashes of passwords. *)
From Coq Require Import ZArith List Bool Lia.
From Verif Require Import Common ParseModel TopicModel Base64Model PwdModel PwdSpec PwdProofs.
From Verif Require ParseSpec ParseProofs ParseProps Base64Spec Base64Proofs.
Import ListNotations.
Open Scope Z_scope.

Lemma base64_chars src : bytes src -> Forall (fun c => Base64Spec.std_alpha c = true /\ byte c /\ 43 <= c < 128 /\ c <> 58 /\ c <> 44) (base64 src).
Proof.
  intros B. apply Base64Proofs.rfc_encode_forall; [ | | exact B ].
  - intros v V. destruct (Base64Proofs.rfc_value_char v V) as (_ & _ & A & Y). split; [ exact A | ]. split; [ exact Y | ].
    unfold Base64Spec.rfc_char. destruct (Z.ltb_spec v 26); [ lia | ]. destruct (Z.ltb_spec v 52); [ lia | ].
    destruct (Z.ltb_spec v 62); [ lia | ]. destruct (Z.eqb_spec v 62); lia.
  - constructor; [ | constructor ]. unfold byte. split; [ reflexivity | lia ].
Qed.
Lemma base64_len src : zlen (base64 src) = (zlen src + 2) / 3 * 4.
Proof. apply Base64Proofs.rfc_encode_len_pad. Qed.
Lemma base64_nonempty src : src <> [] -> base64 src <> [].
Proof. intros N E. pose proof (base64_len src) as L. rewrite E, zlen_nil in L. destruct src; [ congruence | ]. rewrite zlen_cons in L. pose proof (zlen_nonneg _ src). lia. Qed.
Lemma base64_bytes src : bytes src -> bytes (base64 src).
Proof. intros B. eapply Forall_impl; [ | apply base64_chars; exact B ]. cbn. tauto. Qed.

Lemma decode_base64 src : bytes src -> src <> [] -> base64_decode (base64 src) = B64Ok src.
Proof.
  intros B N. rewrite Base64Proofs.base64_decode_correct by (now apply base64_bytes).
  rewrite Base64Proofs.filter_all by (eapply Forall_impl; [ | apply base64_chars; exact B ]; cbn; tauto).
  unfold Base64Proofs.decode_spec. rewrite base64_len.
  assert (0 < zlen src) by (destruct src; [ congruence | rewrite zlen_cons; pose proof (zlen_nonneg _ src); lia ]).
  replace (((zlen src + 2) / 3 * 4 =? 0) || negb ((zlen src + 2) / 3 * 4 mod 4 =? 0)) with false by lia.
  unfold base64. rewrite Base64Proofs.rfc_roundtrip; [ reflexivity | | reflexivity | exact B ].
  intros v V. destruct (Base64Proofs.rfc_value_char v V) as (X & Y & _). auto.
Qed.

Lemma encode_strip src out : bytes src -> Base64Spec.folded (Base64Spec.rfc_encode 43 47 [61] src) out ->
  filter (fun c => negb (is_newline c)) out = base64 src.
Proof.
  intros B F. rewrite (Base64Proofs.filter_folded _ _ _ eq_refl F). apply Base64Proofs.filter_all.
  eapply Forall_impl; [ | apply base64_chars; exact B ]. cbn. intros c (_ & _ & X & _). unfold is_newline. lia.
Qed.

Lemma no_dollar src : bytes src -> ~ In 36 (base64 src).
Proof. intros B H. pose proof (base64_chars src B) as F. rewrite Forall_forall in F. apply F in H. lia. Qed.

Lemma split_hash salt key : bytes salt -> bytes key -> str_split (hash_text salt key) ch_dollar 4 = Some [[]; [49]; base64 salt; base64 key].
Proof.
  intros Bs Bk. change (hash_text salt key) with (ParseSpec.join 36 [[]; [49]; base64 salt; base64 key]). unfold ch_dollar.
  apply str_split_join; [ | discriminate | rewrite !zlen_cons, zlen_nil; lia ].
  constructor; [ intros [] | ]. constructor; [ intros [ H | [] ]; discriminate | ]. constructor; [ now apply no_dollar | ]. constructor; [ now apply no_dollar | constructor ].
Qed.
Lemma split_plain p : bytes p -> str_split (plain_text p) ch_dollar 4 = Some [[]; [48]; []; base64 p].
Proof.
  intros B. change (plain_text p) with (ParseSpec.join 36 [[]; [48]; []; base64 p]). unfold ch_dollar.
  apply str_split_join; [ | discriminate | rewrite !zlen_cons, zlen_nil; lia ].
  constructor; [ intros [] | ]. constructor; [ intros [ H | [] ]; discriminate | ]. constructor; [ intros [] | ]. constructor; [ now apply no_dollar | constructor ].
Qed.

Lemma memcmp_all a b n : zlen a = n -> zlen b = n -> memcmp_equal a b n = Ok (same a b).
Proof.
  intros La Lb. unfold memcmp_equal. replace ((zlen a <? n) || (zlen b <? n)) with false by lia.
  rewrite !firstn_all2 by (unfold zlen in *; lia). reflexivity.
Qed.

Section Ssl.
  Variable pbkdf2 : list Z -> list Z -> list Z.
  Hypothesis pbkdf2_len : forall p s, zlen (pbkdf2 p s) = 256.
  Hypothesis pbkdf2_bytes : forall p s, bytes (pbkdf2 p s).

  Lemma check_hash salt key q : bytes salt -> 32 <= zlen salt -> bytes key -> zlen key = 256 -> q <> [] ->
    passwd_check true pbkdf2 (hash_text salt key) q = Ok (same (pbkdf2 q salt) key).
  Proof.
    intros Bs Ls Bk Lk Q. unfold passwd_check. rewrite (proj2 (same_neq q [])) by assumption.
    replace (same (hash_text salt key) []) with false by reflexivity. rewrite split_hash by assumption. unfold check_callback.
    assert (Ns : salt <> []) by (intros ->; rewrite zlen_nil in Ls; lia). assert (Nk : key <> []) by (intros ->; rewrite zlen_nil in Lk; lia).
    rewrite (proj2 (same_neq (base64 key) [])) by (now apply base64_nonempty). rewrite (proj2 (same_neq (base64 salt) [])) by (now apply base64_nonempty).
    cbn [negb same first_char]. change (49 =? ENCTYPE_BASE64) with false. change (49 =? ENCTYPE_OPENSSL) with true. cbv iota. unfold check_openssl. cbn [negb].
    rewrite decode_base64 by assumption. unfold openssl_encrypt.
    assert (0 < zlen q) by (destruct q; [ congruence | rewrite zlen_cons; pose proof (zlen_nonneg _ q); lia ]).
    replace (zlen q =? 0) with false by lia. rewrite base64_len. replace ((zlen salt + 2) / 3 * 4 =? 0) with false by lia.
    rewrite decode_base64 by assumption. unfold SALT_BYTES. replace (zlen salt <? 32) with false by lia. cbn [bind].
    apply memcmp_all; [ apply pbkdf2_len | exact Lk ].
  Qed.

  Lemma encrypt_ssl salt p : bytes salt -> zlen salt = 32 -> p <> [] ->
    exists h, passwd_encrypt true pbkdf2 salt p = Ok (Some h) /\ strip_newlines h = hash_text salt (pbkdf2 p salt).
  Proof.
    intros Bs Ls P. unfold passwd_encrypt. assert (Ns : salt <> []) by (intros ->; rewrite zlen_nil in Ls; lia).
    destruct (Base64Proofs.base64_encode_ok salt Bs ltac:(lia)) as (s64 & E1 & F1). rewrite E1.
    destruct (Base64Proofs.base64_roundtrip_lemma salt Bs Ns ltac:(lia)) as (s64' & E1' & D1). rewrite E1 in E1'. injection E1' as <-.
    pose proof (Base64Proofs.folded_len _ _ F1) as L1. rewrite Base64Proofs.rfc_encode_len_pad, Ls in L1.
    unfold openssl_encrypt. assert (0 < zlen p) by (destruct p; [ congruence | rewrite zlen_cons; pose proof (zlen_nonneg _ p); lia ]).
    replace (zlen p =? 0) with false by lia. rewrite L1. change ((32 + 2) / 3 * 4 + ((32 + 2) / 3 * 4 + 71) / 72 =? 0) with false. cbv iota.
    rewrite D1. unfold SALT_BYTES. replace (zlen salt <? 32) with false by lia. cbn [bind].
    pose proof (pbkdf2_len p salt) as Lk. pose proof (pbkdf2_bytes p salt) as Bk. set (key := pbkdf2 p salt) in *.
    rewrite firstn_all2 by (unfold HASH_KEY_LENGTH, zlen in *; lia).
    destruct (Base64Proofs.base64_encode_ok key Bk ltac:(lia)) as (k64 & E2 & F2). rewrite E2.
    pose proof (Base64Proofs.folded_len _ _ F2) as L2. rewrite Base64Proofs.rfc_encode_len_pad, Lk in L2.
    unfold into_final. rewrite !zlen_cons, zlen_app, zlen_cons, L1, L2.
    change (HASH_MAX_LENGTH + 1 <? 1 + (1 + (1 + ((32 + 2) / 3 * 4 + ((32 + 2) / 3 * 4 + 71) / 72 + (1 + ((256 + 2) / 3 * 4 + ((256 + 2) / 3 * 4 + 71) / 72))))) + 1) with false.
    cbv iota. eexists. split; [ reflexivity | ]. rewrite ParseProps.parse_strip_exact.
    change (ch_dollar :: ENCTYPE_OPENSSL :: ch_dollar :: s64 ++ ch_dollar :: k64) with ([36; 49; 36] ++ s64 ++ [36] ++ k64).
    rewrite !filter_app, (encode_strip salt s64), (encode_strip key k64) by assumption. reflexivity.
  Qed.

  Lemma hash_password_ssl salt d : bytes salt -> zlen salt = 32 ->
    hash_password true pbkdf2 salt d = Ok (Some (match d_password d with Some ((_ :: _) as p) => set_password d (Some (hash_text salt (pbkdf2 p salt))) | _ => d end)).
  Proof.
    intros Bs Ls. unfold hash_password. destruct (d_password d) as [ [ | c p ] | ]; try reflexivity.
    destruct (encrypt_ssl salt (c :: p) Bs Ls ltac:(discriminate)) as (h & -> & E). cbn [bind]. rewrite E.
    rewrite check_hash; [ | assumption | lia | apply pbkdf2_bytes | apply pbkdf2_len | discriminate ]. rewrite same_refl. reflexivity.
  Qed.
End Ssl.

(** * Without the TLS library *)
Lemma zlen_repeat (x : Z) n : 0 <= n -> zlen (repeat x (Z.to_nat n)) = n.
Proof. intros H. unfold zlen. rewrite repeat_length. lia. Qed.

Lemma plain_encrypt pbkdf2 salt p : bytes p -> 0 < zlen p <= 256 ->
  exists h, passwd_encrypt false pbkdf2 salt p = Ok (Some h) /\ strip_newlines h = plain_text p.
Proof.
  intros B L. unfold passwd_encrypt, HASH_KEY_LENGTH. replace (256 <? zlen p) with false by lia.
  destruct (Base64Proofs.base64_encode_ok p B ltac:(lia)) as (t & E & F). rewrite E.
  pose proof (Base64Proofs.folded_len _ _ F) as L1. rewrite Base64Proofs.rfc_encode_len_pad in L1.
  unfold into_final, HASH_MAX_LENGTH. rewrite !zlen_cons, L1. replace (512 + 1 <? _) with false by lia.
  eexists. split; [ reflexivity | ]. rewrite ParseProps.parse_strip_exact.
  change (ch_dollar :: ENCTYPE_BASE64 :: ch_dollar :: ch_dollar :: t) with ([36; 48; 36; 36] ++ t). rewrite filter_app, (encode_strip p t) by assumption. reflexivity.
Qed.
Lemma plain_check ssl pbkdf2 p q : bytes p -> 0 < zlen p -> bytes q -> 0 < zlen q <= 256 ->
  exists out, base64_encode q = B64Ok out /\ Base64Spec.folded (base64 q) out /\ exists junk,
    zlen junk = zlen q * 4 / 3 + 4 + (zlen q * 4 / 3 + 4) / 72 + 1 - zlen out /\ 1 <= zlen junk /\
    passwd_check ssl pbkdf2 (plain_text p) q = memcmp_equal (base64 p) (out ++ junk) (zlen (base64 p)).
Proof.
  intros B L Bq Lq. destruct (Base64Proofs.base64_encode_ok q Bq ltac:(lia)) as (t & E & F). exists t. split; [ exact E | ]. split; [ exact F | ].
  pose proof (Base64Proofs.folded_len _ _ F) as L1. rewrite Base64Proofs.rfc_encode_len_pad in L1.
  eexists. split; [ | split; [ | ] ]; cycle 2.
  { unfold passwd_check. rewrite (proj2 (same_neq q [])) by (intros ->; rewrite zlen_nil in Lq; lia).
    replace (same (plain_text p) []) with false by reflexivity. rewrite split_plain by assumption. unfold check_callback.
    rewrite (proj2 (same_neq (base64 p) [])) by (apply base64_nonempty; intros ->; rewrite zlen_nil in L; lia).
    cbn [negb same first_char]. change (48 =? ENCTYPE_BASE64) with true. cbv iota. unfold check_base64, HASH_KEY_LENGTH.
    replace (256 <? zlen q) with false by lia. rewrite E, Base64Proofs.alloc_small by lia. reflexivity. }
  - rewrite zlen_repeat by lia. reflexivity.
  - rewrite zlen_repeat by lia. lia.
Qed.
Lemma same_app a b : same a (a ++ b) = true <-> b = [].
Proof. rewrite same_eq. split; [ intros H; rewrite <- (app_nil_r a) in H at 1; now apply app_inv_head in H | intros ->; now rewrite app_nil_r ]. Qed.

Lemma plain_short pbkdf2 salt d p : bytes p -> 0 < zlen p <= 54 -> d_password d = Some p ->
  hash_password false pbkdf2 salt d = Ok (Some (set_password d (Some (plain_text p)))) /\ forall ssl, passwd_check ssl pbkdf2 (plain_text p) p = Ok true.
Proof.
  intros B L D. assert (C : forall ssl, passwd_check ssl pbkdf2 (plain_text p) p = Ok true).
  { intros ssl. destruct (plain_check ssl pbkdf2 p p B ltac:(lia) B ltac:(lia)) as (out & _ & F & junk & LJ & _ & ->).
    assert (O : out = base64 p ++ [10]).
    { destruct F as (lines & FL & T & ->). pose proof (base64_len p) as Lb. rewrite T in *. destruct lines as [ | l [ | l2 r ] ].
      - cbn in Lb. lia.
      - cbn [map concat]. rewrite !app_nil_r. reflexivity.
      - destruct FL as (L72 & FL). cbn [concat] in Lb. rewrite zlen_app, L72 in Lb.
        assert (0 < zlen (concat (l2 :: r))). { cbn [concat]. rewrite zlen_app. pose proof (zlen_nonneg _ (concat r)). destruct r; cbn in FL; lia. }
        cbn [concat] in *. lia. }
    unfold memcmp_equal. rewrite O, !zlen_app, zlen_cons, zlen_nil. pose proof (zlen_nonneg _ junk).
    replace ((zlen (base64 p) <? zlen (base64 p)) || (zlen (base64 p) + (1 + 0) + zlen junk <? zlen (base64 p))) with false by lia.
    unfold zlen. rewrite Nat2Z.id, firstn_all, <- app_assoc, firstn_app, Nat.sub_diag, firstn_all, app_nil_r. now rewrite same_refl. }
  split; [ | exact C ]. unfold hash_password. rewrite D. destruct p as [ | c p ]; [ rewrite zlen_nil in L; lia | ].
  destruct (plain_encrypt pbkdf2 salt (c :: p) B ltac:(lia)) as (h & -> & E). cbn [bind]. rewrite E, C. reflexivity.
Qed.

Lemma plain_long pbkdf2 salt d p : bytes p -> 54 < zlen p <= 256 -> d_password d = Some p -> hash_password false pbkdf2 salt d = Bug.
Proof.
  intros B L D. unfold hash_password. rewrite D. destruct p as [ | c p0 ] eqn:P; [ rewrite zlen_nil in L; lia | ]. rewrite <- P in *.
  destruct (plain_encrypt pbkdf2 salt p B ltac:(lia)) as (h & -> & E). cbn [bind]. rewrite E.
  destruct (plain_check false pbkdf2 p p B ltac:(lia) B ltac:(lia)) as (out & _ & F & junk & LJ & LJ1 & ->).
  pose proof (Base64Proofs.folded_len _ _ F) as L1. pose proof (base64_len p) as Lb.
  unfold memcmp_equal. rewrite zlen_app. replace ((zlen (base64 p) <? zlen (base64 p)) || (zlen out + zlen junk <? zlen (base64 p))) with false by lia.
  replace (same _ _) with false; [ reflexivity | symmetry; apply same_neq ].
  destruct F as (lines & FL & T & O). destruct lines as [ | l [ | l2 r ] ].
  - rewrite T in Lb. cbn in Lb. lia.
  - rewrite T in Lb. cbn [concat] in Lb. rewrite app_nil_r in Lb. cbn in FL. lia.
  - destruct FL as (L72 & FL). intros X. apply (f_equal (fun s => nth 72 s 0)) in X. unfold zlen in X. rewrite Nat2Z.id, firstn_all in X.
    assert (N : nth 72 (firstn (length (base64 p)) (out ++ junk)) 0 = 10).
    { rewrite O. cbn [map concat]. assert (72 < length (base64 p))%nat as Hl by (unfold zlen in *; lia).
      assert (H : forall n s, (72 < n)%nat -> nth 72 (firstn n s) 0 = nth 72 s 0).
      { clear. intros n s H. rewrite <- (firstn_skipn n s) at 2. destruct (Nat.lt_ge_cases 72 (length (firstn n s))) as [ Y | Y ]; [ now rewrite app_nth1 | ].
        rewrite firstn_length in Y. rewrite skipn_all2 by lia. now rewrite app_nil_r. }
      rewrite H by exact Hl. rewrite <- app_assoc. rewrite app_nth1 by (rewrite app_length; cbn; unfold zlen in L72; lia).
      rewrite app_nth2 by (unfold zlen in L72; lia). replace (72 - length l)%nat with 0%nat by (unfold zlen in L72; lia). reflexivity. }
    rewrite N in X. assert (I72 : In (nth 72 (base64 p) 0) (base64 p)) by (apply nth_In; unfold zlen in *; lia).
    pose proof (base64_chars p B) as FC. rewrite Forall_forall in FC. apply FC in I72. rewrite X in I72. lia.
Qed.
