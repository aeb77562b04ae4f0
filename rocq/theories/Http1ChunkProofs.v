(** Lemmas about the receiving of HTTP/1 messages made of chunks. *)
From Coq Require Import Strings.String.
From Coq Require Import ZArith List Bool Lia.
From Verif Require Import Common MsgModel ReadModel Base64Model Dec HttpUtilModel HttpUtilSpec HttpUtilProofs HttpUriProofs Http1Model Http1Spec Http1Proofs Http1HeadProofs Http1RecvProofs Http1FrameProofs Http1MsgProofs.
Import ListNotations.
Open Scope Z_scope.

(** ** The size of a chunk *)

Lemma hex_digits sz n : hex_number sz n -> sz <> [] /\ Forall (fun c => is_digit 16 c = true) sz /\ fold_left (fun a c => a * 16 + digit_value c) sz 0 = n /\ 0 <= n.
Proof.
  intros H. induction H as [c x H|t m c x H IH Hx].
  - destruct (hex_value _ _ H) as (A & B & C). split; [ discriminate | split; [ constructor; [ exact A | constructor ] | ] ]. cbn [fold_left]. lia.
  - destruct IH as (N & F & E & P). destruct (hex_value _ _ Hx) as (A & B & C). split; [ destruct t; discriminate | ].
    split; [ apply Forall_app; split; [ exact F | constructor; [ exact A | constructor ] ] | ]. rewrite fold_left_app. cbn [fold_left]. rewrite E, B. lia.
Qed.
Lemma digits_all base sz : Forall (fun c => is_digit base c = true) sz -> digits base sz = sz.
Proof. intros H. induction H as [|c r Hc H IH]; [ reflexivity | ]. cbn [digits]. rewrite Hc, IH. reflexivity. Qed.
Lemma hex_raw sz n : hex_number sz n -> zlen sz <= 63 -> n < 2^64 -> strtoull_raw 16 sz = Some (n, zlen sz).
Proof.
  intros H L B. destruct (hex_digits sz n H) as (N & F & E & P). unfold strtoull_raw. rewrite (digits_all 16 sz F). cbv zeta.
  assert (zlen sz <> 0) by (destruct sz; [ congruence | apply zlen_pos ]). replace ((zlen sz =? 0) || (63 <? zlen sz)) with false by lia.
  unfold strtoull. rewrite E. f_equal. f_equal. lia.
Qed.
Lemma hex_no_cr sz n : hex_number sz n -> no_cr sz /\ 0 < zlen sz /\ (forall r, exists c t, sz ++ r = c :: t /\ c <> 13).
Proof.
  intros H. destruct (hex_digits sz n H) as (N & F & _). assert (G : no_cr sz).
  { eapply Forall_impl; [ | exact F ]. cbn beta. intros c Hc ->. discriminate Hc. }
  split; [ exact G | ]. destruct sz as [|c t]; [ congruence | ]. split; [ rewrite zlen_cons; pose proof (zlen_nonneg _ t); lia | ]. intros r. exists c, (t ++ r). split; [ reflexivity | apply Forall_inv in G; exact G ].
Qed.

(** What precedes the size: the end of the data before *)
Definition lead (pre : list Z) : Prop := pre = [] \/ pre = CRLF.
Lemma chunk_header_ok pre sz n x : lead pre -> hex_number sz n -> zlen sz <= 63 -> n < 2^64 -> 2 <= zlen x ->
  chunk_header (pre ++ sz ++ CRLF ++ x) = (ROk, zlen pre + zlen sz + 2, n).
Proof.
  intros P H L B X. destruct (hex_no_cr sz n H) as (N & Np & Hs). destruct (Hs (CRLF ++ x)) as (c & t & Ec & Nc). pose proof (hex_raw sz n H L B) as R.
  assert (Ck : forall p, (if eqo (find_crlf (pre ++ sz ++ CRLF ++ x)) 0 then 2 else 0) = p -> p = zlen pre -> chunk_header (pre ++ sz ++ CRLF ++ x) = (ROk, zlen pre + zlen sz + 2, n)).
  { intros p E Ep. unfold chunk_header. rewrite E. cbv zeta. rewrite Ep, drop_app. change (CRLF ++ x) with (13 :: 10 :: x). rewrite (crlf_found sz x N), take_app, R. rewrite Z.eqb_refl. cbn [negb].
    replace (zlen (pre ++ sz ++ 13 :: 10 :: x) <=? zlen pre + zlen sz + 2 + 1) with false; [ reflexivity | ]. rewrite (zlen_app _ pre), (zlen_app _ sz), !zlen_cons. lia. }
  destruct P as [->| ->].
  - apply (Ck 0); [ | reflexivity ]. cbn [app]. change (CRLF ++ x) with (13 :: 10 :: x). rewrite (crlf_found sz x N). unfold eqo. replace (zlen sz =? 0) with false by lia. reflexivity.
  - apply (Ck 2); reflexivity.
Qed.
Lemma chunk_header_short pre sz n x q : lead pre -> hex_number sz n -> zlen sz <= 63 -> n < 2^64 -> prefix_of q (pre ++ sz ++ CRLF ++ x) -> zlen q < zlen pre + zlen sz + 4 ->
  chunk_header q = (RIncomplete, 0, 0).
Proof.
  intros P H L B Q Lq. destruct (hex_no_cr sz n H) as (N & Np & Hs). pose proof (hex_raw sz n H L B) as R.
  (* after the lead *)
  assert (G : forall w, prefix_of w (sz ++ CRLF ++ x) -> zlen w < zlen sz + 4 -> find_crlf w = None \/ (find_crlf w = Some (zlen sz) /\ take (zlen sz) w = sz /\ zlen sz + 2 <= zlen w)).
  { intros w W Lw. destruct (Z.lt_ge_cases (zlen w) (zlen sz + 2)) as [C|C].
    - left. apply (crlf_short sz w N); [ | exact C ]. apply (prefix_short w (sz ++ CRLF) x); [ rewrite <- app_assoc; exact W | rewrite (zlen_app _ sz); change (zlen CRLF) with 2; lia ].
    - right. destruct (prefix_cut w (sz ++ CRLF) x) as (y & -> & _); [ rewrite <- app_assoc; exact W | rewrite (zlen_app _ sz); change (zlen CRLF) with 2; lia | ].
      rewrite <- app_assoc. change (CRLF ++ y) with (13 :: 10 :: y). split; [ apply crlf_found, N | split; [ apply take_app | ] ]. rewrite (zlen_app _ sz), !zlen_cons. pose proof (zlen_nonneg _ y). lia. }
  assert (K : forall w p, zlen q = p + zlen w -> (find_crlf w = None \/ (find_crlf w = Some (zlen sz) /\ take (zlen sz) w = sz /\ zlen sz + 2 <= zlen w)) -> zlen w < zlen sz + 4 ->
    drop p q = w -> (if eqo (find_crlf q) 0 then 2 else 0) = p -> chunk_header q = (RIncomplete, 0, 0)).
  { intros w p Z0 W Lw D E. unfold chunk_header. rewrite E. cbv zeta. rewrite D. destruct W as [->|(-> & -> & W)]; [ reflexivity | ]. rewrite R, Z.eqb_refl. cbn [negb].
    replace (zlen q <=? p + zlen sz + 2 + 1) with true by lia. reflexivity. }
  destruct P as [->| ->].
  - cbn [app] in Q. change (zlen (@nil Z)) with 0 in Lq. apply (K q 0); [ lia | apply G; [ exact Q | lia ] | lia | reflexivity | ].
    destruct (G q Q ltac:(lia)) as [->|(-> & _)]; [ reflexivity | ]. unfold eqo. replace (zlen sz =? 0) with false by lia. reflexivity.
  - change (zlen CRLF) with 2 in Lq. destruct (Z.lt_ge_cases (zlen q) 2) as [C|C].
    + assert (find_crlf q = None) as E by (destruct q as [|a [|b q]]; [ reflexivity | reflexivity | rewrite !zlen_cons in C; pose proof (zlen_nonneg _ q); lia ]).
      unfold chunk_header. rewrite E. cbn [eqo]. cbv zeta. rewrite drop_0, E. reflexivity.
    + destruct (prefix_cut q CRLF _ Q) as (w & -> & W); [ change (zlen CRLF) with 2; lia | ]. rewrite (zlen_app _ CRLF w) in Lq. change (zlen CRLF) with 2 in Lq.
      apply (K w 2); [ rewrite (zlen_app _ CRLF w); reflexivity | apply G; [ exact W | lia ] | lia | reflexivity | reflexivity ].
Qed.

(** ** Where the chunks are *)

Fixpoint spots (at_ : Z) (cs : list (list Z * list Z)) : list (Z * Z) :=
  match cs with [] => [] | c :: r => (at_ + zlen (fst c) + 2, zlen (snd c)) :: spots (at_ + zlen (chunk_text c)) r end.
Definition texts (cs : list (list Z * list Z)) : list Z := concat (map chunk_text cs).
Lemma texts_app a b : texts (a ++ b) = texts a ++ texts b.
Proof. unfold texts. rewrite map_app, concat_app. reflexivity. Qed.
Lemma spots_app a b : forall at_, spots at_ (a ++ b) = spots at_ a ++ spots (at_ + zlen (texts a)) b.
Proof.
  induction a as [|c a IH]; intros at_; cbn [app spots].
  - change (zlen (texts [])) with 0. rewrite Z.add_0_r. reflexivity.
  - rewrite IH. change (texts (c :: a)) with (chunk_text c ++ texts a). rewrite (zlen_app _ (chunk_text c)), Z.add_assoc. reflexivity.
Qed.
Lemma chunk_len c : zlen (chunk_text c) = zlen (fst c) + 2 + zlen (snd c) + 2.
Proof. unfold chunk_text. rewrite !zlen_app. change (zlen CRLF) with 2. lia. Qed.
(** Length of the last chunk, and the end of its data *)
Definition prev (cs : list (list Z * list Z)) : Z := match rev cs with c :: _ => zlen (snd c) | [] => 0 end.
Definition endp (h : Z) (cs : list (list Z * list Z)) : Z := h + zlen (texts cs) - match cs with [] => 0 | _ => 2 end.
Definition leadt (cs : list (list Z * list Z)) : list Z := match cs with [] => [] | _ => CRLF end.
Lemma lead_leadt cs : lead (leadt cs). Proof. destruct cs; [ left | right ]; reflexivity. Qed.
Lemma snoc_cases (cs : list (list Z * list Z)) : cs = [] \/ exists a c, cs = a ++ [c].
Proof. destruct cs as [|x r]; [ left; reflexivity | right ]. destruct (@exists_last _ (x :: r)) as (a & c & E); [ discriminate | ]. exists a, c. exact E. Qed.
Lemma endp_snoc h a c : endp h (a ++ [c]) = h + zlen (texts a) + zlen (fst c) + 2 + zlen (snd c).
Proof.
  unfold endp. rewrite texts_app, (zlen_app _ (texts a)). unfold texts at 2. cbn [map concat]. rewrite app_nil_r, chunk_len. destruct (a ++ [c]) eqn:E; [ destruct a; discriminate E | lia ].
Qed.
Lemma last_spot h cs : match last_chunk (spots h cs) with Some (s, n) => s + n = endp h cs /\ n = prev cs | None => cs = [] end.
Proof.
  destruct (snoc_cases cs) as [->|(a & c & ->)]; [ reflexivity | ]. rewrite spots_app, endp_snoc. cbn [spots]. unfold last_chunk. rewrite rev_app_distr. cbn [rev app]. unfold prev. rewrite rev_app_distr. cbn [rev app]. lia.
Qed.
Lemma prev_bound h cs : 0 <= h -> 0 <= prev cs <= endp h cs /\ h <= endp h cs - prev cs.
Proof.
  intros H. destruct (snoc_cases cs) as [->|(a & c & ->)]; [ unfold prev, endp; cbn; lia | ]. rewrite endp_snoc. unfold prev. rewrite rev_app_distr. cbn [rev app].
  pose proof (zlen_nonneg _ (texts a)). pose proof (zlen_nonneg _ (fst c)). pose proof (zlen_nonneg _ (snd c)). lia.
Qed.

Section Chunks.
  Variables (h : list Z) (cs : list (list Z * list Z)) (zero : list Z).
  Hypothesis Hcs : Forall chunk cs.
  Hypothesis Hz : hex_number zero 0 /\ zlen zero <= 63.
  Let full := h ++ chunked_text cs zero.
  Hypothesis Hfull : zlen full < 2^63.

  (** The text from the end of the data of [a] *)
  Definition tail (a b : list (list Z * list Z)) : list Z := leadt a ++ texts b ++ zero ++ CRLF ++ CRLF.
  Lemma full_split a b : cs = a ++ b -> exists front, full = front ++ tail a b /\ zlen front = endp (zlen h) a.
  Proof.
    intros E. unfold full, chunked_text. fold (texts cs). rewrite E. destruct (snoc_cases a) as [->|(a' & c & ->)].
    - exists h. split; [ reflexivity | ]. unfold endp. change (zlen (texts [])) with 0. lia.
    - exists (h ++ texts a' ++ fst c ++ CRLF ++ snd c). split.
      + unfold tail, leadt. destruct (a' ++ [c]) eqn:E0; [ destruct a'; discriminate E0 | ]. rewrite <- E0. rewrite !texts_app. unfold texts at 2. cbn [map concat]. unfold chunk_text. rewrite app_nil_r, <- !app_assoc. reflexivity.
      + rewrite endp_snoc, !zlen_app. change (zlen CRLF) with 2. lia.
  Qed.
  (** What has arrived, compared with the message *)
  Definition fits (buf : list Z) : Prop := prefix_of buf full \/ prefix_of full buf.
  Lemma fits_drop buf a b : fits buf -> cs = a ++ b -> endp (zlen h) a <= zlen buf ->
    (prefix_of (drop (endp (zlen h) a) buf) (tail a b) \/ prefix_of (tail a b) (drop (endp (zlen h) a) buf)) /\ zlen (drop (endp (zlen h) a) buf) = zlen buf - endp (zlen h) a /\
    zlen full = endp (zlen h) a + zlen (tail a b).
  Proof.
    intros F E L. destruct (full_split a b E) as (front & Ef & Lf). pose proof (zlen_nonneg _ front).
    assert (Lt : zlen full = endp (zlen h) a + zlen (tail a b)) by (rewrite Ef, (zlen_app _ front), Lf; reflexivity).
    split; [ | split; [ apply zlen_drop; lia | exact Lt ] ]. unfold fits in F. rewrite Ef in F. destruct F as [F|[r F]].
    - left. destruct (prefix_cut _ _ _ F) as (w & -> & W); [ lia | ]. rewrite drop_at by lia. exact W.
    - right. rewrite F, <- app_assoc, drop_at by lia. exists r. reflexivity.
  Qed.

  Lemma offset_small base x : 0 <= base -> 0 <= x -> base + x < 2^64 -> offset base x = x.
  Proof. intros. unfold offset. rewrite u64_small by lia. lia. Qed.

  (** One call, when there is another size to find: [sz] of [n] with [x] after it *)
  Lemma parse_chunk_some base buf a b sz n x : fits buf -> cs = a ++ b -> 0 <= base -> base + zlen full < 2^64 -> tail a b = leadt a ++ sz ++ CRLF ++ x -> hex_number sz n -> zlen sz <= 63 -> n < 2^64 -> 2 <= zlen x ->
    parse_chunk base buf (endp (zlen h) a - prev a) (spots (zlen h) a) =
    if endp (zlen h) a + zlen (leadt a) + zlen sz + 4 <=? zlen buf
    then Ok (if n =? 0 then ROk else RIncomplete, zlen (leadt a) + zlen sz + 2 + prev a, spots (zlen h) a ++ [(endp (zlen h) a + (zlen (leadt a) + zlen sz + 2), n)])
    else Ok (RIncomplete, 0, spots (zlen h) a).
  Proof.
    intros F E B0 B1 T H L N X. set (e := endp (zlen h) a). pose proof (prev_bound (zlen h) a (zlen_nonneg _ h)) as (P1 & P2). fold e in P1, P2. pose proof (zlen_nonneg _ h) as Nh.
    destruct (full_split a b E) as (front & Ef & Lf). fold e in Lf. assert (Le : e <= zlen full) by (rewrite Ef, (zlen_app _ front), Lf; pose proof (zlen_nonneg _ (tail a b)); lia).
    pose proof (zlen_nonneg _ (leadt a)) as Nl. pose proof (zlen_nonneg _ sz) as Ns.
    unfold parse_chunk. pose proof (last_spot (zlen h) a) as LS.
    assert (Ov : match last_chunk (spots (zlen h) a) with Some (s, n) => zlen buf <? offset base (s + n) | None => false end = true -> zlen buf < e).
    { destruct (last_chunk (spots (zlen h) a)) as [[s k]|]; [ | discriminate ]. destruct LS as [LS _]. rewrite LS. fold e. rewrite offset_small by lia. lia. }
    assert (Pv : match last_chunk (spots (zlen h) a) with Some (_, n) => n | None => 0 end = prev a).
    { destruct (last_chunk (spots (zlen h) a)) as [[s k]|]; [ apply LS | rewrite LS; reflexivity ]. }
    rewrite Pv. cbv zeta. replace (e - prev a + prev a) with e by lia. rewrite (offset_small base e) by lia.
    destruct (match last_chunk (spots (zlen h) a) with Some (s, n) => zlen buf <? offset base (s + n) | None => false end) eqn:O.
    { specialize (Ov eq_refl). replace (e + zlen (leadt a) + zlen sz + 4 <=? zlen buf) with false by lia. reflexivity. }
    destruct (Z.leb_spec (zlen buf) e) as [C|C].
    { replace (e + zlen (leadt a) + zlen sz + 4 <=? zlen buf) with false by lia. reflexivity. }
    replace (e <? 0) with false by lia. destruct (fits_drop buf a b F E) as (Q & Lq & Lt); [ fold e; lia | ]. fold e in Q, Lq, Lt.
    destruct (Z.leb_spec (e + zlen (leadt a) + zlen sz + 4) (zlen buf)) as [D|D].
    - assert (K : exists y, drop e buf = leadt a ++ sz ++ CRLF ++ y /\ 2 <= zlen y).
      { rewrite T in Q. destruct Q as [Q|[r Q]].
        - destruct (prefix_cut (drop e buf) (leadt a ++ sz ++ CRLF) x) as (y & Ey & _); [ rewrite <- !app_assoc; exact Q | rewrite !zlen_app; change (zlen CRLF) with 2; lia | ].
          exists y. split; [ rewrite Ey, <- !app_assoc; reflexivity | ]. rewrite Ey, !zlen_app in Lq. change (zlen CRLF) with 2 in Lq. lia.
        - exists (x ++ r). split; [ rewrite Q, <- !app_assoc; reflexivity | ]. rewrite (zlen_app _ x r). pose proof (zlen_nonneg _ r). lia. }
      destruct K as (y & -> & Ly). rewrite (chunk_header_ok (leadt a) sz n y (lead_leadt a) H L N Ly). rewrite u64_small; [ reflexivity | ]. rewrite T, !zlen_app in Lt. change (zlen CRLF) with 2 in Lt. lia.
    - assert (Q' : prefix_of (drop e buf) (leadt a ++ sz ++ CRLF ++ x)).
      { rewrite <- T. destruct Q as [Q|Q]; [ exact Q | ]. apply prefix_len in Q. rewrite T, !zlen_app in Q. change (zlen CRLF) with 2 in Q. lia. }
      rewrite (chunk_header_short (leadt a) sz n x _ (lead_leadt a) H L N Q') by lia. reflexivity.
  Qed.

  Variable pk : part.
  Hypothesis Hpk : p_chunks pk = [] /\ p_headroom pk + p_header pk = zlen h /\ 0 <= p_headroom pk /\ 0 <= p_header pk.
  Definition cp (a : list (list Z * list Z)) : part := set_chunks pk true (spots (zlen h) a) (p_data pk).
  Definition final : part := set_chunks pk true (spots (zlen h) cs ++ [(zlen full - 2, 0)]) (zlen (chunked_text cs zero)).

  Definition posn (a : list (list Z * list Z)) : Z := endp (zlen h) a - prev a.
  Lemma posn_next a c b : cs = a ++ c :: b -> posn a + (zlen (leadt a) + zlen (fst c) + 2 + prev a) = posn (a ++ [c]).
  Proof.
    intros E. unfold posn. rewrite endp_snoc. replace (prev (a ++ [c])) with (zlen (snd c)) by (unfold prev; rewrite rev_app_distr; reflexivity). unfold endp. destruct a; unfold leadt; cbn [len]; change (zlen (@nil Z)) with 0; change (zlen CRLF) with 2; lia.
  Qed.
  Lemma posn_range a b : cs = a ++ b -> 0 <= posn a <= zlen full /\ zlen h <= posn a.
  Proof.
    intros E. pose proof (prev_bound (zlen h) a (zlen_nonneg _ h)) as (P1 & P2). destruct (full_split a b E) as (front & Ef & Lf). pose proof (zlen_nonneg _ (tail a b)). pose proof (zlen_nonneg _ h).
    unfold posn. rewrite Ef, (zlen_app _ front), Lf. lia.
  Qed.
  Lemma spots_snoc a c : spots (zlen h) (a ++ [c]) = spots (zlen h) a ++ [(endp (zlen h) a + (zlen (leadt a) + zlen (fst c) + 2), zlen (snd c))].
  Proof. rewrite spots_app. cbn [spots]. f_equal. f_equal. f_equal. unfold endp, leadt. destruct a; change (zlen (@nil Z)) with 0; change (zlen CRLF) with 2; lia. Qed.

  (** A chunk more, the end, or nothing *)
  Lemma chunked_step base p buf a b : fits buf -> cs = a ++ b -> 0 <= base -> base + zlen full < 2^64 ->
    p_chunks p = spots (zlen h) a -> set_chunks p true (spots (zlen h) a) (p_data p) = cp a ->
    (zlen buf < zlen full /\ parse_chunked base p buf (posn a) = Ok (RIncomplete, cp a, 0, 0)) \/
    (exists c b' n, b = c :: b' /\ 0 < n /\ posn a + n = posn (a ++ [c]) /\ parse_chunked base p buf (posn a) = Ok (RIncomplete, cp (a ++ [c]), 0, n)) \/
    (b = [] /\ zlen full <= zlen buf /\ exists n, 0 < n /\ parse_chunked base p buf (posn a) = Ok (ROk, final, zlen full, n)).
  Proof.
    intros F E B0 B1 Ep Es. unfold parse_chunked. rewrite Ep. pose proof (posn_range a b E) as PR. pose proof (prev_bound (zlen h) a (zlen_nonneg _ h)) as (P1 & P2).
    assert (Eh : forall l d, set_chunks p true l d = set_chunks pk true l d).
    { intros l d. change (set_chunks p true l d) with (set_chunks (set_chunks p true (spots (zlen h) a) (p_data p)) true l d). rewrite Es. reflexivity. }
    assert (Ed : p_data p = p_data pk) by (change (p_data p) with (p_data (set_chunks p true (spots (zlen h) a) (p_data p))); rewrite Es; reflexivity).
    assert (Ehr : p_headroom p = p_headroom pk /\ p_header p = p_header pk) by (change (p_headroom p) with (p_headroom (set_chunks p true (spots (zlen h) a) (p_data p))); change (p_header p) with (p_header (set_chunks p true (spots (zlen h) a) (p_data p))); rewrite Es; split; reflexivity).
    destruct b as [|c b'].
    - assert (T : tail a [] = leadt a ++ zero ++ CRLF ++ CRLF) by reflexivity. unfold posn.
      rewrite (parse_chunk_some base buf a [] zero 0 CRLF F E B0 B1 T (proj1 Hz) (proj2 Hz)); [ | lia | reflexivity ].
      destruct (full_split a [] E) as (front & Ef & Lf). assert (Lt : zlen full = endp (zlen h) a + zlen (leadt a) + zlen zero + 4) by (rewrite Ef, T, !zlen_app, Lf; change (zlen CRLF) with 2; lia).
      rewrite <- Lt. destruct (Z.leb_spec (zlen full) (zlen buf)) as [C|C].
      + right. right. split; [ reflexivity | split; [ exact C | ] ]. exists (zlen (leadt a) + zlen zero + 2 + prev a). pose proof (zlen_nonneg _ (leadt a)). pose proof (zlen_nonneg _ zero). split; [ lia | ].
        change (0 =? 0) with true. cbv iota. rewrite app_nil_r in E. subst a. unfold last_chunk. rewrite rev_app_distr. cbn [rev app]. cbv beta iota.
        pose proof (zlen_nonneg _ (chunked_text cs zero)) as NT. pose proof (zlen_nonneg _ h).
        replace (endp (zlen h) cs + (zlen (leadt cs) + zlen zero + 2) + 2) with (zlen full) by lia. replace (endp (zlen h) cs + (zlen (leadt cs) + zlen zero + 2)) with (zlen full - 2) by lia.
        rewrite (u64_small (zlen full)) by lia. rewrite Eh. unfold final. destruct Ehr as [-> ->]. destruct Hpk as (_ & Hk1 & Hk2 & Hk3).
        replace (zlen full - p_header pk - p_headroom pk) with (zlen (chunked_text cs zero)) by (unfold full; rewrite (zlen_app _ h); lia).
        assert (zlen (chunked_text cs zero) <= zlen full) by (unfold full; rewrite (zlen_app _ h); lia). rewrite u64_small by lia. reflexivity.
      + left. split; [ exact C | ]. rewrite Eh, Ed. reflexivity.
    - assert (Hc : chunk c) by (rewrite E in Hcs; apply Forall_app in Hcs; destruct Hcs as [_ Hc]; apply Forall_inv in Hc; exact Hc). destruct Hc as (Hx & Hl & Hn).
      set (x := snd c ++ CRLF ++ texts b' ++ zero ++ CRLF ++ CRLF).
      assert (T : tail a (c :: b') = leadt a ++ fst c ++ CRLF ++ x).
      { unfold tail. change (texts (c :: b')) with (chunk_text c ++ texts b'). unfold chunk_text, x. rewrite <- !app_assoc. reflexivity. }
      assert (X : 2 <= zlen x) by (subst x; rewrite !zlen_app; change (zlen CRLF) with 2; pose proof (zlen_nonneg _ (snd c)); pose proof (zlen_nonneg _ (texts b')); pose proof (zlen_nonneg _ zero); lia).
      destruct (full_split a (c :: b') E) as (front & Ef & Lf). pose proof (zlen_nonneg _ front).
      assert (Lt : zlen full = endp (zlen h) a + zlen (leadt a) + zlen (fst c) + 2 + zlen x) by (rewrite Ef, T, !zlen_app, Lf; change (zlen CRLF) with 2; lia).
      assert (Lx : zlen (snd c) <= zlen x) by (subst x; rewrite (zlen_app _ (snd c)); pose proof (zlen_nonneg _ (CRLF ++ texts b' ++ zero ++ CRLF ++ CRLF)); lia).
      pose proof (zlen_nonneg _ (leadt a)). pose proof (zlen_nonneg _ (fst c)).
      unfold posn. rewrite (parse_chunk_some base buf a (c :: b') (fst c) (zlen (snd c)) x F E B0 B1 T Hx Hl); [ | lia | exact X ].
      assert (zlen (snd c) <> 0) by (destruct (snd c); [ congruence | apply zlen_pos ]). replace (zlen (snd c) =? 0) with false by lia.
      destruct (Z.leb_spec (endp (zlen h) a + zlen (leadt a) + zlen (fst c) + 4) (zlen buf)) as [C|C].
      + right. left. exists c, b', (zlen (leadt a) + zlen (fst c) + 2 + prev a). split; [ reflexivity | split; [ lia | split; [ exact (posn_next a c b' E) | ] ] ].
        rewrite <- spots_snoc, Eh, Ed. reflexivity.
      + left. split; [ lia | ]. rewrite Eh, Ed. reflexivity.
  Qed.
  (** The loop *)
  Lemma chunked_loop base request buf : fits buf -> 0 <= base -> base + zlen full < 2^64 -> forall b a fuel, cs = a ++ b -> (len b < fuel)%nat ->
    if zlen full <=? zlen buf then exists pos, parse_loop fuel base request (cp a) buf (posn a) = Ok (Some (ROk, final, zlen full, pos))
    else exists a' b', cs = a' ++ b' /\ parse_loop fuel base request (cp a) buf (posn a) = Ok (Some (RIncomplete, cp a', 0, posn a')).
  Proof.
    intros F B0 B1. induction b as [|c0 b IH]; intros a fuel E Fu; rewrite parse_loop_eq; unfold part_parse; change (p_chunked (cp a)) with true; cbv iota;
    (destruct (chunked_step base (cp a) buf a _ F E B0 B1 eq_refl eq_refl) as [[C ->]|[(c & b' & n & Eb & N & Pn & ->)|(Eb & C & n & N & ->)]]).
    - replace (zlen full <=? zlen buf) with false by lia. exists a, []. split; [ exact E | ]. cbv zeta. change (0 =? 0) with true. cbv iota. rewrite Z.add_0_r, u64_small by (pose proof (posn_range a [] E); lia). reflexivity.
    - discriminate Eb.
    - replace (zlen full <=? zlen buf) with true by lia. eexists. cbv zeta. reflexivity.
    - replace (zlen full <=? zlen buf) with false by lia. exists a, (c0 :: b). split; [ exact E | ]. cbv zeta. change (0 =? 0) with true. cbv iota. rewrite Z.add_0_r, u64_small by (pose proof (posn_range a _ E); lia). reflexivity.
    - injection Eb as <- <-. cbv zeta. replace (n =? 0) with false by lia. rewrite Pn.
      assert (E' : cs = (a ++ [c0]) ++ b) by (rewrite E, <- app_assoc; reflexivity). rewrite u64_small by (pose proof (posn_range _ _ E'); lia).
      destruct fuel as [|fuel]; [ cbn [len] in Fu; lia | ]. cbn [len] in Fu. apply (IH (a ++ [c0]) fuel E'). lia.
    - discriminate Eb.
  Qed.
End Chunks.
