(** Lemmas about the receiving of HTTP/1 messages made of chunks: arrivals and bodies. *)
From Coq Require Import Strings.String.
From Coq Require Import ZArith List Bool Lia.
From Verif Require Import Common MsgModel ReadModel Base64Model Dec HttpUtilModel HttpUtilSpec HttpUtilProofs HttpUriProofs Http1Model Http1Spec Http1Proofs Http1HeadProofs Http1RecvProofs Http1FrameProofs Http1MsgProofs Http1ChunkProofs.
Import ListNotations.
Open Scope Z_scope.

(** ** Arrivals *)

Definition placed (n : Z) (a : Z * list Z) : Prop := zlen (snd a) < 2^31 /\ 0 <= fst a /\ fst a + n < 2^64.
Section Arrivals.
  Variables (request : bool) (line : list Z) (p0 : part) (fs : list sfield) (cs : list (list Z * list Z)) (zero : list Z) (pk : part).
  Hypothesis Hfs : Forall simple_field fs.
  Hypothesis Hlen : zlen (head line fs) <= 65536.
  Hypothesis Hline : 0 < zlen line.
  Hypothesis Hp0 : fresh p0 (zlen line).
  Hypothesis Hline_full : forall base r, part_parse base request new_part (line ++ r) 0 = parse_header base request p0 (line ++ r) 0 (zlen line).
  Hypothesis Hline_short : forall base q, prefix_of q line -> zlen q < zlen line -> part_parse base request new_part q 0 = Ok (RIncomplete, new_part, 0, 0).
  Let h := head line fs.
  Hypothesis Hcs : Forall chunk cs.
  Hypothesis Hz : hex_number zero 0 /\ zlen zero <= 63.
  Let full := h ++ chunked_text cs zero.
  Hypothesis Hfull : zlen full < 2^63.
  Hypothesis Hpk : p_chunks pk = [] /\ p_headroom pk + p_header pk = zlen h /\ 0 <= p_headroom pk /\ 0 <= p_header pk.
  Hypothesis Hun : p_unknown pk = false.
  Hypothesis Haf : forall base buf pos total, after request p0 fs base buf pos total =
    match parse_chunked base pk buf (u64 (pos + total)) with
    | Ok (r, p', t, n) => Ok (r, p', t, u64 (total + n))
    | Bug => Bug | Ub => Ub
    end.
  Let fin := final h cs zero pk.
  Hypothesis Hval : request = true -> validate_request fin = Ok true.

  Lemma h_pos : 0 < zlen h <= 65536 /\ zlen h <= zlen full.
  Proof. destruct (head_bounds line fs) as [_ H]. fold h in H. unfold full. rewrite (zlen_app _ h). pose proof (zlen_nonneg _ (chunked_text cs zero)). fold h in Hlen. lia. Qed.
  Lemma posn_nil : posn h [] = zlen h.
  Proof. unfold posn, endp, prev. change (zlen (texts [])) with 0. cbn [rev]. lia. Qed.

  Lemma first_loop base p buf pos total fuel : fits h cs zero buf -> 0 <= base -> base + zlen full < 2^64 -> 0 <= pos -> 0 < total -> pos + total = zlen h ->
    part_parse base request p buf pos = after request p0 fs base buf pos total -> (len cs + 1 < fuel)%nat ->
    if zlen full <=? zlen buf then exists pos', parse_loop fuel base request p buf pos = Ok (Some (ROk, fin, zlen full, pos'))
    else exists a' b', cs = a' ++ b' /\ parse_loop fuel base request p buf pos = Ok (Some (RIncomplete, cp h pk a', 0, posn h a')).
  Proof.
    intros F B0 B1 P0 T0 PT PP Fu. pose proof h_pos as [HP HF]. rewrite parse_loop_eq, PP, Haf, PT, u64_small by lia. rewrite <- posn_nil.
    assert (Es : set_chunks pk true (spots (zlen h) []) (p_data pk) = cp h pk []) by reflexivity.
    destruct (chunked_step h cs zero Hcs Hz Hfull pk Hpk base pk buf [] cs F eq_refl B0 B1 (proj1 Hpk) Es) as [[C ->]|[(c & b' & n & Eb & N & Pn & ->)|(Eb & C & n & N & ->)]].
    - fold full in C. replace (u64 (total + 0)) with total by (rewrite Z.add_0_r, u64_small by lia; reflexivity). cbv zeta. replace (total =? 0) with false by lia. destruct fuel as [|fuel]; [ lia | ].
      rewrite PT, u64_small by lia. rewrite <- posn_nil. exact (chunked_loop h cs zero Hcs Hz Hfull pk Hpk base request buf F B0 B1 cs [] fuel eq_refl ltac:(lia)).
    - rewrite posn_nil in Pn. destruct (posn_range h cs zero ([] ++ [c]) b') as [R1 R2]; [ rewrite Eb; reflexivity | ]. fold full in R1. cbv zeta. rewrite (u64_small (total + n)) by lia. replace (total + n =? 0) with false by lia. destruct fuel as [|fuel]; [ lia | ].
      replace (pos + (total + n)) with (posn h ([] ++ [c])) by lia. rewrite u64_small by lia.
      exact (chunked_loop h cs zero Hcs Hz Hfull pk Hpk base request buf F B0 B1 b' ([] ++ [c]) fuel Eb ltac:(rewrite Eb in Fu; cbn [len] in Fu; lia)).
    - fold full in C. replace (zlen full <=? zlen buf) with true by lia. eexists. cbv zeta. reflexivity.
  Qed.

  (** Verdict after the loop *)
  Lemma size_after fuel base s buf p r p' t pos : (if request && (snd s =? 0) then new_part else fst s) = p -> parse_loop fuel base request p buf (snd s) = Ok (Some (r, p', t, pos)) ->
    (r = ROk /\ p' = fin \/ r = RIncomplete /\ p_unknown p' = false) ->
    get_target_size fuel base request s buf = Ok (Some (match r with ROk => (Message t, (p', 0)) | _ => (NeedMore, (p', pos)) end)).
  Proof.
    intros E L D. unfold get_target_size. rewrite E, L. destruct D as [[-> ->]|[-> U]].
    - destruct request; [ rewrite (Hval eq_refl) | ]; reflexivity.
    - rewrite U. reflexivity.
  Qed.

  Lemma receive_rest fuel arrivals : forall a b buf, cs = a ++ b -> (len cs + 1 < fuel)%nat -> Forall (placed (zlen full)) arrivals -> prefix_of buf full -> zlen buf < zlen full ->
    (prefix_of (buf ++ octets_of arrivals) full /\ zlen (buf ++ octets_of arrivals) < zlen full -> exists p, receive fuel request (cp h pk a, posn h a) buf arrivals = Ok (Some (NeedMore, p))) /\
    (prefix_of full (buf ++ octets_of arrivals) -> receive fuel request (cp h pk a, posn h a) buf arrivals = Ok (Some (Message (zlen full), fin))).
  Proof.
    pose proof h_pos as [HP HF].
    induction arrivals as [|[base d] r IH]; intros a b buf E Fu A P L.
    - change (octets_of []) with (@nil Z). rewrite app_nil_r. split; [ intros _; eexists; reflexivity | ]. intros Q. apply prefix_len in Q. lia.
    - change (octets_of ((base, d) :: r)) with (d ++ octets_of r). rewrite app_assoc. pose proof (Forall_inv A) as (A0 & B0 & B1). pose proof (Forall_inv_tail A) as A2. cbn [fst snd] in A0, B0, B1.
      destruct (posn_range h cs zero a b E) as [R1 R2].
      assert (Ep : (if request && (snd (cp h pk a, posn h a) =? 0) then new_part else fst (cp h pk a, posn h a)) = cp h pk a).
      { cbn [fst snd]. replace (posn h a =? 0) with false by lia. rewrite andb_false_r. reflexivity. }
      assert (Len : (len b <= len cs)%nat) by (rewrite E, app_length; lia).
      assert (Step : fits h cs zero (buf ++ d) ->
        (zlen full <= zlen (buf ++ d) /\ receive fuel request (cp h pk a, posn h a) buf ((base, d) :: r) = Ok (Some (Message (zlen full), fin))) \/
        (zlen (buf ++ d) < zlen full /\ exists a' b', cs = a' ++ b' /\ receive fuel request (cp h pk a, posn h a) buf ((base, d) :: r) = receive fuel request (cp h pk a', posn h a') (buf ++ d) r)).
      { intros F. pose proof (chunked_loop h cs zero Hcs Hz Hfull pk Hpk base request (buf ++ d) F B0 B1 b a fuel E ltac:(lia)) as K. fold full in K. cbn [receive].
        destruct (Z.leb_spec (zlen full) (zlen (buf ++ d))) as [C|C].
        - left. split; [ exact C | ]. destruct K as [pos K]. rewrite (size_after fuel base _ _ _ _ _ _ _ Ep K); [ reflexivity | left; split; reflexivity ].
        - right. split; [ exact C | ]. destruct K as (a' & b' & E' & K). exists a', b'. split; [ exact E' | ]. rewrite (size_after fuel base _ _ _ _ _ _ _ Ep K); [ reflexivity | right; split; [ reflexivity | exact Hun ] ]. }
      split.
      + intros [Q Lq]. assert (Q1 : prefix_of (buf ++ d) full) by (destruct Q as [x Qx]; exists (octets_of r ++ x); rewrite Qx, <- !app_assoc; reflexivity).
        rewrite (zlen_app _ (buf ++ d)) in Lq. pose proof (zlen_nonneg _ (octets_of r)).
        destruct (Step (or_introl Q1)) as [[C _]|[C (a' & b' & E' & ->)]]; [ lia | ]. apply (IH a' b' (buf ++ d) E' Fu A2 Q1 C). split; [ exact Q | rewrite (zlen_app _ (buf ++ d)); lia ].
      + intros Q. assert (F : fits h cs zero (buf ++ d)).
        { unfold fits. fold full. destruct Q as [x Qx]. destruct (Z.le_gt_cases (zlen (buf ++ d)) (zlen full)) as [C|C].
          - left. apply (prefix_short _ full x); [ | exact C ]. exists (octets_of r). rewrite <- Qx. reflexivity.
          - right. destruct (prefix_cut (buf ++ d) full x) as (y & Ey & _); [ exists (octets_of r); rewrite <- Qx; reflexivity | lia | exists y; exact Ey ]. }
        destruct (Step F) as [[C ->]|[C (a' & b' & E' & ->)]]; [ reflexivity | ]. apply (IH a' b' (buf ++ d) E' Fu A2); [ | exact C | exact Q ].
        destruct F as [F|F]; [ exact F | ]. apply prefix_len in F. fold full in F. lia.
  Qed.

  Lemma receive_chunked fuel arrivals : (len cs + 1 < fuel)%nat -> Forall (placed (zlen full)) arrivals ->
    (prefix_of (octets_of arrivals) full -> zlen (octets_of arrivals) < zlen full -> exists p, receive fuel request (new_part, 0) [] arrivals = Ok (Some (NeedMore, p))) /\
    (prefix_of full (octets_of arrivals) -> receive fuel request (new_part, 0) [] arrivals = Ok (Some (Message (zlen full), fin))).
  Proof.
    intros Fu A. pose proof h_pos as [HP HF].
    assert (A' : Forall (fun a => zlen (snd a) < 2^31) arrivals) by (eapply Forall_impl; [ | exact A ]; intros x (X & _); exact X).
    assert (Go : forall (ok : prefix_of h (octets_of arrivals)) (c : prefix_of (octets_of arrivals) full \/ prefix_of full (octets_of arrivals)),
      (prefix_of (octets_of arrivals) full /\ zlen (octets_of arrivals) < zlen full -> exists p, receive fuel request (new_part, 0) [] arrivals = Ok (Some (NeedMore, p))) /\
      (prefix_of full (octets_of arrivals) -> receive fuel request (new_part, 0) [] arrivals = Ok (Some (Message (zlen full), fin)))).
    { intros Ph Cmp.
      destruct (receive_head request line p0 fs Hfs Hlen Hline Hp0 Hline_full Hline_short fuel arrivals (new_part, 0) [] (inv_start line p0 fs Hline) Ph ltac:(lia) A')
        as (s' & before & base & d & aft & I1 & _ & [r Er] & Eo & Ld & In1 & (front & Efr) & R).
      rewrite R. clear R. cbn [app] in Eo. change (octets arrivals) with (octets_of arrivals) in Eo. change (octets aft) with (octets_of aft) in Eo.
      assert (Pl : placed (zlen full) (base, d)) by (rewrite Forall_forall in A; exact (A _ In1)). destruct Pl as (_ & B0 & B1). cbn [fst] in B0, B1.
      assert (Aaft : Forall (placed (zlen full)) aft) by (rewrite Efr in A; apply Forall_app in A; destruct A as [_ A]; exact (Forall_inv_tail A)).
      destruct (step_full request line p0 fs Hfs Hlen Hline Hp0 Hline_full Hline_short base s' before d r I1 Er Ld) as (p1 & total & Ep & S0 & T0 & ST & PP).
      rewrite <- Er in PP.
      assert (F : fits h cs zero (before ++ d)).
      { unfold fits. fold full. rewrite app_assoc in Eo. destruct Cmp as [[x Cx]|[x Cx]].
        - left. exists (octets_of aft ++ x). rewrite Cx, <- Eo, <- !app_assoc. reflexivity.
        - rewrite Cx in Eo. destruct (Z.le_gt_cases (zlen (before ++ d)) (zlen full)) as [C|C].
          + left. apply (prefix_short _ full x); [ exists (octets_of aft); symmetry; exact Eo | exact C ].
          + right. destruct (prefix_cut (before ++ d) full x) as (y & Ey & _); [ exists (octets_of aft); symmetry; exact Eo | lia | exists y; exact Ey ]. }
      pose proof (first_loop base p1 (before ++ d) (snd s') total fuel F B0 B1 S0 T0 ST PP Fu) as K.
      rewrite app_assoc in Eo.
      destruct (Z.leb_spec (zlen full) (zlen (before ++ d))) as [C|C].
      - destruct K as [pos K]. rewrite (size_after fuel base _ _ _ _ _ _ _ Ep K) by (left; split; reflexivity). split; [ | reflexivity ]. intros [_ L]. rewrite <- Eo, (zlen_app _ (before ++ d)) in L. pose proof (zlen_nonneg _ (octets_of aft)). lia.
      - destruct K as (a' & b' & E' & K). rewrite (size_after fuel base _ _ _ _ _ _ _ Ep K) by (right; split; [ reflexivity | exact Hun ]). rewrite <- Eo.
        apply (receive_rest fuel aft a' b' (before ++ d) E' Fu Aaft); [ | exact C ]. destruct F as [F|F]; [ exact F | apply prefix_len in F; fold full in F; lia ]. }
    split.
    - intros P L. destruct (Z.lt_ge_cases (zlen (octets_of arrivals)) (zlen h)) as [C|C].
      + apply (receive_short request line p0 fs Hfs Hlen Hline Hp0 Hline_full Hline_short fuel arrivals (new_part, 0) [] (inv_start line p0 fs Hline)); [ | exact C | lia ].
        apply (prefix_short _ h (chunked_text cs zero)); [ exact P | apply Z.lt_le_incl; exact C ].
      + destruct (prefix_cut (octets_of arrivals) h (chunked_text cs zero) P C) as (y & Ey & _). apply Go; [ exists y; exact Ey | left; exact P | split; assumption ].
    - intros P. apply Go; [ | right; exact P | exact P ]. destruct P as [x Px]. exists (chunked_text cs zero ++ x). rewrite Px. unfold full. rewrite <- app_assoc. reflexivity.
  Qed.
End Arrivals.

(** ** Bodies *)

Lemma chunk_data_ok base data_end data rest : forall cs front last, data = front ++ texts cs ++ rest -> 0 <= base -> base + zlen data < 2^64 -> data_end = zlen data -> 0 <= last <= zlen data ->
  chunk_data base data_end data (spots (zlen front) cs ++ [(last, 0)]) = Ok (chunked_body cs).
Proof.
  induction cs as [|c cs IH]; intros front last E B0 B1 De L.
  - cbn [spots app chunk_data]. rewrite !offset_small by lia. replace (data_end <? last + 0) with false by lia. unfold region. replace ((last <? 0) || (0 <? 0) || (zlen data <? last + 0)) with false by lia. reflexivity.
  - cbn [spots app chunk_data]. change (texts (c :: cs)) with (chunk_text c ++ texts cs) in E.
    assert (E1 : data = (front ++ fst c ++ CRLF) ++ snd c ++ (CRLF ++ texts cs ++ rest)) by (rewrite E; unfold chunk_text; rewrite <- !app_assoc; reflexivity).
    assert (E2 : data = (front ++ chunk_text c) ++ texts cs ++ rest) by (rewrite E, <- !app_assoc; reflexivity).
    assert (Lf : zlen (front ++ fst c ++ CRLF) = zlen front + zlen (fst c) + 2) by (rewrite !zlen_app; change (zlen CRLF) with 2; lia).
    assert (Ld : zlen data = zlen front + zlen (fst c) + 2 + zlen (snd c) + zlen (CRLF ++ texts cs ++ rest)) by (rewrite E1 at 1; rewrite (zlen_app _ (front ++ fst c ++ CRLF)), (zlen_app _ (snd c)), Lf; lia).
    pose proof (zlen_nonneg _ (CRLF ++ texts cs ++ rest)). pose proof (zlen_nonneg _ front). pose proof (zlen_nonneg _ (fst c)). pose proof (zlen_nonneg _ (snd c)).
    rewrite !offset_small by lia. replace (data_end <? zlen front + zlen (fst c) + 2 + zlen (snd c)) with false by lia.
    assert (R : region data (zlen front + zlen (fst c) + 2) (zlen (snd c)) = Ok (snd c)).
    { unfold region. replace ((zlen front + zlen (fst c) + 2 <? 0) || (zlen (snd c) <? 0) || (zlen data <? zlen front + zlen (fst c) + 2 + zlen (snd c))) with false by lia.
      rewrite E1, drop_at by lia. rewrite take_app. reflexivity. }
    rewrite R. replace (zlen front + zlen (chunk_text c)) with (zlen (front ++ chunk_text c)) by (rewrite zlen_app; reflexivity).
    rewrite (IH (front ++ chunk_text c) last E2 B0 B1 De L). reflexivity.
Qed.
Lemma merged_ok base data rest : forall cs front last size, data = front ++ texts cs ++ rest -> 0 <= base -> base + zlen data < 2^64 -> 0 <= last <= zlen data -> 0 <= size <= zlen front -> 
  merged base data size (spots (zlen front) cs ++ [(last, 0)]) = Ok (Some (chunked_body cs)).
Proof.
  induction cs as [|c cs IH]; intros front last size E B0 B1 L Sz; pose proof (zlen_nonneg _ front) as Nf; pose proof (zlen_nonneg _ data) as Nd.
  - assert (zlen front <= zlen data) by (rewrite E, (zlen_app _ front); pose proof (zlen_nonneg _ (texts [] ++ rest)); lia).
    cbn [spots app merged]. rewrite u64_small by lia. replace (size + 0 <? 0) with false by lia. rewrite !offset_small by lia. unfold region. replace ((last <? 0) || (0 <? 0) || (zlen data <? last + 0)) with false by lia. reflexivity.
  - cbn [spots app merged]. change (texts (c :: cs)) with (chunk_text c ++ texts cs) in E.
    assert (E1 : data = (front ++ fst c ++ CRLF) ++ snd c ++ (CRLF ++ texts cs ++ rest)) by (rewrite E; unfold chunk_text; rewrite <- !app_assoc; reflexivity).
    assert (E2 : data = (front ++ chunk_text c) ++ texts cs ++ rest) by (rewrite E, <- !app_assoc; reflexivity).
    assert (Lf : zlen (front ++ fst c ++ CRLF) = zlen front + zlen (fst c) + 2) by (rewrite !zlen_app; change (zlen CRLF) with 2; lia).
    assert (Ld : zlen data = zlen front + zlen (fst c) + 2 + zlen (snd c) + zlen (CRLF ++ texts cs ++ rest)) by (rewrite E1 at 1; rewrite (zlen_app _ (front ++ fst c ++ CRLF)), (zlen_app _ (snd c)), Lf; lia).
    pose proof (zlen_nonneg _ (CRLF ++ texts cs ++ rest)). pose proof (zlen_nonneg _ (fst c)). pose proof (zlen_nonneg _ (snd c)).
    rewrite u64_small by lia. replace (size + zlen (snd c) <? zlen (snd c)) with false by lia. rewrite !offset_small by lia.
    assert (R : region data (zlen front + zlen (fst c) + 2) (zlen (snd c)) = Ok (snd c)).
    { unfold region. replace ((zlen front + zlen (fst c) + 2 <? 0) || (zlen (snd c) <? 0) || (zlen data <? zlen front + zlen (fst c) + 2 + zlen (snd c))) with false by lia.
      rewrite E1, drop_at by lia. rewrite take_app. reflexivity. }
    rewrite R. replace (zlen front + zlen (chunk_text c)) with (zlen (front ++ chunk_text c)) by (rewrite zlen_app; reflexivity).
    rewrite (IH (front ++ chunk_text c) last (size + zlen (snd c)) E2 B0 B1 L); [ reflexivity | ]. rewrite zlen_app, chunk_len. lia.
Qed.

Section Bodies.
  Variables (h : list Z) (cs : list (list Z * list Z)) (zero : list Z) (pk : part).
  Hypothesis Hpk : p_headroom pk + p_header pk = zlen h.
  Let full := h ++ chunked_text cs zero.
  Lemma full_bounds : zlen full = zlen h + zlen (chunked_text cs zero) /\ 2 <= zlen (chunked_text cs zero).
  Proof.
    split; [ unfold full; apply zlen_app | ]. unfold chunked_text. rewrite !zlen_app. change (zlen CRLF) with 2. pose proof (zlen_nonneg _ (concat (map chunk_text cs))). pose proof (zlen_nonneg _ zero). lia.
  Qed.
  Lemma iterate_ok base : 0 <= base -> base + zlen full < 2^64 -> chunks_iterate base (final h cs zero pk) full = Ok (chunked_body cs).
  Proof.
    intros B0 B1. destruct full_bounds as [L1 L2]. pose proof (zlen_nonneg _ h). unfold chunks_iterate. cbn [final set_chunks p_headroom p_header p_data p_chunks]. rewrite Hpk.
    assert (De : offset base (zlen h + zlen (chunked_text cs zero)) = zlen full) by (rewrite offset_small; lia). rewrite De.
    destruct (spots (zlen h) cs ++ [(zlen (h ++ chunked_text cs zero) - 2, 0)]) as [|x y] eqn:E; [ destruct (spots (zlen h) cs); discriminate E | ]. rewrite <- E. fold full.
    apply (chunk_data_ok base (zlen full) full (zero ++ CRLF ++ CRLF) cs h (zlen full - 2)); [ reflexivity | exact B0 | exact B1 | reflexivity | lia ].
  Qed.
  Lemma merge_bad base : 0 <= base -> base + zlen full < 2^64 -> 0 < zlen h -> request_body base (final h cs zero pk) full = Ub.
  Proof.
    intros B0 B1 Hp. destruct full_bounds as [L1 L2]. unfold request_body, chunks_merge. cbn [final set_chunks p_headroom p_header p_data p_chunks p_chunked negb]. rewrite Hpk. fold full.
    rewrite (merged_ok base full (zero ++ CRLF ++ CRLF) cs h (zlen full - 2) (zlen h)); [ | reflexivity | exact B0 | exact B1 | lia | lia ].
    assert (R : region full 0 (zlen h) = Ok h).
    { unfold region. replace ((0 <? 0) || (zlen h <? 0) || (zlen full <? 0 + zlen h)) with false by lia. rewrite drop_0. unfold full. rewrite take_app. reflexivity. }
    rewrite R. cbv zeta. cbn [final set_chunks p_headroom p_header p_data]. rewrite Hpk. unfold region. pose proof (zlen_nonneg _ (h ++ chunked_body cs)).
    replace ((zlen h <? 0) || (zlen (h ++ chunked_body cs) <? 0) || (zlen (h ++ chunked_body cs) <? zlen h + zlen (h ++ chunked_body cs))) with true by lia. reflexivity.
  Qed.
End Bodies.
