(** Lemmas about the receiving of HTTP/1 messages: arrivals up to the end of the header. *)
From Coq Require Import Strings.String.
From Coq Require Import ZArith List Bool Lia.
From Verif Require Import Common MsgModel ReadModel Base64Model Dec HttpUtilModel HttpUtilSpec HttpUtilProofs HttpUriProofs Http1Model Http1Spec Http1Proofs Http1HeadProofs Http1RecvProofs.
Import ListNotations.
Open Scope Z_scope.

Lemma u64_small x : 0 <= x < 2^64 -> u64 x = x.
Proof. intros H. unfold u64. apply Z.mod_small. exact H. Qed.
Lemma parse_loop_eq fuel base request p buf pos : parse_loop fuel base request p buf pos =
  match part_parse base request p buf pos with
  | Bug => Bug | Ub => Ub
  | Ok (r, p', t, n) =>
      let pos' := u64 (pos + n) in
      match r with
      | RIncomplete =>
          if n =? 0 then Ok (Some (r, p', t, pos'))
          else match fuel with S f => parse_loop f base request p' buf pos' | O => Ok None end
      | _ => Ok (Some (r, p', t, pos'))
      end
  end.
Proof. destruct fuel; reflexivity. Qed.

(** The part after the first line *)
Definition fresh (p : part) (n : Z) : Prop :=
  p_app p = true /\ p_headers p = [] /\ p_complete p = false /\ p_chunked p = false /\ p_unknown p = false /\ p_headroom p = n /\ p_header p = 0 /\ p_chunks p = [] /\ p_data p = 0.

Section Head.
  Variables (request : bool) (line : list Z) (p0 : part) (fs : list sfield).
  Hypothesis Hfs : Forall simple_field fs.
  Hypothesis Hlen : zlen (head line fs) <= 65536.
  Hypothesis Hline : 0 < zlen line.
  Hypothesis Hp0 : fresh p0 (zlen line).
  Hypothesis Hfull : forall base r, part_parse base request new_part (line ++ r) 0 = parse_header base request p0 (line ++ r) 0 (zlen line).
  Hypothesis Hshort : forall base q, prefix_of q line -> zlen q < zlen line -> part_parse base request new_part q 0 = Ok (RIncomplete, new_part, 0, 0).

  Definition hp (a : list sfield) : part := set_headers p0 (map stored a) (zlen (field_lines a)) false.
  Definition done : part := set_headers p0 (map stored fs) (zlen (field_lines fs) + 2) true.

  Lemma head_len : zlen (head line fs) = zlen line + zlen (field_lines fs) + 2.
  Proof. unfold head. rewrite (zlen_app _ line), (zlen_app _ (field_lines fs)). change (zlen CRLF) with 2. lia. Qed.
  Lemma part_len a b : fs = a ++ b -> 0 <= zlen (field_lines a) /\ 0 <= zlen (field_lines b) /\ zlen line + zlen (field_lines a) + zlen (field_lines b) + 2 <= 65536.
  Proof.
    intros E. pose proof Hlen as K. rewrite head_len, E, lines_app, (zlen_app _ (field_lines a)) in K.
    pose proof (zlen_nonneg _ (field_lines a)). pose proof (zlen_nonneg _ (field_lines b)). lia.
  Qed.
  Lemma hp_nil : hp [] = p0.
  Proof.
    destruct Hp0 as (A1 & A2 & A3 & A4 & A5 & A6 & A7 & A8 & A9). unfold hp, set_headers. cbn [map]. change (zlen (field_lines [])) with 0. rewrite A7.
    change (u64 (0 + 0)) with 0. destruct p0; cbn in *; subst; reflexivity.
  Qed.
  Lemma hp_more a a' b : fs = a ++ a' ++ b -> set_headers (hp a) (map stored a ++ map stored a') (zlen (field_lines a')) false = hp (a ++ a').
  Proof.
    intros E. destruct (part_len a (a' ++ b) E) as (L1 & L2 & L3). rewrite lines_app, (zlen_app _ (field_lines a')) in L2, L3.
    pose proof (zlen_nonneg _ (field_lines a')). pose proof (zlen_nonneg _ (field_lines b)).
    destruct Hp0 as (A1 & A2 & A3 & A4 & A5 & A6 & A7 & A8 & A9). unfold hp, set_headers. cbn. rewrite A7, map_app, lines_app, (zlen_app _ (field_lines a)).
    f_equal. rewrite (u64_small (0 + zlen (field_lines a))) by lia. rewrite !u64_small; lia.
  Qed.
  Lemma hp_done a b : fs = a ++ b -> set_headers (hp a) (map stored a ++ map stored b) (zlen (field_lines b) + 2) true = done.
  Proof.
    intros E. destruct (part_len a b E) as (L1 & L2 & L3).
    destruct Hp0 as (A1 & A2 & A3 & A4 & A5 & A6 & A7 & A8 & A9). unfold done, hp, set_headers. cbn. rewrite A7, E, map_app, lines_app, (zlen_app _ (field_lines a)).
    f_equal. rewrite (u64_small (0 + zlen (field_lines a))) by lia. rewrite !u64_small; lia.
  Qed.
  Lemma hp_headroom a : p_headroom (hp a) = zlen line. Proof. apply Hp0. Qed.

  Lemma simple_part a b : fs = a ++ b -> Forall simple_field a /\ Forall simple_field b.
  Proof. intros E. apply Forall_app. rewrite <- E. exact Hfs. Qed.

  Lemma header_short base a b q pos total : fs = a ++ b -> prefix_of q (field_lines b ++ CRLF) -> zlen q < zlen (field_lines b) + 2 ->
    pos + total = zlen line + zlen (field_lines a) ->
    exists a' b' q', b = a' ++ b' /\ q = field_lines a' ++ q' /\ stuck q' /\ prefix_of q' (field_lines b' ++ CRLF) /\ zlen q' < zlen (field_lines b') + 2 /\
      parse_header base request (hp a) (line ++ field_lines a ++ q) pos total = Ok (RIncomplete, hp (a ++ a'), 0, total + zlen (field_lines a')).
  Proof.
    intros E P L T. destruct (part_len a b E) as (L1 & L2 & L3). destruct (simple_part a b E) as [Sa Sb].
    set (buf := line ++ field_lines a ++ q).
    destruct (fields_part b (len buf) q 0 (map stored a) Sb) as (a' & b' & q' & Eb & Eq & St & F); [ subst buf; rewrite !app_length; lia | exact P | exact L | | ].
    { rewrite (zlen_app _ (field_lines b)). change (zlen CRLF) with 2. lia. }
    exists a', b', q'. split; [ exact Eb | split; [ exact Eq | split; [ exact St | ] ] ].
    rewrite Eq, Eb, lines_app, <- app_assoc in P. rewrite Eq, Eb, lines_app, (zlen_app _ (field_lines a') q'), (zlen_app _ (field_lines a')) in L.
    destruct (prefix_cut _ _ _ P) as (x & Ex & Px); [ rewrite (zlen_app _ (field_lines a')); pose proof (zlen_nonneg _ q'); lia | ].
    apply app_inv_head in Ex. subst x. split; [ exact Px | split; [ lia | ] ].
    unfold parse_header. assert (p_complete (hp a) = false) as -> by reflexivity. rewrite hp_headroom, T. rewrite u64_small by lia.
    replace (64 * 1024 <? zlen line + zlen (field_lines a) - zlen line) with false by lia.
    assert (D : drop (zlen line + zlen (field_lines a)) buf = q) by (subst buf; rewrite app_assoc; apply drop_at; rewrite (zlen_app _ line); reflexivity).
    rewrite D. change (p_headers (hp a)) with (map stored a). rewrite F. rewrite Z.add_0_l. rewrite (hp_more a a' b') by (rewrite E, Eb; reflexivity). reflexivity.
  Qed.
  Lemma header_stuck base a b q : fs = a ++ b -> stuck q ->
    parse_header base request (hp a) (line ++ field_lines a ++ q) (zlen line + zlen (field_lines a)) 0 = Ok (RIncomplete, hp a, 0, 0).
  Proof.
    intros E St. destruct (part_len a b E) as (L1 & L2 & L3).
    unfold parse_header. assert (p_complete (hp a) = false) as -> by reflexivity. rewrite hp_headroom, Z.add_0_r. rewrite u64_small by lia.
    replace (64 * 1024 <? zlen line + zlen (field_lines a) - zlen line) with false by lia.
    assert (D : drop (zlen line + zlen (field_lines a)) (line ++ field_lines a ++ q) = q) by (rewrite app_assoc; apply drop_at; rewrite (zlen_app _ line); reflexivity).
    rewrite D, St. pose proof (hp_more a [] b E) as H. change (zlen (field_lines [])) with 0 in H. cbn [map] in H. rewrite !app_nil_r in H.
    change (p_headers (hp a)) with (map stored a). rewrite H. reflexivity.
  Qed.

  (** What comes after the header *)
  Definition after (base : Z) (buf : list Z) (pos total : Z) : res (ret * part * Z * Z) :=
    let go (p2 : part) : res (ret * part * Z * Z) :=
      match connection_set p2 with
      | Bug => Bug | Ub => Ub
      | Ok p3 => body_framing base request p3 buf pos total
      end in
    if request then
      match method_of (p_method_str p0), header_get (map stored fs) (str_bytes "content-type") with
      | None, _ => Ok (RSoft, done, 0, total)
      | Some m, Ok _ => go (set_method done (Some m))
      | Some _, Bug => Bug
      | Some _, Ub => Ub
      end
    else go done.
  Lemma header_full base a b r pos total : fs = a ++ b -> pos + total = zlen line + zlen (field_lines a) -> zlen (field_lines b ++ CRLF ++ r) < 2^32 ->
    parse_header base request (hp a) (head line fs ++ r) pos total = after base (head line fs ++ r) pos (total + (zlen (field_lines b) + 2)).
  Proof.
    intros E T R. destruct (part_len a b E) as (L1 & L2 & L3). destruct (simple_part a b E) as [Sa Sb].
    unfold parse_header. assert (p_complete (hp a) = false) as -> by reflexivity. rewrite hp_headroom, T. rewrite u64_small by lia.
    replace (64 * 1024 <? zlen line + zlen (field_lines a) - zlen line) with false by lia.
    assert (D : drop (zlen line + zlen (field_lines a)) (head line fs ++ r) = field_lines b ++ CRLF ++ r).
    { unfold head. rewrite E, lines_app. replace ((line ++ (field_lines a ++ field_lines b) ++ CRLF) ++ r) with ((line ++ field_lines a) ++ field_lines b ++ CRLF ++ r) by (rewrite <- !app_assoc; reflexivity).
      apply drop_at. rewrite (zlen_app _ line). reflexivity. }
    rewrite D. change (p_headers (hp a)) with (map stored a). rewrite (fields_complete b); [ | exact Sb | | exact R ].
    2: { rewrite app_length. unfold head. rewrite E, lines_app, !app_length. lia. }
    rewrite Z.add_0_l. cbv zeta. rewrite (hp_done a b E). unfold after. rewrite E, map_app. 
    assert (p_method_str done = p_method_str p0) as -> by reflexivity. reflexivity.
  Qed.

  Definition inv (s : part * Z) (buf : list Z) : Prop :=
    (s = (new_part, 0) /\ prefix_of buf line /\ zlen buf < zlen line) \/
    exists a b q, fs = a ++ b /\ buf = line ++ field_lines a ++ q /\ s = (hp a, zlen line + zlen (field_lines a)) /\
      prefix_of q (field_lines b ++ CRLF) /\ zlen q < zlen (field_lines b) + 2.
  Lemma inv_start : inv (new_part, 0) [].
  Proof. left. split; [ reflexivity | split; [ exists line; reflexivity | exact Hline ] ]. Qed.
  Lemma inv_short s buf : inv s buf -> zlen buf < zlen (head line fs).
  Proof.
    rewrite head_len. intros [(_ & _ & L)|(a & b & q & E & -> & _ & _ & L)].
    - pose proof (zlen_nonneg _ (field_lines fs)). lia.
    - rewrite E, lines_app, !zlen_app. lia.
  Qed.
  Lemma unknown_hp a : p_unknown (hp a) = false. Proof. apply Hp0. Qed.

  (** The loop at the end of what has arrived *)
  Lemma loop_stuck fuel base a b q : fs = a ++ b -> stuck q ->
    parse_loop fuel base request (hp a) (line ++ field_lines a ++ q) (zlen line + zlen (field_lines a)) =
    Ok (Some (RIncomplete, hp a, 0, zlen line + zlen (field_lines a))).
  Proof.
    intros E St. destruct (part_len a b E) as (L1 & L2 & L3). rewrite parse_loop_eq. unfold part_parse.
    assert (p_chunked (hp a) = false) as -> by apply Hp0. assert (p_app (hp a) = true) as -> by apply Hp0.
    rewrite (header_stuck base a b q E St). cbv zeta. change (0 =? 0) with true. cbv iota. rewrite Z.add_0_r, u64_small by lia. reflexivity.
  Qed.
  Lemma loop_header fuel base a b q p pos total : fs = a ++ b -> prefix_of q (field_lines b ++ CRLF) -> zlen q < zlen (field_lines b) + 2 ->
    pos + total = zlen line + zlen (field_lines a) -> 0 <= total ->
    part_parse base request p (line ++ field_lines a ++ q) pos = parse_header base request (hp a) (line ++ field_lines a ++ q) pos total ->
    (1 <= fuel)%nat ->
    exists a' b' q', b = a' ++ b' /\ q = field_lines a' ++ q' /\ prefix_of q' (field_lines b' ++ CRLF) /\ zlen q' < zlen (field_lines b') + 2 /\
      parse_loop fuel base request p (line ++ field_lines a ++ q) pos = Ok (Some (RIncomplete, hp (a ++ a'), 0, zlen line + zlen (field_lines (a ++ a')))).
  Proof.
    intros E P L T T0 PP F. destruct (header_short base a b q pos total E P L T) as (a' & b' & q' & Eb & Eq & St & P' & L' & H).
    exists a', b', q'. split; [ exact Eb | split; [ exact Eq | split; [ exact P' | split; [ exact L' | ] ] ] ].
    assert (E' : fs = (a ++ a') ++ b') by (rewrite E, Eb, app_assoc; reflexivity). destruct (part_len _ _ E') as (L1 & L2 & L3).
    assert (Ll : zlen (field_lines (a ++ a')) = zlen (field_lines a) + zlen (field_lines a')) by (rewrite lines_app, (zlen_app _ (field_lines a)); reflexivity).
    pose proof (zlen_nonneg _ (field_lines a')). pose proof (zlen_nonneg _ (field_lines a)).
    rewrite parse_loop_eq, PP, H. cbv zeta. replace (pos + (total + zlen (field_lines a'))) with (zlen line + zlen (field_lines (a ++ a'))) by lia.
    rewrite u64_small by lia. destruct (Z.eqb_spec (total + zlen (field_lines a')) 0) as [N|N]; [ reflexivity | ].
    destruct fuel as [|fuel]; [ lia | ]. replace (line ++ field_lines a ++ q) with (line ++ field_lines (a ++ a') ++ q') by (rewrite lines_app, Eq, <- app_assoc; reflexivity).
    apply (loop_stuck fuel base (a ++ a') b' q' E' St).
  Qed.
  Lemma step_short fuel base s buf d : inv s buf -> prefix_of (buf ++ d) (head line fs) -> zlen (buf ++ d) < zlen (head line fs) -> (1 <= fuel)%nat ->
    exists s', get_target_size fuel base request s (buf ++ d) = Ok (Some (NeedMore, s')) /\ inv s' (buf ++ d).
  Proof.
    intros I0 P L F. rewrite head_len in L. unfold head in P. unfold get_target_size. destruct I0 as [(-> & Pb & Lb)|(a & b & q & E & Eb & -> & Pq & Lq)].
    - cbn [fst snd]. change (0 =? 0) with true. rewrite andb_true_r. assert ((if request then new_part else new_part) = new_part) as -> by (destruct request; reflexivity).
      destruct (Z.lt_ge_cases (zlen (buf ++ d)) (zlen line)) as [C|C].
      + pose proof (prefix_short _ _ _ P (Z.lt_le_incl _ _ C)) as P'. rewrite parse_loop_eq, (Hshort base _ P' C). cbv zeta. change (0 =? 0) with true. cbv iota.
        change (p_unknown new_part) with false. cbv iota. change (u64 (0 + 0)) with 0. exists (new_part, 0). split; [ reflexivity | ]. left. split; [ reflexivity | split; [ exact P' | exact C ] ].
      + destruct (prefix_cut _ _ _ P C) as (r & Er & Pr). rewrite Er in *. rewrite (zlen_app _ line r) in L.
        destruct (loop_header fuel base [] fs r new_part 0 (zlen line) eq_refl Pr) as (a' & b' & q' & E1 & E2 & P' & L' & H); [ lia | change (zlen (field_lines [])) with 0; lia | lia | | exact F | ].
        { rewrite hp_nil. change (line ++ field_lines [] ++ r) with (line ++ r). apply Hfull. }
        change (line ++ field_lines [] ++ r) with (line ++ r) in H. cbn [app] in H. rewrite H. rewrite unknown_hp. eexists. split; [ reflexivity | ]. right.
        exists a', b', q'. split; [ exact E1 | split; [ rewrite E2; reflexivity | split; [ reflexivity | split; [ exact P' | exact L' ] ] ] ].
    - destruct (part_len a b E) as (L1 & L2 & L3). cbn [fst snd]. replace (zlen line + zlen (field_lines a) =? 0) with false by lia. rewrite andb_false_r.
      rewrite E, lines_app, (zlen_app _ (field_lines a)) in L.
      assert (Eq : buf ++ d = line ++ field_lines a ++ (q ++ d)) by (rewrite Eb, <- !app_assoc; reflexivity).
      assert (Pr : prefix_of (q ++ d) (field_lines b ++ CRLF)).
      { rewrite Eq, E, lines_app, <- app_assoc in P. destruct (prefix_cut _ _ _ P) as (x & Ex & Px); [ rewrite (zlen_app _ line); pose proof (zlen_nonneg _ (field_lines a ++ q ++ d)); lia | ].
        apply app_inv_head in Ex. subst x. destruct (prefix_cut _ _ _ Px) as (x & Ex & Py); [ rewrite (zlen_app _ (field_lines a)); pose proof (zlen_nonneg _ (q ++ d)); lia | ].
        apply app_inv_head in Ex. subst x. exact Py. }
      rewrite Eq, (zlen_app _ line), (zlen_app _ (field_lines a) (q ++ d)) in L. rewrite Eq.
      destruct (loop_header fuel base a b (q ++ d) (hp a) (zlen line + zlen (field_lines a)) 0 E Pr) as (a' & b' & q' & E1 & E2 & P' & L' & H); [ lia | lia | lia | | exact F | ].
      { unfold part_parse. assert (p_chunked (hp a) = false) as -> by apply Hp0. assert (p_app (hp a) = true) as -> by apply Hp0. reflexivity. }
      rewrite H. rewrite unknown_hp. eexists. split; [ reflexivity | ]. right. exists (a ++ a'), b', q'.
      split; [ rewrite E, E1, app_assoc; reflexivity | split; [ rewrite lines_app, E2, <- !app_assoc; reflexivity | split; [ reflexivity | split; [ exact P' | exact L' ] ] ] ].
  Qed.
  Lemma step_full base s buf d r : inv s buf -> buf ++ d = head line fs ++ r -> zlen d < 2^31 ->
    exists p total, (if request && (snd s =? 0) then new_part else fst s) = p /\ 0 <= snd s /\ 0 < total /\ snd s + total = zlen (head line fs) /\
      part_parse base request p (buf ++ d) (snd s) = after base (head line fs ++ r) (snd s) total.
  Proof.
    intros I0 E D. pose proof (inv_short _ _ I0) as LB. pose proof head_len as HL.
    assert (Lr : zlen (head line fs ++ r) < 2^31 + 65536) by (rewrite <- E, (zlen_app _ buf d); lia). rewrite (zlen_app _ (head line fs)) in Lr. pose proof (zlen_nonneg _ r) as Nr.
    destruct I0 as [(-> & Pb & Lb)|(a & b & q & Ea & Eb & -> & Pq & Lq)].
    - exists new_part, (zlen (head line fs)). cbn [fst snd]. split; [ destruct (request && (0 =? 0)); reflexivity | ]. split; [ lia | ]. pose proof (zlen_nonneg _ (field_lines fs)). split; [ lia | split; [ lia | ] ].
      rewrite E. assert (E1 : head line fs ++ r = line ++ (field_lines fs ++ CRLF ++ r)) by (unfold head; rewrite <- !app_assoc; reflexivity).
      rewrite E1, Hfull, <- E1. rewrite <- hp_nil. rewrite (header_full base [] fs r 0 (zlen line) eq_refl).
      + replace (zlen line + (zlen (field_lines fs) + 2)) with (zlen (head line fs)) by lia. reflexivity.
      + change (zlen (field_lines [])) with 0. lia.
      + rewrite (zlen_app _ (field_lines fs)), (zlen_app _ CRLF). change (zlen CRLF) with 2. lia.
    - destruct (part_len a b Ea) as (L1 & L2 & L3). cbn [fst snd]. replace (zlen line + zlen (field_lines a) =? 0) with false by lia. rewrite andb_false_r.
      exists (hp a), (zlen (field_lines b) + 2). split; [ reflexivity | ].
      assert (Ll : zlen (field_lines fs) = zlen (field_lines a) + zlen (field_lines b)) by (rewrite Ea, lines_app, (zlen_app _ (field_lines a)); reflexivity).
      split; [ lia | split; [ lia | split; [ lia | ] ] ].
      unfold part_parse. assert (p_chunked (hp a) = false) as -> by apply Hp0. assert (p_app (hp a) = true) as -> by apply Hp0.
      rewrite E, (header_full base a b r _ 0 Ea); [ reflexivity | lia | ]. rewrite (zlen_app _ (field_lines b)), (zlen_app _ CRLF). change (zlen CRLF) with 2. lia.
  Qed.

  (** Arrivals *)
  Definition octets (arrivals : list (Z * list Z)) : list Z := concat (map snd arrivals).
  Lemma receive_short fuel arrivals : forall s buf, inv s buf -> prefix_of (buf ++ octets arrivals) (head line fs) -> zlen (buf ++ octets arrivals) < zlen (head line fs) ->
    (1 <= fuel)%nat -> exists p, receive fuel request s buf arrivals = Ok (Some (NeedMore, p)).
  Proof.
    induction arrivals as [|[base d] r IH]; intros s buf I0 P L F.
    - exists (fst s). reflexivity.
    - change (octets ((base, d) :: r)) with (d ++ octets r) in P, L. rewrite app_assoc in P, L. cbn [receive].
      destruct (step_short fuel base s buf d I0) as (s' & E & I1); [ | | exact F | ].
      + destruct P as [x Px]. exists (octets r ++ x). rewrite Px, <- !app_assoc. reflexivity.
      + rewrite (zlen_app _ (buf ++ d)) in L. pose proof (zlen_nonneg _ (octets r)). lia.
      + rewrite E. apply IH; assumption.
  Qed.
  (** The arrival which completes the header *)
  Lemma receive_head fuel arrivals : forall s buf, inv s buf -> prefix_of (head line fs) (buf ++ octets arrivals) -> (1 <= fuel)%nat ->
    Forall (fun a => zlen (snd a) < 2^31) arrivals ->
    exists s' before base d after_, inv s' before /\ arrivals <> [] /\ prefix_of (head line fs) (before ++ d) /\ before ++ d ++ octets after_ = buf ++ octets arrivals /\ zlen d < 2^31 /\
      In (base, d) arrivals /\ (exists front, arrivals = front ++ (base, d) :: after_) /\
      receive fuel request s buf arrivals =
      match get_target_size fuel base request s' (before ++ d) with
      | Bug => Bug | Ub => Ub
      | Ok None => Ok None
      | Ok (Some (NeedMore, s'')) => receive fuel request s'' (before ++ d) after_
      | Ok (Some (v, s'')) => Ok (Some (v, fst s''))
      end.
  Proof.
    induction arrivals as [|[base d] r IH]; intros s buf I0 P F A.
    - exfalso. change (octets []) with (@nil Z) in P. rewrite app_nil_r in P. apply prefix_len in P. pose proof (inv_short _ _ I0). lia.
    - change (octets ((base, d) :: r)) with (d ++ octets r) in P |- *. inversion A as [|? ? A1 A2]; subst. cbn [snd] in A1.
      destruct (Z.lt_ge_cases (zlen (buf ++ d)) (zlen (head line fs))) as [C|C].
      + assert (P1 : prefix_of (buf ++ d) (head line fs)).
        { destruct P as [x Px]. rewrite app_assoc in Px. apply (prefix_short _ (head line fs) x); [ | lia ]. exists (octets r). rewrite <- Px, <- app_assoc. reflexivity. }
        destruct (step_short fuel base s buf d I0 P1 C F) as (s1 & E & I1).
        destruct (IH s1 (buf ++ d) I1) as (s' & before & base' & d' & aft & B1 & B2 & B3 & B4 & B5 & B6 & (fr & B7) & B8); [ rewrite <- app_assoc; exact P | exact F | exact A2 | ].
        exists s', before, base', d', aft. split; [ exact B1 | split; [ discriminate | split; [ exact B3 | split; [ rewrite B4, <- app_assoc; reflexivity | split; [ exact B5 | split; [ right; exact B6 | split ] ] ] ] ] ].
        * exists ((base, d) :: fr). rewrite B7. reflexivity.
        * cbn [receive]. rewrite E. exact B8.
      + exists s, buf, base, d, r. split; [ exact I0 | split; [ discriminate | split; [ | split; [ reflexivity | split; [ exact A1 | split; [ left; reflexivity | split ] ] ] ] ] ].
        * destruct P as [x Px]. rewrite app_assoc in Px. destruct (prefix_cut (buf ++ d) (head line fs) x) as (y & Ey & _); [ | exact C | exists y; exact Ey ].
          exists (octets r). rewrite <- Px, <- app_assoc. reflexivity.
        * exists []. reflexivity.
        * reflexivity.
  Qed.
End Head.
