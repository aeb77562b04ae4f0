From Coq Require Import ZArith List Bool QArith Qround Qabs Qpower Lia Lqa.
From Verif Require Import Common FixpModel FixpSpec FixpProofs.
Import ListNotations.
Open Scope Z_scope.

(** ** Digits *)
Definition base_ok (base : Z) : Prop := base = 10 \/ base = 16.
Lemma convert_digit d c : digit_char d c -> convert_char c = Some d.
Proof.
  intros [e H|e H|e H]; unfold convert_char.
  - replace ((48 <=? 48 + e) && (48 + e <=? 57)) with true by lia. f_equal; lia.
  - replace ((48 <=? 87 + e) && (87 + e <=? 57)) with false by lia.
    replace ((97 <=? 87 + e) && (87 + e <=? 102)) with true by lia. f_equal; lia.
  - replace ((48 <=? 55 + e) && (55 + e <=? 57)) with false by lia.
    replace ((97 <=? 55 + e) && (55 + e <=? 102)) with false by lia.
    replace ((65 <=? 55 + e) && (55 + e <=? 70)) with true by lia. f_equal; lia.
Qed.
Lemma digit_ok_true base d c : base_ok base -> digit_char d c -> d < base -> digit_ok base c = true.
Proof. intros B [e H|e H|e H] L; unfold digit_ok; destruct B; subst; lia. Qed.
Lemma digit_ok_inv base c : base_ok base -> digit_ok base c = true -> exists d, 0 <= d < base /\ digit_char d c.
Proof.
  intros B H. unfold digit_ok in H.
  destruct ((48 <=? c) && (c <=? 57)) eqn:E.
  - exists (c - 48). split; [destruct B; lia|]. replace c with (48 + (c - 48)) at 2 by lia. constructor. lia.
  - cbn [orb] in H. assert (base = 16) by lia. subst base.
    destruct ((97 <=? c) && (c <=? 102)) eqn:E2.
    + exists (c - 87). split; [lia|]. replace c with (87 + (c - 87)) at 2 by lia. apply DC_low. lia.
    + exists (c - 55). split; [lia|]. replace c with (55 + (c - 55)) at 2 by lia. apply DC_up. lia.
Qed.
Lemma digit_range d c : digit_char d c -> 0 <= d <= 15 /\ c <> 46 /\ c <> 35 /\ c <> 45 /\ c <> 43.
Proof. intros [e H|e H|e H]; lia. Qed.

Lemma scan_digits base ds text : base_ok base -> digits base ds text -> forall s dot len,
  scan_number base (text ++ s) dot len = scan_number base s dot (len + length text).
Proof.
  intros B D. induction D as [|d c ds text [Hd Hl] D IH]; intros s dot len.
  - cbn. f_equal. lia.
  - cbn [app scan_number]. rewrite (digit_ok_true base d c B Hd Hl). rewrite IH. f_equal. cbn. lia.
Qed.
Lemma scan_end base rest dot len : base_ok base -> number_ends base rest -> scan_number base rest dot len = Some (len, dot).
Proof.
  intros B H. destruct rest as [|c r]; [reflexivity|]. cbn [scan_number]. destruct H as (N & _ & D).
  destruct (digit_ok base c) eqn:E.
  - exfalso. destruct (digit_ok_inv base c B E) as (d & R & C). apply (D d); [lia|exact C].
  - replace (c =? 46) with false by lia. reflexivity.
Qed.

Lemma prefix_base base p : prefix_text base p -> base_ok base.
Proof. intros []; unfold base_ok; auto. Qed.

Lemma digits_chars base ds text : digits base ds text -> Forall (fun c => c <> 35 /\ c <> 45 /\ c <> 43 /\ c <> 46) text.
Proof.
  induction 1 as [|d c ds text [Hd Hl] D IH]; constructor; [|exact IH].
  apply digit_range in Hd. tauto.
Qed.
Lemma fraction_chars base fs text : fraction_text base fs text -> Forall (fun c => c <> 35) text.
Proof.
  intros [|fs' ft D]; constructor; [lia|].
  apply digits_chars in D. eapply Forall_impl; [|exact D]. cbn. tauto.
Qed.
Lemma digits_len base ds text : digits base ds text -> length ds = length text.
Proof. induction 1; cbn; congruence. Qed.

Lemma starts_false p s : firstn (length p) s <> p -> starts_with p s = false.
Proof. intro H. unfold starts_with. destruct (list_eq_dec _ _ _); [contradiction|reflexivity]. Qed.
Lemma no_prefix base w rest x : base_ok base -> w <> [] -> Forall (fun c => c <> 35) w -> number_ends base rest ->
  (x = 54 \/ x = 48) -> firstn 3 (w ++ rest) <> [49; x; 35].
Proof.
  intros B NE F E X H. destruct w as [|a [|b [|c w]]]; [congruence| | |].
  - cbn [app firstn] in H. destruct rest as [|r0 rest]; [discriminate|]. destruct E as (_ & _ & D).
    destruct rest; [discriminate|]. injection H as _ H _. subst r0.
    destruct X; subst x.
    + apply (D 6); [destruct B; lia|]. apply (DC_dec 6). lia.
    + apply (D 0); [destruct B; lia|]. apply (DC_dec 0). lia.
  - cbn [app firstn] in H. destruct rest as [|r0 rest]; [discriminate|]. destruct E as (_ & N & _).
    injection H as _ _ H. lia.
  - cbn [app firstn] in H. injection H as _ _ H. inversion F as [|? ? _ F2]; inversion F2 as [|? ? _ F3]; inversion F3; lia.
Qed.

Definition frac_of (ftext : list Z) : option (list Z) := match ftext with [] => None | _ :: r => Some r end.

(** The part after prefix and sign. *)
Lemma scan_literal base is itext fs ftext rest : base_ok base -> digits base is itext -> is <> [] ->
  fraction_text base fs ftext -> number_ends base rest ->
  exists dot, scan_number base (itext ++ ftext ++ rest) None 0 = Some (length (itext ++ ftext), dot) /\
    (match dot with
     | None => (itext ++ ftext, None)
     | Some d => (firstn d (itext ++ ftext), Some (skipn (d + 1) (itext ++ ftext)))
     end) = (itext, frac_of ftext).
Proof.
  intros B DI NE DF E. rewrite (scan_digits base is itext B DI).
  destruct DF as [|fs ftext D].
  - exists None. rewrite app_nil_r. cbn [app frac_of]. rewrite (scan_end base rest None _ B E). split; reflexivity.
  - exists (Some (length itext)). cbn [app scan_number frac_of].
    replace (digit_ok base 46) with false by (destruct B; subst; reflexivity).
    change (46 =? 46) with true. cbv iota.
    assert (L : length itext <> 0%nat).
    { rewrite <- (digits_len _ _ _ DI). destruct is; [congruence|cbn; lia]. }
    replace (Nat.eqb (0 + length itext) 0) with false by (symmetry; apply Nat.eqb_neq; lia).
    rewrite (scan_digits base fs ftext B D), (scan_end base rest _ _ B E).
    split.
    + rewrite app_length. cbn [length Nat.add]. rewrite Nat.add_succ_r. reflexivity.
    + f_equal.
      * replace (0 + length itext)%nat with (length itext) by lia. rewrite firstn_app, firstn_all, Nat.sub_diag. cbn. apply app_nil_r.
      * f_equal. rewrite skipn_app.
        rewrite skipn_all2 by lia. replace (length itext + 1 - length itext)%nat with 1%nat by lia. reflexivity.
Qed.

Lemma firstn_app_exact (a b : list Z) : firstn (length a) (a ++ b) = a.
Proof. rewrite firstn_app, firstn_all, Nat.sub_diag. cbn. apply app_nil_r. Qed.

(** Running the parser after the prefix, and after prefix and sign. *)
Definition number_part (base : Z) (plen : nat) (negative : bool) (slen : nat) (start : list Z)
  : fres (Z * bool * list Z * option (list Z) * nat) :=
          match start with
          | [] => FErr FIXP_PARSE_INCOMPLETE
          | _ =>
              match scan_number base start None 0 with
              | None => FErr FIXP_PARSE_ERR
              | Some (len, dot) =>
                  if Nat.eqb len 0 then FErr FIXP_PARSE_ERR
                  else
                    let number := firstn len start in
                    let used := (plen + slen + len)%nat in
                    match dot with
                    | None => FOk (base, negative, number, None, used)
                    | Some d => FOk (base, negative, firstn d number, Some (skipn (d + 1) number), used)
                    end
              end
          end.
Definition after_prefix (base : Z) (plen : nat) (start : list Z) : fres (Z * bool * list Z * option (list Z) * nat) :=
      match start with
      | [] => FErr FIXP_PARSE_INCOMPLETE
      | c :: r =>
          let '(negative, slen, start) :=
            if c =? 45 then (true, 1%nat, r)
            else if c =? 43 then (false, 1%nat, r)
            else (false, 0%nat, start) in
          number_part base plen negative slen start
      end.
Lemma after_literal base plen neg s is itext fs ftext rest :
  base_ok base -> sign_text neg s -> is <> [] -> digits base is itext -> fraction_text base fs ftext -> number_ends base rest ->
  after_prefix base plen (s ++ itext ++ ftext ++ rest) =
    FOk (base, neg, itext, frac_of ftext, (plen + length (s ++ itext ++ ftext))%nat).
Proof.
  intros B S NE DI DF E.
  destruct (scan_literal base is itext fs ftext rest B DI NE DF E) as (dot & SC & PT).
  assert (NN : itext <> []) by (apply digits_len in DI; destruct itext, is; cbn in *; congruence).
  assert (LN : length (itext ++ ftext) <> 0%nat) by (rewrite app_length; destruct itext; [congruence|cbn; lia]).
  assert (CH := digits_chars _ _ _ DI).
  assert (X : exists c r, itext ++ ftext ++ rest = c :: r /\ c <> 45 /\ c <> 43).
  { destruct itext as [|c r]; [congruence|]. inversion CH; subst. exists c, (r ++ ftext ++ rest). cbn. tauto. }
  destruct X as (c & r & EQ & C1 & C2).
  assert (K : forall (neg' : bool) slen, number_part base plen neg' slen (c :: r)
     = FOk (base, neg', itext, frac_of ftext, (plen + slen + length (itext ++ ftext))%nat)).
  { intros neg' slen. unfold number_part. cbv iota. rewrite <- EQ, SC.
    replace (Nat.eqb (length (itext ++ ftext)) 0) with false by (symmetry; apply Nat.eqb_neq; exact LN).
    cbv zeta. rewrite app_assoc, firstn_app_exact.
    destruct dot as [d|]; injection PT as -> ->; reflexivity. }
  unfold after_prefix. destruct S; cbn [app].
  - rewrite EQ. replace (c =? 45) with false by lia. replace (c =? 43) with false by lia.
    rewrite (K false 0%nat). f_equal. f_equal. lia.
  - rewrite EQ. change (43 =? 45) with false. change (43 =? 43) with true. cbv iota.
    rewrite (K false 1%nat). f_equal. f_equal. cbn [length]. lia.
  - rewrite EQ. change (45 =? 45) with true. cbv iota.
    rewrite (K true 1%nat). f_equal. f_equal. cbn [length]. lia.
Qed.

Lemma preliminary_literal base neg is fs p s itext ftext rest :
  prefix_text base p -> sign_text neg s -> is <> [] -> digits base is itext ->
  fraction_text base fs ftext -> number_ends base rest ->
  preliminary_parse (p ++ s ++ itext ++ ftext ++ rest) =
    FOk (base, neg, itext, frac_of ftext, length (p ++ s ++ itext ++ ftext)).
Proof.
  intros P S NE DI DF E.
  assert (B := prefix_base _ _ P).
  assert (NN : itext <> []) by (apply digits_len in DI; destruct itext, is; cbn in *; congruence).
  assert (W : forall plen, after_prefix base plen (s ++ itext ++ ftext ++ rest) =
            FOk (base, neg, itext, frac_of ftext, (plen + length (s ++ itext ++ ftext))%nat))
    by (intro plen; apply after_literal with is fs; assumption).
  assert (LEN : 1 <= zlen (s ++ itext ++ ftext ++ rest)).
  { unfold zlen. rewrite !app_length. destruct itext; [congruence|cbn [length]; lia]. }
  unfold preliminary_parse.
  destruct P; cbn [app].
  - (* no prefix *)
    set (str := s ++ itext ++ ftext ++ rest) in *.
    assert (ST : forall x, (x = 54 \/ x = 48) -> starts_with [49; x; 35] str = false).
    { intros x X. apply starts_false. cbn [length].
      destruct S; unfold str; cbn [app].
      - rewrite app_assoc. apply (no_prefix 10); auto.
        + destruct itext; [congruence|discriminate].
        + apply Forall_app. split; [|eapply fraction_chars; exact DF].
          apply digits_chars in DI. eapply Forall_impl; [|exact DI]. cbn; tauto.
      - destruct (itext ++ ftext ++ rest) as [|? [|? ?]]; discriminate.
      - destruct (itext ++ ftext ++ rest) as [|? [|? ?]]; discriminate. }
    assert (PL : (if 3 <? zlen str then
          if starts_with [49; 54; 35] str then (16, 3%nat)
          else if starts_with [49; 48; 35] str then (10, 3%nat)
          else (10, 0%nat)
        else (10, 0%nat)) = (10, 0%nat)).
    { rewrite !ST by auto. destruct (3 <? zlen str); reflexivity. }
    destruct str as [|c0 r0] eqn:ES; [cbn in LEN; unfold zlen in LEN; cbn in LEN; lia|].
    rewrite PL. cbv iota beta. cbn [skipn]. exact (W 0%nat).
  - cbv zeta. replace (3 <? zlen (49 :: 48 :: 35 :: s ++ itext ++ ftext ++ rest)) with true
      by (unfold zlen in *; cbn [length]; lia).
    rewrite (starts_false [49; 54; 35]) by (cbn; congruence).
    replace (starts_with [49; 48; 35] (49 :: 48 :: 35 :: s ++ itext ++ ftext ++ rest)) with true by reflexivity.
    cbn [skipn]. exact (W 3%nat).
  - cbv zeta. replace (3 <? zlen (49 :: 54 :: 35 :: s ++ itext ++ ftext ++ rest)) with true
      by (unfold zlen in *; cbn [length]; lia).
    replace (starts_with [49; 54; 35] (49 :: 54 :: 35 :: s ++ itext ++ ftext ++ rest)) with true by reflexivity.
    cbn [skipn]. exact (W 3%nat).
Qed.

(** ** What the parser accepts is a literal *)
Lemma scan_sound base s : base_ok base -> forall dot len n dot', scan_number base s dot len = Some (n, dot') ->
  (len <= n)%nat /\
  exists ds t rest, s = t ++ rest /\ (n = len + length t)%nat /\
    match dot with
    | Some d => dot' = Some d /\ digits base ds t
    | None => match dot' with
              | None => digits base ds t
              | Some d => (len <= d)%nat /\ (0 < d)%nat /\ exists ds1 t1 ds2 t2, t = t1 ++ 46 :: t2 /\ (d = len + length t1)%nat /\ digits base ds1 t1 /\ digits base ds2 t2
              end
    end.
Proof.
  intro B. induction s as [|c r IH]; intros dot len n dot' H; cbn [scan_number] in H.
  - injection H as <- <-. split; [lia|]. exists [], [], []. split; [reflexivity|]. split; [cbn; lia|].
    destruct dot; [split; [reflexivity|]|]; constructor.
  - destruct (digit_ok base c) eqn:D.
    + destruct (digit_ok_inv base c B D) as (d & R & C).
      destruct (IH _ _ _ _ H) as (L & ds & t & rest & E & N & M). split; [lia|].
      exists (d :: ds), (c :: t), rest. split; [cbn; congruence|]. split; [cbn; lia|].
      destruct dot as [d0|].
      * destruct M as [M1 M2]. split; [exact M1|]. constructor; [split; [exact C|lia]|exact M2].
      * destruct dot' as [d0|].
        -- destruct M as (M1 & M0 & ds1 & t1 & ds2 & t2 & M2 & M3 & M4 & M5). split; [lia|]. split; [exact M0|].
           exists (d :: ds1), (c :: t1), ds2, t2. split; [cbn; congruence|]. split; [cbn; lia|].
           split; [constructor; [split; [exact C|lia]|exact M4]|exact M5].
        -- constructor; [split; [exact C|lia]|exact M].
    + destruct (c =? 46) eqn:Dot.
      * destruct (Nat.eqb len 0) eqn:L0; [discriminate|]. apply Nat.eqb_neq in L0.
        destruct dot as [d0|]; [discriminate|].
        destruct (IH _ _ _ _ H) as (L & ds & t & rest & E & N & M). split; [lia|].
        destruct M as [M1 M2]. subst dot'.
        exists ds, (c :: t), rest. split; [cbn; congruence|]. split; [cbn; lia|].
        split; [lia|]. split; [lia|]. exists [], [], ds, t. assert (c = 46) by lia. subst c.
        split; [reflexivity|]. split; [cbn; lia|]. split; [constructor|exact M2].
      * injection H as <- <-. split; [lia|]. exists [], [], (c :: r). split; [reflexivity|]. split; [cbn; lia|].
        destruct dot; [split; [reflexivity|]|]; constructor.
Qed.

Lemma after_sound base plen s neg ints fracs used b : base_ok base ->
  after_prefix base plen s = FOk (b, neg, ints, fracs, used) ->
  b = base /\ exists sg is fs ftext rest, sign_text neg sg /\ is <> [] /\ digits base is ints /\ fraction_text base fs ftext /\
    fracs = frac_of ftext /\ s = sg ++ ints ++ ftext ++ rest /\ used = (plen + length (sg ++ ints ++ ftext))%nat.
Proof.
  intro B. unfold after_prefix. destruct s as [|c r]; [discriminate|].
  assert (K : forall (neg' : bool) slen start, number_part base plen neg' slen start = FOk (b, neg, ints, fracs, used) ->
    b = base /\ neg' = neg /\ exists is fs ftext rest, is <> [] /\ digits base is ints /\ fraction_text base fs ftext /\
    fracs = frac_of ftext /\ start = ints ++ ftext ++ rest /\ used = (plen + slen + length (ints ++ ftext))%nat).
  { intros neg' slen start H. unfold number_part in H. destruct start as [|c0 r0]; [discriminate|]. set (st := c0 :: r0) in *. clearbody st.
    destruct (scan_number base st None 0) as [[n dot]|] eqn:SC; [|discriminate].
    destruct (Nat.eqb n 0) eqn:N0; [discriminate|]. apply Nat.eqb_neq in N0.
    destruct (scan_sound base st B _ _ _ _ SC) as (_ & ds & t & rest & E & N & M).
    cbn [Nat.add] in N. subst n. cbv zeta in H. subst st. rewrite firstn_app_exact in H.
    destruct dot as [d|].
    - destruct M as (_ & M0 & ds1 & t1 & ds2 & t2 & M2 & M3 & M4 & M5). subst t. cbn [Nat.add] in M3. subst d.
      rewrite firstn_app_exact in H.
      assert (SK : skipn (length t1 + 1) (t1 ++ 46 :: t2) = t2).
      { rewrite skipn_app, skipn_all2 by lia. replace (length t1 + 1 - length t1)%nat with 1%nat by lia. reflexivity. }
      rewrite SK in H. injection H as <- <- <- <- <-.
      split; [reflexivity|]. split; [reflexivity|].
      exists ds1, ds2, (46 :: t2), rest. split; [intros ->; apply digits_len in M4; cbn in M4; lia|].
      split; [exact M4|]. split; [constructor; exact M5|]. split; [reflexivity|].
      split; [rewrite <- app_assoc; reflexivity|reflexivity].
    - injection H as <- <- <- <- <-. split; [reflexivity|]. split; [reflexivity|].
      exists ds, [], [], rest. split; [intros ->; apply digits_len in M; cbn in M; lia|].
      split; [exact M|]. split; [constructor|]. split; [reflexivity|]. split; [reflexivity|].
      rewrite app_nil_r. reflexivity. }
  destruct (c =? 45) eqn:C1; [|destruct (c =? 43) eqn:C2]; intro H; apply K in H;
    destruct H as (-> & <- & is & fs & ftext & rest & H1 & H2 & H3 & H4 & H5 & H6); (split; [reflexivity|]).
  - exists [45], is, fs, ftext, rest. assert (c = 45) by lia. subst c. 
    split; [constructor|]. do 4 (split; [assumption|]). split; [cbn; congruence|]. rewrite H6. cbn [app length]. lia.
  - exists [43], is, fs, ftext, rest. assert (c = 43) by lia. subst c. 
    split; [constructor|]. do 4 (split; [assumption|]). split; [cbn; congruence|]. rewrite H6. cbn [app length]. lia.
  - exists [], is, fs, ftext, rest.
    split; [constructor|]. do 4 (split; [assumption|]). split; [cbn [app]; exact H5|]. rewrite H6. cbn [app length]. lia.
Qed.

Lemma starts_true p s : starts_with p s = true -> s = p ++ skipn (length p) s.
Proof.
  unfold starts_with. destruct (list_eq_dec _ _ _) as [E|]; [|discriminate]. intros _.
  rewrite <- E at 1. symmetry. apply firstn_skipn.
Qed.
Lemma preliminary_sound s b neg ints fracs used : preliminary_parse s = FOk (b, neg, ints, fracs, used) ->
  exists p sg is fs ftext rest, prefix_text b p /\ sign_text neg sg /\ is <> [] /\ digits b is ints /\ fraction_text b fs ftext /\
    fracs = frac_of ftext /\ s = p ++ sg ++ ints ++ ftext ++ rest /\ used = length (p ++ sg ++ ints ++ ftext).
Proof.
  unfold preliminary_parse. destruct s as [|c0 r0]; [discriminate|]. set (s := c0 :: r0). clearbody s.
  set (bp := if 3 <? zlen s then _ else _).
  assert (K : forall base plen p, base_ok base -> prefix_text base p -> length p = plen -> s = p ++ skipn plen s ->
    after_prefix base plen (skipn plen s) = FOk (b, neg, ints, fracs, used) ->
    exists p sg is fs ftext rest, prefix_text b p /\ sign_text neg sg /\ is <> [] /\ digits b is ints /\ fraction_text b fs ftext /\
    fracs = frac_of ftext /\ s = p ++ sg ++ ints ++ ftext ++ rest /\ used = length (p ++ sg ++ ints ++ ftext)).
  { intros base plen p B P L E H. apply (after_sound _ _ _ _ _ _ _ _ B) in H.
    destruct H as (-> & sg & is & fs & ftext & rest & H1 & H2 & H3 & H4 & H5 & H6 & H7).
    exists p, sg, is, fs, ftext, rest. do 6 (split; [assumption|]). split; [congruence|].
    rewrite H7, (app_length p), L. reflexivity. }
  assert (BP : bp = (16, 3%nat) /\ s = [49; 54; 35] ++ skipn 3 s \/ bp = (10, 3%nat) /\ s = [49; 48; 35] ++ skipn 3 s \/ bp = (10, 0%nat)).
  { unfold bp. destruct (3 <? zlen s); [|auto].
    destruct (starts_with [49; 54; 35] s) eqn:S1; [left; split; [reflexivity|apply starts_true in S1; exact S1]|].
    destruct (starts_with [49; 48; 35] s) eqn:S2; [right; left; split; [reflexivity|apply starts_true in S2; exact S2]|].
    auto. }
  clearbody bp. destruct BP as [[-> E]|[[-> E]| -> ]]; intro H.
  - apply (K 16 3%nat [49; 54; 35]); [right; reflexivity|constructor|reflexivity|exact E|exact H].
  - apply (K 10 3%nat [49; 48; 35]); [left; reflexivity|constructor|reflexivity|exact E|exact H].
  - apply (K 10 0%nat []); [left; reflexivity|constructor|reflexivity|reflexivity|exact H].
Qed.

(** ** The fraction *)
Lemma fraction_search_min n : (n <= 24)%nat -> forall f run R, (run == q24 R)%Q -> 0 <= R -> R + 2 ^ Z.of_nat n <= 2^25 ->
  (exists t, R = t * 2 ^ Z.of_nat n) -> R <= Qfloor (f * inject_Z 16777216) ->
  fraction_search n f run R = Z.min (Qfloor (f * inject_Z 16777216)) (R + 2 ^ Z.of_nat n - 1).
Proof.
  induction n as [|m IH]; intros Hn f run R E HR HB (t & HT) HF.
  - cbn [fraction_search]. change (2 ^ Z.of_nat 0) with 1 in *. lia.
  - cbn [fraction_search]. rewrite bit_place by lia.
    rewrite Nat2Z.inj_succ, Z.pow_succ_r in * by lia.
    set (p := 2 ^ Z.of_nat m) in *. assert (Hp : 0 < p) by (unfold p; lia).
    assert (TS : (fadd run (fraction_value (24 - S m)) == q24 (R + p))%Q).
    { assert (X : (run + fraction_value (24 - S m) == q24 (R + p))%Q).
      { rewrite E, fraction_value_q24 by lia. symmetry. apply q24_add. }
      rewrite fadd_exact; [exact X|]. eapply ld_compat; [symmetry; exact X|]. apply q24_ld. lia. }
    assert (LO : Z.lor R p = R + p).
    { rewrite HT. unfold p. replace (t * (2 * 2 ^ Z.of_nat m)) with (t * 2 ^ (Z.of_nat m + 1)) by (rewrite Z.pow_add_r by lia; ring).
      apply lor_add; [lia|]. rewrite Z.pow_add_r by lia. lia. }
    set (fl := Qfloor (f * inject_Z 16777216)) in *.
    destruct (Qcompare (fadd run (fraction_value (24 - S m))) f) eqn:C.
    + apply Qeq_alt in C. rewrite TS in C. rewrite LO.
      assert (A : R + p <= fl) by (apply q24_floor; rewrite C; apply Qle_refl).
      assert (B : ~ (R + p + 1 <= fl)).
      { intro X. apply (proj2 (q24_floor f (R + p + 1))) in X. rewrite <- C in X. apply (proj1 (q24_le _ _)) in X. lia. }
      lia.
    + apply Qlt_alt in C. rewrite LO.
      assert (A : R + p <= fl) by (apply q24_floor; rewrite <- TS; apply Qlt_le_weak, C).
      rewrite IH; [lia|lia|exact TS|lia|lia| |exact A].
      exists (2 * t + 1). lia.
    + apply Qgt_alt in C. rewrite TS in C.
      assert (A : ~ (R + p <= fl)).
      { intro X. apply (proj2 (q24_floor f (R + p))) in X. apply (Qlt_irrefl f). eapply Qlt_le_trans; [exact C|exact X]. }
      rewrite IH; [lia|lia|exact E|lia|lia| |exact HF].
      exists (2 * t). lia.
Qed.
Lemma fraction_search_floor f : (0 <= f)%Q ->
  fraction_search 24 f 0 0 = Z.min (Qfloor (f * inject_Z 16777216)) (2^24 - 1).
Proof.
  intro H. rewrite (fraction_search_min 24 ltac:(lia) f 0 0).
  - change (2 ^ Z.of_nat 24) with (2^24). f_equal.
  - reflexivity.
  - lia.
  - change (2 ^ Z.of_nat 24) with 16777216. lia.
  - exists 0. lia.
  - apply q24_floor. setoid_replace (q24 0) with 0%Q by reflexivity. exact H.
Qed.

Lemma fadd_err a b : (Qabs (fadd a b - (a + b)) <= Qabs (a + b) * pow2 (-64))%Q.
Proof. unfold fadd. rewrite Qred_correct. apply rd_err. Qed.
Lemma fmul_err a b : (Qabs (fmul a b - a * b) <= Qabs (a * b) * pow2 (-64))%Q.
Proof. unfold fmul. rewrite Qred_correct. apply rd_err. Qed.
Lemma fdiv_err a b : (Qabs (fdiv a b - a / b) <= Qabs (a / b) * pow2 (-64))%Q.
Proof. unfold fdiv. rewrite Qred_correct. apply rd_err. Qed.
Ltac units := change (pow2 (-64)) with (1#18446744073709551616)%Q in *.

Lemma frac_value_range base ds text : base_ok base -> digits base ds text -> (0 <= frac_value base ds < 1)%Q.
Proof.
  intros B D. induction D as [|d c ds text [Hd Hl] D IH].
  - cbn. split; [apply Qle_refl|reflexivity].
  - cbn [frac_value]. apply digit_range in Hd.
    assert (H0 : (0 <= inject_Z d)%Q) by (apply (inject_le 0); lia).
    assert (H1 : (inject_Z d + 1 <= inject_Z base)%Q).
    { change 1%Q with (inject_Z 1). rewrite <- inject_Z_plus. apply inject_le. lia. }
    assert (BP : (0 < inject_Z base)%Q) by (apply (inject_lt 0); destruct B; lia).
    split.
    + apply Qle_shift_div_l; [exact BP|]. lra.
    + apply Qlt_shift_div_r; [exact BP|]. lra.
Qed.

(** One term of the sum: close to the exact term. *)
Lemma term_close (c b0 b fac : Q) : (0 <= c)%Q -> (1 < b0)%Q -> (0 < b)%Q ->
  (Qabs (fac - b) <= b * (1#2251799813685248))%Q ->
  (Qabs (fdiv (fdiv c b0) fac - c / b0 / b) <= c / b0 / b * (1#562949953421312))%Q.
Proof.
  intros Hc Hb0 Hb Hf.
  set (x := (c / b0)%Q).
  assert (Hx : (0 <= x)%Q) by (unfold x; apply Qle_shift_div_l; lra).
  pose proof (fdiv_err c b0) as A. fold x in A. set (a := fdiv c b0) in *.
  rewrite (Qabs_pos x Hx) in A.
  apply Qabs_Qle_condition in Hf. destruct Hf as [F1 F2].
  assert (FP : (0 < fac)%Q) by lra.
  pose proof (fdiv_err a fac) as Y. set (t := fdiv a fac) in *.
  set (y := (a / fac)%Q) in *.
  assert (YF : (y * fac == a)%Q) by (unfold y; field; lra).
  set (T := (x / b)%Q).
  assert (TB : (T * b == x)%Q) by (unfold T; field; lra).
  assert (HT : (0 <= T)%Q) by (unfold T; apply Qle_shift_div_l; lra).
  clearbody x a t y T. units.
  apply Qabs_Qle_condition in A. destruct A as [A1 A2].
  (* y close to T *)
  assert (YU : (y <= T * (1 + (1#1125899906842624)))%Q).
  { apply Qnot_lt_le. intro L.
    assert (L2 : (T * (1 + (1#1125899906842624)) * fac < y * fac)%Q) by (apply Qmult_lt_r; assumption).
    rewrite YF in L2.
    assert (M : (T * (b * (2251799813685247#2251799813685248)) <= T * fac)%Q).
    { rewrite !(Qmult_comm T). apply Qmult_le_compat_r; [lra|exact HT]. }
    lra. }
  assert (YL : (T * (1 - (1#1125899906842624)) <= y)%Q).
  { apply Qnot_lt_le. intro L.
    assert (L2 : (y * fac < T * (1 - (1#1125899906842624)) * fac)%Q) by (apply Qmult_lt_r; assumption).
    rewrite YF in L2.
    assert (M : (T * fac <= T * (b * (2251799813685249#2251799813685248)))%Q).
    { rewrite !(Qmult_comm T). apply Qmult_le_compat_r; [lra|exact HT]. }
    lra. }
  assert (HY : (0 <= y)%Q) by lra.
  rewrite (Qabs_pos y HY) in Y. apply Qabs_Qle_condition in Y. destruct Y as [Y1 Y2].
  apply Qabs_Qle_condition. split; lra.
Qed.

Definition qn (n : nat) : Q := inject_Z (Z.of_nat n).
Lemma qn_succ n : (qn (S n) == qn n + 1)%Q.
Proof. unfold qn. rewrite Nat2Z.inj_succ. unfold Z.succ. rewrite inject_Z_plus. reflexivity. Qed.
Lemma qn_nonneg n : (0 <= qn n)%Q.
Proof. apply (inject_le 0). lia. Qed.
Lemma qn_le a b : (a <= b)%nat -> (qn a <= qn b)%Q.
Proof. intro H. apply inject_le. lia. Qed.

(** The factor stays close to the power of the base. *)
Lemma factor_step (b0 b fac : Q) k : (0 < b0)%Q -> (0 < b)%Q -> (k <= 4096)%nat ->
  (Qabs (fac - b) <= b * (qn k * (1#9223372036854775808)))%Q ->
  (Qabs (fmul fac b0 - b * b0) <= b * b0 * (qn (S k) * (1#9223372036854775808)))%Q.
Proof.
  intros Hb0 Hb Hk H.
  assert (K : (qn k * (1#9223372036854775808) <= 1)%Q).
  { apply qn_le in Hk. change (qn 4096) with (4096#1)%Q in Hk. lra. }
  pose proof (qn_nonneg k) as K0.
  rewrite qn_succ. set (e := (qn k * (1#9223372036854775808))%Q) in *.
  setoid_replace ((qn k + 1) * (1#9223372036854775808))%Q with (e + (1#9223372036854775808))%Q by (unfold e; ring).
  assert (E0 : (0 <= e)%Q) by (unfold e; lra). clearbody e.
  pose proof (fmul_err fac b0) as M.
  apply Qabs_Qle_condition in H. destruct H as [H1 H2].
  assert (BE : (0 <= b * e)%Q) by (apply Qmult_le_0_compat; [apply Qlt_le_weak, Hb|exact E0]).
  assert (BE1 : (b * e <= b)%Q).
  { setoid_replace b with (b * 1)%Q at 2 by ring. rewrite !(Qmult_comm b). apply Qmult_le_compat_r; lra. }
  assert (P1 : (fac * b0 <= (b + b * e) * b0)%Q) by (apply Qmult_le_r; lra).
  assert (P2 : ((b - b * e) * b0 <= fac * b0)%Q) by (apply Qmult_le_r; lra).
  assert (P3 : ((b * e) * b0 <= b * b0)%Q) by (apply Qmult_le_r; lra).
  assert (P0 : (0 < b * b0)%Q) by (apply Qmult_lt_0_compat; assumption).
  assert (P4 : (0 <= fac * b0)%Q).
  { eapply Qle_trans; [|exact P2]. apply Qmult_le_0_compat; lra. }
  rewrite (Qabs_pos _ P4) in M. units. apply Qabs_Qle_condition in M. destruct M as [M1 M2].
  apply Qabs_Qle_condition.
  setoid_replace (b * b0 * (e + (1#9223372036854775808)))%Q with (b * e * b0 + b * b0 * (1#9223372036854775808))%Q by ring.
  setoid_replace ((b + b * e) * b0)%Q with (b * b0 + b * e * b0)%Q in P1 by ring.
  setoid_replace ((b - b * e) * b0)%Q with (b * b0 - b * e * b0)%Q in P2 by ring.
  set (X := (b * b0)%Q) in *. set (Y := (b * e * b0)%Q) in *. set (W := (fac * b0)%Q) in *. set (V := fmul fac b0) in *.
  clearbody X Y W V. split; lra.
Qed.

Lemma fraction_sum_close base ds text : base_ok base -> digits base ds text -> forall f fac b k V err,
  (k + length ds <= 4096)%nat -> (0 < b)%Q ->
  (Qabs (fac - b) <= b * (qn k * (1#9223372036854775808)))%Q ->
  (Qabs (f - V) <= err)%Q -> (0 <= V)%Q -> (0 <= f)%Q -> (V + frac_value base ds / b <= 1)%Q ->
  (err + frac_value base ds / b * (1#562949953421312) + qn (length ds) * (1#4611686018427387904) <= 1#4)%Q ->
  exists f', fraction_sum base text f fac = Some f' /\ (0 <= f')%Q /\
    (Qabs (f' - (V + frac_value base ds / b)) <= err + frac_value base ds / b * (1#562949953421312) + qn (length ds) * (1#4611686018427387904))%Q.
Proof.
  intros B D. induction D as [|d c ds text [Hd Hl] D IH]; intros f fac b k V err HK Hb HF HE HV Hf0 HS HR.
  - exists f. split; [reflexivity|]. split; [exact Hf0|]. cbn [frac_value length] in *.
    setoid_replace (0 / b)%Q with 0%Q by (unfold Qdiv; ring).
    change (qn 0) with 0%Q. setoid_replace (f - (V + 0))%Q with (f - V)%Q by ring.
    eapply Qle_trans; [exact HE|]. lra.
  - cbn [fraction_sum]. rewrite (convert_digit d c Hd). cbn [length] in HK.
    apply digit_range in Hd as DR.
    set (b0 := inject_Z base) in *.
    assert (Hb0 : (1 < b0)%Q) by (apply (inject_lt 1); destruct B; lia).
    assert (Hc : (0 <= inject_Z d)%Q) by (apply (inject_le 0); lia).
    pose proof (frac_value_range base ds text B D) as [FR0 FR1].
    cbn [frac_value] in HS, HR |- *. fold b0 in HS, HR |- *.
    set (fv := frac_value base ds) in *.
    set (T := (inject_Z d / b0 / b)%Q) in *.
    assert (SP : ((inject_Z d + fv) / b0 / b == T + fv / (b * b0))%Q) by (unfold T; field; lra).
    rewrite SP in HS, HR. 
    assert (TC : (Qabs (fdiv (fdiv (inject_Z d) b0) fac - T) <= T * (1#562949953421312))%Q).
    { apply term_close; try assumption.
      eapply Qle_trans; [exact HF|]. rewrite !(Qmult_comm b). apply Qmult_le_compat_r; [|lra].
      assert (Q1 : (qn k <= qn 4096)%Q) by (apply qn_le; lia). change (qn 4096) with (4096#1)%Q in Q1. lra. }
    set (t := fdiv (fdiv (inject_Z d) b0) fac) in *.
    assert (T0 : (0 <= T)%Q).
    { unfold T. apply Qle_shift_div_l; [exact Hb|]. setoid_replace (0 * b)%Q with 0%Q by ring.
      apply Qle_shift_div_l; lra. }
    assert (BB : (0 < b * b0)%Q) by (apply Qmult_lt_0_compat; lra).
    assert (G0 : (0 <= fv / (b * b0))%Q) by (apply Qle_shift_div_l; [exact BB|lra]).
    pose proof (fadd_err f t) as FA. set (f2 := fadd f t) in *.
    apply Qabs_Qle_condition in TC. destruct TC as [TC1 TC2].
    assert (t0 : (0 <= t)%Q) by lra.
    assert (Hft : (0 <= f + t)%Q) by lra.
    rewrite (Qabs_pos _ Hft) in FA. units. apply Qabs_Qle_condition in FA. destruct FA as [FA1 FA2].
    apply Qabs_Qle_condition in HE. destruct HE as [HE1 HE2].
    change (length (d :: ds)) with (S (length ds)) in HR |- *. 
    rewrite qn_succ in HR.
    pose proof (qn_nonneg (length ds)) as N0.
    assert (f2_0 : (0 <= f2)%Q) by lra.
    assert (ERR : (Qabs (f2 - (V + T)) <= err + T * (1#562949953421312) + (1#4611686018427387904))%Q).
    { apply Qabs_Qle_condition. split; lra. }
    destruct (IH f2 (fmul fac b0) (b * b0)%Q (S k) (V + T)%Q (err + T * (1#562949953421312) + (1#4611686018427387904))%Q)
      as (f' & E1 & E0 & E2).
    + lia.
    + exact BB.
    + apply factor_step; [lra|exact Hb|lia|exact HF].
    + exact ERR.
    + lra.
    + exact f2_0.
    + lra.
    + lra.
    + exists f'. split; [exact E1|]. split; [exact E0|]. rewrite SP. rewrite qn_succ.
      setoid_replace (f' - (V + (T + fv / (b * b0))))%Q with (f' - (V + T + fv / (b * b0)))%Q by ring.
      eapply Qle_trans; [exact E2|]. lra.
Qed.

Lemma fraction_sum_bound base fs ftext : base_ok base -> digits base fs ftext -> (length fs <= 4096)%nat ->
  exists f, fraction_sum base ftext 0 1 = Some f /\ (0 <= f)%Q /\ (Qabs (f - frac_value base fs) <= 1#281474976710656)%Q.
Proof.
  intros B D L. pose proof (frac_value_range base fs ftext B D) as [F0 F1].
  assert (N : (qn (length fs) <= qn 4096)%Q) by (apply qn_le; exact L). change (qn 4096) with (4096#1)%Q in N.
  pose proof (qn_nonneg (length fs)) as N0.
  assert (D1 : (frac_value base fs / 1 == frac_value base fs)%Q) by field.
  destruct (fraction_sum_close base fs ftext B D 0 1 1 0%nat 0 0) as (f & E & E0 & EE).
  - lia.
  - reflexivity.
  - vm_compute. discriminate.
  - vm_compute. discriminate.
  - apply Qle_refl.
  - apply Qle_refl.
  - rewrite D1. lra.
  - rewrite D1. lra.
  - exists f. split; [exact E|]. split; [exact E0|]. rewrite D1 in EE.
    setoid_replace (f - (0 + frac_value base fs))%Q with (f - frac_value base fs)%Q in EE by ring.
    eapply Qle_trans; [exact EE|]. lra.
Qed.
