(** Proofs about the reader of access lists: from the reader to what a file states. *)
From Coq Require Import Strings.String.
From Coq Require Import ZArith List Bool Lia.
From Verif Require Import Common ParseModel TopicModel AclModel.
From Verif Require Import ParseSpec ParseProofs Utf8Spec TopicSpec TopicProofs PwdSpec PwdProofs AclSpec AclProofs.
Import ListNotations.
Open Scope Z_scope.

(** * What is read, from the lines which count *)
Fixpoint eval_body (ls : list (list Z)) (d : Z) (us : list (list Z * Z)) (is_set : bool) : option (Z * list (list Z * Z) * list (list Z)) :=
  match ls with
  | [] => Some (d, us, [])
  | l :: ls' =>
      match cut_word (str_bytes "DEFAULT") l with
      | Some r => if is_set then None else match value r with None => None | Some a => eval_body ls' a us true end
      | None =>
          match cut_word (str_bytes "USER") l with
          | Some r => match user_value r with None => None | Some u => eval_body ls' d (us ++ [u]) is_set end
          | None => match cut_word (str_bytes "TOPIC") l with Some _ => Some (d, us, l :: ls') | None => None end
          end
      end
  end.
Fixpoint eval_blocks (fuel : nat) (ls : list (list Z)) (acc : list acl_entry) : option (list acl_entry) :=
  match fuel, ls with
  | _, [] => Some acc
  | O, _ => None
  | S f, l :: ls' =>
      match cut_word (str_bytes "TOPIC") l with
      | None => None
      | Some r =>
          match topic_value r with
          | None => None
          | Some name =>
              match filter_validate name with
              | Some 0 =>
                  match eval_body ls' acl_deny [] false with
                  | None => None
                  | Some (d, us, rest) => eval_blocks f rest (acc ++ [mk_acl (tokenize name) d us])
                  end
              | _ => None
              end
          end
      end
  end.

Lemma content_line t p c r : within t p -> rest_at t p = c :: r -> is_spaces c = false -> c <> 35 ->
  exists l d, at_line t p (c :: l) d /\ content (rest_at t p) = (c :: l) :: content d.
Proof.
  intros W E S H. destruct (cut_line (c :: r)) as (l & d & LD & LL & F & D). rewrite is_spaces_def in S. apply orb_false_iff in S. destruct S as (SB & SN).
  cbn [leading] in LL. rewrite <- nl_newline, SN in LL. cbn [negb] in LL. destruct l as [ | c' l ]; [ discriminate | ]. injection LL as -> LL.
  exists l, d. split.
  - split; [ exact W | ]. split; [ now rewrite E | ]. now split.
  - unfold content. rewrite E, LD, lines_line by (assumption || (now apply no_nl) || (now apply end_nl)). cbn [filter AclSpec.comment]. replace (c =? 35) with false by lia. reflexivity.
Qed.

Lemma body_ok t : t_nul t = true -> forall fuel p e is_set, within t p -> (Z.to_nat (t_size t - p_pos p) < fuel)%nat ->
  exists p', block_body fuel t p e is_set =
      Ok (match eval_body (content (rest_at t p)) (acl_default e) (acl_users e) is_set with Some (d, us, _) => Some (mk_acl (acl_tokens e) d us) | None => None end, p') /\
    match eval_body (content (rest_at t p)) (acl_default e) (acl_users e) is_set with
    | Some (_, _, rest) => within t p' /\ p_pos p <= p_pos p' /\ content (rest_at t p') = rest
    | None => True
    end.
Proof.
  intros NU. induction fuel as [ | fuel IH ]; intros p e is_set W F; [ lia | ]. cbn [block_body].
  assert (EE : mk_acl (acl_tokens e) (acl_default e) (acl_users e) = e) by now destruct e.
  rewrite (at_eof t p W). destruct (rest_at t p) as [ | x r0 ] eqn:E0.
  { exists p. cbn. rewrite EE, E0. split; [ reflexivity | ]. split; [ exact W | ]. split; [ lia | reflexivity ]. }
  rewrite <- E0. clear E0 x r0.
  unfold spaces_and_comments.
  destruct (gap_ok t NU (S (length (t_data t))) p W) as (q & -> & WQ & LQ & CQ & HQ). { unfold within, t_size, zlen in *. lia. }
  cbn [bind]. rewrite (at_eof t q WQ). destruct (rest_at t q) as [ | c r ] eqn:EQ.
  { exists q. rewrite <- CQ. cbn. rewrite EE, EQ. split; [ reflexivity | ]. split; [ exact WQ | ]. split; [ lia | reflexivity ]. }
  destruct HQ as (HS & H35). destruct (content_line t q c r WQ EQ HS H35) as (l & d & A & CL). rewrite EQ in CL. rewrite CL in CQ.
  rewrite <- CQ. cbn [eval_body].
  pose proof (word_line t (str_bytes "DEFAULT") q _ _ A ltac:(plain) ltac:(nozero)) as WD.
  destruct (cut_word (str_bytes "DEFAULT") (c :: l)) as [ rd | ].
  { destruct WD as (q1 & -> & A1 & P1). cbn [bind]. destruct is_set; [ exists q1; auto | ].
    destruct (value_line t q1 rd d A1) as (q2 & R2 & W2 & V2). unfold keyword_default. rewrite R2. cbn [bind].
    destruct (value rd) as [ a | ]; [ | exists q2; auto ]. destruct (V2 ltac:(discriminate)) as (P2 & L2).
    change (zlen (str_bytes "DEFAULT")) with 7 in P1.
    destruct (IH q2 (mk_acl (acl_tokens e) a (acl_users e)) true W2) as (p' & R' & H'). { unfold within in *. lia. }
    cbn [acl_default acl_users acl_tokens] in *. replace (content (rest_at t q2)) with (content d) in * by (unfold content; now rewrite L2).
    exists p'. rewrite R'. split; [ reflexivity | ]. destruct (eval_body (content d) a (acl_users e) true) as [ [ [ ? ? ] ? ] | ]; [ | exact Logic.I ]. destruct H' as (? & ? & ?). split; [ assumption | split; [ lia | assumption ] ]. }
  rewrite WD. cbn [bind]. clear WD.
  pose proof (word_line t (str_bytes "USER") q _ _ A ltac:(plain) ltac:(nozero)) as WD.
  destruct (cut_word (str_bytes "USER") (c :: l)) as [ rd | ].
  { destruct WD as (q1 & -> & A1 & P1). cbn [bind].
    destruct (user_line t q1 rd d NU A1) as (q2 & R2 & V2). rewrite R2. cbn [bind].
    destruct (user_value rd) as [ u | ]; [ | exists q2; auto ]. destruct (V2 ltac:(discriminate)) as (W2 & P2 & L2).
    change (zlen (str_bytes "USER")) with 4 in P1.
    destruct (IH q2 (mk_acl (acl_tokens e) (acl_default e) (acl_users e ++ [u])) is_set W2) as (p' & R' & H'). { unfold within in *. lia. }
    cbn [acl_default acl_users acl_tokens] in *. replace (content (rest_at t q2)) with (content d) in * by (unfold content; now rewrite L2).
    exists p'. rewrite R'. split; [ reflexivity | ]. destruct (eval_body (content d) (acl_default e) (acl_users e ++ [u]) is_set) as [ [ [ ? ? ] ? ] | ]; [ | exact Logic.I ]. destruct H' as (? & ? & ?). split; [ assumption | split; [ lia | assumption ] ]. }
  rewrite WD. cbn [bind]. clear WD.
  pose proof (word_line t (str_bytes "TOPIC") q _ _ A ltac:(plain) ltac:(nozero)) as WD.
  destruct (cut_word (str_bytes "TOPIC") (c :: l)) as [ rd | ].
  - destruct WD as (q1 & -> & A1 & P1). cbn [bind]. exists (set_pos q1 (p_pos p)). rewrite EE. split; [ reflexivity | ]. unfold within, rest_at in *. cbn [set_pos p_pos]. split; [ exact W | ]. split; [ lia | ]. now rewrite <- CQ.
  - rewrite WD. cbn [bind]. exists q. auto.
Qed.

Lemma leading_whole f l : Forall (fun c => f c = true) l -> leading f l = l.
Proof. induction 1 as [ | c l H _ IH ]; cbn [leading]; [ reflexivity | ]. now rewrite H, IH. Qed.
Lemma leading_rest l d : Forall (fun c => is_newline c = false) l -> line_end d -> leading (fun c => negb (is_newline c)) (l ++ d) = l.
Proof.
  intros F D. rewrite leading_line; [ | exact D | intros c H; now destruct (is_newline c) ]. apply leading_whole. eapply Forall_impl; [ | exact F ]. cbn. intros c ->. reflexivity.
Qed.
Lemma from_in t i x : In x (from t i) -> In x (t_data t).
Proof. unfold from. intros H. rewrite <- (firstn_skipn (Z.to_nat i) (t_data t)). apply in_or_app. now right. Qed.
Lemma validate_cases s : bytes s -> ~ In 0 s -> filter_validate s = Some 0 \/ filter_validate s = Some 1.
Proof. intros B N. apply (filter_validate_iff s B N). Qed.

Lemma body_length ls : forall d us is_set d' us' rest, eval_body ls d us is_set = Some (d', us', rest) -> (length rest <= length ls)%nat.
Proof.
  induction ls as [ | l ls IH ]; intros d us is_set d' us' rest; cbn [eval_body].
  - intros H. injection H as _ _ <-. lia.
  - destruct (cut_word (str_bytes "DEFAULT") l); [ destruct is_set; [ discriminate | ]; destruct (value l0); [ | discriminate ]; intros H; apply IH in H; cbn [length]; lia | ].
    destruct (cut_word (str_bytes "USER") l); [ destruct (user_value l0); [ | discriminate ]; intros H; apply IH in H; cbn [length]; lia | ].
    destruct (cut_word (str_bytes "TOPIC") l); [ | discriminate ]. intros H. injection H as _ _ <-. cbn [length]. lia.
Qed.
Lemma eval_blocks_fuel f : forall g ls acc, (length ls <= f)%nat -> (length ls <= g)%nat -> eval_blocks f ls acc = eval_blocks g ls acc.
Proof.
  induction f as [ | f IH ]; intros g ls acc F G.
  { destruct ls; [ | cbn in F; lia ]. destruct g; reflexivity. }
  destruct ls as [ | l ls ]; [ destruct g; reflexivity | ]. destruct g as [ | g ]; [ cbn in G; lia | ]. cbn [eval_blocks].
  destruct (cut_word (str_bytes "TOPIC") l) as [ r | ]; [ | reflexivity ]. destruct (topic_value r) as [ name | ]; [ | reflexivity ].
  destruct (filter_validate name) as [ [ | z | z ] | ]; try reflexivity.
  destruct (eval_body ls acl_deny [] false) as [ [ [ d us ] rest ] | ] eqn:E; [ | reflexivity ]. apply body_length in E. cbn [length] in F, G. apply IH; lia.
Qed.

Lemma blocks_ok t : t_nul t = true -> bytes (t_data t) -> ~ In 0 (t_data t) -> forall fuel p acc, within t p -> (Z.to_nat (t_size t - p_pos p) < fuel)%nat ->
  topic_blocks fuel t p acc = Ok (eval_blocks (length (content (rest_at t p))) (content (rest_at t p)) acc).
Proof.
  intros NU BY NZ. induction fuel as [ | fuel IH ]; intros p acc W F; [ lia | ]. cbn [topic_blocks].
  unfold spaces_and_comments.
  destruct (gap_ok t NU (S (length (t_data t))) p W) as (q & -> & WQ & LQ & CQ & HQ). { unfold within, t_size, zlen in *. lia. }
  cbn [bind]. rewrite (at_eof t q WQ). destruct (rest_at t q) as [ | c r ] eqn:EQ.
  { rewrite <- CQ. reflexivity. }
  destruct HQ as (HS & H35). destruct (content_line t q c r WQ EQ HS H35) as (l & d & A & CL). rewrite EQ in CL. rewrite CL in CQ.
  rewrite <- CQ. cbn [length eval_blocks].
  pose proof (word_line t (str_bytes "TOPIC") q _ _ A ltac:(plain) ltac:(nozero)) as WD.
  destruct (cut_word (str_bytes "TOPIC") (c :: l)) as [ rd | ].
  2:{ rewrite WD. cbn [bind negb]. reflexivity. }
  destruct WD as (q1 & -> & A1 & P1). cbn [bind negb]. change (zlen (str_bytes "TOPIC")) with 5 in P1.
  destruct (space_line t q1 rd d A1) as (b & q2 & R2 & W2 & T2 & F2). rewrite R2. cbn [bind]. destruct b; cbn [negb].
  2:{ specialize (F2 eq_refl). unfold topic_value. destruct rd as [ | x rd ]; [ reflexivity | ]. destruct (blank x); [ | reflexivity ]. rewrite (F2 eq_refl). reflexivity. }
  destruct (T2 eq_refl) as (A2 & BL). assert (TV : topic_value rd = if nonempty (strip rd) then Some (strip rd) else None) by (unfold topic_value; destruct rd; [ contradiction | now rewrite BL ]).
  rewrite TV. clear TV. pose proof (at_pos _ _ _ _ A1) as AP1. pose proof (at_pos _ _ _ _ A2) as AP2. pose proof (strip_le rd) as SL.
  remember (strip rd) as name eqn:EN. pose proof A2 as (_ & E2 & FN & DE).
  assert (LD : leading (fun c => negb (is_newline c)) (from t (p_pos q2)) = name) by (unfold rest_at in E2; rewrite E2; now apply leading_rest).
  rewrite non_newline_ok by (unfold within in W2; auto). cbv zeta. rewrite LD. cbn [bind].
  destruct name as [ | n0 nm ] eqn:ENN.
  { rewrite zlen_nil. replace (p_pos q2 + 0 - 1 <? p_pos q2) with true by lia. reflexivity. }
  cbn [nonempty]. rewrite <- ENN in *. assert (NP : 0 < zlen name) by (rewrite ENN, zlen_cons; pose proof (zlen_nonneg _ nm); lia).
  replace (p_pos q2 + zlen name - 1 <? p_pos q2) with false by lia. unfold name_length. replace (p_pos q2 + zlen name - 1 <? p_pos q2) with false by lia. cbn [bind].
  unfold str_extract. replace (p_pos q2 + zlen name - 1 - p_pos q2 + 1) with (zlen name) by lia. replace (zlen name =? 0) with false by lia.
  rewrite <- LD at 1. rewrite copy_leading by exact W2. rewrite LD. cbn [bind].
  assert (IN : forall x, In x name -> In x (t_data t)) by (intros x X; apply (from_in t (p_pos q2)); unfold rest_at in E2; rewrite E2; apply in_or_app; now left).
  assert (CS : cstr name = name) by (apply cstr_id; auto). rewrite CS.
  assert (NB : bytes name) by (unfold bytes in *; rewrite Forall_forall in *; auto).
  destruct (validate_cases name NB ltac:(auto)) as [ -> | -> ]; cbn [Z.eqb negb]; [ | reflexivity ].
  assert (A3 : at_line t (set_pos q2 (p_pos q2 + zlen name)) [] d) by (apply (at_move t q2 name); [ now rewrite app_nil_r | reflexivity ]).
  set (q3 := set_pos q2 (p_pos q2 + zlen name)) in *. pose proof A3 as (W3 & E3 & _).
  destruct (body_ok t NU (S (length (t_data t))) q3 (mk_acl (tokenize name) acl_deny []) false W3) as (q4 & -> & H4). { unfold within, t_size, zlen in *. lia. }
  cbn [bind acl_default acl_users acl_tokens] in *. rewrite E3 in *. cbn [app] in *.
  destruct (eval_body (content d) acl_deny [] false) as [ [ [ d' us ] rest ] | ] eqn:EB; [ | reflexivity ]. destruct H4 as (W4 & P4 & C4).
  rewrite IH; [ | exact W4 | unfold q3 in P4; cbn [set_pos p_pos] in P4; unfold within in *; lia ]. rewrite C4. f_equal. apply eval_blocks_fuel; [ lia | ]. now apply body_length in EB.
Qed.

(** * Lines and statements *)
Definition parse_line (l : list Z) : option statement :=
  match cut_word (str_bytes "DEFAULT") l with
  | Some r => option_map Default (value r)
  | None =>
      match cut_word (str_bytes "USER") l with
      | Some r => option_map (fun u => User (fst u) (snd u)) (user_value r)
      | None => match cut_word (str_bytes "TOPIC") l with Some r => option_map Topic (topic_value r) | None => None end
      end
  end.
Lemma cut_other w w' l r : cut_word w l = Some r -> match w, w' with x :: _, x' :: _ => lower x <> lower x' | _, _ => False end -> cut_word w' l = None.
Proof.
  intros H D. destruct w as [ | x w ]; [ contradiction | ]. destruct w' as [ | x' w' ]; [ contradiction | ]. destruct l as [ | c l ]; [ reflexivity | ]. cbn [cut_word] in *.
  destruct (lower x =? lower c) eqn:E; [ | discriminate ]. apply Z.eqb_eq in E. destruct (lower x' =? lower c) eqn:E'; [ apply Z.eqb_eq in E'; congruence | reflexivity ].
Qed.
Lemma cut_intro w k r : word w k -> cut_word (str_bytes w) (k ++ r) = Some r.
Proof. intros H. apply cut_word_iff. exists k. split; [ reflexivity | exact H ]. Qed.
Lemma cut_elim w l r : cut_word (str_bytes w) l = Some r -> exists k, l = k ++ r /\ word w k.
Proof. intros H. apply cut_word_iff in H. exact H. Qed.

Lemma blanks_app_head b r : blanks b -> b <> [] -> match b ++ r with c :: _ => blank c = true | [] => False end.
Proof. intros B N. destruct b as [ | c b ]; [ congruence | ]. now inversion B. Qed.
Lemma strip_nil l : strip l = [] <-> blanks l.
Proof.
  split.
  - intros H. destruct (strip_split l) as (b & E & B). rewrite H, app_nil_r in E. now subst.
  - intros B. rewrite <- (app_nil_r l). rewrite strip_blanks by exact B. reflexivity.
Qed.
Lemma action_head w a : action_word w a -> match w with c :: _ => blank c = false | [] => False end.
Proof.
  assert (H : forall c x, lower c = lower x -> 65 <= x <= 90 -> blank c = false).
  { intros c x. unfold lower, blank. destruct ((65 <=? c) && (c <=? 90)) eqn:E1, ((65 <=? x) && (x <=? 90)) eqn:E2; lia. }
  intros [ (W & _) | [ (W & _) | (W & _) ] ]; destruct w as [ | c w ]; try discriminate; injection W as W _; eapply H; try exact W; lia.
Qed.
Lemma cut_action_intro w a r : action_word w a -> cut_action (w ++ r) = Some (a, r).
Proof.
  unfold cut_action. intros [ (W & ->) | [ (W & ->) | (W & ->) ] ]; pose proof (cut_intro _ _ r W) as C.
  - now rewrite C.
  - rewrite (cut_other _ (str_bytes "DENY") _ _ C) by (cbn; discriminate). now rewrite C.
  - rewrite (cut_other _ (str_bytes "DENY") _ _ C), (cut_other _ (str_bytes "READ") _ _ C) by (cbn; discriminate). now rewrite C.
Qed.
Lemma cut_action_elim l a r : cut_action l = Some (a, r) -> exists w, l = w ++ r /\ action_word w a.
Proof.
  unfold cut_action. destruct (cut_word (str_bytes "DENY") l) eqn:E1; [ | destruct (cut_word (str_bytes "READ") l) eqn:E2; [ | destruct (cut_word (str_bytes "WRITE") l) eqn:E3; [ | discriminate ] ] ];
    intros H; injection H as <- <-.
  - apply cut_elim in E1. destruct E1 as (k & -> & K). exists k. split; [ reflexivity | left; auto ].
  - apply cut_elim in E2. destruct E2 as (k & -> & K). exists k. split; [ reflexivity | right; left; auto ].
  - apply cut_elim in E3. destruct E3 as (k & -> & K). exists k. split; [ reflexivity | right; right; auto ].
Qed.
Lemma value_iff l a : value l = Some a <-> exists b w b', l = b ++ w ++ b' /\ blanks b /\ b <> [] /\ action_word w a /\ blanks b'.
Proof.
  split.
  - unfold value. intros H. destruct l as [ | c l ]; [ discriminate | ]. destruct (blank c) eqn:BC; [ | discriminate ]. unfold end_action in H.
    destruct (cut_action (strip (c :: l))) as [ (a' & r) | ] eqn:CA; [ | discriminate ]. destruct (strip r) eqn:SR; cbn [nonempty] in H; [ | discriminate ]. injection H as ->.
    apply cut_action_elim in CA. destruct CA as (w & SW & AW). destruct (strip_split (c :: l)) as (b & E & B). rewrite SW in E. exists b, w, r. split; [ exact E | ]. split; [ exact B | ]. split.
    + intros ->. cbn [app] in E. rewrite <- SW in E. pose proof (strip_head (c :: l)) as SH. rewrite <- E in SH. congruence.
    + split; [ exact AW | ]. now apply strip_nil.
  - intros (b & w & b' & -> & B & BN & AW & B'). pose proof (blanks_app_head b (w ++ b') B BN) as BH. unfold value. destruct (b ++ w ++ b') as [ | c l ] eqn:E; [ contradiction | ]. rewrite BH, <- E. unfold end_action.
    rewrite strip_blanks by exact B. rewrite strip_same.
    + rewrite (cut_action_intro _ _ b' AW). apply strip_nil in B'. rewrite B'. reflexivity.
    + pose proof (action_head _ _ AW) as AH. destruct w; [ contradiction | exact AH ].
Qed.
Lemma topic_iff l name : topic_value l = Some name <-> exists b, l = b ++ name /\ blanks b /\ b <> [] /\ match name with c :: _ => blank c = false | [] => False end.
Proof.
  split.
  - unfold topic_value. intros H. destruct l as [ | c l ]; [ discriminate | ]. destruct (blank c) eqn:BC; [ | discriminate ].
    destruct (nonempty (strip (c :: l))) eqn:NE; [ | discriminate ]. assert (EN : name = strip (c :: l)) by congruence. clear H. subst name. destruct (strip_split (c :: l)) as (b & E & B). exists b. split; [ exact E | ]. split; [ exact B | ].
    pose proof (strip_head (c :: l)) as SH. split.
    + intros ->. cbn [app] in E. rewrite <- E in SH. congruence.
    + destruct (strip (c :: l)); [ discriminate | exact SH ].
  - intros (b & -> & B & BN & NH). pose proof (blanks_app_head b name B BN) as BH. unfold topic_value. destruct (b ++ name) as [ | c l ] eqn:E; [ contradiction | ]. rewrite BH, <- E.
    rewrite strip_blanks by exact B. destruct name as [ | x name ]; [ contradiction | ]. rewrite strip_same by exact NH. reflexivity.
Qed.
Lemma leading_stop f n r : Forall (fun c => f c = true) n -> match r with c :: _ => f c = false | [] => True end -> leading f (n ++ r) = n.
Proof.
  intros F R. induction F as [ | c n C _ IH ]; cbn [app leading].
  - destruct r; [ reflexivity | ]. cbn [leading]. now rewrite R.
  - now rewrite C, IH.
Qed.
Lemma blank_letter c : blank c = true -> letter c = false.
Proof. intros B. destruct (letter c) eqn:L; [ | reflexivity ]. apply letter_line in L. destruct L as (_ & _ & L). congruence. Qed.
Lemma user_iff l n a : user_value l = Some (n, a) <->
  exists b b' w b'', l = b ++ n ++ b' ++ w ++ b'' /\ blanks b /\ Forall user_char n /\ n <> [] /\ blanks b' /\ b' <> [] /\ action_word w a /\ blanks b''.
Proof.
  split.
  - unfold user_value. cbv zeta. intros H. destruct (nonempty (leading letter (strip l))) eqn:NE; [ | discriminate ].
    destruct (value (skipn (length (leading letter (strip l))) (strip l))) as [ a' | ] eqn:V; [ | discriminate ]. injection H as <- <-. apply value_iff in V. destruct V as (b' & w & b'' & E & B' & BN & AW & B'').
    destruct (strip_split l) as (b & EL & B). exists b, b', w, b''. rewrite <- E, <- leading_split. split; [ exact EL | ]. split; [ exact B | ]. split.
    + eapply Forall_impl; [ | apply leading_all ]. cbn. intros c. apply letter_user.
    + split; [ intros X; rewrite X in NE; discriminate | auto ].
  - intros (b & b' & w & b'' & -> & B & U & UN & B' & BN' & AW & B''). unfold user_value. cbv zeta. rewrite strip_blanks by exact B.
    assert (LU : Forall (fun c => letter c = true) n) by (eapply Forall_impl; [ | exact U ]; cbn; intros c; apply letter_user).
    rewrite strip_same by (destruct n as [ | c n ]; [ congruence | inversion LU as [ | ? ? LC ]; subst; now apply letter_line in LC ]).
    pose proof (blanks_app_head b' (w ++ b'') B' BN') as BH.
    rewrite leading_stop; [ | exact LU | destruct (b' ++ w ++ b''); [ exact Logic.I | now apply blank_letter ] ].
    rewrite skipn_app, skipn_all, Nat.sub_diag. cbn [app skipn].
    assert (V : value (b' ++ w ++ b'') = Some a) by (apply value_iff; exists b', w, b''; auto). rewrite V. destruct n; [ congruence | reflexivity ].
Qed.

Lemma parse_line_iff l s : parse_line l = Some s <-> is_statement l s.
Proof.
  unfold parse_line. split.
  - destruct (cut_word (str_bytes "DEFAULT") l) as [ r | ] eqn:E1; [ | destruct (cut_word (str_bytes "USER") l) as [ r | ] eqn:E2; [ | destruct (cut_word (str_bytes "TOPIC") l) as [ r | ] eqn:E3; [ | discriminate ] ] ].
    + destruct (value r) as [ a | ] eqn:V; [ | discriminate ]. intros H. injection H as <-. apply cut_elim in E1. destruct E1 as (k & -> & K). apply value_iff in V. destruct V as (b & w & b' & -> & V). exists k, b, w, b'. split; [ reflexivity | ]. tauto.
    + destruct (user_value r) as [ (n & a) | ] eqn:V; [ | discriminate ]. intros H. injection H as <-. apply cut_elim in E2. destruct E2 as (k & -> & K). apply user_iff in V. destruct V as (b & b' & w & b'' & -> & V). exists k, b, b', w, b''. split; [ reflexivity | ]. tauto.
    + destruct (topic_value r) as [ n | ] eqn:V; [ | discriminate ]. intros H. injection H as <-. apply cut_elim in E3. destruct E3 as (k & -> & K). apply topic_iff in V. destruct V as (b & -> & V). exists k, b. split; [ reflexivity | ]. tauto.
  - destruct s as [ name | a | name a ]; cbn [is_statement].
    + intros (k & b & -> & K & V). pose proof (cut_intro _ _ (b ++ name) K) as C. rewrite (cut_other _ (str_bytes "DEFAULT") _ _ C), (cut_other _ (str_bytes "USER") _ _ C), C by (cbn; discriminate).
      assert (TV : topic_value (b ++ name) = Some name) by (apply topic_iff; exists b; tauto). now rewrite TV.
    + intros (k & b & w & b' & -> & K & V). rewrite (cut_intro _ _ (b ++ w ++ b') K). assert (TV : value (b ++ w ++ b') = Some a) by (apply value_iff; exists b, w, b'; tauto). now rewrite TV.
    + intros (k & b & b' & w & b'' & -> & K & V). pose proof (cut_intro _ _ (b ++ name ++ b' ++ w ++ b'') K) as C. rewrite (cut_other _ (str_bytes "DEFAULT") _ _ C), C by (cbn; discriminate).
      assert (TV : user_value (b ++ name ++ b' ++ w ++ b'') = Some (name, a)) by (apply user_iff; exists b, b', w, b''; tauto). now rewrite TV.
Qed.

(** * Statements and rules *)
Definition topic_word (l : list Z) : Prop := exists r, cut_word (str_bytes "TOPIC") l = Some r.
Definition topic_first (ls : list (list Z)) : Prop := match ls with [] => True | l :: _ => topic_word l end.

Lemma body_sound ls : forall d us is_set d' us' rest, eval_body ls d us is_set = Some (d', us', rest) ->
  exists pre ss, ls = pre ++ rest /\ Forall2 is_statement pre ss /\ forallb (fun s => negb (is_topic s)) ss = true /\
    (defaults ss = [] /\ d' = d \/ defaults ss = [d'] /\ is_set = false) /\ us' = us ++ users ss /\ topic_first rest.
Proof.
  induction ls as [ | l ls IH ]; intros d us is_set d' us' rest; cbn [eval_body].
  - intros H. injection H as <- <- <-. exists [], []. cbn. rewrite app_nil_r. repeat apply conj; auto.
  - pose proof (parse_line_iff l) as PI. unfold parse_line in PI. destruct (cut_word (str_bytes "DEFAULT") l) as [ r | ].
    { destruct is_set; [ discriminate | ]. destruct (value r) as [ a | ]; [ | discriminate ]. intros H. apply IH in H. destruct H as (pre & ss & -> & F & NT & DD & US & TF).
      exists (l :: pre), (Default a :: ss). split; [ reflexivity | ]. split; [ constructor; [ now apply PI | exact F ] | ]. split; [ exact NT | ]. split; [ | auto ].
      right. split; [ | reflexivity ]. change (a :: defaults ss = [d']). destruct DD as [ (-> & ->) | (_ & X) ]; [ reflexivity | discriminate ]. }
    destruct (cut_word (str_bytes "USER") l) as [ r | ].
    { destruct (user_value r) as [ (n & a) | ]; [ | discriminate ]. intros H. apply IH in H. destruct H as (pre & ss & -> & F & NT & DD & US & TF).
      exists (l :: pre), (User n a :: ss). split; [ reflexivity | ]. split; [ constructor; [ now apply PI | exact F ] | ]. split; [ exact NT | ]. split; [ exact DD | ]. split; [ | exact TF ].
      rewrite US, <- app_assoc. reflexivity. }
    destruct (cut_word (str_bytes "TOPIC") l) as [ r | ] eqn:E; [ | discriminate ]. intros H. injection H as <- <- <-. exists [], []. cbn. rewrite app_nil_r. repeat apply conj; auto. exists r. exact E.
Qed.
Lemma body_complete pre ss : Forall2 is_statement pre ss -> forall rest d us is_set d', forallb (fun s => negb (is_topic s)) ss = true -> topic_first rest ->
  (defaults ss = [] /\ d' = d \/ defaults ss = [d'] /\ is_set = false) -> eval_body (pre ++ rest) d us is_set = Some (d', us ++ users ss, rest).
Proof.
  induction 1 as [ | l s pre ss LS _ IH ]; intros rest d us is_set d' NT TF DD.
  - cbn [app users flat_map]. rewrite app_nil_r. destruct DD as [ (_ & ->) | (X & _) ]; [ | discriminate ]. destruct rest as [ | l rest ]; [ reflexivity | ]. destruct TF as (r & C). cbn [eval_body].
    rewrite (cut_other _ (str_bytes "DEFAULT") _ _ C), (cut_other _ (str_bytes "USER") _ _ C), C by (cbn; discriminate). reflexivity.
  - apply parse_line_iff in LS. unfold parse_line in LS. cbn [forallb] in NT. apply andb_true_iff in NT. destruct NT as (NS & NT). cbn [app eval_body].
    destruct (cut_word (str_bytes "DEFAULT") l) as [ r | ].
    { destruct (value r) as [ a | ]; [ | discriminate ]. injection LS as <-. cbn [defaults flat_map app] in DD. destruct DD as [ (X & _) | (X & ->) ]; [ discriminate | ]. injection X as <- X.
      fold (defaults ss) in X. rewrite (IH rest a us true a NT TF); [ reflexivity | left; auto ]. }
    destruct (cut_word (str_bytes "USER") l) as [ r | ].
    { destruct (user_value r) as [ (n & a) | ]; [ | discriminate ]. injection LS as <-. rewrite (IH rest d (us ++ [(n, a)]) is_set d' NT TF DD). cbn [users flat_map]. rewrite <- app_assoc. reflexivity. }
    destruct (cut_word (str_bytes "TOPIC") l) as [ r | ]; [ | discriminate ]. destruct (topic_value r); [ | discriminate ]. injection LS as <-. discriminate.
Qed.

Definition clean (l : list Z) : Prop := bytes l /\ ~ In 0 l.
Lemma clean_app a b : clean (a ++ b) -> clean b.
Proof. intros (B & N). apply bytes_app in B. split; [ apply B | ]. intros X. apply N, in_or_app. now right. Qed.
Lemma topic_statement l name : is_statement l (Topic name) <-> exists r, cut_word (str_bytes "TOPIC") l = Some r /\ topic_value r = Some name.
Proof.
  rewrite <- parse_line_iff. unfold parse_line. split.
  - destruct (cut_word (str_bytes "DEFAULT") l) as [ r | ]; [ destruct (value r); discriminate | ]. destruct (cut_word (str_bytes "USER") l) as [ r | ]; [ destruct (user_value r); discriminate | ].
    destruct (cut_word (str_bytes "TOPIC") l) as [ r | ]; [ | discriminate ]. destruct (topic_value r) eqn:E; [ | discriminate ]. intros H. injection H as ->. exists r. auto.
  - intros (r & C & V). rewrite (cut_other _ (str_bytes "DEFAULT") _ _ C), (cut_other _ (str_bytes "USER") _ _ C), C, V by (cbn; discriminate). reflexivity.
Qed.
Lemma topic_clean l r name : clean l -> cut_word (str_bytes "TOPIC") l = Some r -> topic_value r = Some name -> clean name /\ name <> [].
Proof.
  intros CL C V. apply cut_elim in C. destruct C as (k & -> & _). apply topic_iff in V. destruct V as (b & -> & _ & _ & NH). split; [ now apply clean_app, clean_app in CL | ]. intros ->. exact NH.
Qed.
Lemma rule_validate name d us r : clean name -> name <> [] -> (block_rule (mk_block name d us) r -> filter_validate name = Some 0 /\ entry_of r = mk_acl (tokenize name) d us).
Proof.
  intros (B & N) NE (UW & LN & J & IL & LF & RD & RU). cbn [b_topic b_default b_users] in *. split.
  - apply filter_validate_iff; auto. split; [ exact UW | ]. split; [ exact LN | ]. exists (rule_filter r). auto.
  - unfold entry_of. rewrite RD, RU, <- J, tokenize_join; [ reflexivity | exact IL | congruence ].
Qed.
Lemma validate_rule name d us : clean name -> name <> [] -> filter_validate name = Some 0 -> exists r, block_rule (mk_block name d us) r /\ entry_of r = mk_acl (tokenize name) d us.
Proof.
  intros (B & N) NE V. apply filter_validate_iff in V; auto. destruct V as (UW & LN & ls & IL & J & LF). exists (mk_rule ls d us). split.
  - unfold block_rule. cbn. auto 10.
  - unfold entry_of. cbn [rule_filter rule_default rule_users]. rewrite <- J, tokenize_join; [ reflexivity | exact IL | congruence ].
Qed.

Lemma blocks_sound fuel : forall ls acc es, Forall clean ls -> eval_blocks fuel ls acc = Some es ->
  exists ss bs rules, Forall2 is_statement ls ss /\ blocks ss bs /\ Forall2 block_rule bs rules /\ es = acc ++ map entry_of rules.
Proof.
  induction fuel as [ | fuel IH ]; intros ls acc es CL; (destruct ls as [ | l ls ]; cbn [eval_blocks];
    [ intros H; injection H as <-; exists [], [], []; cbn; rewrite app_nil_r; repeat apply conj; auto; constructor | ]); [ discriminate | ].
  destruct (cut_word (str_bytes "TOPIC") l) as [ r | ] eqn:C; [ | discriminate ]. destruct (topic_value r) as [ name | ] eqn:V; [ | discriminate ].
  destruct (filter_validate name) as [ [ | z | z ] | ] eqn:FV; try discriminate. inversion CL as [ | ? ? CL1 CL2 ]. subst.
  destruct (eval_body ls acl_deny [] false) as [ [ [ d us ] rest ] | ] eqn:EB; [ | discriminate ]. intros H.
  apply body_sound in EB. destruct EB as (pre & ss & -> & F & NT & DD & US & TF). cbn [app] in US. subst us. apply Forall_app in CL2.
  apply IH in H; [ | apply CL2 ]. destruct H as (ss' & bs & rules & F' & B & R & ->).
  destruct (topic_clean l r name CL1 C V) as (NC & NN). destruct (validate_rule name d (users ss) NC NN FV) as (r0 & BR & EO).
  exists (Topic name :: ss ++ ss'), (mk_block name d (users ss) :: bs), (r0 :: rules). split.
  { constructor; [ apply topic_statement; eauto | ]. now apply Forall2_app. }
  split. { constructor; auto. destruct DD as [ (D1 & D2) | (D1 & _) ]; auto. }
  split; [ now constructor | ]. cbn [map]. rewrite EO, <- app_assoc. reflexivity.
Qed.
Lemma blocks_complete ss bs : blocks ss bs -> forall ls fuel acc rules, Forall clean ls -> (length ls <= fuel)%nat -> Forall2 is_statement ls ss -> Forall2 block_rule bs rules ->
  eval_blocks fuel ls acc = Some (acc ++ map entry_of rules).
Proof.
  induction 1 as [ | name ss d rest bs NT DD BL IH ]; intros ls fuel acc rules CL LF F R.
  { inversion F. inversion R. subst. cbn. rewrite app_nil_r. destruct fuel; reflexivity. }
  inversion F as [ | l ? ls' ? LT F' ]. subst. inversion R as [ | ? r0 ? rules' R0 R' ]. subst. apply Forall2_app_inv_r in F'. destruct F' as (pre & rl & FP & FR & ->).
  inversion CL as [ | ? ? CL1 CL2 ]. subst. apply Forall_app in CL2. apply topic_statement in LT. destruct LT as (r & C & V). destruct fuel as [ | fuel ]; [ cbn in LF; lia | ]. cbn [eval_blocks]. rewrite C, V.
  destruct (topic_clean l r name CL1 C V) as (NC & NN). destruct (rule_validate name d (users ss) r0 NC NN R0) as (FV & EO). rewrite FV.
  rewrite (body_complete pre ss FP rl acl_deny [] false d NT).
  - cbn [app]. rewrite (IH rl fuel _ rules'); [ | apply CL2 | cbn [length] in LF; rewrite app_length in LF; lia | exact FR | exact R' ]. rewrite <- EO, <- app_assoc. reflexivity.
  - destruct FR as [ | x y ? ? XY ]; [ exact Logic.I | ]. inversion BL. subst. apply topic_statement in XY. destruct XY as (r1 & C1 & _). exists r1. exact C1.
  - destruct DD as [ (D1 & D2) | D1 ]; auto.
Qed.

(** * Files *)
Lemma strip_clean l : clean l -> clean (strip l).
Proof. intros C. destruct (strip_split l) as (b & E & _). rewrite E in C. now apply clean_app in C. Qed.
Lemma segments_clean d : clean d -> Forall clean (segments d).
Proof.
  induction d as [ | c d IH ]; intros CD; cbn [segments].
  { constructor; [ exact CD | constructor ]. }
  pose proof (clean_app [c] d CD) as CD'. specialize (IH CD'). destruct (nl c); [ constructor; [ split; [ constructor | intros [] ] | exact IH ] | ].
  destruct (segments_some d) as (s & ss & E). rewrite E in *. inversion IH as [ | ? ? CS CSS ]. subst. constructor; [ | exact CSS ].
  destruct CD as (B & N), CS as (B1 & N1). inversion B. subst. split; [ now constructor | ]. intros [ X | X ]; [ apply N; now left | contradiction ].
Qed.
Lemma content_clean d : clean d -> Forall clean (content d).
Proof.
  intros C. unfold content, lines. apply Forall_forall. intros l X. apply filter_In in X. destruct X as (X & _). apply filter_In in X. destruct X as (X & _).
  apply in_map_iff in X. destruct X as (s & <- & X). apply strip_clean. apply segments_clean in C. rewrite Forall_forall in C. auto.
Qed.

Lemma file_read text : bytes text -> ~ In 0 text -> zlen text <= 2^32 - 1 ->
  exists r, acl_file text = Ok r /\ forall es, r = Some es <-> exists rules, states text rules /\ es = map entry_of rules.
Proof.
  intros B N L. assert (CT : clean text) by (split; assumption).
  assert (H : acl_file text = Ok (eval_blocks (length (content text)) (content text) [])).
  { unfold acl_file. destruct text as [ | c tx ] eqn:E; [ reflexivity | ]. rewrite <- E in *. replace (2 ^ 32 - 1 <? zlen text) with false by lia.
    rewrite (blocks_ok (mk_text text true)); auto.
    - unfold within, t_size, pos_init. cbn. pose proof (zlen_nonneg _ text). lia.
    - unfold t_size, pos_init, zlen. cbn. lia. }
  eexists. split; [ exact H | ]. intros es. pose proof (content_clean text CT) as CC. split.
  - intros E. apply blocks_sound in E; [ | exact CC ]. destruct E as (ss & bs & rules & F & BL & R & ->). exists rules. split; [ | reflexivity ]. exists ss, bs. auto.
  - intros (rules & (ss & bs & F & BL & R) & ->). rewrite (blocks_complete ss bs BL _ _ [] rules CC); auto.
Qed.
Lemma entries_inj : forall a b, map entry_of a = map entry_of b -> a = b.
Proof.
  induction a as [ | x a IH ]; destruct b as [ | y b ]; cbn [map]; intros H; try discriminate; [ reflexivity | ]. injection H as H1 H2 H3 H.
  f_equal; [ destruct x, y; cbn in *; congruence | now apply IH ].
Qed.
Lemma states_unique text rules rules' : bytes text -> ~ In 0 text -> zlen text <= 2^32 - 1 -> states text rules -> states text rules' -> rules = rules'.
Proof.
  intros B N L S S'. destruct (file_read text B N L) as (r & _ & H). apply entries_inj.
  assert (X : r = Some (map entry_of rules)) by (apply H; exists rules; auto). assert (X' : r = Some (map entry_of rules')) by (apply H; exists rules'; auto). congruence.
Qed.
Lemma states_legal text rules : states text rules -> Forall (fun r => rule_filter r <> [] /\ legal_filter (rule_filter r)) rules.
Proof.
  intros (ss & bs & _ & _ & F). induction F as [ | b r bs rules BR _ IH ]; constructor; [ | exact IH ]. destruct BR as (_ & _ & _ & (NE & _) & LF & _). auto.
Qed.
Lemma forallb_bytes l : forallb byteb l = true -> bytes l.
Proof. intros H. unfold bytes. apply Forall_forall. rewrite forallb_forall in H. intros x X. specialize (H x X). unfold byteb in H. unfold byte. lia. Qed.
Lemma existsb_not_in x l : existsb (Z.eqb x) l = false -> ~ In x l.
Proof. intros H X. assert (existsb (Z.eqb x) l = true) by (apply existsb_exists; exists x; split; [ exact X | apply Z.eqb_refl ]). congruence. Qed.
