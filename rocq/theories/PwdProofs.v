(** Proofs about reading the password file: lines, entries and authentication. *)
From Coq Require Import ZArith List Bool Lia.
From Verif Require Import Common ParseModel TopicModel Base64Model PwdModel PwdSpec.
From Verif Require ParseSpec ParseProofs.
Import ListNotations.
Open Scope Z_scope.

Lemma is_newline_nl c : is_newline c = nl c.
Proof. unfold is_newline, nl. apply orb_comm. Qed.
Lemma is_spaces_def c : is_spaces c = blank c || nl c.
Proof. unfold is_spaces, is_space_tab. rewrite is_newline_nl. reflexivity. Qed.
Lemma blank_not_nl c : blank c = true -> nl c = false.
Proof. unfold blank, nl. lia. Qed.

(** * Lines *)
Lemma segments_some d : exists s ss, segments d = s :: ss.
Proof.
  induction d as [ | c d (s & ss & IH) ]; cbn [segments]; [ eauto | ]. destruct (nl c); [ eauto | ]. rewrite IH. eauto.
Qed.
Lemma lines_space c d : is_spaces c = true -> lines (c :: d) = lines d.
Proof.
  rewrite is_spaces_def. intros H. unfold lines. cbn [segments]. destruct (nl c) eqn:N; [ reflexivity | ].
  rewrite orb_false_r in H. destruct (segments_some d) as (s & ss & ->). cbn [map strip]. rewrite H. reflexivity.
Qed.
Lemma lines_spaces w d : Forall (fun c => is_spaces c = true) w -> lines (w ++ d) = lines d.
Proof. induction 1 as [ | c w H _ IH ]; [ reflexivity | ]. cbn [app]. rewrite lines_space by assumption. exact IH. Qed.
Lemma segments_plain l d s ss : Forall (fun c => nl c = false) l -> segments d = s :: ss -> segments (l ++ d) = (l ++ s) :: ss.
Proof. intros F E. induction F as [ | c l H F IH ]; cbn [app segments]; [ exact E | ]. rewrite H, IH. reflexivity. Qed.
Lemma lines_line c l d : blank c = false -> Forall (fun c => nl c = false) (c :: l) -> match d with [] => True | x :: _ => nl x = true end ->
  lines ((c :: l) ++ d) = (c :: l) :: lines d.
Proof.
  intros B F D. unfold lines. destruct d as [ | x d ].
  - rewrite (segments_plain _ _ [] []) by (auto; reflexivity). rewrite app_nil_r. cbn [map strip]. rewrite B. reflexivity.
  - rewrite (segments_plain _ _ [] (segments d)) by (auto; cbn [segments]; rewrite D; reflexivity).
    rewrite app_nil_r. cbn [segments]. rewrite D. cbn [map strip]. rewrite B. reflexivity.
Qed.

Lemma leading_stop f l : match skipn (length (ParseSpec.leading f l)) l with [] => True | c :: _ => f c = false end.
Proof.
  induction l as [ | c l IH ]; cbn [ParseSpec.leading]; [ exact I | ]. destruct (f c) eqn:E; cbn [length skipn]; [ exact IH | exact E ].
Qed.
Lemma from_plus t i n : 0 <= i -> 0 <= n -> ParseSpec.from t (i + n) = skipn (Z.to_nat n) (ParseSpec.from t i).
Proof.
  intros Hi Hn. unfold ParseSpec.from. replace (Z.to_nat (i + n)) with (Z.to_nat i + Z.to_nat n)%nat by lia.
  generalize (Z.to_nat i), (Z.to_nat n). clear. intros a b. revert a. generalize (t_data t). intros l a. revert l.
  induction a as [ | a IH ]; intros l; [ reflexivity | ]. destruct l; cbn [skipn Nat.add]; [ now rewrite skipn_nil | apply IH ].
Qed.

Section Iterate.
  Variable St : Type.
  Variable cb : St -> list Z -> list Z -> list Z -> list (list Z) -> res (Z * St).

  Fixpoint over (st : St) (ls : list (list Z)) : res (Z * St) :=
    match ls with
    | [] => Ok (0, st)
    | l :: r => bind (split_line cb st (cstr l)) (fun '(ret, st) => if ret =? 0 then over st r else if ret =? ITERATE_STOP then Ok (0, st) else Ok (1, st))
    end.

  Lemma iterate_loop_ok t : t_nul t = true -> forall fuel st p, 0 <= p_pos p <= t_size t -> (Z.to_nat (t_size t - p_pos p) < fuel)%nat ->
    iterate_loop cb fuel t st p = over st (lines (ParseSpec.from t (p_pos p))).
  Proof using.
    intros Hnul. induction fuel as [ | f IH ]; intros st p Hp Hf; [ lia | ]. cbn [iterate_loop]. unfold eof.
    destruct (t_size t <=? p_pos p) eqn:E. { rewrite ParseProofs.from_end by lia. reflexivity. }
    destruct (ParseProofs.ignore_ok t is_spaces p eq_refl Hp) as (p1 & R1 & P1 & _). unfold ignore_spaces. rewrite R1. cbn [bind].
    set (w := ParseSpec.leading is_spaces (ParseSpec.from t (p_pos p))) in *.
    pose proof (ParseProofs.leading_end t is_spaces (p_pos p) Hp) as B1. fold w in B1. rewrite <- P1 in B1.
    assert (W : ParseSpec.from t (p_pos p) = w ++ ParseSpec.from t (p_pos p1)).
    { rewrite P1, from_plus by (try lia; apply zlen_nonneg). unfold zlen. rewrite Nat2Z.id. apply ParseProofs.leading_split. }
    assert (W1 : match ParseSpec.from t (p_pos p1) with [] => True | c :: _ => is_spaces c = false end).
    { rewrite P1, from_plus by (try lia; apply zlen_nonneg). unfold zlen. rewrite Nat2Z.id. apply leading_stop. }
    rewrite W, lines_spaces by apply ParseProofs.leading_all.
    rewrite (ParseProofs.non_newline_ok t p1 B1 (or_intror Hnul)). cbv zeta. cbn [bind].
    set (ln := ParseSpec.leading (fun c => negb (is_newline c)) (ParseSpec.from t (p_pos p1))) in *.
    pose proof (ParseProofs.leading_end t (fun c => negb (is_newline c)) (p_pos p1) B1) as B2. fold ln in B2.
    assert (V : ParseSpec.from t (p_pos p1) = ln ++ ParseSpec.from t (p_pos p1 + zlen ln)).
    { rewrite (from_plus t (p_pos p1) (zlen ln)) by (try lia; apply zlen_nonneg). unfold zlen. rewrite Nat2Z.id. apply ParseProofs.leading_split. }
    assert (V1 : match ParseSpec.from t (p_pos p1 + zlen ln) with [] => True | c :: _ => nl c = true end).
    { rewrite (from_plus t (p_pos p1) (zlen ln)) by (try lia; apply zlen_nonneg). unfold zlen. rewrite Nat2Z.id.
      pose proof (leading_stop (fun c => negb (is_newline c)) (ParseSpec.from t (p_pos p1))) as X. fold ln in X.
      destruct (skipn (length ln) (ParseSpec.from t (p_pos p1))); [ exact I | ]. rewrite <- is_newline_nl. now apply negb_false_iff. }
    pose proof (zlen_nonneg _ w) as NW.
    destruct (p_pos p1 + zlen ln - 1 <? p_pos p1) eqn:L.
    - assert (ln = []) as L0. { destruct ln; [ reflexivity | ]. rewrite zlen_cons in L. pose proof (zlen_nonneg _ ln). lia. }
      assert (Z0 : ParseSpec.from t (p_pos p1) = []).
      { destruct (ParseSpec.from t (p_pos p1)) as [ | c r ] eqn:Q; [ reflexivity | exfalso ].
        rewrite L0 in V, V1. rewrite zlen_nil, Z.add_0_r, Q in V1. rewrite is_spaces_def, V1, orb_true_r in W1. discriminate. }
      assert (S0 : p_pos p1 = t_size t). { pose proof (ParseProofs.from_len t (p_pos p1) B1) as X. rewrite Z0, zlen_nil in X. lia. }
      rewrite L0, zlen_nil, Z.add_0_r. rewrite IH; unfold set_pos; cbn [p_pos]; [ | lia | lia ]. rewrite Z0. reflexivity.
    - assert (ln <> []) as L0. { intros X. rewrite X, zlen_nil in L. lia. }
      unfold str_extract. replace (p_pos p1 + zlen ln - 1 - p_pos p1 + 1) with (zlen ln) by lia.
      assert (0 < zlen ln). { destruct ln; [ congruence | ]. rewrite zlen_cons. pose proof (zlen_nonneg _ ln). lia. }
      replace (zlen ln =? 0) with false by lia. unfold ln at 1. rewrite ParseProofs.copy_leading by assumption. fold ln. cbn [bind].
      assert (NL : Forall (fun c => nl c = false) ln).
      { eapply Forall_impl; [ | apply ParseProofs.leading_all ]. cbn. intros c Hc. rewrite <- is_newline_nl. now apply negb_true_iff. }
      assert (BL : exists c r, ln = c :: r /\ blank c = false).
      { destruct ln as [ | c r ] eqn:Q; [ congruence | ]. exists c, r. split; [ reflexivity | ]. rewrite V in W1. cbn [app] in W1.
        rewrite is_spaces_def in W1. now apply orb_false_iff in W1. }
      destruct BL as (c & r & Q & BL). rewrite V. rewrite Q at 2. rewrite lines_line by (try rewrite <- Q; assumption). rewrite <- Q. cbn [over].
      destruct (split_line cb st (cstr ln)) as [ (ret, st') | | ]; cbn [bind]; [ | reflexivity | reflexivity ].
      destruct (ret =? 0); [ | reflexivity ]. rewrite IH; unfold set_pos; cbn [p_pos]; [ reflexivity | lia | lia ].
  Qed.

  Lemma iterate_lines_ok d st : iterate_lines cb d st = over st (lines d).
  Proof using.
    unfold iterate_lines. rewrite iterate_loop_ok; [ reflexivity | reflexivity | | ].
    - cbn [p_pos pos_init]. pose proof (ParseProofs.size_nonneg (mk_text d true)). lia.
    - unfold t_size, zlen. cbn [t_data p_pos pos_init]. lia.
  Qed.
End Iterate.

(** * Strings *)
Lemma cstr_id s : ~ In 0 s -> cstr s = s.
Proof.
  induction s as [ | c s IH ]; [ reflexivity | ]. intros H. cbn [cstr]. destruct (c =? 0) eqn:E; [ apply Z.eqb_eq in E; subst; exfalso; apply H; now left | ].
  rewrite IH; [ reflexivity | ]. intros X. apply H. now right.
Qed.
Lemma same_eq a b : same a b = true <-> a = b.
Proof.
  revert b. induction a as [ | x a IH ]; intros [ | y b ]; cbn [same]; try (split; congruence).
  rewrite andb_true_iff, Z.eqb_eq, IH. split; [ intros (-> & ->); reflexivity | intros H; injection H; auto ].
Qed.
Lemma same_refl a : same a a = true.
Proof. now apply same_eq. Qed.
Lemma same_neq a b : same a b = false <-> a <> b.
Proof. rewrite <- same_eq. destruct (same a b); split; congruence. Qed.

Lemma split_join chr max : forall r e element done, Forall (fun l => ~ In chr l) (e :: r) -> zlen done + 1 + zlen r <= max ->
  split_loop (ParseSpec.join chr (e :: r)) chr max element done = Some (done ++ (element ++ e) :: r).
Proof.
  intros r. induction r as [ | x r IH ]; intros e.
  - induction e as [ | c e IHe ]; intros element done F L; rewrite zlen_nil in L.
    + cbn [ParseSpec.join split_loop]. replace (zlen done =? max) with false by lia. rewrite app_nil_r. reflexivity.
    + cbn [ParseSpec.join] in *. cbn [split_loop]. replace (zlen done =? max) with false by lia.
      inversion_clear F. replace (c =? chr) with false by (symmetry; apply Z.eqb_neq; intros ->; apply H; now left).
      rewrite IHe; [ now rewrite <- app_assoc | constructor; [ | constructor ] | rewrite zlen_nil; exact L ]. intros X. apply H. now right.
  - induction e as [ | c e IHe ]; intros element done F L.
    + change (ParseSpec.join chr ([] :: x :: r)) with (chr :: ParseSpec.join chr (x :: r)). cbn [split_loop]. rewrite zlen_cons in L. pose proof (zlen_nonneg _ r).
      replace (zlen done =? max) with false by lia. rewrite Z.eqb_refl. rewrite IH; [ rewrite <- app_assoc, app_nil_r; reflexivity | now inversion F | ].
      rewrite zlen_app, zlen_cons, zlen_nil. lia.
    + change (ParseSpec.join chr ((c :: e) :: x :: r)) with (c :: ParseSpec.join chr (e :: x :: r)). cbn [split_loop]. rewrite zlen_cons in *. pose proof (zlen_nonneg _ r).
      replace (zlen done =? max) with false by lia.
      inversion_clear F. replace (c =? chr) with false by (symmetry; apply Z.eqb_neq; intros ->; apply H0; now left).
      rewrite IHe; [ now rewrite <- app_assoc | constructor; [ | assumption ] | lia ]. intros X. apply H0. now right.
Qed.
Lemma join_nil chr ls : ParseSpec.join chr ls = [] -> ls = [] \/ ls = [[]].
Proof. destruct ls as [ | l [ | x r ] ]; cbn [ParseSpec.join]; [ auto | intros ->; auto | intros H; apply app_eq_nil in H; destruct H; discriminate ]. Qed.
Lemma str_split_join chr max ls : Forall (fun l => ~ In chr l) ls -> ls <> [[]] -> zlen ls <= max -> str_split (ParseSpec.join chr ls) chr max = Some ls.
Proof.
  intros F N L. unfold str_split. destruct (ParseSpec.join chr ls) as [ | c j ] eqn:E.
  - apply join_nil in E. destruct E as [ -> | ]; [ reflexivity | contradiction ].
  - rewrite <- E. destruct ls as [ | e r ]; [ discriminate | ]. rewrite zlen_cons in L. rewrite split_join; [ reflexivity | assumption | rewrite zlen_nil; lia ].
Qed.

(** * Entries *)
Lemma join3 u p h : u ++ 58 :: p ++ 58 :: h = ParseSpec.join 58 [u; p; h].
Proof. reflexivity. Qed.
Lemma in_join chr c ls : c <> chr -> In c (ParseSpec.join chr ls) <-> exists l, In l ls /\ In c l.
Proof.
  intros N. induction ls as [ | l [ | x r ] IH ].
  - cbn. split; [ contradiction | intros (l & [] & _) ].
  - cbn [ParseSpec.join]. split; [ intros H; exists l; split; [ now left | exact H ] | intros (l' & [ <- | [] ] & H); exact H ].
  - change (ParseSpec.join chr (l :: x :: r)) with (l ++ chr :: ParseSpec.join chr (x :: r)). rewrite in_app_iff. cbn [In]. rewrite IH. split.
    + intros [ H | [ H | (l' & Hl & H) ] ]; [ exists l; split; [ now left | exact H ] | congruence | exists l'; split; [ now right | exact H ] ].
    + intros (l' & [ <- | Hl ] & H); [ now left | right; right; exists l'; split; [ exact Hl | exact H ] ].
Qed.

Definition columns (line : list Z) : option entry :=
  match str_split line 58 3 with
  | Some [u; p; h] => match str_split p 44 32 with Some ps => Some (mk_entry u ps h) | None => None end
  | _ => None
  end.
Lemma columns_ok line e : columns line = Some e <-> is_entry line e.
Proof.
  unfold columns, is_entry, line_of. split.
  - intros H. pose proof (ParseProofs.str_split_ok line 58 3 ltac:(lia)) as S1. destruct (str_split line 58 3) as [ ls | ]; [ | discriminate ].
    destruct ls as [ | u [ | p [ | h [ | ] ] ] ]; try discriminate.
    pose proof (ParseProofs.str_split_ok p 44 32 ltac:(lia)) as S2. destruct (str_split p 44 32) as [ ps | ]; [ | discriminate ].
    injection H as <-. cbn [e_user e_perms e_hash].
    destruct S1 as [ (_ & X) | (_ & E1 & _ & F1 & _) ]; [ discriminate | ].
    inversion_clear F1 as [ | ? ? U F ]. inversion_clear F as [ | ? ? P F' ]. inversion_clear F' as [ | ? ? H F ].
    destruct S2 as [ (-> & ->) | (N2 & E2 & _ & F2 & L2) ].
    + split; [ exact E1 | ]. split; [ exact U | ]. split; [ exact H | ]. split; [ constructor | ]. split; [ discriminate | rewrite zlen_nil; lia ].
    + split; [ rewrite <- E2; exact E1 | ]. split; [ exact U | ]. split; [ exact H | ]. split; [ | split; [ | exact L2 ] ].
      * apply Forall_forall. intros q Hq. rewrite Forall_forall in F2. split; [ | now apply F2 ].
        intros X. apply P. rewrite E2. apply in_join; [ lia | eauto ].
      * intros ->. apply N2. exact E2.
  - destruct e as [ u ps h ]. cbn [e_user e_perms e_hash]. intros (-> & U & H & F & N & L). rewrite join3.
    assert (P : ~ In 58 (ParseSpec.join 44 ps)).
    { rewrite in_join by lia. intros (l & Hl & X). rewrite Forall_forall in F. destruct (F l Hl). contradiction. }
    rewrite str_split_join; [ | repeat constructor; assumption | discriminate | rewrite !zlen_cons, zlen_nil; lia ].
    rewrite str_split_join; [ reflexivity | | exact N | exact L ]. eapply Forall_impl; [ | exact F ]. cbn. tauto.
Qed.
Lemma split_line_ok {St : Type} (cb : St -> list Z -> list Z -> list Z -> list (list Z) -> res (Z * St)) st line :
  split_line cb st line = match columns line with Some e => cb st line (e_user e) (e_hash e) (e_perms e) | None => Ok (ITERATE_ERR, st) end.
Proof.
  unfold split_line, columns, ch_colon, ch_comma. destruct (str_split line 58 3) as [ [ | u [ | p [ | h [ | ] ] ] ] | ]; try reflexivity.
  destruct (str_split p 44 32); reflexivity.
Qed.

(** * No zero octets in lines *)
Lemma segments_in d s c : In s (segments d) -> In c s -> In c d.
Proof.
  revert s. induction d as [ | x d IH ]; intros s; cbn [segments].
  - intros [ <- | [] ] [].
  - destruct (nl x). { intros [ <- | H ]; [ intros [] | ]. intros C. right. eauto. }
    destruct (segments_some d) as (s0 & ss & E). rewrite E in *. intros [ <- | H ].
    + intros [ <- | C ]; [ now left | right; apply (IH s0); [ now left | exact C ] ].
    + intros C. right. apply (IH s); [ now right | exact C ].
Qed.
Lemma strip_in s c : In c (strip s) -> In c s.
Proof. induction s as [ | x s IH ]; cbn [strip]; [ auto | ]. destruct (blank x); [ intros H; right; auto | auto ]. Qed.
Lemma lines_in d l c : In l (lines d) -> In c l -> In c d.
Proof.
  unfold lines. intros H C. apply filter_In in H. destruct H as (H & _). apply in_map_iff in H. destruct H as (s & <- & H).
  apply strip_in in C. eauto using segments_in.
Qed.
Lemma lines_cstr d : ~ In 0 d -> Forall (fun l => cstr l = l) (lines d).
Proof. intros N. apply Forall_forall. intros l H. apply cstr_id. intros X. apply N. eauto using lines_in. Qed.

(** * Authentication *)
Lemma existsb_same p ps : existsb (fun x => same x p) ps = true <-> In p ps.
Proof.
  rewrite existsb_exists. split; [ intros (x & H & E); apply same_eq in E; now subst | intros H; exists p; split; [ exact H | apply same_refl ] ].
Qed.

Section Auth.
  Variable ssl : bool.
  Variable pbkdf2 : list Z -> list Z -> list Z.
  Variables user password : list Z.
  Variable permission : option (list Z).
  Let cb := auth_callback ssl pbkdf2 user password permission.
  Let result (r : res (Z * (bool * bool * bool))) : res bool :=
    bind r (fun '(ret, (user_ok, pass_ok, permission_ok)) =>
           if negb (ret =? 0) then Ok false
           else if negb user_ok then Ok false
           else if negb pass_ok then Ok false
           else if negb permission_ok then Ok (match permission with Some _ => false | None => true end)
           else Ok true).

  (** What the first line of the user, if there is one, makes of it. *)
  Fixpoint decide (ls : list (list Z)) : res bool :=
    match ls with
    | [] => Ok false
    | l :: r =>
        match columns l with
        | None => Ok false
        | Some e =>
            if same (e_user e) user then
              bind (passwd_check ssl pbkdf2 (e_hash e) password) (fun ok =>
              Ok (ok && match permission with Some p => existsb (fun x => same x p) (e_perms e) | None => true end))
            else decide r
        end
    end.
  Lemma over_decide ls : Forall (fun l => cstr l = l) ls -> result (over _ cb (false, false, false) ls) = decide ls.
  Proof using.
    intros F. induction F as [ | l ls H F IH ]; [ reflexivity | ]. cbn [over decide]. rewrite H, split_line_ok.
    destruct (columns l) as [ e | ]; [ | reflexivity ]. unfold cb at 1, auth_callback.
    destruct (same (e_user e) user); cbn [negb].
    - destruct (passwd_check ssl pbkdf2 (e_hash e) password) as [ ok | | ]; [ | reflexivity | reflexivity ]. cbn [bind].
      destruct ok; [ | reflexivity ]. cbn. destruct permission as [ p | ]; [ | reflexivity ]. destruct (existsb _ (e_perms e)); reflexivity.
    - cbn [bind ITERATE_OK Z.eqb]. exact IH.
  Qed.
End Auth.

Lemma authenticate_decide ssl pbkdf2 d user password permission : ~ In 0 d -> user <> [] -> password <> [] ->
  authenticate ssl pbkdf2 (Some d) user password permission = decide ssl pbkdf2 user password permission (lines d).
Proof.
  intros N U P. unfold authenticate. apply same_neq in U, P. rewrite U, P. cbn [orb].
  rewrite iterate_lines_ok. rewrite <- over_decide by (now apply lines_cstr). destruct d; reflexivity.
Qed.

Lemma decide_iff ssl pbkdf2 user password permission ls :
  decide ssl pbkdf2 user password permission ls = Ok true <->
  exists before l e after, ls = before ++ l :: after /\ Forall (fun x => exists e', is_entry x e' /\ e_user e' <> user) before /\
    is_entry l e /\ e_user e = user /\ passwd_check ssl pbkdf2 (e_hash e) password = Ok true /\ permitted permission (e_perms e).
Proof.
  induction ls as [ | l ls IH ]; cbn [decide].
  { split; [ discriminate | intros (b & l & e & a & H & _); destruct b; discriminate ]. }
  destruct (columns l) as [ e | ] eqn:C.
  2:{ split; [ discriminate | ]. intros (b & l' & e & a & H & Fb & He & _). destruct b as [ | x b ]; injection H as -> ->.
      - apply columns_ok in He. congruence.
      - inversion_clear Fb as [ | ? ? (e' & X & _) _ ]. apply columns_ok in X. congruence. }
  apply columns_ok in C. destruct (same (e_user e) user) eqn:S.
  - apply same_eq in S. split.
    + destruct (passwd_check ssl pbkdf2 (e_hash e) password) as [ ok | | ] eqn:K; cbn [bind]; try discriminate. intros H. injection H as H.
      apply andb_true_iff in H. destruct H as (-> & H). exists [], l, e, ls. repeat split; auto; try apply C. unfold permitted.
      destruct permission; [ now apply existsb_same | exact I ].
    + intros (b & l' & e' & a & H & Fb & He & U & K & Pm). destruct b as [ | x b ]; injection H as -> ->.
      * apply columns_ok in He, C. rewrite He in C. injection C as ->. rewrite K. cbn [bind andb]. destruct permission; [ | reflexivity ].
        apply existsb_same in Pm. rewrite Pm. reflexivity.
      * inversion_clear Fb as [ | ? ? (e2 & X & Y) _ ]. apply columns_ok in X, C. rewrite X in C. injection C as ->. congruence.
  - apply same_neq in S. rewrite IH. split.
    + intros (b & l' & e' & a & -> & Fb & He & R). exists (l :: b), l', e', a. split; [ reflexivity | ]. split; [ constructor; eauto | auto ].
    + intros (b & l' & e' & a & H & Fb & He & U & R). destruct b as [ | x b ]; injection H as -> ->.
      * apply columns_ok in He, C. rewrite He in C. injection C as ->. contradiction.
      * exists b, l', e', a. inversion_clear Fb. auto.
Qed.

Lemma authenticate_proof ssl pbkdf2 d user password permission : ~ In 0 d -> user <> [] -> password <> [] ->
  authenticate ssl pbkdf2 (Some d) user password permission = Ok true <->
  exists before l e after, lines d = before ++ l :: after /\ Forall (fun x => exists e', is_entry x e' /\ e_user e' <> user) before /\
    is_entry l e /\ e_user e = user /\ passwd_check ssl pbkdf2 (e_hash e) password = Ok true /\ permitted permission (e_perms e).
Proof. intros. rewrite authenticate_decide by assumption. apply decide_iff. Qed.
