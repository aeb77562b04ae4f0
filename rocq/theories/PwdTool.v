(** Proofs about the program which changes the password file. *)
From Coq Require Import ZArith List Bool Lia.
From Verif Require Import Common ParseModel TopicModel Base64Model PwdModel PwdSpec PwdCommand PwdProofs PwdHash.
From Verif Require ParseSpec.
Import ListNotations.
Open Scope Z_scope.

(** * Permissions *)
Lemma existsb_in p l : existsb (same p) l = true <-> In p l.
Proof. rewrite existsb_exists. split; [ intros (x & H & E); apply same_eq in E; now subst | intros H; exists p; split; [ exact H | apply same_refl ] ]. Qed.
Lemma remove_loop_ok after : forall before, (forall p, In p before -> ~ In p after) -> remove_duplicates_loop before after = before ++ once after.
Proof.
  induction after as [ | p r IH ]; intros before H; cbn [remove_duplicates_loop once]; [ now rewrite app_nil_r | ].
  destruct (in_dec eq_dec p r) as [ I | I ].
  - replace (existsb (same p) (before ++ r)) with true by (symmetry; apply existsb_in, in_or_app; now right).
    apply IH. intros q Hq X. apply (H q Hq). now right.
  - replace (existsb (same p) (before ++ r)) with false.
    2:{ symmetry. destruct (existsb (same p) (before ++ r)) eqn:E; [ | reflexivity ]. apply existsb_in, in_app_or in E.
        destruct E as [ E | E ]; [ exfalso; apply (H p E); now left | contradiction ]. }
    rewrite IH; [ now rewrite <- app_assoc | ]. intros q Hq X. apply in_app_or in Hq. destruct Hq as [ Hq | [ <- | [] ] ]; [ apply (H q Hq); now right | contradiction ].
Qed.
Lemma remove_duplicates_once l : remove_duplicates l = once l.
Proof. unfold remove_duplicates. rewrite remove_loop_ok; [ reflexivity | intros p [] ]. Qed.
Lemma once_in p l : In p (once l) <-> In p l.
Proof.
  induction l as [ | x l IH ]; cbn [once]; [ tauto | ]. destruct (in_dec eq_dec x l) as [ I | I ]; cbn [In]; rewrite IH; [ | tauto ].
  split; [ tauto | intros [ <- | ]; auto ].
Qed.
Lemma once_nodup l : NoDup (once l).
Proof. induction l as [ | x l IH ]; cbn [once]; [ constructor | ]. destruct (in_dec eq_dec x l) as [ | I ]; [ exact IH | ]. constructor; [ now rewrite once_in | exact IH ]. Qed.
Lemma nonempty_true (s : list Z) : nonempty s = true <-> s <> [].
Proof. destruct s; cbn; split; congruence. Qed.
Lemma proper_in p l : In p (proper l) <-> In p l /\ p <> [].
Proof. unfold proper. rewrite filter_In, once_in, nonempty_true. reflexivity. Qed.

Lemma write_permissions_ok l : forall n, 0 <= n ->
  write_permissions n l = match filter nonempty l with [] => [] | ps => (if 0 <? n then [44] else []) ++ ParseSpec.join 44 ps end.
Proof.
  induction l as [ | p l IH ]; intros n Hn; cbn [write_permissions filter]; [ reflexivity | ].
  destruct p as [ | c p ]; cbn [same nonempty]; [ apply IH; lia | ]. rewrite IH by lia. replace (0 <? n + 1) with true by lia. unfold ch_comma.
  f_equal. destruct (filter nonempty l) as [ | q r ]; [ now rewrite app_nil_r | reflexivity ].
Qed.
Lemma write_permissions_proper l : write_permissions 0 (remove_duplicates l) = ParseSpec.join 44 (proper l).
Proof. rewrite remove_duplicates_once, write_permissions_ok by lia. unfold proper. destruct (filter nonempty (once l)); reflexivity. Qed.

(** * Lines written and read again *)
Definition text (ls : list (list Z)) : list Z := concat (map (fun l => l ++ [10]) ls).
Lemma text_app a b : text (a ++ b) = text a ++ text b.
Proof. unfold text. now rewrite map_app, concat_app. Qed.
Lemma text_cons l ls : text (l :: ls) = l ++ [10] ++ text ls.
Proof. unfold text. cbn [map concat]. now rewrite <- app_assoc. Qed.
Definition good_line (l : list Z) : Prop := ~ In 0 l /\ Forall (fun c => nl c = false) l /\ match l with c :: _ => blank c = false | [] => False end.
Lemma lines_text ls : Forall good_line ls -> lines (text ls) = ls.
Proof.
  induction 1 as [ | l ls (_ & F & B) _ IH ]; [ reflexivity | ]. unfold text. cbn [map concat]. fold (text ls). rewrite <- app_assoc. cbn [app].
  destruct l as [ | c l ]; [ contradiction | ]. rewrite lines_line; [ | exact B | exact F | reflexivity ].
  rewrite lines_space by reflexivity. now rewrite IH.
Qed.
Lemma segments_no_nl d : Forall (Forall (fun c => nl c = false)) (segments d).
Proof.
  induction d as [ | c d IH ]; cbn [segments]; [ repeat constructor | ]. destruct (nl c) eqn:N; [ constructor; [ constructor | exact IH ] | ].
  destruct (segments d); [ repeat constructor; exact N | ]. inversion_clear IH. constructor; [ constructor; assumption | assumption ].
Qed.
Lemma strip_good s : Forall (fun c => nl c = false) s -> strip s <> [] -> Forall (fun c => nl c = false) (strip s) /\ match strip s with c :: _ => blank c = false | [] => False end.
Proof.
  induction s as [ | c s IH ]; cbn [strip]; [ congruence | ]. intros F. destruct (blank c) eqn:B; [ inversion_clear F; auto | ]. intros _. auto.
Qed.
Lemma lines_good d : ~ In 0 d -> Forall good_line (lines d).
Proof.
  intros N. apply Forall_forall. intros l H. split; [ intros X; apply N; eauto using lines_in | ].
  unfold lines in H. apply filter_In in H. destruct H as (H & E). apply in_map_iff in H. destruct H as (s & <- & H).
  apply strip_good; [ | now apply nonempty_true ]. pose proof (segments_no_nl d) as F. rewrite Forall_forall in F. now apply F.
Qed.
Lemma text_no_zero ls : Forall good_line ls -> ~ In 0 (text ls).
Proof.
  induction 1 as [ | l ls (N & _) _ IH ]; [ intros [] | ]. unfold text. cbn [map concat]. fold (text ls). rewrite !in_app_iff.
  intros [ [ H | [ H | [] ] ] | H ]; [ contradiction | discriminate | contradiction ].
Qed.

(** * Passing over the lines *)
Section Process.
  Variable d : data.
  Let cb := process_line d.
  Let u := d_username d.

  Lemma over_others ls es w f rest : Forall2 is_entry ls es -> Forall good_line ls -> ~ In u (map e_user es) ->
    over _ cb (w, f) (ls ++ rest) = over _ cb (w ++ text ls, f) rest.
  Proof using.
    intros F. revert w. induction F as [ | l e ls es H F IH ]; intros w G N; [ cbn; now rewrite app_nil_r | ]. inversion_clear G as [ | ? ? G1 G2 ].
    cbn [app over]. rewrite cstr_id by apply G1. rewrite split_line_ok. apply columns_ok in H. rewrite H.
    unfold cb at 1, process_line. fold u. rewrite (proj2 (same_neq (e_user e) u)) by (intros X; apply N; left; exact X).
    cbn [bind ITERATE_OK Z.eqb]. rewrite IH; [ | exact G2 | intros X; apply N; now right ]. f_equal. f_equal. unfold text. cbn [map concat]. now rewrite !app_assoc.
  Qed.
  Lemma over_user l e w f rest : is_entry l e -> good_line l -> e_user e = u ->
    over _ cb (w, f) (l :: rest) =
    if d_create d || f then Ok (1, (w, f))
    else if d_remove d then over _ cb (w, true) rest
    else over _ cb (w ++ write_user d u (e_perms e) (match d_password d with Some p => Some p | None => Some (e_hash e) end) ++ [10], true) rest.
  Proof using.
    intros H G U. cbn [over]. rewrite cstr_id by apply G. rewrite split_line_ok. apply columns_ok in H. rewrite H.
    unfold cb at 1, process_line. fold u. rewrite U, same_refl. destruct (d_create d); [ reflexivity | ]. destruct f; [ reflexivity | ].
    destruct (d_remove d); reflexivity.
  Qed.
  Lemma over_bad ls l rest w f : Forall good_line (ls ++ l :: rest) -> (forall e, ~ is_entry l e) ->
    exists st, over _ cb (w, f) (ls ++ l :: rest) = Ok (1, st).
  Proof using.
    revert w f. induction ls as [ | x ls IH ]; intros w f G N; cbn [app over]; inversion_clear G as [ | ? ? G1 G2 ].
    - rewrite cstr_id by apply G1. rewrite split_line_ok. destruct (columns l) as [ e | ] eqn:C; [ apply columns_ok in C; exfalso; apply (N e C) | ]. eexists. reflexivity.
    - rewrite cstr_id by apply G1. rewrite split_line_ok. destruct (columns x) as [ e | ]; [ | eexists; reflexivity ].
      unfold cb at 1, process_line. destruct (same (e_user e) (d_username d)).
      + destruct (d_create d); [ eexists; reflexivity | ]. destruct f; [ eexists; reflexivity | ]. destruct (d_remove d); cbn [bind ITERATE_OK Z.eqb]; apply IH; assumption.
      + cbn [bind ITERATE_OK Z.eqb]. apply IH; assumption.
  Qed.
End Process.

Lemma process_bad d f : ~ In 0 f -> (exists l, In l (lines f) /\ forall e, ~ is_entry l e) -> process d f = Ok None.
Proof.
  intros N (l & H & E). apply in_split in H. destruct H as (a & b & H). unfold process. rewrite iterate_lines_ok.
  pose proof (lines_good f N) as G. rewrite H in *. destruct (over_bad d a l b [] false G E) as ((w & found) & ->). reflexivity.
Qed.

(** * A request on a file *)
(** The options after the password was replaced by its hash. *)
Definition options (d : data) : option request :=
  wanted (d_username d) None (d_create d) (d_remove d) (d_append d) (d_permissions d) (d_password d).

Definition request_ok (d : data) : Prop :=
  user_ok (d_username d) /\ Forall name_ok (d_permissions d) /\
  match d_password d with Some h => Forall (fun c => c <> 0 /\ nl c = false /\ c <> 58) h | None => True end.

Lemma forall_not_in (P : Z -> Prop) c l : Forall P l -> (P c -> False) -> ~ In c l.
Proof. intros F H I. rewrite Forall_forall in F. apply H. now apply F. Qed.

(** The new line of a user. *)
Lemma new_line e : user_ok (e_user e) -> Forall (fun c => c <> 0 /\ nl c = false /\ c <> 58) (e_hash e) ->
  Forall (fun p => Forall (fun c => c <> 0 /\ nl c = false) p /\ ~ In 58 p /\ ~ In 44 p /\ p <> []) (e_perms e) -> zlen (e_perms e) <= 32 ->
  is_entry (line_of e) e /\ good_line (line_of e).
Proof.
  intros (U & UB) H P L. destruct e as [ u ps h ]. cbn [e_user e_perms e_hash] in *. split.
  - split; [ reflexivity | ]. cbn [e_user e_perms e_hash]. split; [ eapply forall_not_in; [ exact U | cbn; tauto ] | ].
    split; [ eapply forall_not_in; [ exact H | cbn; tauto ] | ]. split; [ eapply Forall_impl; [ | exact P ]; cbn; tauto | ].
    split; [ | exact L ]. intros ->. inversion_clear P as [ | ? ? (_ & _ & _ & X) _ ]. congruence.
  - assert (A : Forall (fun c => c <> 0 /\ nl c = false) (line_of (mk_entry u ps h))).
    { unfold line_of. cbn [e_user e_perms e_hash]. apply Forall_app. split; [ eapply Forall_impl; [ | exact U ]; cbn; tauto | ].
      constructor; [ split; [ lia | reflexivity ] | ]. apply Forall_app. split.
      - apply Forall_forall. intros c C. destruct (Z.eq_dec c 44) as [ -> | N ]; [ split; [ lia | reflexivity ] | ].
        apply in_join in C; [ | exact N ]. destruct C as (p & Hp & C). rewrite Forall_forall in P. destruct (P p Hp) as (X & _). rewrite Forall_forall in X. now apply X.
      - constructor; [ split; [ lia | reflexivity ] | ]. eapply Forall_impl; [ | exact H ]. cbn. tauto. }
    split; [ eapply forall_not_in; [ exact A | cbn; tauto ] | ]. split; [ eapply Forall_impl; [ | exact A ]; cbn; tauto | ].
    unfold line_of. cbn [e_user]. destruct u; [ contradiction | exact UB ].
Qed.

Lemma perms_of_entry l e : good_line l -> is_entry l e ->
  Forall (fun p => Forall (fun c => c <> 0 /\ nl c = false) p /\ ~ In 58 p /\ ~ In 44 p) (e_perms e) /\
  Forall (fun c => c <> 0 /\ nl c = false /\ c <> 58) (e_hash e).
Proof.
  intros (Z0 & N & _) (-> & _ & H & P & _). unfold line_of in *. split.
  - apply Forall_forall. intros p Hp. rewrite Forall_forall in P. destruct (P p Hp) as (X & Y). split; [ | auto ].
    apply Forall_forall. intros c C. destruct (Z.eq_dec c 44) as [ -> | N44 ]; [ contradiction | ].
    assert (I : In c (e_user e ++ 58 :: ParseSpec.join 44 (e_perms e) ++ 58 :: e_hash e)).
    { rewrite in_app_iff. right. right. rewrite in_app_iff. left. apply in_join; [ exact N44 | eauto ]. }
    split; [ intros ->; contradiction | ]. rewrite Forall_forall in N. now apply N.
  - apply Forall_forall. intros c C.
    assert (I : In c (e_user e ++ 58 :: ParseSpec.join 44 (e_perms e) ++ 58 :: e_hash e)).
    { rewrite in_app_iff. right. right. rewrite in_app_iff. right. right. exact C. }
    split; [ intros ->; contradiction | ]. split; [ rewrite Forall_forall in N; now apply N | intros ->; contradiction ].
Qed.

Lemma nodup_split (es : list entry) u : NoDup (map e_user es) -> In u (map e_user es) ->
  exists e1 e e2, es = e1 ++ e :: e2 /\ e_user e = u /\ ~ In u (map e_user e1) /\ ~ In u (map e_user e2).
Proof.
  intros N H. apply in_map_iff in H. destruct H as (e & U & H). apply in_split in H. destruct H as (e1 & e2 & ->). exists e1, e, e2.
  rewrite map_app in N. cbn [map] in N. apply NoDup_remove_2 in N. rewrite U in N. rewrite in_app_iff in N. repeat split; auto.
Qed.
Lemma Forall2_app_r (ls : list (list Z)) e1 e e2 : Forall2 is_entry ls (e1 ++ e :: e2) ->
  exists l1 l l2, ls = l1 ++ l :: l2 /\ Forall2 is_entry l1 e1 /\ is_entry l e /\ Forall2 is_entry l2 e2.
Proof.
  intros F. apply Forall2_app_inv_r in F. destruct F as (l1 & l' & F1 & F2 & ->). inversion F2; subst. eauto 10.
Qed.

Lemma nodup_snoc (l : list (list Z)) x : NoDup l -> ~ In x l -> NoDup (l ++ [x]).
Proof.
  induction 1 as [ | y l H N IH ]; intros X; cbn [app]; [ constructor; [ intros [] | constructor ] | ]. constructor.
  - rewrite in_app_iff. intros [ Y | [ -> | [] ] ]; [ contradiction | apply X; now left ].
  - apply IH. intros Y. apply X. now right.
Qed.

Section Holds.
  Variable A : accounts.
  Variable es : list entry.
  Hypothesis ND : NoDup (map e_user es).
  Hypothesis AE : forall u a, A u = Some a <-> In (mk_entry u (a_perms a) (a_hash a)) es.

  Lemma holds_none u : A u = None <-> ~ In u (map e_user es).
  Proof using AE.
    split.
    - intros H I. apply in_map_iff in I. destruct I as ([ v ps h ] & U & I). cbn in U. subst v. apply (AE u (mk_account ps h)) in I. congruence.
    - intros H. destruct (A u) as [ a | ] eqn:E; [ | reflexivity ]. apply AE in E. exfalso. apply H. apply in_map_iff. eexists. split; [ | exact E ]. reflexivity.
  Qed.
End Holds.

Lemma put_same A u a : put A u a u = a.
Proof. unfold put. destruct (eq_dec u u); congruence. Qed.
Lemma put_other A u a v : v <> u -> put A u a v = A v.
Proof. intros H. unfold put. destruct (eq_dec v u); congruence. Qed.

Lemma parse_config_options d : parse_config d = true -> d_remove d = true -> d_create d = false /\ d_append d = false /\ d_permissions d = [] /\ d_password d = None.
Proof.
  unfold parse_config. rewrite !andb_true_iff, !negb_true_iff. intros ((_ & H) & _) R. rewrite R in H. cbn [andb] in H. rewrite !orb_false_iff in H.
  destruct H as (((H1 & H2) & H3) & H4). destruct (d_permissions d); [ | rewrite zlen_cons in H3; pose proof (zlen_nonneg _ l0); exfalso; lia ].
  destruct (d_password d); [ discriminate | ]. auto.
Qed.

Lemma process_ok d f A r : ~ In 0 f -> holds A f -> request_ok d -> options d = Some r -> fits (perform r A) ->
  if succeeds r A then exists f', process d f = Ok (Some f') /\ ~ In 0 f' /\ holds (perform r A) f' else process d f = Ok None.
Proof.
  intros N0 (es & E & ND & AE) (U & PS & HS) O FT. pose proof (lines_good f N0) as G. unfold entries in E.
  assert (UO : user_of r = d_username d /\ d_remove d && d_create d = false).
  { unfold options, wanted in O. destruct (d_remove d).
    - destruct (d_create d); [ discriminate | ]. destruct (d_append d); [ discriminate | ]. destruct (d_permissions d); [ | discriminate ]. injection O as <-. auto.
    - destruct (d_append d && _); [ discriminate | ]. destruct (d_create d); injection O as <-; auto. }
  destruct UO as (UO & RC). unfold succeeds, perform in *. rewrite UO in *. set (u := d_username d) in *.
  destruct (in_dec eq_dec u (map e_user es)) as [ IN | OUT ].
  - (* the user is there *)
    destruct (nodup_split es u ND IN) as (e1 & e & e2 & -> & EU & O1 & O2). destruct (Forall2_app_r _ _ _ _ E) as (l1 & l & l2 & LS & F1 & HE & F2).
    destruct e as [ v eps eh ]. cbn [e_user] in EU. subst v.
    assert (Au : A u = Some (mk_account eps eh)) by (apply AE, in_or_app; right; left; reflexivity).
    rewrite LS in G. apply Forall_app in G. destruct G as (G1 & G). inversion_clear G as [ | ? ? GL G2 ].
    assert (PR : process d f = bind (over _ (process_line d) (text l1, false) (l :: l2)) (fun '(ret, (written, found)) =>
      if negb (ret =? 0) then Ok None
      else if d_create d then Ok (Some (written ++ write_user d (d_username d) [] (d_password d) ++ [10]))
      else if negb found then Ok None else Ok (Some written))).
    { unfold process. rewrite iterate_lines_ok, LS, (over_others d l1 e1) by assumption. reflexivity. }
    rewrite (over_user d l _ _ _ _ HE GL eq_refl) in PR. cbn [e_perms e_hash] in PR. rewrite Au in *.
    unfold options, wanted in O. fold u in O. destruct (d_create d) eqn:CR.
    + rewrite andb_true_r in RC. rewrite RC in O. destruct (d_append d && _); [ discriminate | ]. injection O as <-. cbn [answer] in *. exact PR.
    + cbn [orb] in PR. destruct (d_remove d) eqn:RM.
      * assert (r = Remove u) as -> by (destruct (d_append d); [ discriminate | ]; destruct (d_permissions d); [ | discriminate ]; now injection O as <-).
        cbn [answer] in *. replace l2 with (l2 ++ []) in PR by apply app_nil_r. rewrite (over_others d l2 e2) in PR by assumption. cbn [over bind Z.eqb negb] in PR.
        exists (text (l1 ++ l2)). rewrite text_app. split; [ exact PR | ]. rewrite <- text_app.
        assert (GG : Forall good_line (l1 ++ l2)) by (apply Forall_app; auto). split; [ now apply text_no_zero | ].
        exists (e1 ++ e2). unfold entries. rewrite lines_text by exact GG. split; [ now apply Forall2_app | ]. split.
        { rewrite map_app in *. cbn [map] in ND. now apply NoDup_remove_1 in ND. }
        intros w a. destruct (eq_dec w u) as [ -> | W ].
        -- rewrite put_same. split; [ discriminate | ]. intros X. exfalso. apply in_app_or in X. destruct X as [ X | X ]; [ apply O1 | apply O2 ]; apply in_map_iff; eexists; (split; [ | exact X ]); reflexivity.
        -- rewrite put_other by exact W. rewrite AE, !in_app_iff. cbn [In]. split; [ intros [ X | [ X | X ] ]; auto; injection X; congruence | tauto ].
      * destruct (d_append d && _) eqn:AP; [ discriminate | ]. injection O as <-. cbn [answer user_of] in *.
        set (h' := match d_password d with Some h => h | None => a_hash (mk_account eps eh) end) in *. cbn [a_hash a_perms] in *.
        set (c := match d_permissions d with [] => Keep | _ :: _ => if d_append d then Add (d_permissions d) else Replace (d_permissions d) end) in *.
        set (e' := mk_entry u (new_perms eps c) h').
        assert (WU : write_user d u eps (match d_password d with Some p => Some p | None => Some eh end) = line_of e').
        { unfold write_user, line_of, e', h'. cbn [e_user e_perms e_hash a_hash]. rewrite write_permissions_proper. unfold ch_colon. cbn [app].
          replace (proper ((if d_append d || (zlen (d_permissions d) =? 0) then eps else []) ++ d_permissions d)) with (new_perms eps c).
          - destruct (d_password d); reflexivity.
          - unfold c. destruct (d_permissions d) as [ | p0 ps ]; [ rewrite zlen_nil, orb_true_r, app_nil_r; reflexivity | ].
            replace (zlen (p0 :: ps) =? 0) with false by (rewrite zlen_cons; pose proof (zlen_nonneg _ ps); lia). rewrite orb_false_r. destruct (d_append d); reflexivity. }
        fold u in PR. rewrite WU in PR. replace l2 with (l2 ++ []) in PR by apply app_nil_r. rewrite (over_others d l2 e2) in PR by assumption. cbn [over bind Z.eqb negb] in PR.
        destruct (perms_of_entry l _ GL HE) as (EP & EH). cbn [e_perms e_hash] in EP, EH.
        assert (NP : forall p, In p (new_perms eps c) -> p <> [] /\ (In p eps \/ In p (d_permissions d))).
        { intros p Hp. unfold c in Hp. destruct (d_permissions d) as [ | p0 ps ]; cbn [new_perms] in Hp; [ apply proper_in in Hp; tauto | ].
          destruct (d_append d); cbn [new_perms] in Hp; apply proper_in in Hp; [ | tauto ]. rewrite in_app_iff in Hp. tauto. }
        destruct (new_line e') as (NE & NG).
        { exact U. }
        { unfold e', h'. cbn [e_hash a_hash]. destruct (d_password d); [ exact HS | exact EH ]. }
        { unfold e'. cbn [e_perms]. apply Forall_forall. intros p Hp. destruct (NP p Hp) as (X & [ Y | Y ]).
          - rewrite Forall_forall in EP. destruct (EP p Y) as (Q1 & Q2 & Q3). auto.
          - rewrite Forall_forall in PS. pose proof (PS p Y) as Q. split; [ eapply Forall_impl; [ | exact Q ]; cbn; tauto | ].
            split; [ eapply forall_not_in; [ exact Q | cbn; tauto ] | ]. split; [ eapply forall_not_in; [ exact Q | cbn; tauto ] | exact X ]. }
        { unfold e'. cbn [e_perms]. apply (FT u (mk_account (new_perms eps c) h')). rewrite put_same. reflexivity. }
        exists (text (l1 ++ line_of e' :: l2)).
        assert (GG : Forall good_line (l1 ++ line_of e' :: l2)) by (apply Forall_app; split; [ exact G1 | constructor; assumption ]).
        split. { rewrite PR, text_app, text_cons. now rewrite <- !app_assoc. }
        split; [ now apply text_no_zero | ]. exists (e1 ++ e' :: e2). unfold entries. rewrite lines_text by exact GG.
        split; [ apply Forall2_app; [ exact F1 | constructor; assumption ] | ]. split; [ rewrite map_app in *; exact ND | ].
        intros w a. destruct (eq_dec w u) as [ -> | W ].
        -- rewrite put_same. split.
           ++ intros X. injection X as <-. cbn [a_perms a_hash]. apply in_or_app. right. left. reflexivity.
           ++ intros X. apply in_app_or in X. destruct X as [ X | [ X | X ] ].
              ** exfalso. apply O1. apply in_map_iff. eexists. split; [ | exact X ]. reflexivity.
              ** unfold e' in X. injection X as X1 X2. destruct a. cbn in X1, X2. now subst.
              ** exfalso. apply O2. apply in_map_iff. eexists. split; [ | exact X ]. reflexivity.
        -- rewrite put_other by exact W. rewrite AE, !in_app_iff. cbn [In]. unfold e'. split; (intros [ X | [ X | X ] ]; [ auto | injection X; congruence | auto ]).
  - (* the user is not there *)
    assert (Au : A u = None) by (apply (holds_none A es AE); exact OUT). rewrite Au in *.
    assert (PR : process d f = bind (over _ (process_line d) (text (lines f), false) []) (fun '(ret, (written, found)) =>
      if negb (ret =? 0) then Ok None
      else if d_create d then Ok (Some (written ++ write_user d (d_username d) [] (d_password d) ++ [10]))
      else if negb found then Ok None else Ok (Some written))).
    { unfold process. rewrite iterate_lines_ok. rewrite <- (app_nil_r (lines f)) at 1. rewrite (over_others d (lines f) es) by assumption. reflexivity. }
    cbn [over bind Z.eqb negb] in PR. unfold options, wanted in O. fold u in O. destruct (d_create d) eqn:CR.
    + rewrite andb_true_r in RC. rewrite RC in O. destruct (d_append d && _) eqn:AP; [ discriminate | ]. injection O as <-. cbn [answer user_of] in *.
      set (h' := match d_password d with Some h => h | None => [] end) in *. set (e' := mk_entry u (proper (d_permissions d)) h').
      assert (WU : write_user d (d_username d) [] (d_password d) = line_of e').
      { unfold write_user, line_of, e', h'. cbn [e_user e_perms e_hash]. rewrite write_permissions_proper. unfold ch_colon. cbn [app].
        destruct (d_append d || (zlen (d_permissions d) =? 0)); reflexivity. }
      rewrite WU in PR.
      destruct (new_line e') as (NE & NG).
      { exact U. }
      { unfold e', h'. cbn [e_hash]. destruct (d_password d); [ exact HS | constructor ]. }
      { unfold e'. cbn [e_perms]. apply Forall_forall. intros p Hp. apply proper_in in Hp. destruct Hp as (Y & X). rewrite Forall_forall in PS. pose proof (PS p Y) as Q.
        split; [ eapply Forall_impl; [ | exact Q ]; cbn; tauto | ].
        split; [ eapply forall_not_in; [ exact Q | cbn; tauto ] | ]. split; [ eapply forall_not_in; [ exact Q | cbn; tauto ] | exact X ]. }
      { unfold e'. cbn [e_perms]. apply (FT u (mk_account (proper (d_permissions d)) h')). rewrite put_same. reflexivity. }
      exists (text (lines f ++ [line_of e'])).
      assert (GG : Forall good_line (lines f ++ [line_of e'])) by (apply Forall_app; split; [ exact G | constructor; [ assumption | constructor ] ]).
      split. { rewrite PR, text_app, text_cons. cbn [text map concat]. reflexivity. }
      split; [ now apply text_no_zero | ]. exists (es ++ [e']). unfold entries. rewrite lines_text by exact GG.
      split; [ apply Forall2_app; [ exact E | constructor; [ exact NE | constructor ] ] | ]. split.
      { rewrite map_app. cbn [map]. apply nodup_snoc; assumption. }
      intros w a. destruct (eq_dec w u) as [ -> | W ].
      * rewrite put_same. split.
        -- intros X. injection X as <-. cbn [a_perms a_hash]. apply in_or_app. right. left. reflexivity.
        -- intros X. apply in_app_or in X. destruct X as [ X | [ X | [] ] ].
           ++ exfalso. apply OUT. apply in_map_iff. eexists. split; [ | exact X ]. reflexivity.
           ++ unfold e' in X. injection X as X1 X2. destruct a. cbn in X1, X2. now subst.
      * rewrite put_other by exact W. rewrite AE, in_app_iff. cbn [In]. unfold e'. split; [ auto | ]. intros [ X | [ X | [] ] ]; [ exact X | injection X; congruence ].
    + destruct (d_remove d) eqn:RM.
      * assert (r = Remove u) as -> by (destruct (d_append d); [ discriminate | ]; destruct (d_permissions d); [ | discriminate ]; now injection O as <-). exact PR.
      * destruct (d_append d && _); [ discriminate | ]. injection O as <-. exact PR.
Qed.

(** * Authentication by the accounts *)
Lemma decide_ok ssl pbkdf2 user password permission A ls es : Forall2 is_entry ls es -> NoDup (map e_user es) ->
  (forall a, A user = Some a <-> In (mk_entry user (a_perms a) (a_hash a)) es) ->
  decide ssl pbkdf2 user password permission ls =
  match A user with
  | None => Ok false
  | Some a => bind (passwd_check ssl pbkdf2 (a_hash a) password) (fun ok =>
              Ok (ok && match permission with Some p => existsb (fun x => same x p) (a_perms a) | None => true end))
  end.
Proof.
  intros F. revert A. induction F as [ | l e ls es H F IH ]; intros A ND AE; cbn [decide].
  - destruct (A user) as [ a | ]; [ | reflexivity ]. exfalso. apply (proj1 (AE a) eq_refl).
  - inversion_clear ND as [ | ? ? N1 N2 ]. apply columns_ok in H. rewrite H. destruct (same (e_user e) user) eqn:S.
    + apply same_eq in S. rewrite (proj2 (AE (mk_account (e_perms e) (e_hash e)))); [ reflexivity | ]. left. destruct e. cbn in *. now subst.
    + apply same_neq in S. apply IH; [ exact N2 | ]. intros a. rewrite AE. cbn [In]. split; [ intros [ X | X ]; [ subst e; cbn in S; congruence | exact X ] | auto ].
Qed.
Lemma authenticate_holds ssl pbkdf2 f A user password permission : ~ In 0 f -> holds A f -> user <> [] -> password <> [] ->
  authenticate ssl pbkdf2 (Some f) user password permission =
  match A user with
  | None => Ok false
  | Some a => bind (passwd_check ssl pbkdf2 (a_hash a) password) (fun ok =>
              Ok (ok && match permission with Some p => existsb (fun x => same x p) (a_perms a) | None => true end))
  end.
Proof. intros N (es & E & ND & AE) U P. rewrite authenticate_decide by assumption. apply (decide_ok _ _ _ _ _ A _ es E ND). intros a. apply AE. Qed.

Lemma holds_nothing : holds no_accounts [].
Proof. exists []. split; [ constructor | ]. split; [ constructor | ]. intros u a. split; [ discriminate | intros [] ]. Qed.

(** * Commands *)
Lemma name_no c p : name_ok p -> c = 58 \/ c = 44 -> existsb (Z.eqb c) p = false.
Proof.
  intros N C. destruct (existsb (Z.eqb c) p) eqn:E; [ | reflexivity ]. apply existsb_exists in E. destruct E as (x & I & E). apply Z.eqb_eq in E. subst x.
  unfold name_ok in N. rewrite Forall_forall in N. pose proof (N c I). cbn in *. lia.
Qed.
Lemma validate_ok p : name_ok p -> validate_str p = true.
Proof. intros N. unfold validate_str. rewrite !name_no by auto. reflexivity. Qed.
Lemma zlen_zero (l : list (list Z)) : (zlen l =? 0) = match l with [] => true | _ => false end.
Proof. destruct l; [ reflexivity | ]. rewrite zlen_cons. pose proof (zlen_nonneg _ l0). lia. Qed.

Lemma parse_config_ok c key : command_ok c -> parse_config (c_data c) = match request_of key c with Some _ => true | None => false end.
Proof.
  intros ((U & UB) & P & _). unfold parse_config, request_of. cbv zeta. set (d := c_data c) in *.
  rewrite validate_ok by exact U. replace (forallb validate_str (d_permissions d)) with true.
  2:{ symmetry. apply forallb_forall. intros p Hp. apply validate_ok. rewrite Forall_forall in P. now apply P. }
  replace (same (d_username d) []) with false by (destruct (d_username d); [ contradiction | reflexivity ]). rewrite !zlen_zero. cbn [negb andb].
  unfold wanted. destruct (d_remove d), (d_create d), (d_append d), (d_permissions d), (d_password d); reflexivity.
Qed.

Section History.
  Variable key : list Z -> list Z -> list Z.
  Hypothesis key_bytes : forall p s, bytes (key p s).
  Hypothesis key_len : forall p s, zlen (key p s) = 256.

  Definition hash_ok (h : list Z) : Prop :=
    h = [] \/ exists salt p, bytes salt /\ zlen salt = 32 /\ h = hash_text salt (key p salt).

  Lemma secret_ok salt p : bytes salt -> zlen salt = 32 -> hash_ok (secret key salt p).
  Proof using. intros B L. destruct p as [ | c p ]; [ now left | ]. right. exists salt, (c :: p). auto. Qed.
  Lemma base64_plain s : bytes s -> Forall (fun c => c <> 0 /\ nl c = false /\ c <> 58) (base64 s).
  Proof using. clear key_bytes key_len key. intros B. eapply Forall_impl; [ | apply base64_chars; exact B ]. cbn. unfold nl. intros c H. lia. Qed.
  Lemma hash_ok_chars h : hash_ok h -> Forall (fun c => c <> 0 /\ nl c = false /\ c <> 58) h.
  Proof using key_bytes.
    clear key_len. intros [ -> | (salt & p & B & _ & ->) ]; [ constructor | ]. unfold hash_text. rewrite !Forall_app.
    split; [ repeat constructor; lia | ]. split; [ now apply base64_plain | ]. split; [ repeat constructor; lia | apply base64_plain, key_bytes ].
  Qed.

  Definition related (A : accounts) (s : files) : Prop :=
    (let f := match f_file s with Some f => f | None => [] end in ~ In 0 f /\ holds A f) /\ (forall u a, A u = Some a -> hash_ok (a_hash a)).

  Lemma step_ok c A s : command_ok c -> related A s -> fits (fst (perform_if (request_of key c) A)) ->
    exists trace, run true key (c_salt c) (c_typed c) (c_data c) s = Ok (trace, snd (perform_if (request_of key c) A)) /\
      related (fst (perform_if (request_of key c) A)) (after s trace).
  Proof using key_bytes key_len.
    intros C ((N0 & H) & HO) FT. pose proof (parse_config_ok c key C) as PC. unfold run. rewrite PC.
    destruct (request_of key c) as [ r | ] eqn:RQ; cbn [perform_if fst snd negb] in *.
    2:{ eexists. split; [ reflexivity | ]. split; [ exact (conj N0 H) | exact HO ]. }
    cbv zeta. destruct C as (U & P & B & L). set (salt := c_salt c) in *.
    rewrite hash_password_ssl by assumption. cbn [bind]. set (f := match f_file s with Some c0 => c0 | None => [] end) in *.
    match goal with |- context [ process ?X f ] => set (d' := X) end.
    assert (FD : d_username d' = d_username (c_data c) /\ d_create d' = d_create (c_data c) /\ d_remove d' = d_remove (c_data c) /\
                 d_append d' = d_append (c_data c) /\ d_permissions d' = d_permissions (c_data c) /\
                 d_password d' = new_hash key salt (c_typed c) (d_password (c_data c)) (d_create (c_data c)) (d_remove (c_data c)) (d_append (c_data c)) (d_permissions (c_data c))).
    { unfold d', ask_password, new_hash, secret. rewrite zlen_zero. destruct (c_data c) as [ u0 pw cr rm ap ps ]. cbn [d_username d_password d_create d_remove d_append d_permissions].
      destruct pw as [ [ | x pw ] | ]; cbn [d_password set_password d_username d_create d_remove d_append d_permissions]; try (repeat split; reflexivity).
      destruct cr, rm, ap, ps; cbn [negb andb orb d_password set_password d_username d_create d_remove d_append d_permissions]; destruct (c_typed c); repeat split; reflexivity. }
    destruct FD as (D1 & D2 & D3 & D4 & D5 & D6).
    assert (NH : match d_password d' with Some h => hash_ok h | None => True end).
    { rewrite D6. unfold new_hash. destruct (d_password (c_data c)); [ now apply secret_ok | ]. destruct (_ || _); [ now apply secret_ok | exact Logic.I ]. }
    assert (OP : options d' = Some r).
    { unfold options. rewrite D1, D2, D3, D4, D5, D6. rewrite <- RQ. unfold request_of in *. cbv zeta in *. fold salt in RQ |- *. unfold wanted in *.
      destruct (d_remove (c_data c)); [ | reflexivity ].
      destruct (d_password (c_data c)); [ rewrite orb_true_r in RQ; discriminate | reflexivity ]. }
    assert (RO : request_ok d').
    { unfold request_ok. rewrite D1, D5. split; [ exact U | ]. split; [ exact P | ]. destruct (d_password d'); [ now apply hash_ok_chars | exact Logic.I ]. }
    pose proof (process_ok d' f A r N0 H RO OP FT) as PO.
    assert (HO' : forall u a, perform r A u = Some a -> hash_ok (a_hash a)).
    { intros u a. unfold perform. destruct (answer r (A (user_of r))) as [ a' | ] eqn:AN; [ | apply HO ].
      destruct (eq_dec u (user_of r)) as [ -> | W ]; [ rewrite put_same | rewrite put_other by exact W; apply HO ]. intros ->.
      assert (RH : match r with Create _ _ h => hash_ok h | Change _ _ (Some h) => hash_ok h | _ => True end).
      { unfold options, wanted in OP. destruct (d_remove d'). { destruct (_ || _); [ discriminate | ]. injection OP as <-. exact Logic.I. }
        destruct (_ && _); [ discriminate | ]. destruct (d_create d'); injection OP as <-; destruct (d_password d'); auto; now left. }
      destruct r as [ u ps h | u ps h | u ]; cbn [answer user_of] in AN; destruct (A u) as [ b | ] eqn:E; try discriminate; injection AN as <-; cbn [a_hash]; [ exact RH | ].
      destruct h; [ exact RH | eapply HO; exact E ]. }
    destruct (succeeds r A) eqn:SU.
    - destruct PO as (f' & -> & N' & H'). cbn [bind]. eexists. split; [ reflexivity | ]. split; [ exact (conj N' H') | exact HO' ].
    - rewrite PO. cbn [bind]. eexists. split; [ reflexivity | ]. unfold succeeds in SU. unfold perform in *. destruct (answer r (A (user_of r))); [ discriminate | ].
      split; [ exact (conj N0 H) | exact HO ].
  Qed.

  Lemma run_all_ok cs : forall A s, Forall command_ok cs -> related A s -> (forall n, fits (fst (history key (firstn n cs) A))) ->
    exists s', run_all key cs s = Ok (s', snd (history key cs A)) /\ related (fst (history key cs A)) s'.
  Proof using key_bytes key_len.
    induction cs as [ | c cs IH ]; intros A s F R FT; [ exists s; split; [ reflexivity | exact R ] | ]. inversion_clear F as [ | ? ? F1 F2 ].
    cbn [run_all history]. pose proof (FT 1%nat) as FT1. cbn [firstn history] in FT1.
    destruct (perform_if (request_of key c) A) as [ A' ok ] eqn:PI. cbn [fst] in FT1.
    destruct (step_ok c A s F1 R) as (trace & -> & R'); [ rewrite PI; exact FT1 | ]. rewrite PI in *. cbn [fst snd bind] in *.
    destruct (IH A' (after s trace) F2 R') as (s' & E & R2).
    { intros n. pose proof (FT (S n)) as X. cbn [firstn history] in X. rewrite PI in X. destruct (history key (firstn n cs) A'). exact X. }
    rewrite E. cbn [bind]. destruct (history key cs A') as [ B oks ]. cbn [fst snd] in *. exists s'. auto.
  Qed.

  Lemma related_authenticate A s user q permission : related A s -> user <> [] -> q <> [] ->
    exists b, authenticate true key (f_file s) user q permission = Ok b /\
      (b = true <-> exists a salt, A user = Some a /\ bytes salt /\ zlen salt = 32 /\ a_hash a = hash_text salt (key q salt) /\ permitted permission (a_perms a)).
  Proof using key_bytes key_len.
    intros ((N0 & H) & HO) U Q. assert (AU : authenticate true key (f_file s) user q permission = authenticate true key (Some match f_file s with Some f => f | None => [] end) user q permission) by (destruct (f_file s); reflexivity).
    rewrite AU, (authenticate_holds _ _ _ A) by assumption. destruct (A user) as [ a | ] eqn:E.
    2:{ exists false. split; [ reflexivity | ]. split; [ discriminate | intros (a & salt & X & _); discriminate ]. }
    assert (PM : match permission with Some p => existsb (fun x => same x p) (a_perms a) | None => true end = true <-> permitted permission (a_perms a)).
    { destruct permission as [ p | ]; cbn [permitted]; [ apply existsb_same | tauto ]. }
    destruct (HO user a E) as [ HN | (salt & p & B & L & HT) ].
    - exists false. rewrite HN. split; [ unfold passwd_check; rewrite (proj2 (same_neq q [])) by assumption; reflexivity | ].
      split; [ discriminate | ]. intros (a' & salt & X & _ & _ & Y & _). injection X as <-. rewrite HN in Y. discriminate.
    - rewrite HT, check_hash; [ | assumption | assumption | assumption | lia | apply key_bytes | apply key_len | assumption ]. cbn [bind]. eexists. split; [ reflexivity | ].
      rewrite andb_true_iff, PM, same_eq. split.
      + intros (X & Y). exists a, salt. rewrite <- X in HT. auto.
      + intros (a' & salt' & X & B' & L' & Y & Z'). injection X as <-. split; [ | exact Z' ].
        assert (C1 := check_hash key key_len key_bytes salt (key p salt) q B ltac:(lia) (key_bytes _ _) (key_len _ _) Q).
        assert (C2 := check_hash key key_len key_bytes salt' (key q salt') q B' ltac:(lia) (key_bytes _ _) (key_len _ _) Q).
        rewrite <- HT, Y, C2, same_refl in C1. injection C1 as C1. symmetry in C1. now apply same_eq in C1.
  Qed.

  Lemma history_proof cs : Forall command_ok cs -> (forall n, fits (fst (history key (firstn n cs) no_accounts))) ->
    exists s, run_all key cs (mk_files None None) = Ok (s, snd (history key cs no_accounts)) /\
      forall user q permission, user <> [] -> q <> [] ->
      exists b, authenticate true key (f_file s) user q permission = Ok b /\
        (b = true <-> exists a salt, fst (history key cs no_accounts) user = Some a /\ bytes salt /\ zlen salt = 32 /\
           a_hash a = hash_text salt (key q salt) /\ permitted permission (a_perms a)).
  Proof using key_bytes key_len.
    intros F FT. destruct (run_all_ok cs no_accounts (mk_files None None) F) as (s & E & R); [ | exact FT | ].
    - split; [ split; [ intros [] | exact holds_nothing ] | discriminate ].
    - exists s. split; [ exact E | ]. intros. apply related_authenticate; assumption.
  Qed.
End History.

(** * Crashes *)
Lemma crash_proof ssl key salt typed d s c trace ok x : f_file s = Some c -> run ssl key salt typed d s = Ok (trace, ok) -> In x trace ->
  f_file x = Some c \/ (f_file x = None /\ f_old x = Some c) \/ (ok = true /\ f_file x = f_file (after s trace)).
Proof.
  intros F. unfold run. destruct (parse_config d); cbn [negb].
  2:{ intros H. injection H as <- <-. intros [ <- | [] ]. auto. }
  cbv zeta. rewrite F. destruct (hash_password _ _ _ _) as [ [ d' | ] | | ]; cbn [bind]; try discriminate.
  2:{ intros H. injection H as <- <-. cbn [In f_file]. intros [ <- | [ <- | [ <- | [] ] ] ]; auto. }
  destruct (process d' c) as [ [ new | ] | | ]; cbn [bind]; try discriminate.
  2:{ intros H. injection H as <- <-. cbn [In f_file]. intros [ <- | [ <- | [ <- | [] ] ] ]; auto. }
  intros H. injection H as <- <-. cbn [In f_file f_old after last]. intros [ <- | [ <- | [ <- | [ <- | [ <- | [] ] ] ] ] ]; cbn [f_file f_old]; auto.
Qed.
Lemma lost_proof ssl key salt typed d c trace ok : parse_config d = true -> run ssl key salt typed d (mk_files None (Some c)) = Ok (trace, ok) ->
  exists trace', run ssl key salt typed d (mk_files None None) = Ok (trace', ok) /\ after (mk_files None (Some c)) trace = after (mk_files None None) trace'.
Proof.
  intros P. unfold run. rewrite P. cbn [negb f_file f_old]. cbv zeta. destruct (hash_password _ _ _ _) as [ [ d' | ] | | ]; cbn [bind]; try discriminate.
  2:{ intros H. injection H as <- <-. eexists. split; reflexivity. }
  destruct (process d' []) as [ [ new | ] | | ]; cbn [bind]; try discriminate; intros H; injection H as <- <-; eexists; split; reflexivity.
Qed.

(** * When there are few permissions *)
Lemma proper_len l : zlen (proper l) <= zlen l.
Proof.
  assert (O : zlen (once l) <= zlen l) by (induction l as [ | x l IH ]; cbn [once]; [ lia | destruct (in_dec eq_dec x l); rewrite ?zlen_cons; lia ]).
  unfold proper. generalize dependent (once l). intros m O. enough (zlen (filter nonempty m) <= zlen m) by lia. clear O.
  induction m as [ | x m IH ]; cbn [filter]; [ lia | ]. destruct (nonempty x); rewrite ?zlen_cons; lia.
Qed.
Definition perms_given (cs : list command) : Z := fold_right (fun c n => zlen (d_permissions (c_data c)) + n) 0 cs.
Lemma perms_given_nonneg cs : 0 <= perms_given cs.
Proof. induction cs as [ | c cs IH ]; cbn; [ lia | ]. pose proof (zlen_nonneg _ (d_permissions (c_data c))). unfold perms_given in IH. lia. Qed.
Lemma few_step key c A m : 0 <= m -> (forall u a, A u = Some a -> zlen (a_perms a) <= m) ->
  forall u a, fst (perform_if (request_of key c) A) u = Some a -> zlen (a_perms a) <= m + zlen (d_permissions (c_data c)).
Proof.
  intros M H u a. pose proof (zlen_nonneg _ (d_permissions (c_data c))) as N. unfold request_of. cbv zeta. set (h := new_hash _ _ _ _ _ _ _ _). clearbody h.
  unfold wanted. set (ps := d_permissions (c_data c)) in *. set (un := d_username (c_data c)).
  assert (OTHER : forall x, (forall b, x = Some b -> zlen (a_perms b) <= m + zlen ps) -> put A un x u = Some a -> zlen (a_perms a) <= m + zlen ps).
  { intros x HX. unfold put. destruct (eq_dec u un); [ apply HX | intros X; apply H in X; lia ]. }
  destruct (d_remove (c_data c)).
  - destruct (_ || _); cbn [perform_if fst]; [ intros X; apply H in X; lia | ]. unfold perform. cbn [answer user_of]. destruct (A un); [ apply OTHER; discriminate | intros X; apply H in X; lia ].
  - destruct (_ && _); cbn [perform_if fst]; [ intros X; apply H in X; lia | ]. destruct (d_create (c_data c)); cbn [perform_if fst]; unfold perform; cbn [answer user_of]; destruct (A un) as [ b | ] eqn:E.
    + intros X; apply H in X; lia.
    + apply OTHER. intros b X. injection X as <-. cbn [a_perms]. pose proof (proper_len ps). lia.
    + apply OTHER. intros b' X. injection X as <-. cbn [a_perms]. apply H in E. unfold new_perms.
      destruct ps as [ | p r ] eqn:P; [ pose proof (proper_len (a_perms b)); lia | ]. rewrite <- P in *. destruct (d_append (c_data c)).
      * pose proof (proper_len (a_perms b ++ ps)) as Q. rewrite zlen_app in Q. lia.
      * pose proof (proper_len ps). lia.
    + intros X; apply H in X; lia.
Qed.
Lemma few_perms key cs : forall A m, 0 <= m -> (forall u a, A u = Some a -> zlen (a_perms a) <= m) -> m + perms_given cs <= 32 ->
  forall n, fits (fst (history key (firstn n cs) A)).
Proof.
  induction cs as [ | c cs IH ]; intros A m M H L n.
  - rewrite firstn_nil. intros u a X. apply H in X. cbn in L. lia.
  - cbn [perms_given fold_right] in L. fold (perms_given cs) in L. pose proof (perms_given_nonneg cs). pose proof (zlen_nonneg _ (d_permissions (c_data c))).
    destruct n as [ | n ]; cbn [firstn history]; [ intros u a X; apply H in X; lia | ].
    pose proof (few_step key c A m M H) as F. destruct (perform_if (request_of key c) A) as [ A' ok ]. cbn [fst] in F.
    pose proof (IH A' (m + zlen (d_permissions (c_data c))) ltac:(lia) F ltac:(lia) n) as X. destruct (history key (firstn n cs) A'). exact X.
Qed.
