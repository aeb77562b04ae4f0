(** Iterations over the files of a database, with enough time. *)
From Coq Require Import ZArith List Bool Lia FinFun.
From Verif Require Import Common MsgModel MsgProofs MsgdbModel MsgdbSpec MsgdbFsProofs MsgdbProofs.
Import ListNotations.
Open Scope Z_scope.

Lemma children_remove : forall f p q, (Datatypes.length (children (remove f p) q) <= Datatypes.length (children f q))%nat.
Proof.
  intros. unfold children. induction f as [|[a n] f IH]; cbn [remove filter flat_map fst snd]; auto. fold (remove f p).
  destruct (negb (path_eqb a p)); cbn [flat_map fst snd]; rewrite ?app_length; lia.
Qed.
Lemma children_names : forall f p, NoDup (keys f) -> NoDup (map fst (children f p)).
Proof.
  induction f as [|[a n] f IH]; intros p N; cbn [children flat_map fst snd]; [constructor|]. fold (children f p). inversion N; subst.
  rewrite map_app. destruct (strip p a) as [[|x [|y r]]|] eqn:E; cbn [map app]; auto. constructor; auto. cbn [fst].
  intros X. apply in_map_iff in X as ([x' n'] & EX & X). cbn [fst] in EX. subst x'. apply H1. apply strip_iff in E. subst a.
  apply in_flat_map in X as ([b m] & X1 & X2). cbn [fst snd] in X2. destruct (strip p b) as [[|z [|]]|] eqn:E2; cbn in X2; try tauto.
  destruct X2 as [X2|[]]. injection X2 as <- <-. apply strip_iff in E2. subst b. apply in_map_iff. exists (p ++ [z], m). auto.
Qed.

Section Base.
Context (base : path) (C : name -> list Z -> Prop) (L : nat) (HL : (L <= 4)%nat) (k : kind) (age now : Z).
Context (HS : forall n c m, C n c -> read_file (Some (File c)) true None = Some m ->
  exists m', read_file (Some (File c)) false None = Some m' /\ msg_msg_to_network m' = c).
Notation Good := (Good base C).
Notation at_ := (at_ base).
Notation has := (has base).
Notation at_level := (at_level base).
Notation In_dir := (In_dir base C).

Definition is_idx : bool := match k with Idx => true | Tidy => false end.
(** Which files are kept, and which are sent *)
Definition keepf (c : list Z) : bool :=
  match read_file (Some (File c)) true None with None => false | Some m => ttl_ok m now (age * 1000000) || is_idx end.
Definition sendf (c : list Z) : bool :=
  match read_file (Some (File c)) true None with None => false | Some m => negb (ttl_ok m now (age * 1000000)) && is_idx end.
Definition between (f g : fs) : Prop := forall n c, name_ok n -> (has g n c -> has f n c) /\ (has f n c -> keepf c = true -> has g n c).
Lemma between_refl : forall f, between f f. Proof using. intros f n c _. split; auto. Qed.
Lemma between_trans : forall f g h, between f g -> between g h -> between f h.
Proof using. intros f g h A B n c N. destruct (A n c N), (B n c N). split; auto. Qed.
Definition fewer (f g : fs) : Prop := forall q, (Datatypes.length (children g q) <= Datatypes.length (children f q))%nat.
(** What is done to the files which [P] is true of *)
Definition treated (P : name -> Prop) (f g : fs) : Prop := forall n c, name_ok n -> (has g n c <-> has f n c /\ (P n -> keepf c = true)).
Definition sent (P : name -> Prop) (f : fs) (l : list reply) : Prop :=
  exists es, l = map (fun e => RMsg (snd e)) es /\ NoDup (map fst es) /\ forall n c, In (n, c) es <-> name_ok n /\ has f n c /\ P n /\ sendf c = true.
Lemma treated_between : forall P f g, treated P f g -> between f g.
Proof using. intros P f g T n c N. specialize (T n c N). split; [tauto|]. intros; apply T; auto. Qed.
Lemma treated_none : forall (P : name -> Prop) f, (forall n c, name_ok n -> has f n c -> P n -> False) -> treated P f f.
Proof using. intros P f X n c N. split; [|tauto]. intros Y. split; auto. intros Z. destruct (X n c N Y Z). Qed.
Lemma sent_none : forall (P : name -> Prop) f, (forall n c, name_ok n -> has f n c -> P n -> False) -> sent P f [].
Proof using. intros P f X. exists []. split; auto. split; [constructor|]. intros n c. split; [intros []|]. intros (N & Y & Z & _). destruct (X n c N Y Z). Qed.
Lemma sent_join : forall (P Q : name -> Prop) f g a b, (forall n, P n -> Q n -> False) -> treated P f g -> sent P f a -> sent Q g b -> sent (fun n => P n \/ Q n) f (a ++ b).
Proof using.
  intros P Q f g a b D T (e1 & -> & N1 & I1) (e2 & -> & N2 & I2). exists (e1 ++ e2). split; [rewrite map_app; auto|].
  assert (HG : forall n c, name_ok n -> Q n -> (has g n c <-> has f n c)) by (intros n c N X; rewrite (T n c N); split; [tauto|]; intros Y; split; auto; intros Z; destruct (D n Z X)).
  split.
  - rewrite map_app. clear - D N1 N2 I1 I2. assert (DJ : forall n, In n (map fst e1) -> In n (map fst e2) -> False).
    { intros n X1 X2. apply in_map_iff in X1 as ([n1 c1] & <- & X1). apply in_map_iff in X2 as ([n2 c2] & E & X2). cbn [fst] in E. subst n2.
      apply I1 in X1. apply I2 in X2. eapply D; [apply X1|apply X2]. }
    revert N1 DJ. generalize (map fst e1). clear I1. intros l. induction l as [|x l IH]; intros N1 DJ; cbn [app]; auto. inversion N1; subst. constructor.
    + intros X. apply in_app_iff in X as [X|X]; auto. apply (DJ x); auto. left. reflexivity.
    + apply IH; auto. intros n X1 X2. apply (DJ n); auto. right. auto.
  - intros n c. rewrite in_app_iff, I1, I2. split.
    + intros [X|(X1 & X2 & X3 & X4)]; [tauto|]. split; auto. split; auto. apply HG; auto.
    + intros (X1 & X2 & [X3|X3] & X4); [tauto|]. right. split; auto. split; auto. apply HG; auto.
Qed.
Lemma treated_join : forall (P Q : name -> Prop) f g h, treated P f g -> treated Q g h -> treated (fun n => P n \/ Q n) f h.
Proof using. intros P Q f g h A B n c N. rewrite (B n c N), (A n c N). tauto. Qed.
Lemma treated_ext : forall (P Q : name -> Prop) f g, (forall n, P n <-> Q n) -> treated P f g -> treated Q f g.
Proof using. intros P Q f g E T n c N. rewrite (T n c N), (E n). tauto. Qed.
Lemma sent_ext : forall (P Q : name -> Prop) f l, (forall n, P n <-> Q n) -> sent P f l -> sent Q f l.
Proof using. intros P Q f l E (es & E1 & E2 & E3). exists es. split; auto. split; auto. intros n c. rewrite E3, (E n). tauto. Qed.

Definition here (ds : list Z) (n : name) : Prop := dirs_of L n = singles ds.
(** ** One file *)
Lemma cb_ok : forall ds x s, In_dir ds s -> at_level L (s_fs s) ->
  wp (file_callback k age now x) (fun r s' => fst r = 0 /\ In_dir ds s' /\ at_level L (s_fs s') /\ fewer (s_fs s) (s_fs s') /\
     treated (fun n => n = x /\ here ds n) (s_fs s) (s_fs s') /\ sent (fun n => n = x /\ here ds n) (s_fs s) (snd r))
   (fun g => Good g /\ between (s_fs s) g) s.
Proof using HL HS.
  intros ds x s I A. pose proof I as ([G P] & W & D). unfold file_callback.
  assert (EQ : base ++ singles ds ++ [x] = s_cwd s ++ [x]) by (rewrite W, app_assoc; reflexivity).
  apply wp_bind with (P := fun v s' => v = at_ (s_fs s) (singles ds ++ [x]) /\ s' = s).
  { unfold wp, look. rewrite <- EQ. auto. }
  intros v s1 (-> & ->).
  assert (HF : forall n c, name_ok n -> has (s_fs s) n c -> n = x -> here ds n -> at_ (s_fs s) (singles ds ++ [x]) = Some (File c)).
  { intros n c N X -> Y. apply (level_has base L) in X; auto. unfold make_path in X. rewrite Y in X. auto. }
  assert (SAME : forall n, at_ (s_fs s) (singles ds ++ [x]) = n -> (forall c, n <> Some (File c)) ->
    wp (ret (0, [])) (fun r s' => fst r = 0 /\ In_dir ds s' /\ at_level L (s_fs s') /\ fewer (s_fs s) (s_fs s') /\
     treated (fun n => n = x /\ here ds n) (s_fs s) (s_fs s') /\ sent (fun n => n = x /\ here ds n) (s_fs s) (snd r))
     (fun g => Good g /\ between (s_fs s) g) s).
  { intros n E NF. apply wp_ret. split; auto. split; auto. split; auto. split; [intros q; auto|].
    assert (X : forall m c, name_ok m -> has (s_fs s) m c -> m = x /\ here ds m -> False) by (intros m c N X [Y Z]; apply (NF c); rewrite <- E; eauto).
    split; [apply treated_none; auto|apply sent_none; auto]. }
  destruct (at_ (s_fs s) (singles ds ++ [x])) as [[|c]|] eqn:E.
  - apply (SAME (Some Dir)); auto; discriminate.
  - assert (NX : name_ok x /\ here ds x /\ C x c).
    { pose proof E as E2. apply (g_node _ _ _ G) in E2 as (k' & n & E2 & N & K & HC); [|intros Q; apply app_eq_nil in Q as [_ Q]; discriminate].
      assert (n = x) by (unfold make_path in E2; apply app_inj_tail in E2; symmetry; apply E2). subst n. split; auto. split; auto.
      rewrite E2 in E. assert (k' = L) by (eapply A; eauto). subst k'. unfold make_path in E2. apply app_inj_tail in E2. unfold here. symmetry. apply E2. }
    destruct NX as (N & HE & HC). assert (EM : singles ds ++ [x] = make_path L x) by (unfold make_path; rewrite HE; reflexivity).
    assert (HX : has (s_fs s) x c) by (exists L; rewrite <- EM; auto).
    assert (KEEP : forall out, keepf c = true -> (sendf c = true -> out = [RMsg c]) -> (sendf c = false -> out = []) ->
      wp (ret (0, out)) (fun r s' => fst r = 0 /\ In_dir ds s' /\ at_level L (s_fs s') /\ fewer (s_fs s) (s_fs s') /\
       treated (fun n => n = x /\ here ds n) (s_fs s) (s_fs s') /\ sent (fun n => n = x /\ here ds n) (s_fs s) (snd r))
       (fun g => Good g /\ between (s_fs s) g) s).
    { intros out K1 K2 K3. apply wp_ret. split; auto. split; auto. split; auto. split; [intros q; auto|]. split.
      - intros n c' N'. split; [|tauto]. intros Y. split; auto. intros [-> Z]. rewrite (has_one base C (s_fs s) x c' c); auto.
      - cbn [snd]. destruct (sendf c) eqn:SF.
        + rewrite K2 by auto. exists [(x, c)]. split; auto. split; [repeat constructor; intros []|]. intros n c'. split.
          * intros [Y|[]]. injection Y as <- <-. auto.
          * intros (_ & Y & [-> _] & _). left. rewrite (has_one base C (s_fs s) x c' c); auto.
        + rewrite K3 by auto. exists []. split; auto. split; [constructor|]. intros n c'. split; [intros []|]. intros (_ & Y & [-> _] & Z).
          rewrite (has_one base C (s_fs s) x c' c) in Z; auto. congruence. }
    assert (DROP : keepf c = false -> wp (bind (del_raw [x]) (fun _ => ret (0, []))) (fun r s' => fst r = 0 /\ In_dir ds s' /\ at_level L (s_fs s') /\ fewer (s_fs s) (s_fs s') /\
       treated (fun n => n = x /\ here ds n) (s_fs s) (s_fs s') /\ sent (fun n => n = x /\ here ds n) (s_fs s) (snd r))
       (fun g => Good g /\ between (s_fs s) g) s).
    { intros KF. assert (SF : sendf c = false) by (unfold keepf, sendf in *; destruct (read_file (Some (File c)) true None); auto; destruct is_idx, (ttl_ok _ _ _); auto; discriminate).
      rewrite EM in E. destruct (del_good base C _ _ _ _ G N E) as (G' & O & F & R). set (f' := remove (s_fs s) (base ++ make_path L x)) in *.
      apply wp_bind with (P := fun _ s' => s_fs s' = f' /\ s_cwd s' = s_cwd s /\ s_prev s' = s_prev s).
      - unfold del_raw. apply wp_bind with (P := fun e s' => e = EOK /\ s_fs s' = f' /\ s_cwd s' = s_cwd s /\ s_prev s' = s_prev s).
        + apply wp_step; [split; auto; apply between_refl|]. intros f e s' Q F1 W1 V1. rewrite F1, W1, V1. rewrite <- EQ, EM in Q. unfold sys_unlink in Q. unfold MsgdbFsProofs.at_ in E. rewrite E in Q.
          injection Q as <- <-. auto.
        + intros e s' (-> & X). apply wp_ret. auto.
      - intros _ s' (F1 & W1 & V1). apply wp_ret. unfold MsgdbProofs.In_dir, St. rewrite F1, W1, V1. cbn [fst snd]. split; auto. split; [split; [split; auto|split; auto]|].
        { rewrite R; auto. intros Q. symmetry in Q. apply make_path_not_singles in Q; auto. }
        assert (AL : at_level L f').
        { apply (level_put base L x (s_fs s)); auto. intros k' y K Y. destruct (Nat.eq_dec k' L); auto.
          rewrite R in Y; [eapply A; eauto|]. intros E1. pose proof (make_path_len k' x N K) as E2. rewrite E1 in E2. rewrite make_path_len in E2 by auto. congruence. }
        split; auto. split; [intros q; apply children_remove|]. split.
        + intros n c' N'. destruct (list_eq_dec Z.eq_dec n x) as [->|NE].
          * rewrite (level_has base L f' x c') by auto. rewrite F. split; [discriminate|]. intros [Y Z]. rewrite (has_one base C (s_fs s) x c' c) in Z; auto. rewrite KF in Z. discriminate Z; auto.
          * rewrite <- (others_has base (s_fs s) f' x n c') by auto. split; [|tauto]. intros Y. split; auto. intros [? _]. congruence.
        + exists []. split; auto. split; [constructor|]. intros n c'. split; [intros []|]. intros (_ & Y & [-> _] & Z).
          rewrite (has_one base C (s_fs s) x c' c) in Z; auto. congruence. }
    pose proof DROP as DROP0. pose proof KEEP as KEEP0. unfold keepf, sendf in DROP0, KEEP0.
    destruct (read_file (Some (File c)) true None) as [m|] eqn:RD; [|apply DROP; unfold keepf; rewrite RD; auto].
    destruct (ttl_ok m now (age * 1000000)) eqn:TT.
    { apply KEEP0; auto. cbn. discriminate. }
    destruct k eqn:EK.
    + apply DROP0. unfold is_idx. rewrite EK. reflexivity.
    + destruct (HS x c m HC RD) as (m' & RD2 & NET). unfold get_raw.
      apply wp_bind with (P := fun v s' => v = Some (File c) /\ s' = s).
      { unfold wp, look. rewrite <- EQ. split; auto. }
      intros v s2 (-> & ->). rewrite RD2, NET. apply KEEP0; unfold is_idx; rewrite EK; auto. discriminate.
  - replace (read_file None true None) with (@None rrr_msg_msg) by reflexivity.
    apply wp_bind with (P := fun _ s' => s_fs s' = s_fs s /\ s_cwd s' = s_cwd s /\ s_prev s' = s_prev s).
    + unfold del_raw. apply wp_bind with (P := fun e s' => e = ENOENT /\ s_fs s' = s_fs s /\ s_cwd s' = s_cwd s /\ s_prev s' = s_prev s).
      * apply wp_step; [split; auto; apply between_refl|]. intros f e s' Q F1 W1 V1. rewrite F1, W1, V1. rewrite <- EQ in Q. unfold sys_unlink in Q. unfold MsgdbFsProofs.at_ in E. rewrite E in Q.
        injection Q as <- <-. auto.
      * intros e s' (-> & X). apply wp_ret. auto.
    + intros _ s' (F1 & W1 & V1). pose proof (SAME None eq_refl ltac:(discriminate)) as X. unfold wp, ret in X |- *. unfold MsgdbProofs.In_dir, St in *. rewrite F1, W1, V1. exact X.
Qed.

(** ** The files of a directory *)
Lemma files_ok : forall ds l b s, NoDup l -> (Datatypes.length l <= b)%nat -> In_dir ds s -> at_level L (s_fs s) ->
  wp (files k age now l b) (fun r s' => fst (fst r) = 0 /\ snd r = (b - Datatypes.length l)%nat /\ In_dir ds s' /\ at_level L (s_fs s') /\ fewer (s_fs s) (s_fs s') /\
     treated (fun n => In n l /\ here ds n) (s_fs s) (s_fs s') /\ sent (fun n => In n l /\ here ds n) (s_fs s) (snd (fst r)))
   (fun g => Good g /\ between (s_fs s) g) s.
Proof using HL HS.
  intros ds. induction l as [|x l IH]; intros b s N HB I A; cbn [files].
  - apply wp_ret. cbn [fst snd length]. split; auto. split; [lia|]. split; auto. split; auto. split; [intros q; auto|].
    split; [apply treated_none; intros n c _ _ [[] _]|apply sent_none; intros n c _ _ [[] _]].
  - inversion N; subst. cbn [length] in HB. destruct b as [|b]; [lia|].
    eapply wp_bind; [apply cb_ok; eauto|]. intros [e out] s1 (E & I1 & A1 & F1 & T1 & S1). cbn [fst snd] in *. subst e. change (0 =? 0) with true. cbn [negb].
    eapply wp_bind with (P := fun r s' => fst (fst r) = 0 /\ snd r = (b - Datatypes.length l)%nat /\ In_dir ds s' /\ at_level L (s_fs s') /\ fewer (s_fs s1) (s_fs s') /\
     treated (fun n => In n l /\ here ds n) (s_fs s1) (s_fs s') /\ sent (fun n => In n l /\ here ds n) (s_fs s1) (snd (fst r))).
    + eapply wp_mono; [apply IH; auto; lia|auto|]. intros g [G B]. split; auto. eapply between_trans; [eapply treated_between; eauto|auto].
    + intros [[e2 out2] b2] s2 (E2 & B2 & I2 & A2 & F2 & T2 & S2). cbn [fst snd] in *. apply wp_ret. cbn [fst snd length]. split; auto. split; [lia|]. split; auto. split; auto.
      split; [intros q; eapply Nat.le_trans; [apply F2|apply F1]|].
      assert (EX : forall n, (n = x /\ here ds n) \/ (In n l /\ here ds n) <-> In n (x :: l) /\ here ds n) by (intros n; cbn [In]; split; [intros [[-> ?]|[? ?]]; auto|intros [[->|?] ?]; auto]).
      split; [eapply treated_ext; [apply EX|eapply treated_join; eauto]|].
      eapply sent_ext; [apply EX|]. eapply sent_join; eauto. intros n [-> _] [Y _]. auto.
Qed.

(** ** All directories *)
Lemma looks_fewer : forall f g dirs, fewer f g -> (looks g base dirs <= looks f base dirs)%nat.
Proof using. clear HL HS. intros f g dirs H. induction dirs; cbn [looks]; auto. specialize (H (base ++ a)). lia. Qed.
Definition in_dirs (dirs : list path) (n : name) : Prop := In (dirs_of L n) dirs.
Lemma slice_ok : forall c dirs b s, c_abs c = true -> c_dir c = base -> NoDup dirs -> Forall (fun d => exists ds, d = singles ds) dirs ->
  (looks (s_fs s) base dirs <= b)%nat -> St base C s -> at_ (s_fs s) [] = Some Dir -> at_level L (s_fs s) ->
  wp (slice c k age now dirs b) (fun r s' => exists out, r = (0, [], out ++ [RAck]) /\ St base C s' /\ at_ (s_fs s') [] = Some Dir /\ at_level L (s_fs s') /\
     treated (in_dirs dirs) (s_fs s) (s_fs s') /\ sent (in_dirs dirs) (s_fs s) out)
   (fun g => Good g /\ between (s_fs s) g) s.
Proof using HL HS.
  intros c dirs b s HA HC. revert b s. induction dirs as [|d dirs IH]; intros b s ND HD HB HS0 B0 A; cbn [slice].
  - apply wp_ret. exists []. split; auto. split; auto. split; auto. split; auto. split; [apply treated_none; intros n y _ _ []|apply sent_none; intros n y _ _ []].
  - inversion ND; subst. inversion HD as [|? ? HD1 HD2]; subst. destruct HD1 as [ds ->]. cbn [looks] in HB. destruct b as [|b]; [lia|].
    eapply wp_bind with (P := fun e s' => e = 0 /\ In_dir [] s' /\ s_fs s' = s_fs s).
    { unfold chdir_base, mkdir_chdir. rewrite HA, HC.
      assert (BD : lookup (s_fs s) base = Some Dir) by (rewrite <- B0; unfold MsgdbFsProofs.at_; rewrite app_nil_r; reflexivity).
      destruct HS0 as [G P]. apply wp_bind with (P := fun e s' => e = EEXIST /\ s_fs s' = s_fs s /\ s_cwd s' = s_cwd s /\ s_prev s' = s_prev s).
      - apply wp_step; [split; auto; apply between_refl|]. intros f e s' E F W V. unfold sys_mkdir in E. rewrite BD in E. injection E as <- <-. auto.
      - intros e s1 (-> & F & W & V). unfold wp, chdir. cbn [andb]. unfold MsgdbProofs.In_dir, St. rewrite F, V. cbn [singles map]. rewrite app_nil_r.
        destruct (match s_prev s with Some q => path_eqb base q | None => false end) eqn:Q.
        + destruct (s_prev s) as [q|] eqn:V2; [|discriminate]. apply path_eqb_iff in Q. subst q. rewrite F, W, V, (P _ eq_refl). sp. intros; congruence.
        + rewrite BD. cbn [s_fs s_cwd s_prev]. sp. intros; congruence. }
    intros e s1 (-> & I1 & F1). change (0 =? 0) with true. cbn [negb].
    assert (EX : forall n, (here ds n \/ in_dirs dirs n) <-> in_dirs (singles ds :: dirs) n) by (intros n; unfold here, in_dirs; cbn [In]; split; intros [?|?]; auto).
    assert (DJ : forall n, here ds n -> in_dirs dirs n -> False) by (intros n X Y; unfold here, in_dirs in *; rewrite X in Y; auto).
    pose proof I1 as ([G1 P1] & W1 & D1). cbn [singles map] in W1. rewrite app_nil_r in W1.
    destruct (lookup (s_fs s) (base ++ singles ds)) as [nd|] eqn:LK.
    + assert (nd = Dir).
      { destruct nd as [|y]; auto. exfalso. rewrite <- F1 in LK. destruct (list_eq_dec (list_eq_dec Z.eq_dec) (singles ds) []) as [E|E]; [rewrite E in LK; unfold MsgdbFsProofs.at_ in D1; cbn [singles map] in D1; congruence|].
        apply (g_node _ _ _ G1) in LK as (k' & n & X & N & _); auto. symmetry in X. apply make_path_not_singles in X; auto. }
      subst nd.
      apply wp_bind with (P := fun e s' => e = 0 /\ In_dir ds s' /\ s_fs s' = s_fs s).
      { unfold wp, chdir. cbn [andb]. rewrite W1, F1, LK. cbv beta iota. split; auto. split; auto. unfold MsgdbProofs.In_dir, St. cbn [s_fs s_cwd s_prev]. rewrite <- F1. sp; [discriminate|]. rewrite F1. auto. }
      intros e s2 (-> & I2 & F2). change (0 =? 0) with true. cbn [negb]. destruct b as [|[|b]]; [lia|lia|]. cbn [dots].
      pose proof I2 as ([G2 P2] & W2 & D2).
      apply wp_bind with (P := fun l s' => l = map fst (children (s_fs s) (base ++ singles ds)) /\ s' = s2); [unfold wp, readdir; rewrite W2, F2; auto|].
      intros l s2' (-> & ->). set (l := map fst (children (s_fs s) (base ++ singles ds))) in *.
      assert (LL : Datatypes.length l = Datatypes.length (children (s_fs s) (base ++ singles ds))) by (unfold l; apply map_length).
      eapply wp_bind; [eapply wp_mono; [apply (files_ok ds l b s2); auto| |]|].
      * unfold l. rewrite <- F2. apply children_names. apply G2.
      * lia.
      * rewrite F2. auto.
      * intros r s' X. exact X.
      * rewrite F2. auto.
      * intros [[e out] b3] s3 (E & B3 & I3 & A3 & F3 & T3 & S3). cbn [fst snd] in *. subst e. change (0 =? 0) with true. cbn [negb].
        rewrite F2 in *.
        assert (EL : forall n y, name_ok n -> has (s_fs s) n y -> here ds n -> In n l).
        { intros n y N X Y. apply (level_has base L) in X; auto. unfold l. apply in_map_iff. exists (n, File y). split; auto. apply children_iff; [rewrite <- F1; apply G1|].
          unfold make_path in X. rewrite Y in X. unfold MsgdbFsProofs.at_ in X. rewrite app_assoc in X. exact X. }
        assert (T4 : treated (here ds) (s_fs s) (s_fs s3)).
        { intros n y N. rewrite (T3 n y N). split; intros [X Y]; split; auto; intros Z; apply Y; [split; auto; eapply EL; eauto|tauto]. }
        assert (S4 : sent (here ds) (s_fs s) out).
        { destruct S3 as (es & X1 & X2 & X3). exists es. split; auto. split; auto. intros n y. rewrite X3. split; [tauto|]. intros (Y1 & Y2 & Y3 & Y4). split; auto. split; auto. split; auto. split; auto. eapply EL; eauto. }
        pose proof I3 as (S3' & _ & D3).
        assert (B4 : at_ (s_fs s3) [] = Some Dir) by (destruct (g_base _ _ _ (proj1 S3')) as [X|(_ & _ & X)]; auto; rewrite X in D3; discriminate).
        eapply wp_bind; [eapply wp_mono; [apply (IH b3 s3); auto| |]|].
        -- pose proof (looks_fewer (s_fs s) (s_fs s3) dirs F3). lia.
        -- intros r s' X. exact X.
        -- intros g [G B]. split; auto. eapply between_trans; [eapply treated_between; eauto|auto].
        -- intros r s4 (out2 & -> & S5 & D5 & A5 & T5 & SE5). cbn [fst snd]. apply wp_ret. exists (out ++ out2). split; [rewrite <- app_assoc; reflexivity|]. split; auto. split; auto. split; auto.
           split; [eapply treated_ext; [apply EX|eapply treated_join; eauto]|]. eapply sent_ext; [apply EX|]. eapply sent_join; eauto.
    + apply wp_bind with (P := fun e s' => e = 1 /\ s' = s1); [unfold wp, chdir; cbn [andb]; rewrite W1, F1, LK; auto|].
      intros e s1' (-> & ->). change (1 =? 0) with false. cbn [negb].
      assert (NONE : forall n y, name_ok n -> has (s_fs s) n y -> here ds n -> False).
      { intros n y N X Y. apply (level_has base L) in X; auto. pose proof (g_up _ _ _ G1 (make_path L n) (File y) (make_path_nonnil L n)) as Z. rewrite F1 in Z. specialize (Z X).
        rewrite parent_make_path, Y in Z. unfold MsgdbFsProofs.at_ in Z. congruence. }
      eapply wp_mono; [apply (IH b s1); auto; try (rewrite F1; auto)|..].
      * lia.
      * split; auto.
      * intros r s2 (out & -> & S5 & D5 & A5 & T5 & SE5). rewrite F1 in *. exists out. split; auto. split; auto. split; auto. split; auto.
        split; [eapply treated_ext; [apply EX|eapply treated_join; [apply treated_none; apply NONE|eauto]]|].
        eapply sent_ext; [apply EX|]. change out with ([] ++ out). eapply sent_join; eauto; [apply treated_none; apply NONE|apply sent_none; apply NONE].
      * rewrite F1. auto.
Qed.
End Base.

(** ** The directories there can be *)
Lemma hexchar_in : forall x, hexchar x -> In x hex_digits.
Proof.
  intros x H. assert (E : x = 48 \/ x = 49 \/ x = 50 \/ x = 51 \/ x = 52 \/ x = 53 \/ x = 54 \/ x = 55 \/ x = 56 \/ x = 57 \/ x = 97 \/ x = 98 \/ x = 99 \/ x = 100 \/ x = 101 \/ x = 102) by (unfold hexchar in H; lia).
  repeat (destruct E as [E|E]); subst x; vm_compute; auto 20.
Qed.
Lemma dir_index_in : forall L n, Forall hexchar n -> (L <= Datatypes.length n)%nat -> In (dirs_of L n) (dir_index L).
Proof.
  induction L; intros n HN HL; [left; reflexivity|]. destruct n as [|x n]; [cbn in HL; lia|]. inversion HN; subst. cbn [dir_index dirs_of firstn map].
  apply in_flat_map. exists x. split; [apply hexchar_in; auto|]. apply in_map. apply IHL; auto. cbn [length] in HL. lia.
Qed.
Lemma dir_index_singles : forall L, Forall (fun d => exists ds, d = singles ds) (dir_index L).
Proof.
  induction L; cbn [dir_index]; [constructor; [exists []; reflexivity|constructor]|]. apply Forall_forall. intros d X. apply in_flat_map in X as (x & _ & X).
  apply in_map_iff in X as (d' & <- & X). rewrite Forall_forall in IHL. destruct (IHL d' X) as [ds ->]. exists (x :: ds). reflexivity.
Qed.
Lemma hex_digits_nodup : NoDup hex_digits.
Proof. unfold hex_digits. cbn [map]. repeat constructor; vm_compute; intuition discriminate. Qed.
Lemma dir_index_nodup : forall L, NoDup (dir_index L).
Proof.
  induction L; cbn [dir_index]; [repeat constructor; intros []|]. pose proof hex_digits_nodup as N. revert N. generalize hex_digits. intros l. induction l as [|x l IHl]; intros N; cbn [flat_map]; [constructor|].
  inversion N; subst. specialize (IHl H2).
  assert (DJ : forall d, In d (map (cons [x]) (dir_index L)) -> In d (flat_map (fun c => map (cons [c]) (dir_index L)) l) -> False).
  { intros d A B. apply in_map_iff in A as (d1 & <- & A). apply in_flat_map in B as (y & Y & B). apply in_map_iff in B as (d2 & E & B). injection E as E _. subst y. auto. }
  assert (N1 : NoDup (map (cons [x]) (dir_index L))) by (apply FinFun.Injective_map_NoDup; auto; intros a b E; injection E; auto).
  revert N1 DJ. generalize (map (cons [x]) (dir_index L)). intros l0. induction l0 as [|d l0 IH0]; intros N1 DJ; cbn [app]; auto. inversion N1; subst. constructor.
  - intros X. apply in_app_iff in X as [X|X]; auto. apply (DJ d); auto. left. reflexivity.
  - apply IH0; auto. intros d' A B. apply (DJ d'); auto. right. auto.
Qed.
