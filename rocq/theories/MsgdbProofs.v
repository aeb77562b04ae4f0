(** What the server does to the directory of its database. *)
From Coq Require Import ZArith List Bool Lia.
From Verif Require Import Common MsgModel MsgProofs MsgdbModel MsgdbSpec MsgdbFsProofs.
Import ListNotations.
Open Scope Z_scope.

Definition wp {A} (m : M A) (Q : A -> st -> Prop) (K : fs -> Prop) (s : st) : Prop :=
  match m s with Done a s' => Q a s' | Killed f => K f end.
Lemma wp_ret : forall A (a : A) (Q : A -> st -> Prop) K s, Q a s -> wp (ret a) Q K s.
Proof. intros. exact H. Qed.
Lemma wp_bind : forall A B (m : M A) (k : A -> M B) (P : A -> st -> Prop) (Q : B -> st -> Prop) K s,
  wp m P K s -> (forall a s', P a s' -> wp (k a) Q K s') -> wp (bind m k) Q K s.
Proof. intros A B m k P Q K s H1 H2. unfold wp, bind in *. destruct (m s); auto. apply H2. auto. Qed.
Lemma wp_mono : forall A (m : M A) (P Q : A -> st -> Prop) (J K : fs -> Prop) s,
  wp m P J s -> (forall a s', P a s' -> Q a s') -> (forall f, J f -> K f) -> wp m Q K s.
Proof. intros A m P Q J K s H1 H2 H3. unfold wp in *. destruct (m s); auto. Qed.
Lemma wp_step : forall op (Q : errno -> st -> Prop) (K : fs -> Prop) s, K (s_fs s) ->
  (forall f e s', op (s_cwd s) (s_fs s) = (f, e) -> s_fs s' = f -> s_cwd s' = s_cwd s -> s_prev s' = s_prev s -> Q e s') ->
  wp (step op) Q K s.
Proof.
  intros op Q K s HK HQ. unfold wp, step. destruct (op (s_cwd s) (s_fs s)) as [f e] eqn:E.
  destruct (s_life s) as [[[|n] c]|]; auto; eapply HQ; eauto.
Qed.

(** Without a time to be killed at, a process is not killed. *)
Definition immortal {A} (m : M A) : Prop := forall s, s_life s = None -> match m s with Done _ s' => s_life s' = None | Killed _ => False end.
Lemma im_ret : forall A (a : A), immortal (ret a). Proof. intros A a s H. exact H. Qed.
Lemma im_bind : forall A B (m : M A) (k : A -> M B), immortal m -> (forall a, immortal (k a)) -> immortal (bind m k).
Proof. intros A B m k H1 H2 s L. unfold bind. specialize (H1 s L). destruct (m s); auto. apply H2. auto. Qed.
Lemma im_step : forall op, immortal (step op).
Proof. intros op s L. unfold step. destruct (op _ _). rewrite L. reflexivity. Qed.
Lemma im_write : forall p d, immortal (step_write p d).
Proof. intros p d s L. unfold step_write. cbv zeta. rewrite L. reflexivity. Qed.
Lemma im_look : forall p, immortal (look p). Proof. intros p s L. exact L. Qed.
Lemma im_walk : immortal walk. Proof. intros s L. exact L. Qed.
Lemma im_readdir : immortal readdir. Proof. intros s L. exact L. Qed.
Lemma im_chdir : forall b p, immortal (chdir b p).
Proof. intros b p s L. unfold chdir. destruct (b && _); auto. destruct (lookup _ _) as [[|]|]; auto. Qed.
Lemma im_up : immortal chdir_up. Proof. intros s L. exact L. Qed.
Ltac im := repeat first [apply im_ret | apply im_step | apply im_write | apply im_look | apply im_walk | apply im_readdir | apply im_chdir | apply im_up
  | apply im_bind; [|intros ?] | match goal with |- immortal (if ?b then _ else _) => destruct b | |- immortal (match ?x with _ => _ end) => destruct x end | assumption ].
Lemma im_mkdir : forall b p, immortal (mkdir_chdir b p). Proof. intros. unfold mkdir_chdir. im. Qed.
Lemma im_levels : forall L p, immortal (mkdir_chdir_levels L p).
Proof. induction L; intros [|x p]; cbn [mkdir_chdir_levels]; im; apply IHL. Qed.
Lemma im_base : forall c, immortal (chdir_base c). Proof. intros. apply im_mkdir. Qed.
Lemma im_del_raw : forall p, immortal (del_raw p). Proof. intros. unfold del_raw. im. Qed.
Lemma im_request : forall H c m, immortal (db_request H c m).
Proof.
  intros. unfold db_request, db_put, db_del, db_get, go_base, go_levels, get_raw. cbv zeta.
  repeat first [progress im | apply im_base | apply im_levels | apply im_del_raw ].
Qed.
Lemma im_down : forall L n, immortal (make_down L n).
Proof. induction L; intros [|x n]; cbn [make_down]; im; apply IHL. Qed.
Lemma im_go_up : forall L, immortal (go_up L).
Proof. induction L; cbn [go_up]; im. Qed.
Lemma im_one : forall L e, immortal (restructure_one L e).
Proof. intros L [p d]. unfold restructure_one, make_directories. cbv zeta. repeat first [progress im | apply im_del_raw | apply im_down | apply im_go_up]. Qed.
Lemma im_all : forall L l, immortal (restructure_all L l).
Proof. induction l; cbn [restructure_all]; im. apply im_one. Qed.
Lemma im_rmdirs : forall l, immortal (rmdir_all l).
Proof. induction l; cbn [rmdir_all]; im. Qed.
Lemma im_restructure : forall c, immortal (restructure c).
Proof. intros. unfold restructure. repeat first [progress im | apply im_base | apply im_all | apply im_rmdirs]. Qed.

Ltac sp := repeat match goal with |- _ /\ _ => split end; auto.

Section Base.
Context (base : path) (C : name -> list Z -> Prop).
Notation Good := (Good base C).
Notation same := (same base).
Notation at_ := (at_ base).
Notation has := (has base).
Notation at_level := (at_level base).
Notation others := (others base).

Definition St (s : st) : Prop := Good (s_fs s) /\ (forall q, s_prev s = Some q -> s_cwd s = q).
Definition In_dir (ds : list Z) (s : st) : Prop := St s /\ s_cwd s = base ++ singles ds /\ at_ (s_fs s) (singles ds) = Some Dir.

Lemma base_ok : forall c s, c_abs c = true -> c_dir c = base -> St s ->
  wp (chdir_base c) (fun e s' => e = 0 /\ In_dir [] s' /\ same (s_fs s) (s_fs s')) (fun f => Good f /\ same (s_fs s) f) s.
Proof.
  intros c s HA HD [G P]. unfold chdir_base, mkdir_chdir. rewrite HA, HD.
  apply wp_bind with (P := fun e s' => (e = EOK \/ e = EEXIST) /\ St s' /\ same (s_fs s) (s_fs s') /\ at_ (s_fs s') [] = Some Dir).
  - apply wp_step; [split; auto; apply same_refl|]. intros f e s' E F W V. unfold St. rewrite F, W, V. clear F. unfold sys_mkdir in E.
    assert (B : at_ (s_fs s) [] = lookup (s_fs s) base) by (unfold MsgdbFsProofs.at_; rewrite app_nil_r; reflexivity).
    destruct (lookup (s_fs s) base) as [n|] eqn:L.
    + injection E as <- <-. split; [auto|]. split; [auto|]. split; [apply same_refl|].
      destruct (g_base _ _ _ G) as [X|(X & _)]; [auto|congruence].
    + destruct (g_base _ _ _ G) as [X|(_ & X & _)]; [congruence|]. rewrite X in E. injection E as <- <-.
      destruct (mk_base base C _ G B) as (G' & S' & B'). auto.
  - intros e s' (E & [G' P'] & S' & B').
    assert (X : wp (chdir true base) (fun e s' => e = 0 /\ In_dir [] s' /\ same (s_fs s) (s_fs s')) (fun f => Good f /\ same (s_fs s) f) s').
    { unfold wp, chdir. cbn [andb]. unfold In_dir, St. cbn [singles map]. rewrite app_nil_r.
      assert (B : lookup (s_fs s') base = Some Dir) by (rewrite <- B'; unfold MsgdbFsProofs.at_; rewrite app_nil_r; reflexivity).
      destruct (s_prev s') as [q|] eqn:V.
      - destruct (path_eqb base q) eqn:E2.
        + apply path_eqb_iff in E2. subst q. rewrite (P' base eq_refl). sp; intros; congruence.
        + rewrite B. cbn [s_fs s_cwd s_prev]. sp; intros; congruence.
      - rewrite B. cbn [s_fs s_cwd s_prev]. sp; intros; congruence. }
    destruct E as [-> | ->]; exact X.
Qed.
(** One directory further down *)
Lemma down_ok : forall ds x s, Forall hexchar (ds ++ [x]) -> In_dir ds s ->
  wp (mkdir_chdir false [[x]]) (fun e s' => e = 0 /\ In_dir (ds ++ [x]) s' /\ same (s_fs s) (s_fs s')) (fun f => Good f /\ same (s_fs s) f) s.
Proof.
  intros ds x s HX ([G P] & W & D). unfold mkdir_chdir.
  assert (EQ : s_cwd s ++ [[x]] = base ++ singles (ds ++ [x])) by (rewrite W; unfold singles; rewrite map_app, app_assoc; reflexivity).
  apply wp_bind with (P := fun e s' => (e = EOK \/ e = EEXIST) /\ St s' /\ same (s_fs s) (s_fs s') /\ at_ (s_fs s') (singles (ds ++ [x])) = Some Dir /\ s_cwd s' = s_cwd s).
  - apply wp_step; [split; auto; apply same_refl|]. intros f e s' E F W' V. unfold St. rewrite F, W', V. clear F. rewrite EQ in E. unfold sys_mkdir in E.
    fold (at_ (s_fs s) (singles (ds ++ [x]))) in E.
    assert (NE : singles (ds ++ [x]) <> []) by (unfold singles; rewrite map_app; intros X; apply app_eq_nil in X as [_ X]; discriminate).
    destruct (at_ (s_fs s) (singles (ds ++ [x]))) as [n|] eqn:L.
    + injection E as <- <-. split; [auto|]. split; [auto|]. split; [apply same_refl|]. split; auto.
      destruct n as [|c]; auto. exfalso. apply (g_node _ _ _ G) in L as (k & n & X & N & _); auto. symmetry in X. apply make_path_not_singles in X; auto.
    + rewrite parent_app, parent_singles in E by auto. fold (at_ (s_fs s) (singles ds)) in E. rewrite D in E. injection E as <- <-.
      destruct (mk_good base C _ _ _ G D HX L) as (G' & S' & B'). auto.
  - intros e s' (E & [G' P'] & S' & B' & W').
    assert (X : wp (chdir false [[x]]) (fun e s' => e = 0 /\ In_dir (ds ++ [x]) s' /\ same (s_fs s) (s_fs s')) (fun f => Good f /\ same (s_fs s) f) s').
    { unfold wp, chdir. cbn [andb]. rewrite W', EQ. fold (at_ (s_fs s') (singles (ds ++ [x]))). rewrite B'. cbv beta iota.
      unfold In_dir, St. cbn [s_fs s_cwd s_prev]. sp; intros; discriminate. }
    destruct E as [-> | ->]; exact X.
Qed.
Lemma levels_ok : forall L pos ds s, (L < Datatypes.length pos)%nat -> Forall hexchar (ds ++ pos) -> In_dir ds s ->
  wp (mkdir_chdir_levels L pos) (fun e s' => e = 0 /\ In_dir (ds ++ firstn L pos) s' /\ same (s_fs s) (s_fs s')) (fun f => Good f /\ same (s_fs s) f) s.
Proof.
  induction L; intros [|x pos] ds s HL HX I; cbn [length] in HL; try lia; cbn [mkdir_chdir_levels firstn].
  - apply wp_ret. rewrite app_nil_r. split; [reflexivity|]. split; auto. apply same_refl.
  - apply wp_bind with (P := fun e s' => e = 0 /\ In_dir (ds ++ [x]) s' /\ same (s_fs s) (s_fs s')).
    + apply down_ok; auto. replace (ds ++ x :: pos) with ((ds ++ [x]) ++ pos) in HX by (rewrite <- app_assoc; reflexivity). apply Forall_app in HX. tauto.
    + intros e s' (-> & I' & S'). change (0 =? 0) with true. cbv iota. eapply wp_mono.
      * apply (IHL pos (ds ++ [x])); auto; [lia|]. rewrite <- app_assoc. exact HX.
      * intros e s2 (-> & I2 & S2). rewrite <- app_assoc in I2. split; auto. split; auto. eapply same_trans; eauto.
      * intros f [G S2]. split; auto. eapply same_trans; eauto.
Qed.
Lemma make_down_ok : forall L pos ds s, (L <= Datatypes.length pos)%nat -> Forall hexchar (ds ++ pos) -> In_dir ds s ->
  wp (make_down L pos) (fun e s' => e = 0 /\ In_dir (ds ++ firstn L pos) s' /\ same (s_fs s) (s_fs s')) (fun f => Good f /\ same (s_fs s) f) s.
Proof.
  induction L; intros pos ds s HL HX I; [|destruct pos as [|x pos]; cbn [length] in HL; try lia]; cbn [make_down firstn].
  - apply wp_ret. rewrite app_nil_r. split; [reflexivity|]. split; auto. apply same_refl.
  - apply wp_bind with (P := fun e s' => e = 0 /\ In_dir (ds ++ [x]) s' /\ same (s_fs s) (s_fs s')).
    + apply down_ok; auto. replace (ds ++ x :: pos) with ((ds ++ [x]) ++ pos) in HX by (rewrite <- app_assoc; reflexivity). apply Forall_app in HX. tauto.
    + intros e s' (-> & I' & S'). change (0 =? 0) with true. cbv iota. eapply wp_mono.
      * apply (IHL pos (ds ++ [x])); auto; [lia|]. rewrite <- app_assoc. exact HX.
      * intros e s2 (-> & I2 & S2). rewrite <- app_assoc in I2. split; auto. split; auto. eapply same_trans; eauto.
      * intros f [G S2]. split; auto. eapply same_trans; eauto.
Qed.
Lemma up_ok : forall L ds s, Datatypes.length ds = L -> In_dir ds s ->
  wp (go_up L) (fun e s' => e = 0 /\ In_dir [] s' /\ s_fs s' = s_fs s) (fun f => Good f /\ same (s_fs s) f) s.
Proof.
  induction L; intros ds s HL I; cbn [go_up].
  - destruct ds; [|discriminate]. apply wp_ret. auto.
  - destruct (@exists_last _ ds) as (ds' & x & ->); [destruct ds; discriminate|]. destruct I as ([G P] & W & D).
    apply wp_bind with (P := fun e s' => e = 0 /\ In_dir ds' s' /\ s_fs s' = s_fs s).
    + unfold wp, chdir_up. split; auto. split; auto. unfold In_dir, St. cbn [s_fs s_cwd s_prev]. split; [split; auto; intros; discriminate|].
      assert (NE : singles (ds' ++ [x]) <> []) by (unfold singles; rewrite map_app; intros X; apply app_eq_nil in X as [_ X]; discriminate).
      rewrite W, parent_app, parent_singles by auto. split; auto. rewrite <- (parent_singles ds' x). eapply (g_up _ _ _ G); eauto.
    + intros e s' (-> & I' & F). change (0 =? 0) with true. cbv iota. rewrite <- F. apply (IHL ds'); auto. rewrite app_length in HL. cbn in HL. lia.
Qed.

Lemma dir_base : forall f q x, Good f -> at_ f q = Some x -> at_ f [] = Some Dir.
Proof. intros f q x G X. destruct (g_base _ _ _ G) as [B|(_ & _ & B)]; auto. rewrite B in X. discriminate. Qed.
(** ** Putting a file *)
Definition way (c : cfg) (n : name) (s s' : st) : Prop :=
  St s' /\ s_cwd s' ++ [n] = base ++ make_path (c_levels c) n /\ at_ (s_fs s') (dirs_of (c_levels c) n) = Some Dir /\ same (s_fs s) (s_fs s').
Lemma way_ok : forall c n k (Q : Z -> st -> Prop) (K : fs -> Prop) s, c_abs c = true -> c_dir c = base -> (c_levels c <= 4)%nat -> name_ok n -> St s ->
  (forall f, Good f -> same (s_fs s) f -> K f) -> (forall s', way c n s s' -> wp k Q K s') ->
  wp (go_base c (go_levels c n k)) Q K s.
Proof.
  intros c n k Q K s HA HD HL [NX NL] S0 HK HQ. unfold go_base, go_levels.
  eapply wp_bind with (P := fun e s' => e = 0 /\ In_dir [] s' /\ same (s_fs s) (s_fs s')).
  { eapply wp_mono; [apply (base_ok c s); auto|auto|]. intros f [G S1]. auto. }
  intros e s1 (-> & I1 & S1). change (0 =? 0) with true. cbv iota.
  eapply wp_bind with (P := fun e s' => e = 0 /\ In_dir (firstn (c_levels c) n) s' /\ same (s_fs s1) (s_fs s')).
  { eapply wp_mono; [apply (levels_ok (c_levels c) n [] s1); auto; lia|auto|]. intros f [G S2]. apply HK; auto. eapply same_trans; eauto. }
  intros e s2 (-> & (T & W & D) & S2). change (0 =? 0) with true. cbv iota. apply HQ. split; auto. split.
  - rewrite W. unfold make_path. rewrite dirs_of_singles, app_assoc. reflexivity.
  - split; auto. eapply same_trans; eauto.
Qed.

(** What the file of the name [n] has, of all those there are *)
Definition only (n : name) (v : option (list Z)) (f : fs) : Prop := forall c, has f n c <-> v = Some c.
Definition becomes (n : name) (v : option (list Z)) (f g : fs) : Prop :=
  (forall n' c, n' <> n -> (has f n' c <-> has g n' c)) /\ only n v g.
Lemma level_put : forall L n f f', at_level L f -> others n f f' -> (forall k c, (k <= 4)%nat -> at_ f' (make_path k n) = Some (File c) -> k = L) -> at_level L f'.
Proof.
  intros L n f f' A O U k n' c K N X. destruct (list_eq_dec Z.eq_dec n' n) as [->|E]; [eapply U; eauto|]. apply (O k n' c E) in X. eapply A; eauto.
Qed.
Lemma file_step : forall L n s c, (L <= 4)%nat -> name_ok n -> Good (s_fs s) -> at_ (s_fs s) (dirs_of L n) = Some Dir -> at_level L (s_fs s) -> C n c ->
  let f := put_node (s_fs s) (base ++ make_path L n) (File c) in
  Good f /\ at_level L f /\ becomes n (Some c) (s_fs s) f /\ at_ f (dirs_of L n) = Some Dir.
Proof.
  intros L n s c HL N G D A HC f.
  destruct (file_good base C (s_fs s) L n c G N HL D HC) as (G' & O & F & R); [intros; eapply A; eauto|].
  fold f in G', O, F, R. split; auto.
  assert (AL : at_level L f).
  { apply (level_put L n (s_fs s) f); auto. intros k x K X. destruct (Nat.eq_dec k L); auto.
    rewrite R in X; [eapply A; eauto|]. intros E. pose proof (make_path_len k n N K) as E1. rewrite E in E1. rewrite make_path_len in E1 by auto. congruence. }
  split; auto. split; [split|].
  - intros n' x X. apply others_has with (n := n); auto.
  - intros x. rewrite level_has with (L := L) by auto. rewrite F. split; congruence.
  - rewrite R; auto. intros E. pose proof (make_path_len L n N HL) as E1. rewrite <- E in E1. unfold dirs_of in E1. rewrite map_length, firstn_length in E1. lia.
Qed.
Lemma becomes_trans : forall n v w f g h, becomes n v f g -> becomes n w g h -> becomes n w f h.
Proof. intros n v w f g h [A _] [B O]. split; auto. intros n' c X. rewrite (A n' c X). apply B. auto. Qed.
Lemma same_becomes : forall n v f g h, same f g -> becomes n v g h -> becomes n v f h.
Proof. intros n v f g h A [B O]. split; auto. intros n' c X. rewrite (same_has base f g n' c A). apply B. auto. Qed.

Lemma put_ok : forall c n m s, c_abs c = true -> c_dir c = base -> (c_levels c <= 4)%nat -> name_ok n -> St s -> at_level (c_levels c) (s_fs s) ->
  (forall j, C n (firstn j (msg_msg_to_network (as_msg m)))) ->
  wp (db_put c m n) (fun e s' => e = 0 /\ St s' /\ at_ (s_fs s') [] = Some Dir /\ at_level (c_levels c) (s_fs s') /\ becomes n (Some (msg_msg_to_network (as_msg m))) (s_fs s) (s_fs s'))
    (fun f => Good f /\ (same (s_fs s) f \/ exists j, becomes n (Some (firstn j (msg_msg_to_network (as_msg m)))) (s_fs s) f)) s.
Proof.
  intros c n m s HA HD HL N S0 A0 HC. unfold db_put. apply way_ok; auto. intros s1 ([G P] & W & D & S1).
  assert (A1 : at_level (c_levels c) (s_fs s1)) by (eapply same_level; eauto).
  set (data := msg_msg_to_network (as_msg m)) in *.
  apply wp_bind with (P := fun e s' => e = EOK /\ St s' /\ s_cwd s' = s_cwd s1 /\ at_level (c_levels c) (s_fs s') /\ becomes n (Some []) (s_fs s1) (s_fs s') /\ at_ (s_fs s') (dirs_of (c_levels c) n) = Some Dir).
  - apply wp_step; [auto|]. intros f e s' E F W' V. unfold St. rewrite F, W', V. clear F. rewrite W in E. unfold sys_creat in E.
    fold (at_ (s_fs s1) (make_path (c_levels c) n)) in E.
    destruct (file_step (c_levels c) n s1 [] HL N G D A1 (HC 0%nat)) as (G' & AL & B & D').
    assert (E' : (f, e) = (put_node (s_fs s1) (base ++ make_path (c_levels c) n) (File []), EOK)).
    { rewrite <- E. destruct (at_ (s_fs s1) (make_path (c_levels c) n)) as [[|x]|] eqn:X; auto.
      - exfalso. apply (g_node _ _ _ G) in X as (ds & X & _); [|apply make_path_nonnil]. apply make_path_not_singles in X; auto.
      - rewrite parent_app, parent_make_path by apply make_path_nonnil. fold (at_ (s_fs s1) (dirs_of (c_levels c) n)). rewrite D. reflexivity. }
    injection E' as -> ->. auto 10.
  - intros e s2 (-> & [G2 P2] & W2 & A2 & B2 & D2).
    apply wp_bind with (P := fun _ s' => St s' /\ at_ (s_fs s') [] = Some Dir /\ at_level (c_levels c) (s_fs s') /\ becomes n (Some data) (s_fs s) (s_fs s')).
    + unfold wp, step_write. cbv zeta. rewrite W2, W.
      assert (X : forall j, let f := put_node (s_fs s2) (base ++ make_path (c_levels c) n) (File (firstn j data)) in
        Good f /\ at_ f [] = Some Dir /\ at_level (c_levels c) f /\ becomes n (Some (firstn j data)) (s_fs s) f).
      { intros j f. destruct (file_step (c_levels c) n s2 (firstn j data) HL N G2 D2 A2 (HC j)) as (G' & AL & B & D'). fold f in G', AL, B, D'.
        split; auto. split; [eapply dir_base; eauto|]. split; auto. eapply same_becomes; eauto. eapply becomes_trans; eauto. }
      pose proof (X (Datatypes.length data)) as X0. rewrite firstn_all in X0. cbv zeta in X0. destruct X0 as (G' & BD & AL & B).
      assert (P4 : forall q, s_prev s2 = Some q -> s_cwd s1 = q) by (intros q Q; rewrite <- W2; auto).
      destruct (s_life s2) as [[[|r] j]|]; unfold St; cbn [s_fs s_cwd s_prev]; auto.
      destruct (X j) as (G3 & _ & _ & B3). split; auto. right. exists j. auto.
    + intros _ s3 (S3 & D3 & A3 & B3). apply wp_ret. auto.
Qed.

(** ** Deleting a file *)
Lemma del_ok : forall c n s, c_abs c = true -> c_dir c = base -> (c_levels c <= 4)%nat -> name_ok n -> St s -> at_level (c_levels c) (s_fs s) ->
  wp (db_del c n) (fun e s' => e = 0 /\ St s' /\ at_ (s_fs s') [] = Some Dir /\ at_level (c_levels c) (s_fs s') /\ becomes n None (s_fs s) (s_fs s')) (fun f => Good f /\ same (s_fs s) f) s.
Proof.
  intros c n s HA HD HL N S0 A0. unfold db_del. apply way_ok; auto. intros s1 ([G P] & W & D & S1). unfold del_raw.
  assert (A1 : at_level (c_levels c) (s_fs s1)) by (eapply same_level; eauto).
  apply wp_bind with (P := fun e s' => (e = EOK \/ e = ENOENT) /\ St s' /\ at_ (s_fs s') [] = Some Dir /\ at_level (c_levels c) (s_fs s') /\ becomes n None (s_fs s1) (s_fs s')).
  - apply wp_step; [auto|]. intros f e s' E F W' V. unfold St. rewrite F, W', V. clear F. rewrite W in E. unfold sys_unlink in E.
    fold (at_ (s_fs s1) (make_path (c_levels c) n)) in E. destruct (at_ (s_fs s1) (make_path (c_levels c) n)) as [[|x]|] eqn:X.
    + exfalso. apply (g_node _ _ _ G) in X as (ds & X & _); [|apply make_path_nonnil]. apply make_path_not_singles in X; auto.
    + injection E as <- <-. destruct (del_good base C _ _ _ _ G N X) as (G' & O & F & R).
      assert (AL : at_level (c_levels c) (remove (s_fs s1) (base ++ make_path (c_levels c) n))).
      { apply (level_put (c_levels c) n (s_fs s1)); auto. intros k y K Y. destruct (Nat.eq_dec k (c_levels c)); auto.
        rewrite R in Y; [eapply A1; eauto|]. intros E. pose proof (make_path_len k n N K) as E1. rewrite E in E1. rewrite make_path_len in E1 by auto. congruence. }
      split; auto. split; auto. split; [rewrite R; [eapply dir_base; eauto|intros Q; symmetry in Q; eapply make_path_nonnil; eauto]|]. split; auto. split; [intros n' y Y; apply others_has with (n := n); auto|].
      intros y. rewrite level_has with (L := c_levels c) by auto. rewrite F. split; congruence.
    + injection E as <- <-. split; auto. split; auto. split; [eapply dir_base; eauto|]. split; auto. split; [tauto|]. intros y. rewrite level_has with (L := c_levels c) by auto. rewrite X. split; congruence.
  - intros e s2 (E & S2 & D2 & A2 & B2). destruct E as [-> | ->]; apply wp_ret; split; auto; split; auto; split; auto; split; auto; eapply same_becomes; eauto.
Qed.

(** ** Getting a file *)
Lemma get_ok : forall c n t s, c_abs c = true -> c_dir c = base -> (c_levels c <= 4)%nat -> name_ok n -> St s -> at_level (c_levels c) (s_fs s) ->
  wp (db_get c n t) (fun r s' => St s' /\ at_ (s_fs s') [] = Some Dir /\ same (s_fs s) (s_fs s') /\
     exists v, (forall x, v = Some (File x) <-> has (s_fs s) n x) /\
       r = match read_file v false (Some t) with Some m => (0, [RMsg (msg_msg_to_network m)]) | None => (SOFT, []) end)
    (fun f => Good f /\ same (s_fs s) f) s.
Proof.
  intros c n t s HA HD HL N S0 A0. destruct N as [NX NL]. unfold db_get.
  eapply wp_bind with (P := fun e s' => e = 0 /\ In_dir [] s' /\ same (s_fs s) (s_fs s')); [apply base_ok; auto|].
  intros e s1 (-> & I1 & S1). change (0 =? 0) with true. cbn [negb].
  apply wp_bind with (P := fun e s' => e = 1 /\ s' = s1).
  { unfold wp, chdir. cbn [andb]. destruct I1 as ([G P] & W & D). rewrite W. cbn [singles map]. rewrite app_nil_r. fold (at_ (s_fs s1) [n]).
    destruct (at_ (s_fs s1) [n]) as [[|x]|] eqn:X; auto. exfalso. apply (g_node _ _ _ G) in X as (ds & X & _); [|discriminate].
    apply (make_path_not_singles 0 n ds); auto. split; auto. }
  intros e s1' (-> & ->). change (1 =? 0) with false. cbv iota.
  apply wp_bind with (P := fun e s' => e = 0 /\ In_dir (firstn (c_levels c) n) s' /\ same (s_fs s1) (s_fs s')).
  { eapply wp_mono; [apply (levels_ok (c_levels c) n [] s1); auto; lia|auto|]. intros f [G S2]. split; auto. eapply same_trans; eauto. }
  intros e s2 (-> & (T & W & D) & S2). change (0 =? 0) with true. cbn [negb]. unfold get_raw, wp, bind, look, ret.
  assert (S3 : same (s_fs s) (s_fs s2)) by (eapply same_trans; eauto).
  split; auto. split; [eapply dir_base; [apply T|exact D]|]. split; auto. exists (at_ (s_fs s2) (make_path (c_levels c) n)). split.
  - intros x. rewrite (same_has base _ _ n x S3). rewrite level_has with (L := c_levels c); auto; [tauto| |split; auto]. eapply same_level; eauto.
  - rewrite W. unfold MsgdbFsProofs.at_, make_path. rewrite dirs_of_singles, app_assoc. reflexivity.
Qed.

(** ** The start: all files go to their level *)
Definition keeps (f g : fs) : Prop := forall n c, name_ok n -> (has f n c <-> has g n c).
Lemma same_keeps : forall f g, same f g -> keeps f g. Proof. intros f g H n c _. apply same_has. auto. Qed.
Lemma keeps_trans : forall f g h, keeps f g -> keeps g h -> keeps f h.
Proof. intros f g h A B n c N. rewrite (A n c N). apply B. auto. Qed.
(** The files which are not where they should be are among those to come. *)
Definition pending (L : nat) (l : list (path * bool)) (f : fs) : Prop :=
  forall k n c, (k <= 4)%nat -> name_ok n -> at_ f (make_path k n) = Some (File c) -> k = L \/ In (make_path k n, false) l.
Lemma same_pending : forall L l f g, same f g -> pending L l f -> pending L l g.
Proof. intros L l f g H A k n c K N X. eapply A; eauto. apply H. eauto. Qed.
Definition entry_ok (e : path * bool) : Prop := snd e = false -> exists k n, fst e = make_path k n /\ name_ok n /\ (k <= 4)%nat.

Lemma hex_first : forall k n, name_ok n -> match make_path k n with (46 :: _) :: _ => true | _ => false end = false.
Proof.
  intros k n [NX NL]. destruct n as [|x n]; [discriminate|]. inversion NX as [|? ? HX _]; subst. unfold make_path, dirs_of.
  destruct k; cbn [firstn map app]; destruct (Z.eq_dec x 46) as [->|E]; try (destruct HX; lia); clear HX NX NL; destruct x as [|x|x]; auto; do 6 (destruct x as [x|x|]; auto); congruence.
Qed.
Lemma one_ok : forall L e l s, (L <= 4)%nat -> entry_ok e -> In_dir [] s -> pending L (e :: l) (s_fs s) ->
  wp (restructure_one L e) (fun x s' => x = 0 /\ In_dir [] s' /\ keeps (s_fs s) (s_fs s') /\ pending L l (s_fs s')) (fun f => Good f /\ keeps (s_fs s) f) s.
Proof.
  intros L [p dir] l s HL HE I P. unfold restructure_one. cbv zeta.
  assert (KR : keeps (s_fs s) (s_fs s)) by (apply same_keeps, same_refl).
  assert (SKIP : (forall k n c, (k <= 4)%nat -> name_ok n -> at_ (s_fs s) (make_path k n) = Some (File c) -> (p, dir) = (make_path k n, false) -> k = L) ->
    wp (ret 0) (fun x s' => x = 0 /\ In_dir [] s' /\ keeps (s_fs s) (s_fs s') /\ pending L l (s_fs s')) (fun f => Good f /\ keeps (s_fs s) f) s).
  { intros X. apply wp_ret. split; auto. split; auto. split; auto. intros k n c K N Y. destruct (P k n c K N Y) as [Z|[Z|Z]]; auto. left. eapply X; eauto. }
  destruct dir; [destruct (match p with (46 :: _) :: _ => true | _ => false end); apply SKIP; intros; discriminate|].
  destruct (HE eq_refl) as (k & n & E & N & K). cbn [fst] in E. subst p. rewrite (hex_first k n N), last_make_path.
  replace (Datatypes.length n <? L * 2)%nat with false by (symmetry; apply Nat.ltb_ge; destruct N; lia).
  destruct (path_eqb (make_path k n) (make_path L n)) eqn:E.
  { apply path_eqb_iff in E. apply SKIP. intros k' n' c K' N' _ X. injection X as X. pose proof (make_path_inj _ _ _ _ X). subst n'.
    pose proof (make_path_len k' n N' K'). rewrite <- X, E, make_path_len in H by auto. congruence. }
  apply path_eqb_false in E. unfold make_directories.
  apply wp_bind with (P := fun x s' => x = 0 /\ In_dir [] s' /\ same (s_fs s) (s_fs s') /\ at_ (s_fs s') (dirs_of L n) = Some Dir).
  - apply wp_bind with (P := fun x s' => x = 0 /\ In_dir (firstn L n) s' /\ same (s_fs s) (s_fs s')).
    + eapply wp_mono; [apply (make_down_ok L n [] s); auto; destruct N; auto; lia|auto|]. intros f [G S1]. split; auto. apply same_keeps; auto.
    + intros x s1 (-> & I1 & S1). change (0 =? 0) with true. cbv iota. pose proof I1 as (_ & _ & D1). eapply wp_mono; [apply (up_ok L (firstn L n) s1); auto|..].
      * rewrite firstn_length. destruct N; lia.
      * intros x s2 (-> & I2 & F2). rewrite F2. auto.
      * intros f [G S2]. split; auto. apply same_keeps. eapply same_trans; eauto.
  - intros x s1 (-> & ([G1 P1] & W1 & D0) & S1 & D1). change (0 =? 0) with true. cbn [negb].
    cbn [singles map] in W1. rewrite app_nil_r in W1.
    apply wp_bind with (P := fun _ s' => In_dir [] s' /\ keeps (s_fs s) (s_fs s') /\ pending L l (s_fs s')).
    + apply wp_step; [split; auto; apply same_keeps; auto|]. intros f e s' E1 F W V. unfold In_dir, St. rewrite F, W, V. clear F W V. rewrite W1 in E1.
      cbn [singles map]. rewrite app_nil_r. rewrite W1.
      unfold sys_rename in E1. fold (at_ (s_fs s1) (make_path k n)) in E1. fold (at_ (s_fs s1) (make_path L n)) in E1.
      pose proof (same_pending L _ _ _ S1 P) as PP.
      destruct (at_ (s_fs s1) (make_path k n)) as [[|c]|] eqn:X.
      * exfalso. apply (g_node _ _ _ G1) in X as (ds & X & _); [|apply make_path_nonnil]. apply make_path_not_singles in X; auto.
      * assert (Y : at_ (s_fs s1) (make_path L n) = None).
        { destruct (at_ (s_fs s1) (make_path L n)) as [[|d]|] eqn:Y; auto.
          - exfalso. apply (g_node _ _ _ G1) in Y as (ds & Y & _); [|apply make_path_nonnil]. apply make_path_not_singles in Y; auto.
          - exfalso. apply E. rewrite (g_one _ _ _ G1 n k L c d N K HL X Y). reflexivity. }
        rewrite Y in E1. rewrite parent_app, parent_make_path in E1 by apply make_path_nonnil. fold (at_ (s_fs s1) (dirs_of L n)) in E1. rewrite D1 in E1.
        injection E1 as <- <-.
        destruct (del_good base C _ _ _ _ G1 N X) as (G2 & O2 & F2 & R2). set (f2 := remove (s_fs s1) (base ++ make_path k n)) in *.
        assert (D2 : at_ f2 (dirs_of L n) = Some Dir) by (rewrite R2; auto; intros Q; symmetry in Q; apply make_path_not_singles in Q; auto).
        assert (HC : C n c) by (pose proof (g_node _ _ _ G1 _ _ (make_path_nonnil k n) X) as (k' & n' & Q & _ & _ & HC); apply make_path_inj in Q; subst; auto).
        assert (U : forall k' c', (k' <= 4)%nat -> at_ f2 (make_path k' n) = Some (File c') -> k' = L).
        { intros k' c' K' Q. destruct (Nat.eq_dec k' k) as [->|NK]; [congruence|]. exfalso.
          rewrite R2 in Q; [|intros Q2; apply NK; pose proof (make_path_len k' n N K') as Q3; rewrite Q2, make_path_len in Q3 by auto; congruence].
          apply NK. symmetry. eapply (g_one _ _ _ G1); eauto. }
        destruct (file_good base C f2 L n c G2 N HL D2 HC U) as (G3 & O3 & F3 & R3). set (f3 := put_node f2 (base ++ make_path L n) (File c)) in *.
        assert (NB : forall r, r <> make_path k n -> r <> make_path L n -> at_ f3 r = at_ (s_fs s1) r) by (intros r Q1 Q2; rewrite R3, R2; auto).
        assert (U3 : forall k' c', (k' <= 4)%nat -> at_ f3 (make_path k' n) = Some (File c') -> k' = L).
        { intros k' c' K' Q. destruct (Nat.eq_dec k' L); auto. rewrite R3 in Q; [eapply U; eauto|].
          intros Q2. pose proof (make_path_len k' n N K') as Q3. rewrite Q2, make_path_len in Q3 by auto. congruence. }
        assert (NM : forall k' n', n' <> n -> at_ f3 (make_path k' n') = at_ (s_fs s1) (make_path k' n')).
        { intros k' n' Q. apply NB; intros Q2; apply make_path_inj in Q2; congruence. }
        split; [split; [split; auto; rewrite <- W1; auto|split; auto]|split].
        -- rewrite NB; auto; intros Q; symmetry in Q; eapply make_path_nonnil; eauto.
        -- eapply keeps_trans; [apply same_keeps; eauto|]. intros n' y N'. destruct (list_eq_dec Z.eq_dec n' n) as [->|Q].
           ++ split; intros H.
              ** replace y with c; [exists L; auto|]. apply (has_one base C (s_fs s1) n); auto. exists k. auto.
              ** replace y with c; [exists k; auto|]. apply (has_one base C f3 n); auto. exists L. auto.
           ++ unfold MsgdbFsProofs.has. split; intros (k' & K' & Z); exists k'; split; auto; [rewrite NM|rewrite NM in Z]; auto.
        -- intros k' n' y K' N' Z. destruct (list_eq_dec Z.eq_dec n' n) as [->|Q]; [left; eapply U3; eauto|]. rewrite NM in Z by auto.
           destruct (PP k' n' y K' N' Z) as [?|[Q2|?]]; auto. injection Q2 as Q2. apply make_path_inj in Q2. congruence.
      * injection E1 as <- <-. split; [split; [split; auto; rewrite <- W1; auto|split; auto]|split; [apply same_keeps; auto|]].
        intros k' n' y K' N' Z. destruct (PP k' n' y K' N' Z) as [?|[Q2|?]]; auto. injection Q2 as Q2. rewrite <- Q2 in Z. congruence.
    + intros _ s2 (I2 & K2 & PE). apply wp_ret. auto.
Qed.
Lemma all_ok : forall L l s, (L <= 4)%nat -> Forall entry_ok l -> In_dir [] s -> pending L l (s_fs s) ->
  wp (restructure_all L l) (fun x s' => x = 0 /\ In_dir [] s' /\ keeps (s_fs s) (s_fs s') /\ at_level L (s_fs s')) (fun f => Good f /\ keeps (s_fs s) f) s.
Proof.
  induction l as [|e l IH]; intros s HL HE I P; cbn [restructure_all].
  - apply wp_ret. split; auto. split; auto. split; [apply same_keeps, same_refl|]. intros k n c K N X. destruct (P k n c K N X) as [?|[]]; auto.
  - inversion HE; subst. apply wp_bind with (P := fun x s' => x = 0 /\ In_dir [] s' /\ keeps (s_fs s) (s_fs s') /\ pending L l (s_fs s')); [apply one_ok; auto|].
    intros x s1 (-> & I1 & K1 & P1). change (0 =? 0) with true. cbv iota. eapply wp_mono; [apply IH; auto|..].
    + intros x s2 (-> & I2 & K2 & A2). split; auto. split; auto. split; auto. eapply keeps_trans; eauto.
    + intros f [G K2]. split; auto. eapply keeps_trans; eauto.
Qed.
Lemma rmdirs_ok : forall l s, Forall (fun p => p <> []) l -> In_dir [] s ->
  wp (rmdir_all l) (fun _ s' => In_dir [] s' /\ same (s_fs s) (s_fs s')) (fun f => Good f /\ same (s_fs s) f) s.
Proof.
  induction l as [|p l IH]; intros s HP I; cbn [rmdir_all].
  - apply wp_ret. split; auto. apply same_refl.
  - inversion HP as [|? ? HP1 HP2]; subst. destruct I as ([G P] & W & D). cbn [singles map] in W. rewrite app_nil_r in W.
    apply wp_bind with (P := fun _ s' => In_dir [] s' /\ same (s_fs s) (s_fs s')).
    + apply wp_step; [split; auto; apply same_refl|]. intros f e s' E F W' V. unfold In_dir, St. rewrite F, W', V, W. clear F W' V. cbn [singles map]. rewrite app_nil_r.
      assert (SAME : f = s_fs s -> ((Good f /\ (forall q, s_prev s = Some q -> base = q)) /\ base = base /\ at_ f [] = Some Dir) /\ same (s_fs s) f).
      { intros ->. split; [|apply same_refl]. split; [split; [exact G|intros q Q; rewrite <- W; auto]|auto]. }
      rewrite W in E. unfold sys_rmdir in E. fold (at_ (s_fs s) p) in E. destruct (at_ (s_fs s) p) as [[|c]|] eqn:X; try (injection E as <- <-; apply SAME; auto).
      destruct (base ++ p) as [|a b] eqn:BP; [apply app_eq_nil in BP; tauto|]. rewrite <- BP in E. destruct (below (s_fs s) (base ++ p)) as [|z zs] eqn:B;
        [|injection E as <- <-; apply SAME; auto]. injection E as <- <-.
      destruct (rm_good base C _ _ G HP1 X B) as (G' & S'). split; auto. split; [split; [auto|intros q Q; rewrite <- W; auto]|]. split; auto.
      rewrite at_remove by congruence. match goal with |- (if ?b then _ else _) = _ => replace b with false; [exact D|symmetry; apply path_eqb_false; auto] end.
    + intros _ s1 (I1 & S1). eapply wp_mono; [apply IH; auto|..].
      * intros _ s2 (I2 & S2). split; auto. eapply same_trans; eauto.
      * intros f [G2 S2]. split; auto. eapply same_trans; eauto.
Qed.
Lemma restructure_ok : forall c s, c_abs c = true -> c_dir c = base -> (c_levels c <= 4)%nat -> St s ->
  wp (restructure c) (fun x s' => x = 0 /\ St s' /\ at_ (s_fs s') [] = Some Dir /\ keeps (s_fs s) (s_fs s') /\ at_level (c_levels c) (s_fs s')) (fun f => Good f /\ keeps (s_fs s) f) s.
Proof.
  intros c s HA HD HL S0. unfold restructure.
  apply wp_bind with (P := fun e s' => e = 0 /\ In_dir [] s' /\ same (s_fs s) (s_fs s')).
  { eapply wp_mono; [apply base_ok; auto|auto|]. intros f [G S1]. split; auto. apply same_keeps; auto. }
  intros e s1 (-> & I1 & S1). change (0 =? 0) with true. cbn [negb].
  pose proof I1 as ([G1 P1] & W1 & D1). cbn [singles map] in W1. rewrite app_nil_r in W1.
  set (l := map (fun e => (fst e, is_dir (snd e))) (below (s_fs s1) base)).
  apply wp_bind with (P := fun l' s' => l' = l /\ s' = s1); [unfold wp, walk; rewrite W1; auto|]. intros l' s1' (-> & ->).
  assert (HE : Forall entry_ok l).
  { apply Forall_forall. intros [p d] X. apply in_map_iff in X as ([q n] & E & X). injection E as <- <-. apply (below_iff _ _ _ _ (g_keys _ _ _ G1)) in X as [Q X].
    intros E. cbn [snd fst] in *. destruct n as [|y]; [discriminate|]. apply (g_node _ _ _ G1) in X; auto. destruct X as (k & n & X & N & K & _). eauto. }
  assert (NE : Forall (fun p => p <> []) (rev (map fst (filter (fun e => snd e && negb (hidden (fst e))) l)))).
  { apply Forall_rev, Forall_forall. intros p X. apply in_map_iff in X as ([q d] & <- & X). apply filter_In in X as [X _]. cbn [fst].
    apply in_map_iff in X as ([q' n] & E & X). injection E as <- <-. apply below_in in X. tauto. }
  apply wp_bind with (P := fun x s' => x = 0 /\ In_dir [] s' /\ keeps (s_fs s) (s_fs s') /\ at_level (c_levels c) (s_fs s')).
  { eapply wp_mono; [apply (all_ok (c_levels c) l s1); auto|..].
    - intros k n x K N X. right. apply in_map_iff. exists (make_path k n, File x). split; auto. apply (below_iff _ _ _ _ (g_keys _ _ _ G1)). split; auto. apply make_path_nonnil.
    - intros x s2 (-> & I2 & K2 & A2). split; auto. split; auto. split; auto. eapply keeps_trans; eauto. apply same_keeps; auto.
    - intros f [G K2]. split; auto. eapply keeps_trans; eauto. apply same_keeps; auto. }
  intros x s2 (-> & I2 & K2 & A2). change (0 =? 0) with true. cbn [negb].
  apply wp_bind with (P := fun _ s' => In_dir [] s' /\ same (s_fs s2) (s_fs s')).
  { eapply wp_mono; [apply rmdirs_ok; auto|auto|]. intros f [G S2]. split; auto. eapply keeps_trans; eauto. apply same_keeps; auto. }
  intros _ s3 ((T3 & _ & D3) & S3). apply wp_ret. split; auto. split; auto. split; auto. split; [eapply keeps_trans; eauto; apply same_keeps; auto|]. eapply same_level; eauto.
Qed.
End Base.
