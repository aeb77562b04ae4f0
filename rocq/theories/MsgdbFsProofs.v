(** The file system of MsgdbModel, and what is in the directory of a database. *)
From Coq Require Import ZArith List Bool Lia.
From Verif Require Import Common MsgModel MsgProofs MsgdbModel MsgdbSpec.
Import ListNotations.
Open Scope Z_scope.

Lemma path_eqb_iff : forall a b, path_eqb a b = true <-> a = b.
Proof. intros. unfold path_eqb. destruct (list_eq_dec (list_eq_dec Z.eq_dec) a b); split; intros; auto; discriminate. Qed.
Lemma path_eqb_refl : forall a, path_eqb a a = true.
Proof. intros. apply path_eqb_iff. reflexivity. Qed.
Lemma path_eqb_false : forall a b, path_eqb a b = false <-> a <> b.
Proof. intros. unfold path_eqb. destruct (list_eq_dec (list_eq_dec Z.eq_dec) a b); split; intros; auto; try discriminate; congruence. Qed.
Lemma name_eqb_iff : forall a b, name_eqb a b = true <-> a = b.
Proof. intros. unfold name_eqb. destruct (list_eq_dec Z.eq_dec a b); split; intros; auto; discriminate. Qed.

Lemma find_app : forall f g p, find (f ++ g) p = match find f p with Some n => Some n | None => find g p end.
Proof. induction f as [|[q n] f IH]; intros; cbn [find app]; auto. destruct (path_eqb q p); auto. Qed.
Lemma find_map : forall f p n q, find (map (fun e => if path_eqb (fst e) p then (p, n) else e) f) q =
  if path_eqb p q then match find f p with Some _ => Some n | None => None end else find f q.
Proof.
  induction f as [|[a x] f IH]; intros; cbn [find map fst]; [destruct (path_eqb p q); auto|].
  destruct (path_eqb a p) eqn:E.
  - cbn [find]. destruct (path_eqb p q) eqn:E2; auto. rewrite IH, E2. apply path_eqb_iff in E. subst. rewrite E2. reflexivity.
  - cbn [find]. rewrite IH. destruct (path_eqb a q) eqn:E2; auto. destruct (path_eqb p q) eqn:E3; auto.
    apply path_eqb_iff in E2, E3. subst. rewrite path_eqb_refl in E. discriminate.
Qed.
Lemma find_put : forall f p n q, find (put_node f p n) q = if path_eqb p q then Some n else find f q.
Proof.
  intros. unfold put_node. destruct (find f p) as [x|] eqn:E.
  - rewrite find_map, E. reflexivity.
  - rewrite find_app. cbn [find]. destruct (path_eqb p q) eqn:E2; [apply path_eqb_iff in E2; subst; rewrite E; reflexivity|]. destruct (find f q); auto.
Qed.
Lemma find_remove : forall f p q, find (remove f p) q = if path_eqb p q then None else find f q.
Proof.
  induction f as [|[a x] f IH]; intros; cbn [remove filter find fst]; [destruct (path_eqb p q); auto|]. fold (remove f p).
  destruct (path_eqb a p) eqn:E; cbn [negb].
  - rewrite IH. apply path_eqb_iff in E. subst. destruct (path_eqb p q) eqn:E2; auto.
  - cbn [find]. rewrite IH. destruct (path_eqb a q) eqn:E2; auto. destruct (path_eqb p q) eqn:E3; auto.
    apply path_eqb_iff in E2, E3. subst. rewrite path_eqb_refl in E. discriminate.
Qed.
Lemma look_put : forall f p n q, p <> [] -> lookup (put_node f p n) q = if path_eqb p q then Some n else lookup f q.
Proof. intros. unfold lookup. destruct q; [destruct (path_eqb p []) eqn:E; auto; apply path_eqb_iff in E; congruence|]. apply find_put. Qed.
Lemma look_remove : forall f p q, p <> [] -> lookup (remove f p) q = if path_eqb p q then None else lookup f q.
Proof. intros. unfold lookup. destruct q; [destruct (path_eqb p []) eqn:E; auto; apply path_eqb_iff in E; congruence|]. apply find_remove. Qed.

Definition keys (f : fs) : list path := map fst f.
Lemma find_none : forall f p, find f p = None <-> ~ In p (keys f).
Proof.
  induction f as [|[a x] f IH]; intros; cbn [find keys map fst In]; [tauto|]. destruct (path_eqb a p) eqn:E.
  - apply path_eqb_iff in E. split; [discriminate|]. tauto.
  - apply path_eqb_false in E. rewrite IH. unfold keys. tauto.
Qed.
Lemma keys_put : forall f p n, NoDup (keys f) -> NoDup (keys (put_node f p n)).
Proof.
  intros f p n H. unfold put_node. destruct (find f p) eqn:E.
  - replace (keys (map _ f)) with (keys f); auto. unfold keys. rewrite map_map. apply map_ext_in. intros [a x] _. cbn [fst].
    destruct (path_eqb a p) eqn:E2; auto. apply path_eqb_iff in E2. auto.
  - unfold keys. rewrite map_app. cbn. apply find_none in E. apply NoDup_rev in H. rewrite <- (rev_involutive (map fst f ++ [p])). apply NoDup_rev.
    rewrite rev_app_distr. cbn. constructor; auto. rewrite <- in_rev. exact E.
Qed.
Lemma keys_remove : forall f p, NoDup (keys f) -> NoDup (keys (remove f p)).
Proof.
  induction f as [|[a x] f IH]; intros p H; [constructor|]. inversion H; subst. cbn [remove filter fst]. fold (remove f p).
  destruct (negb (path_eqb a p)); auto. cbn [keys map fst]. constructor; [|apply IH; auto].
  intros X. apply H2. unfold keys, remove in X. apply in_map_iff in X as ([b y] & E & X). apply filter_In in X as [X _]. apply in_map_iff. exists (b, y). auto.
Qed.
Lemma find_in : forall f p n, NoDup (keys f) -> (find f p = Some n <-> In (p, n) f).
Proof.
  induction f as [|[a x] f IH]; intros p n H; cbn [find In]; [split; [discriminate|tauto]|]. inversion H as [|? ? H2 H3]; subst. rewrite <- (IH p n H3).
  destruct (path_eqb a p) eqn:E.
  - apply path_eqb_iff in E. subst. split; [intros X; injection X as ->; auto|]. intros [X|X]; [congruence|].
    exfalso. apply H2. destruct (in_dec (list_eq_dec (list_eq_dec Z.eq_dec)) p (keys f)) as [I|I]; auto. apply find_none in I. congruence.
  - apply path_eqb_false in E. split; auto. intros [X|X]; auto. congruence.
Qed.
Lemma strip_iff : forall p q r, strip p q = Some r <-> q = p ++ r.
Proof.
  induction p as [|x p IH]; intros q r; cbn [strip app]; [split; congruence|]. destruct q as [|y q]; [split; discriminate|].
  destruct (name_eqb x y) eqn:E.
  - apply name_eqb_iff in E. subst. rewrite IH. split; congruence.
  - split; [discriminate|]. intros X. injection X as -> _. unfold name_eqb in E. destruct (list_eq_dec Z.eq_dec x x); congruence.
Qed.
Lemma below_in : forall f p q n, In (q, n) (below f p) <-> q <> [] /\ In (p ++ q, n) f.
Proof.
  intros. unfold below. rewrite in_flat_map. split.
  - intros ([k x] & H1 & H2). cbn [fst snd] in H2. destruct (strip p k) as [[|y r]|] eqn:E; [destruct H2| |destruct H2].
    apply strip_iff in E. destruct H2 as [H2|[]]. injection H2 as <- <-. subst k. split; [discriminate|auto].
  - intros [H1 H2]. exists (p ++ q, n). split; auto. cbn [fst snd]. replace (strip p (p ++ q)) with (Some q) by (symmetry; apply strip_iff; reflexivity).
    destruct q; [congruence|]. left. reflexivity.
Qed.
Lemma below_iff : forall f p q n, NoDup (keys f) -> (In (q, n) (below f p) <-> q <> [] /\ lookup f (p ++ q) = Some n).
Proof.
  intros f p q n K. rewrite below_in. split; intros [H1 H2]; split; auto.
  - unfold lookup. destruct (p ++ q) eqn:E; [destruct p, q; try discriminate; congruence|]. apply find_in; auto.
  - unfold lookup in H2. destruct (p ++ q) eqn:E; [destruct p, q; try discriminate; congruence|]. apply find_in; auto.
Qed.
Lemma children_iff : forall f p x n, NoDup (keys f) -> (In (x, n) (children f p) <-> lookup f (p ++ [x]) = Some n).
Proof.
  intros f p x n K. unfold children. rewrite in_flat_map. split.
  - intros ([k y] & H1 & H2). cbn [fst snd] in H2. destruct (strip p k) as [[|z [|]]|] eqn:E; try destruct H2 as [].
    + injection H as <- <-. apply strip_iff in E. subst k. unfold lookup. destruct (p ++ [z]) eqn:E; [destruct p; discriminate|]. apply find_in; auto.
    + destruct H.
  - intros H. exists (p ++ [x], n). cbn [fst snd]. replace (strip p (p ++ [x])) with (Some [x]) by (symmetry; apply strip_iff; reflexivity).
    split; [|left; reflexivity]. unfold lookup in H. destruct (p ++ [x]) eqn:E; [destruct p; discriminate|]. apply find_in; auto.
Qed.

(** ** The directory of a database *)
Definition hexchar (x : Z) : Prop := 48 <= x <= 57 \/ 97 <= x <= 102.
Definition name_ok (n : name) : Prop := Forall hexchar n /\ Datatypes.length n = 64%nat.
Definition singles (ds : list Z) : path := map (fun x => [x]) ds.
Lemma dirs_of_singles : forall k n, dirs_of k n = singles (firstn k n). Proof. reflexivity. Qed.
Lemma make_path_inj : forall k n k' n', make_path k n = make_path k' n' -> n = n'.
Proof. intros k n k' n' E. unfold make_path in E. apply app_inj_tail in E. tauto. Qed.
Lemma make_path_len : forall k n, name_ok n -> (k <= 4)%nat -> Datatypes.length (make_path k n) = S k.
Proof. intros k n [_ H] L. unfold make_path, dirs_of. rewrite app_length, map_length, firstn_length. cbn. lia. Qed.
Lemma make_path_not_singles : forall k n ds, name_ok n -> make_path k n <> singles ds.
Proof.
  intros k n ds [_ H] E. unfold make_path in E. assert (In n (singles ds)) by (rewrite <- E; apply in_or_app; right; left; reflexivity).
  unfold singles in H0. apply in_map_iff in H0 as (x & X & _). subst n. discriminate.
Qed.
Lemma make_path_nonnil : forall k n, make_path k n <> [].
Proof. intros k n E. unfold make_path in E. destruct (dirs_of k n); discriminate. Qed.
Lemma last_make_path : forall k n, last (make_path k n) [] = n.
Proof. intros. unfold make_path. apply last_last. Qed.
Lemma parent_make_path : forall k n, parent (make_path k n) = dirs_of k n.
Proof. intros. unfold parent, make_path. apply removelast_last. Qed.
Lemma parent_app : forall b q, q <> [] -> parent (b ++ q) = b ++ parent q.
Proof. intros. unfold parent. apply removelast_app. auto. Qed.
Lemma app_eq : forall (b q r : path), path_eqb (b ++ q) (b ++ r) = path_eqb q r.
Proof.
  intros. destruct (path_eqb q r) eqn:E; [apply path_eqb_iff in E; subst; apply path_eqb_refl|]. apply path_eqb_false in E. apply path_eqb_false. intros X. apply app_inv_head in X. auto.
Qed.
Lemma app_nonnil : forall (b q : path), q <> [] -> b ++ q <> [].
Proof. intros b q H X. apply app_eq_nil in X. tauto. Qed.

Section Base.
Context (base : path) (C : name -> list Z -> Prop).   (* [C n c]: what a file [n] may have *)

Definition ok_node (q : path) (n : node) : Prop :=
  match n with
  | Dir => exists ds, q = singles ds /\ Forall hexchar ds
  | File c => exists k n, q = make_path k n /\ name_ok n /\ (k <= 4)%nat /\ C n c
  end.
Definition at_ (f : fs) (q : path) : option node := lookup f (base ++ q).
Record Good (f : fs) : Prop := {
  g_keys : NoDup (keys f);
  g_base : at_ f [] = Some Dir \/ at_ f [] = None /\ lookup f (parent base) = Some Dir /\ forall q, at_ f q = None;
  g_node : forall q n, q <> [] -> at_ f q = Some n -> ok_node q n;
  g_one : forall n k k' c c', name_ok n -> (k <= 4)%nat -> (k' <= 4)%nat -> at_ f (make_path k n) = Some (File c) -> at_ f (make_path k' n) = Some (File c') -> k = k';
  g_up : forall q n, q <> [] -> at_ f q = Some n -> at_ f (parent q) = Some Dir
}.
(** The files are the same *)
Definition same (f g : fs) : Prop := forall q c, at_ f q = Some (File c) <-> at_ g q = Some (File c).
Lemma same_refl : forall f, same f f. Proof. intros f q c. apply iff_refl. Qed.
Lemma same_trans : forall f g h, same f g -> same g h -> same f h.
Proof. intros f g h H1 H2 q c. rewrite (H1 q c). apply H2. Qed.

Lemma at_put : forall f q n r, base ++ q <> [] -> at_ (put_node f (base ++ q) n) r = if path_eqb q r then Some n else at_ f r.
Proof. intros. unfold at_. rewrite look_put by auto. rewrite app_eq. reflexivity. Qed.
Lemma at_remove : forall f q r, base ++ q <> [] -> at_ (remove f (base ++ q)) r = if path_eqb q r then None else at_ f r.
Proof. intros. unfold at_. rewrite look_remove by auto. rewrite app_eq. reflexivity. Qed.

(** A new directory *)
Lemma parent_singles : forall ds x, parent (singles (ds ++ [x])) = singles ds.
Proof. intros. unfold parent, singles. rewrite map_app. apply removelast_last. Qed.
Lemma mk_good : forall f ds x, Good f -> at_ f (singles ds) = Some Dir -> Forall hexchar (ds ++ [x]) -> at_ f (singles (ds ++ [x])) = None ->
  let f' := put_node f (base ++ singles (ds ++ [x])) Dir in Good f' /\ same f f' /\ at_ f' (singles (ds ++ [x])) = Some Dir.
Proof.
  intros f ds x G HD HX HN f'.
  assert (NE : singles (ds ++ [x]) <> []) by (unfold singles; rewrite map_app; intros X; apply app_eq_nil in X as [_ X]; discriminate).
  assert (A : forall r, at_ f' r = if path_eqb (singles (ds ++ [x])) r then Some Dir else at_ f r) by (intros; apply at_put; apply app_nonnil; auto).
  assert (B : at_ f [] = Some Dir) by (destruct (g_base f G) as [B|(_ & _ & B)]; auto; rewrite B in HD; discriminate).
  split; [|split; [|rewrite A, path_eqb_refl; reflexivity]].
  - split.
    + apply keys_put, G.
    + left. rewrite A. destruct (path_eqb _ []); auto.
    + intros q n Q. rewrite A. destruct (path_eqb _ q) eqn:E; [|apply G; auto]. apply path_eqb_iff in E. subst. intros X. injection X as <-. exists (ds ++ [x]). auto.
    + intros n k k' c c' N K K'. rewrite !A. destruct (path_eqb _ (make_path k n)); [discriminate|]. destruct (path_eqb _ (make_path k' n)); [discriminate|]. apply G; auto.
    + intros q n Q. rewrite !A. destruct (path_eqb (singles (ds ++ [x])) (parent q)) eqn:E2; auto. destruct (path_eqb _ q) eqn:E; [|apply G; auto].
      apply path_eqb_iff in E. subst. rewrite parent_singles. auto.
  - intros q c. rewrite A. destruct (path_eqb _ q) eqn:E; [|tauto]. apply path_eqb_iff in E. subst. rewrite HN. split; discriminate.
Qed.
(** The directory of the database itself *)
Lemma mk_base : forall f, Good f -> at_ f [] = None -> let f' := put_node f base Dir in Good f' /\ same f f' /\ at_ f' [] = Some Dir.
Proof.
  intros f G H f'. destruct (g_base f G) as [X|(_ & P & N)]; [congruence|].
  assert (NE : base ++ [] <> []) by (intros X; unfold at_ in H; rewrite X in H; discriminate).
  assert (A : forall r, at_ f' r = if path_eqb [] r then Some Dir else at_ f r).
  { intros. unfold f'. replace base with (base ++ []) at 1 by apply app_nil_r. apply at_put. auto. }
  split; [|split; [|rewrite A; reflexivity]].
  - split.
    + apply keys_put, G.
    + left. rewrite A. reflexivity.
    + intros q n Q. rewrite A, N. destruct (path_eqb [] q) eqn:E; [apply path_eqb_iff in E; congruence|discriminate].
    + intros n k k' c c' _ _ _. rewrite A, N. destruct (path_eqb [] (make_path k n)); discriminate.
    + intros q n Q. rewrite !A, !N. destruct (path_eqb [] q) eqn:E; [apply path_eqb_iff in E; congruence|discriminate].
  - intros q c. rewrite A, N. destruct (path_eqb [] q); split; discriminate.
Qed.
(** An empty directory less *)
Lemma rm_good : forall f q, Good f -> q <> [] -> at_ f q = Some Dir -> below f (base ++ q) = [] ->
  let f' := remove f (base ++ q) in Good f' /\ same f f'.
Proof.
  intros f q G Q HD HB f'.
  assert (A : forall r, at_ f' r = if path_eqb q r then None else at_ f r) by (intros; apply at_remove; apply app_nonnil; auto).
  assert (E0 : forall r, r <> [] -> at_ f (q ++ r) = None).
  { intros r R. destruct (at_ f (q ++ r)) as [n|] eqn:E; auto. unfold at_ in E. rewrite app_assoc in E.
    assert (X : In (r, n) (below f (base ++ q))) by (apply below_iff; [apply G|auto]). rewrite HB in X. destruct X. }
  assert (B : at_ f [] = Some Dir) by (destruct (g_base f G) as [B|(_ & _ & B)]; auto; rewrite B in HD; discriminate).
  split.
  - split.
    + apply keys_remove, G.
    + left. rewrite A. destruct (path_eqb q []) eqn:E; auto. apply path_eqb_iff in E. congruence.
    + intros r n R. rewrite A. destruct (path_eqb q r); [discriminate|]. apply G; auto.
    + intros n k k' c c' N K K'. rewrite !A. destruct (path_eqb _ (make_path k n)); [discriminate|]. destruct (path_eqb _ (make_path k' n)); [discriminate|]. apply G; auto.
    + intros r n R. rewrite !A. destruct (path_eqb q r); [discriminate|]. intros X. destruct (path_eqb q (parent r)) eqn:E; [|eapply G; eauto].
      apply path_eqb_iff in E. exfalso. destruct (exists_last R) as (r' & y & ->). unfold parent in E. rewrite removelast_last in E. subst r'.
      rewrite E0 in X; discriminate.
  - intros r c. rewrite A. destruct (path_eqb q r) eqn:E; [|tauto]. apply path_eqb_iff in E. subst. rewrite HD. split; discriminate.
Qed.
(** A file, new or changed: the only one of its name *)
Definition others (n : name) (f g : fs) : Prop := forall k n' c, n' <> n -> (at_ f (make_path k n') = Some (File c) <-> at_ g (make_path k n') = Some (File c)).
Lemma file_good : forall f k n c, Good f -> name_ok n -> (k <= 4)%nat -> at_ f (dirs_of k n) = Some Dir -> C n c ->
  (forall k' c', (k' <= 4)%nat -> at_ f (make_path k' n) = Some (File c') -> k' = k) ->
  let f' := put_node f (base ++ make_path k n) (File c) in
  Good f' /\ others n f f' /\ at_ f' (make_path k n) = Some (File c) /\ (forall r, r <> make_path k n -> at_ f' r = at_ f r).
Proof.
  intros f k n c G N K HD HC U f'.
  assert (A : forall r, at_ f' r = if path_eqb (make_path k n) r then Some (File c) else at_ f r) by (intros; apply at_put; apply app_nonnil, make_path_nonnil).
  assert (B : at_ f [] = Some Dir) by (destruct (g_base f G) as [B|(_ & _ & B)]; auto; rewrite B in HD; discriminate).
  assert (ND : at_ f (make_path k n) <> Some Dir).
  { intros X. apply (g_node f G) in X as (ds & X & _); [|apply make_path_nonnil]. apply make_path_not_singles in X; auto. }
  split; [|split; [|split; [rewrite A, path_eqb_refl; reflexivity|]]].
  - split.
    + apply keys_put, G.
    + left. rewrite A. destruct (path_eqb _ []) eqn:E; auto. apply path_eqb_iff in E. exfalso. eapply make_path_nonnil; eauto.
    + intros q x Q. rewrite A. destruct (path_eqb _ q) eqn:E; [|apply G; auto]. apply path_eqb_iff in E. subst. intros X. injection X as <-. exists k, n. auto.
    + intros n' a b ca cb N' Ka Kb. rewrite !A.
      destruct (path_eqb (make_path k n) (make_path a n')) eqn:E1; [apply path_eqb_iff in E1; pose proof (make_path_inj _ _ _ _ E1); subst n'|].
      * assert (a = k) by (pose proof (make_path_len k n N K); pose proof (make_path_len a n N Ka); rewrite E1 in *; congruence). subst a.
        destruct (path_eqb (make_path k n) (make_path b n)) eqn:E2; [apply path_eqb_iff in E2|].
        -- intros _ _. pose proof (make_path_len k n N K). pose proof (make_path_len b n N Kb). rewrite E2 in *. congruence.
        -- intros _ X. symmetry. eapply U; eauto.
      * destruct (path_eqb (make_path k n) (make_path b n')) eqn:E2; [|apply G; auto].
        apply path_eqb_iff in E2. pose proof (make_path_inj _ _ _ _ E2). subst n'. intros X _.
        rewrite (U a ca Ka X). pose proof (make_path_len k n N K). pose proof (make_path_len b n N Kb). rewrite E2 in *. congruence.
    + intros q x Q. rewrite !A. destruct (path_eqb (make_path k n) (parent q)) eqn:E2.
      * apply path_eqb_iff in E2. destruct (path_eqb (make_path k n) q) eqn:E.
        -- apply path_eqb_iff in E. exfalso. assert (L : Datatypes.length (parent q) = Datatypes.length q) by congruence.
           destruct (exists_last Q) as (r' & y & ->). unfold parent in L. rewrite removelast_last, app_length in L. cbn in L. lia.
        -- intros X. apply (g_up f G) in X; auto. congruence.
      * destruct (path_eqb (make_path k n) q) eqn:E; [|apply G; auto]. apply path_eqb_iff in E. subst q. intros _. rewrite parent_make_path. auto.
  - intros a n' x X. rewrite A. destruct (path_eqb _ _) eqn:E; [|tauto]. apply path_eqb_iff in E. apply make_path_inj in E. congruence.
  - intros r R. rewrite A. destruct (path_eqb _ r) eqn:E; auto. apply path_eqb_iff in E. congruence.
Qed.
(** A file less *)
Lemma del_good : forall f k n c, Good f -> name_ok n -> at_ f (make_path k n) = Some (File c) ->
  let f' := remove f (base ++ make_path k n) in
  Good f' /\ others n f f' /\ at_ f' (make_path k n) = None /\ (forall r, r <> make_path k n -> at_ f' r = at_ f r).
Proof.
  intros f k n c G N HF f'.
  assert (A : forall r, at_ f' r = if path_eqb (make_path k n) r then None else at_ f r) by (intros; apply at_remove; apply app_nonnil, make_path_nonnil).
  assert (B : at_ f [] = Some Dir) by (destruct (g_base f G) as [B|(_ & _ & B)]; auto; rewrite B in HF; discriminate).
  split; [|split; [|split; [rewrite A, path_eqb_refl; reflexivity|]]].
  - split.
    + apply keys_remove, G.
    + left. rewrite A. destruct (path_eqb _ []) eqn:E; auto. apply path_eqb_iff in E. exfalso. eapply make_path_nonnil; eauto.
    + intros q x Q. rewrite A. destruct (path_eqb _ q); [discriminate|apply G; auto].
    + intros n' a b ca cb N' Ka Kb. rewrite !A. destruct (path_eqb _ (make_path a n')); [discriminate|]. destruct (path_eqb _ (make_path b n')); [discriminate|]. apply G; auto.
    + intros q x Q. rewrite !A. destruct (path_eqb (make_path k n) q) eqn:E; [discriminate|]. intros X. apply (g_up f G) in X; auto.
      destruct (path_eqb (make_path k n) (parent q)) eqn:E2; auto. apply path_eqb_iff in E2. congruence.
  - intros a n' x X. rewrite A. destruct (path_eqb _ _) eqn:E; [|tauto]. apply path_eqb_iff in E. apply make_path_inj in E. congruence.
  - intros r R. rewrite A. destruct (path_eqb _ r) eqn:E; auto. apply path_eqb_iff in E. congruence.
Qed.

(** ** What is in the files: in which directory they are does not matter *)
Definition has (f : fs) (n : name) (c : list Z) : Prop := exists k, (k <= 4)%nat /\ at_ f (make_path k n) = Some (File c).
Lemma same_has : forall f g n c, same f g -> (has f n c <-> has g n c).
Proof. intros f g n c H. unfold has. split; intros (k & K & X); exists k; split; auto; apply H; auto. Qed.
Lemma others_has : forall f g n n' c, others n f g -> n' <> n -> (has f n' c <-> has g n' c).
Proof. intros f g n n' c H N. unfold has. split; intros (k & K & X); exists k; split; auto; apply (H k n' c N); auto. Qed.
Lemma has_one : forall f n c c', Good f -> name_ok n -> has f n c -> has f n c' -> c = c'.
Proof. intros f n c c' G N (k & K & H) (k' & K' & H'). pose proof (g_one f G n k k' c c' N K K' H H'). subst. congruence. Qed.
(** All files are [L] directories down *)
Definition at_level (L : nat) (f : fs) : Prop := forall k n c, (k <= 4)%nat -> name_ok n -> at_ f (make_path k n) = Some (File c) -> k = L.
Lemma same_level : forall L f g, same f g -> at_level L f -> at_level L g.
Proof. intros L f g H A k n c K N X. eapply A; eauto. apply H. eauto. Qed.
Lemma level_has : forall L f n c, (L <= 4)%nat -> at_level L f -> name_ok n -> (has f n c <-> at_ f (make_path L n) = Some (File c)).
Proof. intros L f n c HL A N. split; [intros (k & K & H); rewrite <- (A k n c K N H); auto|]. intros H. exists L. auto. Qed.
End Base.
