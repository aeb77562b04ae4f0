(** Proofs about UDP-streams. *)
From Coq Require Import ZArith List Bool Lia.
From Verif Require Import Common MsgModel ReadModel UdpsModel UdpsSpec.
Import ListNotations.
Open Scope Z_scope.

(** ** Frames of messages *)

Definition core (f : frame) : Z * Z * Z * list Z := (fr_id f, fr_ft f, fr_app f, fr_data f).
Definition cores (l : list frame) := map core l.
Lemma skipn_shorter : forall (A : Type) n (a : A) l, (0 < n)%nat -> (length (skipn n (a :: l)) <= length l)%nat.
Proof. intros A n a l H. rewrite skipn_length. cbn [length]. lia. Qed.
Lemma limit_pos : (0 < Z.to_nat DATA_SIZE_LIMIT)%nat. Proof. unfold DATA_SIZE_LIMIT. lia. Qed.
Lemma firstn_cons_limit : forall (A : Type) (a : A) l, exists l', firstn (Z.to_nat DATA_SIZE_LIMIT) (a :: l) = a :: l'.
Proof. intros A a l. pose proof limit_pos. destruct (Z.to_nat DATA_SIZE_LIMIT) eqn:Q; [ lia | ]. cbn [firstn]. eauto. Qed.

Lemma make_data : forall fuel id app data, (length data <= fuel)%nat -> joined (make_frames fuel id app data) = data.
Proof.
  induction fuel as [ | fuel IH ]; intros id app data L; [ destruct data; [ reflexivity | cbn in L; lia ] | ].
  destruct data as [ | a data ]; [ reflexivity | ]. cbn [make_frames]. unfold joined in *. cbn [map concat fr_data].
  rewrite IH; [ apply firstn_skipn | ]. pose proof (skipn_shorter Z _ a data limit_pos). cbn [length] in L. lia.
Qed.
Lemma make_nonempty : forall fuel id app a data, (0 < fuel)%nat -> make_frames fuel id app (a :: data) <> [].
Proof. intros [ | fuel ] id app a data L; [ lia | discriminate ]. Qed.
Lemma make_app : forall fuel id app data, Forall (fun f => fr_app f = app) (make_frames fuel id app data).
Proof. induction fuel as [ | fuel IH ]; intros id app [ | a data ]; cbn [make_frames]; constructor; auto. Qed.
Lemma make_ids : forall fuel id app data i f, nth_error (make_frames fuel id app data) i = Some f -> fr_id f = id + Z.of_nat i.
Proof.
  induction fuel as [ | fuel IH ]; intros id app [ | a data ] [ | i ] f H; cbn [make_frames nth_error] in H; try discriminate.
  - injection H as <-. cbn. lia.
  - apply IH in H. lia.
Qed.
(** exactly the last one is a boundary *)
Definition message_frames (l : list frame) : Prop :=
  exists a b, l = a ++ [b] /\ is_boundary (fr_ft b) = true /\ Forall (fun f => is_boundary (fr_ft f) = false) a.
Lemma make_boundary : forall fuel id app data, (length data <= fuel)%nat -> data <> [] -> message_frames (make_frames fuel id app data).
Proof.
  induction fuel as [ | fuel IH ]; intros id app data L N; [ destruct data; [ congruence | cbn in L; lia ] | ].
  destruct data as [ | a data ]; [ congruence | ]. cbn [make_frames]. pose proof (skipn_shorter Z _ a data limit_pos) as SK. cbn [length] in L.
  destruct (skipn (Z.to_nat DATA_SIZE_LIMIT) (a :: data)) as [ | b r ] eqn:Q.
  - exists []. eexists. split; [ destruct fuel; reflexivity | ]. split; [ reflexivity | constructor ].
  - destruct (IH (id + 1) app (b :: r)) as (x & y & E & B & F); [ cbn [length] in *; lia | discriminate | ]. rewrite E.
    eexists (_ :: x), y. split; [ reflexivity | ]. split; [ exact B | ]. constructor; [ reflexivity | exact F ].
Qed.

Lemma frames_ids : forall ms id i f, nth_error (frames_from id ms) i = Some f -> fr_id f = id + Z.of_nat i.
Proof.
  induction ms as [ | (app, data) ms IH ]; intros id i f H; [ destruct i; discriminate | ]. cbn [frames_from] in H. cbv zeta in H.
  set (fs := make_frames (length data) id app data) in *.
  destruct (Nat.ltb_spec i (length fs)) as [ L | L ].
  - rewrite nth_error_app1 in H by exact L. eapply make_ids. exact H.
  - rewrite nth_error_app2 in H by exact L. apply IH in H. unfold zlen in *. lia.
Qed.
Lemma frames_app : forall a b id, frames_from id (a ++ b) = frames_from id a ++ frames_from (id + zlen (frames_from id a)) b.
Proof.
  induction a as [ | (app, data) a IH ]; intros b id; cbn [frames_from List.app]; [ now rewrite zlen_nil, Z.add_0_r | ].
  cbv zeta. rewrite IH, <- app_assoc, zlen_app. f_equal. f_equal. f_equal. lia.
Qed.

(** A frame is known if it is, but for times and counters, one of the frames of the messages. *)
Definition known (Q : list (Z * Z * Z * list Z)) (f : frame) : Prop :=
  1 <= fr_id f /\ nth_error Q (Z.to_nat (fr_id f - 1)) = Some (core f).
Definition all_cores (ms : list message) := cores (frames_from 1 ms).
Lemma known_app : forall Q R f, known Q f -> known (Q ++ R) f.
Proof. intros Q R f (H & N). split; [ exact H | ]. rewrite nth_error_app1; [ exact N | ]. apply nth_error_Some. congruence. Qed.
Lemma known_core : forall Q f g, core f = core g -> known Q f -> known Q g.
Proof. intros Q f g E (H & N). unfold core in E. injection E as E1 E2 E3 E4. unfold known, core. rewrite <- E1, <- E2, <- E3, <- E4. now split. Qed.
Lemma known_bound : forall Q f, known Q f -> 1 <= fr_id f <= zlen Q.
Proof. intros Q f (H & N). assert (L : (Z.to_nat (fr_id f - 1) < length Q)%nat) by (apply nth_error_Some; congruence). unfold zlen. lia. Qed.
Lemma frames_known : forall ms f, In f (frames_from 1 ms) -> known (all_cores ms) f.
Proof.
  intros ms f H. apply In_nth_error in H as (i & H). pose proof (frames_ids _ _ _ _ H) as I. split; [ lia | ].
  replace (Z.to_nat (fr_id f - 1)) with i by lia. unfold all_cores, cores. rewrite nth_error_map, H. reflexivity.
Qed.
Lemma all_cores_app : forall a b, exists r, all_cores (a ++ b) = all_cores a ++ r.
Proof. intros a b. unfold all_cores, cores. rewrite frames_app, map_app. eauto. Qed.

(** ** Ordered buffers *)
Fixpoint ascending (lo : Z) (l : list frame) : Prop :=
  match l with [] => True | f :: r => lo < fr_id f /\ ascending (fr_id f) r end.
Lemma ascending_weaken : forall l a b, a <= b -> ascending b l -> ascending a l.
Proof. intros [ | f r ] a b L H; cbn in *; [ auto | ]. destruct H. split; [ lia | auto ]. Qed.
Lemma ascending_all : forall l a, ascending a l -> Forall (fun f => a < fr_id f) l.
Proof. induction l as [ | f r IH ]; intros a H; constructor; cbn in H; destruct H as (H1 & H2); [ exact H1 | ]. eapply Forall_impl; [ | apply IH; exact H2 ]. cbn. intros. lia. Qed.
Lemma ascending_app : forall l a f, ascending a l -> a < fr_id f -> Forall (fun g => fr_id g < fr_id f) l -> ascending a (l ++ [f]).
Proof. induction l as [ | g r IH ]; intros a f H L F; cbn in *; [ auto | ]. destruct H as (H1 & H2). inversion F; subst. split; [ exact H1 | ]. apply IH; auto. Qed.
Lemma ascending_app_r : forall l r a, ascending a (l ++ r) -> ascending a r.
Proof. induction l as [ | f l IH ]; intros r a H; cbn in *; [ exact H | ]. destruct H as (H1 & H2). eapply ascending_weaken; [ | apply IH; exact H2 ]. lia. Qed.

(** ** The next message of a buffer *)
Definition bnd (c : Z * Z * Z * list Z) : bool := is_boundary (snd (fst (fst c))).
Definition mf (l : list (Z * Z * Z * list Z)) : Prop := exists a b, l = a ++ [b] /\ bnd b = true /\ Forall (fun c => bnd c = false) a.
Lemma mf_unique : forall x y r s, mf x -> mf y -> x ++ r = y ++ s -> x = y /\ r = s.
Proof.
  intros x y r s (a & b & -> & B & F) (c & d & -> & D & G). revert c F G. induction a as [ | u a IH ]; intros [ | v c ] F G E; cbn in E.
  - injection E as -> ->. auto.
  - injection E as -> _. inversion G; congruence.
  - injection E as -> _. inversion F; congruence.
  - injection E as -> E. inversion F; inversion G; subst. destruct (IH c) as (I & ->); auto. split; [ | reflexivity ]. cbn. now rewrite I.
Qed.
Lemma mf_cores : forall l, message_frames l -> mf (cores l).
Proof.
  intros l (a & b & -> & B & F). exists (cores a), (core b). split; [ unfold cores; now rewrite map_app | ]. split; [ exact B | ].
  unfold cores. apply Forall_map. exact F.
Qed.
Lemma prefix_nth : forall (A : Type) (x y : list A), (forall i c, nth_error x i = Some c -> nth_error y i = Some c) -> exists r, y = x ++ r.
Proof.
  induction x as [ | a x IH ]; intros y H; [ exists y; reflexivity | ]. destruct y as [ | b y ]; [ specialize (H 0%nat a eq_refl); discriminate | ].
  pose proof (H 0%nat a eq_refl) as E. cbn in E. injection E as ->. destruct (IH y) as (r & ->); [ | exists r; reflexivity ].
  intros i c N. apply (H (S i) c N).
Qed.
Lemma nth_skipn : forall (A : Type) k (l : list A) i, nth_error (skipn k l) i = nth_error l (k + i).
Proof. induction k as [ | k IH ]; intros l i; [ reflexivity | ]. destruct l; [ now destruct i | ]. cbn. apply IH. Qed.
Lemma next_message : forall ms id x r, mf x -> x ++ r = cores (frames_from id ms) ->
  exists e app data rest, ms = e ++ (app, data) :: rest /\ Forall (fun m => snd m = []) e /\ data <> [] /\ x = cores (make_frames (length data) id app data).
Proof.
  induction ms as [ | (app, data) ms IH ]; intros id x r M E.
  - destruct M as (a & b & -> & _). cbn in E. destruct a; discriminate.
  - cbn [frames_from] in E. cbv zeta in E. destruct data as [ | d data ].
    + cbn [make_frames length List.app] in E. rewrite zlen_nil, Z.add_0_r in E. destruct (IH _ _ _ M E) as (e & app' & data' & rest & -> & F & N & X).
      exists ((app, []) :: e), app', data', rest. split; [ reflexivity | ]. split; [ constructor; auto | auto ].
    + unfold cores in E. rewrite map_app in E.
      destruct (mf_unique _ _ _ _ M (mf_cores _ (make_boundary (length (d :: data)) id app (d :: data) (le_n _) ltac:(discriminate))) E) as (X & _).
      exists [], app, (d :: data), ms. split; [ reflexivity | ]. split; [ constructor | ]. split; [ discriminate | exact X ].
Qed.
Lemma core_parts : forall l, map fr_id l = map (fun c => fst (fst (fst c))) (cores l) /\ map fr_app l = map (fun c => snd (fst c)) (cores l) /\ map fr_data l = map snd (cores l).
Proof. intros l. unfold cores. rewrite !map_map. auto. Qed.

Lemma scan_new : forall l prev count size, 0 <= prev -> 0 <= count -> ascending (prev + count) l ->
  match scan prev count size l with
  | Ok (l', None) => l' = l
  | Ok (l', Some (m, rest)) => l' = l /\ l = m ++ rest /\ message_frames m /\ forall i f, nth_error m i = Some f -> fr_id f = prev + count + 1 + Z.of_nat i
  | _ => False
  end.
Proof.
  induction l as [ | f r IH ]; intros prev count size P C A; cbn [scan]; [ reflexivity | ]. cbn [ascending] in A. destruct A as (A1 & A2).
  destruct (prev <? fr_id f) eqn:B1; [ | lia ]. destruct (1 + count <? fr_id f - prev) eqn:B2; [ reflexivity | ].
  destruct (is_boundary (fr_ft f)) eqn:B3.
  - split; [ reflexivity | ]. split; [ reflexivity | ]. split; [ exists [], f; auto | ]. intros [ | [ | i ] ] g N; cbn in N; try discriminate. injection N as <-. lia.
  - replace (fr_id f) with (prev + (count + 1)) in A2 by lia. specialize (IH prev (count + 1) (u32 (size + zlen (fr_data f))) P ltac:(lia) A2).
    destruct (scan prev (count + 1) _ r) as [ (r', [ (m, rest) | ]) | | ]; try contradiction; [ | now subst ].
    destruct IH as (-> & -> & (a & b & -> & B & F) & N). split; [ reflexivity | ]. split; [ reflexivity | ]. split; [ exists (f :: a), b; auto | ].
    intros [ | i ] g H; cbn in H; [ injection H as <-; lia | ]. apply N in H. lia.
Qed.
Lemma scan_old : forall l prev, 0 <= prev -> ascending 0 l ->
  exists a b, l = a ++ b /\ Forall (fun f => fr_id f <= prev) a /\ ascending prev b /\ scan prev 0 0 l = scan prev 0 0 b.
Proof.
  assert (G : forall l prev lo, 0 <= prev -> ascending lo l -> exists a b, l = a ++ b /\ Forall (fun f => fr_id f <= prev) a /\ ascending prev b /\ scan prev 0 0 l = scan prev 0 0 b).
  { induction l as [ | f r IH ]; intros prev lo P A; [ exists [], []; repeat split; constructor | ]. cbn [ascending] in A. destruct A as (A1 & A2).
    destruct (Z.ltb_spec prev (fr_id f)) as [ L | L ].
    - exists [], (f :: r). split; [ reflexivity | ]. split; [ constructor | ]. split; [ cbn; auto | reflexivity ].
    - destruct (IH prev _ P A2) as (a & b & -> & F & B & E). exists (f :: a), b. split; [ reflexivity | ]. split; [ constructor; auto | ]. split; [ exact B | ].
      rewrite <- E. cbn [scan]. destruct (prev <? fr_id f) eqn:X; [ lia | ]. reflexivity. }
  intros l prev P A. eapply G; eauto.
Qed.

(** ** Delivery *)
Lemma expected_app : forall valid a b, expected valid (a ++ b) = expected valid a ++ expected valid b.
Proof. intros. apply filter_app. Qed.
Lemma expected_empty : forall valid e, Forall (fun m : message => snd m = []) e -> expected valid e = [].
Proof. induction 1 as [ | m e H F IH ]; [ reflexivity | ]. unfold expected in *. cbn [filter]. rewrite H. exact IH. Qed.
Lemma frames_empty : forall e id, Forall (fun m : message => snd m = []) e -> frames_from id e = [].
Proof. intros e id F. revert id. induction F as [ | (app, data) e H F IH ]; intros id; [ reflexivity | ]. cbn [snd] in H. subst data. cbn [frames_from]. cbv zeta. cbn [make_frames length List.app]. rewrite zlen_nil, Z.add_0_r. apply IH. Qed.
(** How far the receiver is in the queue: [done] delivered or left out, [todo] not yet *)
Definition sized (ms : list message) : Prop := Forall (fun m : message => zlen (snd m) < 2^32) ms.
Lemma last_app : forall (A : Type) (a : list A) b d, List.last (a ++ [b]) d = b.
Proof. intros. apply last_last. Qed.

Lemma one_message : forall done todo m rest,
  let q := done ++ todo in let prev := zlen (frames_from 1 done) in
  Forall (known (all_cores q)) (m ++ rest) -> message_frames m -> (forall i f, nth_error m i = Some f -> fr_id f = prev + 1 + Z.of_nat i) ->
  exists e app data todo', todo = e ++ (app, data) :: todo' /\ Forall (fun m : message => snd m = []) e /\ data <> [] /\
    joined m = data /\ fr_app (List.last m (mk_frame 0 0 0 [] 0 0 0)) = app /\ fr_id (List.last m (mk_frame 0 0 0 [] 0 0 0)) = prev + zlen m /\
    zlen (frames_from 1 (done ++ e ++ [(app, data)])) = prev + zlen m.
Proof.
  intros done todo m rest q prev K M N.
  assert (PX : exists r, cores (frames_from (1 + prev) todo) = cores m ++ r).
  { apply prefix_nth. intros i c Hi. unfold cores in Hi. rewrite nth_error_map in Hi. destruct (nth_error m i) as [ f | ] eqn:Q; [ | discriminate ]. injection Hi as <-.
    pose proof (N _ _ Q) as I. assert (Kf : known (all_cores q) f) by (rewrite Forall_forall in K; apply K; apply in_or_app; left; eapply nth_error_In; eauto).
    destruct Kf as (_ & Kf). unfold all_cores, q in Kf. rewrite frames_app in Kf. unfold cores in Kf. rewrite map_app in Kf.
    rewrite nth_error_app2 in Kf; [ | rewrite map_length; unfold prev, zlen in *; lia ].
    rewrite map_length in Kf. fold prev in Kf. replace (Z.to_nat (fr_id f - 1) - length (frames_from 1 done))%nat with i in Kf by (unfold prev, zlen in *; lia). exact Kf. }
  destruct PX as (r & PX). destruct (next_message todo (1 + prev) (cores m) r (mf_cores _ M) (eq_sym PX)) as (e & app & data & todo' & -> & E & D & X).
  exists e, app, data, todo'. split; [ reflexivity | ]. split; [ exact E | ]. split; [ exact D | ].
  assert (LN : zlen m = zlen (make_frames (length data) (1 + prev) app data)).
  { unfold zlen. f_equal. apply (f_equal (@length _)) in X. unfold cores in X. rewrite !map_length in X. exact X. }
  destruct (core_parts m) as (C1 & C2 & C3). destruct (core_parts (make_frames (length data) (1 + prev) app data)) as (D1 & D2 & D3).
  split; [ | split; [ | split ] ].
  - unfold joined. rewrite C3, X, <- D3. fold (joined (make_frames (length data) (1 + prev) app data)). apply make_data. lia.
  - destruct M as (a & b & -> & _). rewrite last_app. rewrite X, <- D2 in C2. rewrite map_app in C2. cbn [map] in C2.
    assert (I : In (fr_app b) (map fr_app (make_frames (length data) (1 + prev) app data))) by (rewrite <- C2; apply in_or_app; right; left; reflexivity).
    apply in_map_iff in I as (f & F1 & F2). pose proof (make_app (length data) (1 + prev) app data) as G. rewrite Forall_forall in G. rewrite <- F1. apply G. exact F2.
  - destruct M as (a & b & -> & _). rewrite last_app. rewrite (N (length a) b); [ rewrite zlen_app; unfold zlen; cbn [length]; lia | ]. rewrite nth_error_app2, Nat.sub_diag; [ reflexivity | lia ].
  - rewrite !frames_app, !zlen_app. rewrite (frames_empty _ _ E). fold prev. rewrite zlen_nil. cbn [frames_from]. cbv zeta. rewrite app_nil_r, LN. rewrite Z.add_0_r. lia.
Qed.

Lemma deliver_spec : forall fuel valid possible cb n done todo l,
  let q := done ++ todo in let prev := zlen (frames_from 1 done) in
  sized q -> ascending 0 l -> Forall (known (all_cores q)) l ->
  exists ret l' prev' ms mid todo', deliver fuel valid possible cb n prev l = Ok (ret, l', prev', ms) /\
    todo = mid ++ todo' /\ ms = expected valid mid /\ prev' = zlen (frames_from 1 (done ++ mid)) /\
    ascending 0 l' /\ Forall (known (all_cores q)) l' /\ prev <= prev' /\ forall f, In f l -> fr_id f <= prev' \/ In f l'.
Proof.
  induction fuel as [ | fuel IH ]; intros valid possible cb n done todo l q prev S A K; cbn [deliver].
  { exists 0, l, prev, [], [], todo. repeat split; auto; try lia. now rewrite app_nil_r. }
  destruct (negb (possible n)).
  { exists 0, l, prev, [], [], todo. repeat split; auto; try lia. now rewrite app_nil_r. }
  destruct (scan_old l prev (zlen_nonneg _ _) A) as (o & b & -> & O & B & ->).
  pose proof (scan_new b prev 0 0 (zlen_nonneg _ _) ltac:(lia) ltac:(now rewrite Z.add_0_r)) as SC.
  apply ascending_app_r in A. apply Forall_app in K as (_ & K).
  destruct (scan prev 0 0 b) as [ (l', [ (m, rest) | ]) | | ]; try contradiction.
  2: { subst l'. exists 0, b, prev, [], [], todo. repeat split; auto; try lia. { now rewrite app_nil_r. }
       intros f F. apply in_app_or in F as [ F | F ]; [ left; rewrite Forall_forall in O; now apply O | auto ]. }
  destruct SC as (-> & -> & M & N). rewrite Z.add_0_r in N.
  destruct (one_message done todo m rest K M N) as (e & app & data & todo' & -> & E & D & J & LA & LI & PR).
  fold prev in LI, PR. cbv zeta. rewrite J. rewrite LI.
  assert (SZ : zlen data < 2^32). { unfold sized, q in S. rewrite !Forall_app in S. destruct S as (_ & _ & S). inversion S; subst. assumption. }
  assert (U : u32 (zlen data) =? zlen data = true) by (pose proof (zlen_nonneg _ data); unfold u32; apply Z.eqb_eq, Z.mod_small; lia).
  rewrite U. cbn [negb].
  set (done' := done ++ e ++ [(app, data)]) in *.
  assert (QQ : q = done' ++ todo') by (unfold q, done'; now rewrite <- !app_assoc).
  rewrite QQ in *. pose proof (ascending_app_r _ _ _ A) as A'. pose proof K as K'. apply Forall_app in K' as (_ & K').
  assert (XP : expected valid (e ++ [(app, data)]) = if valid data then [(app, data)] else []).
  { rewrite expected_app, (expected_empty _ _ E). unfold expected. cbn [List.app filter snd]. assert (negb (zlen data =? 0) = true) as -> by (destruct data; [ congruence | rewrite zlen_cons; pose proof (zlen_nonneg _ data); lia ]). reflexivity. }
  assert (SUB : forall f p' l', (forall g, In g rest -> fr_id g <= p' \/ In g l') -> prev + zlen m <= p' -> In f (o ++ m ++ rest) -> fr_id f <= p' \/ In f l').
  { intros f p' l' R LE I. apply in_app_or in I as [ I | I ]; [ | apply in_app_or in I as [ I | I ]; [ | now apply R ] ].
    - left. rewrite Forall_forall in O. specialize (O _ I). pose proof (zlen_nonneg _ m). cbn in O. lia.
    - left. apply In_nth_error in I as (i & I). pose proof (N _ _ I) as NI. assert ((i < length m)%nat) by (apply nth_error_Some; congruence). unfold zlen in *. lia. }
  rewrite <- PR.
  destruct (negb (valid data)) eqn:V.
  - destruct (IH valid possible cb n done' todo' rest S A' K') as (ret & l2 & p2 & ms & mid & todo2 & -> & -> & MS & P2 & A2 & K2 & LE & R).
    exists ret, l2, p2, ms, ((e ++ [(app, data)]) ++ mid), todo2. split; [ reflexivity | ]. split; [ now rewrite <- !app_assoc | ].
    split; [ rewrite expected_app, XP; apply negb_true_iff in V; rewrite V; exact MS | ]. split; [ rewrite P2; unfold done'; now rewrite <- !app_assoc | ].
    split; [ exact A2 | ]. split; [ exact K2 | ]. pose proof (zlen_nonneg _ m). split; [ lia | ]. intros f I. apply SUB; auto. lia.
  - apply negb_false_iff in V. rewrite V in XP. rewrite LA. destruct (negb (cb n =? 0)).
    + exists 1, rest, (zlen (frames_from 1 done')), [(app, data)], (e ++ [(app, data)]), todo'. split; [ reflexivity | ]. split; [ now rewrite <- app_assoc | ].
      split; [ now rewrite XP | ]. split; [ reflexivity | ]. split; [ exact A' | ]. split; [ exact K' | ]. pose proof (zlen_nonneg _ m). split; [ lia | ]. intros f I. apply SUB; auto. lia.
    + destruct (IH valid possible cb (n + 1) done' todo' rest S A' K') as (ret & l2 & p2 & ms & mid & todo2 & -> & -> & MS & P2 & A2 & K2 & LE & R).
      exists ret, l2, p2, ((app, data) :: ms), ((e ++ [(app, data)]) ++ mid), todo2. split; [ reflexivity | ]. split; [ now rewrite <- !app_assoc | ].
      split; [ rewrite expected_app, XP, MS; reflexivity | ]. split; [ rewrite P2; unfold done'; now rewrite <- !app_assoc | ].
      split; [ exact A2 | ]. split; [ exact K2 | ]. pose proof (zlen_nonneg _ m). split; [ lia | ]. intros f I. apply SUB; auto. lia.
Qed.
