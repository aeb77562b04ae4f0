From Coq Require Import ZArith List Bool Lia PeanoNat.
From Verif Require Import Common BrokModel BrokSpec.
Import ListNotations.
Open Scope Z_scope.
Notation len := Datatypes.length.

(** ** What concerns one writer *)
Inductive act : Type :=
| ANone | AOwn (j : nat) | AFill (j : nat) (x : list cell) (k : nat) (d : Z)
| ARead (j : option nat) (h : list cell) (stop : option nat) (d : Z).
Definition proj (p : phase) (a : nat) : act :=
  match p with
  | PIdle | PAt _ _ => ANone
  | PFill _ b j _ | PTake _ b j _ => if (b =? a)%nat then AOwn j else ANone
  | PFilling _ b j _ x k d => if (b =? a)%nat then AFill j x k d else ANone
  | PRead _ b j _ h stop d => if (b =? a)%nat then ARead j h stop d else ANone
  end.
Record view : Type := mk_v {
  v_main : fifo; v_split : list (option nat * fifo); v_lock : option nat; v_written : list Z;
  v_log : nat -> list Z; v_act : nat -> act }.
Definition view_of (s : state) (a : nat) : view :=
  mk_v (s_main s a) (s_split s a) (s_lock s a) (s_written s a) (fun r => got s r a) (fun r => proj (s_poll s r) a).

Definition msgs (l : list cell) : list Z := map (fun c => e_msg (snd c)) l.
Definition held (x : act) : list cell := match x with ARead _ h _ _ => h | _ => [] end.
Definition donec (x : act) : Z := match x with ARead _ _ _ d => d | _ => 0 end.
Definition stop_ok (x : act) (q : fifo) : Prop :=
  match x with ARead _ _ (Some p) _ => exists e l, q_list q = (p, e) :: l | _ => True end.

Record chanN (R : list nat) (v : view) : Prop := mk_chanN {
  cn_one : forall r r', In r R -> In r' R -> r = r';
  cn_wq : q_wq (v_main v) = [];
  cn_split : v_split v = [];
  cn_lock : v_lock v = None;
  cn_act : forall r, v_act v r = ANone \/ (In r R /\ exists h stop d, v_act v r = ARead None h stop d);
  cn_conf : forall r, In r R -> v_log v r ++ msgs (held (v_act v r)) ++ msgs (q_list (v_main v)) = v_written v;
  cn_count : forall r, In r R -> q_count (v_main v) = zlen (q_list (v_main v)) + zlen (held (v_act v r)) + donec (v_act v r);
  cn_done : forall r, 0 <= donec (v_act v r);
  cn_stop : forall r, In r R -> stop_ok (v_act v r) (v_main v) }.

Definition fx (v : view) : list cell :=
  match v_lock v with Some r => match v_act v r with AFill _ x _ _ => x | _ => [] end | None => [] end.
Definition fk (v : view) : nat :=
  match v_lock v with Some r => match v_act v r with AFill _ _ k _ => k | _ => O end | None => O end.
Definition fd (v : view) : Z :=
  match v_lock v with Some r => match v_act v r with AFill _ _ _ d => d | _ => 0 end | None => 0 end.
Definition own_log (v : view) (o : option nat) : list Z := match o with Some r => v_log v r | None => [] end.
Definition own_act (v : view) (o : option nat) : act := match o with Some r => v_act v r | None => ANone end.
Definition extra (v : view) (i : nat) : list Z := if (i <? fk v)%nat then firstn 1 (msgs (fx v)) else [].

Record chanS (R : list nat) (os : list nat) (m : nat) (dist : list Z) (v : view) : Prop := mk_chanS {
  cs_owners : map fst (v_split v) = map Some os ++ repeat None m;
  cs_nodup : NoDup os;
  cs_incl : incl os R;
  cs_slots : (len R <= len (v_split v))%nat;
  cs_some : (1 <= len (v_split v))%nat;
  cs_wq : q_wq (v_main v) = [];
  cs_lock : forall r, v_lock v = Some r <-> exists j x k d, v_act v r = AFill j x k d;
  cs_act : forall r, match v_act v r with
                     | ANone => True
                     | AOwn j | AFill j _ _ _ | ARead (Some j) _ _ _ => nth_error (map fst (v_split v)) j = Some (Some r)
                     | ARead None _ _ _ => False
                     end;
  cs_main : dist ++ msgs (fx v) ++ msgs (q_list (v_main v)) = v_written v;
  cs_count : q_count (v_main v) = zlen (q_list (v_main v)) + zlen (fx v) + fd v;
  cs_fd : 0 <= fd v;
  cs_fk : (fk v <= len (v_split v))%nat;
  cs_buf : forall i o q, nth_error (v_split v) i = Some (o, q) ->
           own_log v o ++ msgs (held (own_act v o)) ++ msgs (q_list q) ++ msgs (q_wq q) = dist ++ extra v i /\
           q_count q = zlen (q_list q) + zlen (held (own_act v o)) + donec (own_act v o) /\
           stop_ok (own_act v o) q;
  cs_done : forall r, 0 <= donec (v_act v r);
  cs_new : forall r, ~ In r os -> v_log v r = [] }.
Definition chan (N : net) (a : nat) (v : view) : Prop :=
  match n_split N a with
  | None | Some O => chanN (n_readers N a) v
  | Some _ => exists os m dist, chanS (n_readers N a) os m dist v
  end.

(** ** Lists *)
Lemma set_nth_length : forall (A : Type) (l : list A) j x, len (set_nth l j x) = len l.
Proof. induction l as [|y l IH]; intros [|j] x; cbn; auto. Qed.
Lemma nth_error_set_nth : forall (A : Type) (l : list A) j x i, (j < len l)%nat ->
  nth_error (set_nth l j x) i = if (i =? j)%nat then Some x else nth_error l i.
Proof.
  induction l as [|y l IH]; intros [|j] x [|i] H; cbn in *; try lia; auto. apply IH. lia.
Qed.
Lemma nth_error_nth_def : forall (A : Type) (l : list A) j x d, nth_error l j = Some x -> nth j l d = x.
Proof. intros A l j x d H. apply nth_error_nth. exact H. Qed.
Lemma put_split_nth : forall l j q o q0 i, nth_error l j = Some (o, q0) ->
  nth_error (put_split l j q) i = if (i =? j)%nat then Some (o, q) else nth_error l i.
Proof.
  intros l j q o q0 i H. unfold put_split. rewrite (nth_error_nth_def _ _ _ _ _ H).
  apply nth_error_set_nth. apply nth_error_Some. congruence.
Qed.
Lemma put_split_length : forall l j q, len (put_split l j q) = len l.
Proof. intros. apply set_nth_length. Qed.
Lemma list_ext : forall (A : Type) (l m : list A), (forall i, nth_error l i = nth_error m i) -> l = m.
Proof.
  induction l as [|x l IH]; intros [|y m] H; auto.
  - specialize (H O). discriminate.
  - specialize (H O). discriminate.
  - f_equal. + specialize (H O). cbn in H. congruence. + apply IH. intros i. apply (H (S i)).
Qed.
Lemma put_split_fst : forall l j q o q0, nth_error l j = Some (o, q0) -> map fst (put_split l j q) = map fst l.
Proof.
  intros l j q o q0 H. apply list_ext. intros i. rewrite !nth_error_map, (put_split_nth _ _ _ _ _ i H).
  destruct (Nat.eqb_spec i j); auto. subst. rewrite H. reflexivity.
Qed.
Lemma split_queue_nth : forall l j o q, nth_error l j = Some (o, q) -> split_queue l j = q.
Proof. intros l j o q H. unfold split_queue. rewrite (nth_error_nth_def _ _ _ _ _ H). reflexivity. Qed.
Lemma owner_buf : forall (l : list (option nat * fifo)) j o, nth_error (map fst l) j = Some o -> exists q, nth_error l j = Some (o, q).
Proof.
  intros l j o H. rewrite nth_error_map in H. destruct (nth_error l j) as [[o' q]|]; cbn in H; [|discriminate].
  injection H as ->. eauto.
Qed.
Lemma owner_unique : forall (os : list nat) m i j r, NoDup os -> nth_error (map Some os ++ repeat None m) i = Some (Some r) ->
  nth_error (map Some os ++ repeat None m) j = Some (Some r) -> i = j.
Proof.
  intros os m i j r Hnd Hi Hj.
  assert (forall k, nth_error (map (@Some nat) os ++ repeat None m) k = Some (Some r) -> nth_error os k = Some r) as Hk.
  { intros k H. destruct (Nat.lt_ge_cases k (len (map (@Some nat) os))) as [Hlt|Hge].
    - rewrite nth_error_app1 in H by auto. rewrite nth_error_map in H. destruct (nth_error os k); cbn in H; congruence.
    - rewrite nth_error_app2 in H by auto. apply nth_error_In in H. apply repeat_spec in H. discriminate. }
  apply Hk in Hi. apply Hk in Hj. rewrite NoDup_nth_error in Hnd. apply Hnd; [apply nth_error_Some; congruence|congruence].
Qed.
Lemma owner_in : forall (os : list nat) m i r, nth_error (map Some os ++ repeat None m) i = Some (Some r) -> In r os.
Proof.
  intros os m i r H. apply nth_error_In in H. apply in_app_or in H. destruct H as [H|H].
  - apply in_map_iff in H. destruct H as [x [Hx H]]. injection Hx as ->. exact H.
  - apply repeat_spec in H. discriminate.
Qed.
Lemma own_in : forall os m l r, map fst l = map Some os ++ repeat None m -> In r os ->
  exists j, own l r = Some (j, l) /\ nth_error (map fst l) j = Some (Some r).
Proof.
  induction os as [|o os IH]; intros m l r Hm Hin; [destruct Hin|].
  destruct l as [|[x q] l]; cbn in Hm; [discriminate|]. injection Hm as -> Hm. cbn.
  destruct (Nat.eqb_spec o r) as [->|Hne]; [exists O; auto|].
  destruct Hin as [Hin|Hin]; [congruence|]. destruct (IH m l r Hm Hin) as [j [Hj Hn]]. exists (S j). rewrite Hj. auto.
Qed.
Lemma own_new : forall os m l r, map fst l = map Some os ++ repeat None (S m) -> ~ In r os ->
  exists l' q, own l r = Some (len os, l') /\ nth_error l (len os) = Some (None, q) /\
    (forall i, nth_error l' i = if (i =? len os)%nat then Some (Some r, q) else nth_error l i) /\
    map fst l' = map Some (os ++ [r]) ++ repeat None m.
Proof.
  induction os as [|o os IH]; intros m l r Hm Hin; (destruct l as [|[x q] l]; cbn in Hm; [discriminate|]); injection Hm as -> Hm; cbn.
  - exists ((Some r, q) :: l), q. repeat split; auto. + intros [|i]; auto. + cbn. rewrite Hm. reflexivity.
  - destruct (Nat.eqb_spec o r) as [->|Hne]; [destruct Hin; cbn; auto|].
    destruct (IH m l r Hm) as [l' [q' (H1 & H2 & H3 & H4)]]; [intros H; apply Hin; right; auto|].
    exists ((Some o, q) :: l'), q'. rewrite H1. repeat split; auto. + intros [|i]; auto. apply H3. + cbn. rewrite H4. reflexivity.
Qed.
Lemma own_none : forall os l r, map fst l = map Some os ++ repeat None 0 -> ~ In r os -> own l r = None.
Proof.
  induction os as [|o os IH]; intros l r Hm Hin; (destruct l as [|[x q] l]; cbn in Hm; [auto; discriminate|try discriminate]).
  injection Hm as -> Hm. cbn. destruct (Nat.eqb_spec o r) as [->|Hne]; [destruct Hin; cbn; auto|].
  rewrite IH; auto. intros H. apply Hin. right. auto.
Qed.
Lemma msgs_app : forall l m, msgs (l ++ m) = msgs l ++ msgs m.
Proof. intros. apply map_app. Qed.
Lemma take_spec : forall max q h stop q', fifo_take max q = (h, stop, q') ->
  h ++ q_list q' = q_list q ++ q_wq q /\ q_wq q' = [] /\ q_count q' = q_count q + zlen (q_wq q) /\
  match stop with Some p => exists e l, q_list q' = (p, e) :: l | None => True end.
Proof.
  intros max q h stop q' H. unfold fifo_take in H. injection H as <- <- <-. cbn. split; [apply firstn_skipn|]. split; auto. split; auto.
  destruct (skipn max (q_list q ++ q_wq q)) as [|[p e] l]; cbn; eauto.
Qed.
Lemma zlen_app2 : forall (A : Type) (l m : list A), zlen (l ++ m) = zlen l + zlen m.
Proof. intros. unfold zlen. rewrite app_length. lia. Qed.

(** ** Nothing but what is seen counts *)
Lemma chan_ext : forall N a v w, v_main v = v_main w -> v_split v = v_split w -> v_lock v = v_lock w -> v_written v = v_written w ->
  (forall r, v_log v r = v_log w r) -> (forall r, v_act v r = v_act w r) -> chan N a v -> chan N a w.
Proof.
  intros N a [m sp l wr lg ac] [m' sp' l' wr' lg' ac']. cbn. intros <- <- <- <- Hl Ha. unfold chan.
  assert (chanN (n_readers N a) (mk_v m sp l wr lg ac) -> chanN (n_readers N a) (mk_v m sp l wr lg' ac')) as HN.
  { intros []. constructor; cbn in *; auto; intros; rewrite <- ?Hl, <- ?Ha; auto. }
  assert ((exists os m0 dist, chanS (n_readers N a) os m0 dist (mk_v m sp l wr lg ac)) ->
          (exists os m0 dist, chanS (n_readers N a) os m0 dist (mk_v m sp l wr lg' ac'))) as HS.
  { intros (os & m0 & dist & []). exists os, m0, dist.
    assert (fx (mk_v m sp l wr lg' ac') = fx (mk_v m sp l wr lg ac)) as Ex by (unfold fx; cbn; destruct l; auto; rewrite Ha; auto).
    assert (fk (mk_v m sp l wr lg' ac') = fk (mk_v m sp l wr lg ac)) as Ek by (unfold fk; cbn; destruct l; auto; rewrite Ha; auto).
    assert (fd (mk_v m sp l wr lg' ac') = fd (mk_v m sp l wr lg ac)) as Ed by (unfold fd; cbn; destruct l; auto; rewrite Ha; auto).
    constructor; auto; rewrite ?Ex, ?Ek, ?Ed; auto; cbn in *.
    - intros r. rewrite cs_lock0. rewrite Ha. reflexivity.
    - intros r. rewrite <- Ha. apply cs_act0.
    - intros i o q Hn. specialize (cs_buf0 i o q Hn).
      unfold extra. rewrite Ek, Ex. unfold extra in cs_buf0.
      destruct o as [r|]; cbn in *; auto. rewrite <- Hl, <- Ha. exact cs_buf0.
    - intros r. rewrite <- Ha. auto.
    - intros r Hr. rewrite <- Hl. auto. }
  destruct (n_split N a) as [[|k]|]; auto.
Qed.

(** ** Steps for a writer without split buffers *)
Lemma upd_eq : forall (A : Type) (f : nat -> A) i x, upd f i x i = x.
Proof. intros. unfold upd. rewrite Nat.eqb_refl. reflexivity. Qed.
Lemma upd_ne : forall (A : Type) (f : nat -> A) i x k, k <> i -> upd f i x k = f k.
Proof. intros. unfold upd. rewrite (proj2 (Nat.eqb_neq _ _)); auto. Qed.
Lemma hd_app : forall (l l' : list cell) p, (exists e t, l = (p, e) :: t) -> exists e t, l ++ l' = (p, e) :: t.
Proof. intros l l' p (e & t & ->). exists e, (t ++ l'). reflexivity. Qed.
Lemma n_write : forall R v c, chanN R v ->
  chanN R (mk_v (fifo_write c (v_main v)) (v_split v) (v_lock v) (v_written v ++ [e_msg (snd c)]) (v_log v) (v_act v)).
Proof.
  intros R v c []. constructor; cbn; auto.
  - intros r Hr. rewrite msgs_app. cbn. rewrite <- (cn_conf0 r Hr). rewrite !app_assoc. reflexivity.
  - intros r Hr. rewrite (cn_count0 r Hr), zlen_app2. cbn. lia.
  - intros r Hr. specialize (cn_stop0 r Hr). unfold stop_ok in *. destruct (v_act v r) as [| | |? ? [p|] ?]; auto. cbn. apply hd_app. auto.
Qed.
Lemma n_take : forall R v r max h stop q, chanN R v -> In r R -> v_act v r = ANone -> fifo_take max (v_main v) = (h, stop, q) ->
  chanN R (mk_v q (v_split v) (v_lock v) (v_written v) (v_log v) (upd (v_act v) r (ARead None h stop 0))).
Proof.
  intros R v r max h stop q [] Hr Ha Ht. destruct (take_spec _ _ _ _ _ Ht) as (T1 & T2 & T3 & T4). rewrite cn_wq0 in *.
  assert (forall r', In r' R -> r' = r) as He by auto. rewrite app_nil_r in T1.
  constructor; cbn; auto.
  - intros r'. destruct (Nat.eq_dec r' r) as [->|Hne]; [rewrite upd_eq; right; eauto|rewrite upd_ne by auto; auto].
  - intros r' Hr'. rewrite (He r' Hr'), upd_eq. cbn. rewrite <- msgs_app, T1. specialize (cn_conf0 r Hr). rewrite Ha in cn_conf0. exact cn_conf0.
  - intros r' Hr'. rewrite (He r' Hr'), upd_eq. cbn. specialize (cn_count0 r Hr). rewrite Ha in cn_count0. cbn in cn_count0, T3.
    assert (zlen h + zlen (q_list q) = zlen (q_list (v_main v))) by (rewrite <- zlen_app2, T1; auto). change (@zlen cell []) with 0 in *. lia.
  - intros r'. destruct (Nat.eq_dec r' r) as [->|Hne]; [rewrite upd_eq; cbn; lia|rewrite upd_ne by auto; auto].
  - intros r' Hr'. rewrite (He r' Hr'), upd_eq. cbn. destruct stop; auto.
Qed.
Lemma n_read : forall R v r c h stop d, chanN R v -> In r R -> v_act v r = ARead None (c :: h) stop d ->
  chanN R (mk_v (v_main v) (v_split v) (v_lock v) (v_written v) (upd (v_log v) r (v_log v r ++ [e_msg (snd c)]))
    (upd (v_act v) r (ARead None h stop (d + 1)))).
Proof.
  intros R v r c h stop d [] Hr Ha. assert (forall r', In r' R -> r' = r) as He by auto.
  pose proof (cn_conf0 r Hr) as C. pose proof (cn_count0 r Hr) as K. pose proof (cn_done0 r) as D. pose proof (cn_stop0 r Hr) as P.
  rewrite Ha in C, K, D, P. cbn [held msgs map donec stop_ok] in C, K, D, P.
  constructor; cbn; auto.
  - intros r'. destruct (Nat.eq_dec r' r) as [->|Hne]; [rewrite upd_eq; right; eauto|rewrite upd_ne by auto; auto].
  - intros r' Hr'. rewrite (He r' Hr'), !upd_eq. cbn. rewrite <- C, <- !app_assoc. reflexivity.
  - intros r' Hr'. rewrite (He r' Hr'), !upd_eq. cbn [held donec]. rewrite zlen_cons in K. lia.
  - intros r'. destruct (Nat.eq_dec r' r) as [->|Hne]; [rewrite upd_eq; cbn; lia|rewrite upd_ne by auto; auto].
  - intros r' Hr'. rewrite (He r' Hr'), !upd_eq. cbn. exact P.
Qed.
Lemma put_back_spec : forall h stop q j d, stop_ok (ARead j h stop d) q ->
  exists q', fifo_put_back h stop q = Some q' /\ q_list q' = h ++ q_list q /\ q_wq q' = q_wq q /\ q_count q' = q_count q /\
    (h = [] -> q' = q).
Proof.
  intros h stop q j d H. unfold fifo_put_back. destruct h as [|c h].
  - destruct stop as [p|].
    + cbn in H. destruct H as (e & l & H). rewrite H, Nat.eqb_refl. exists q. auto 6.
    + exists q. auto 6.
  - eexists. split; [reflexivity|]. cbn. repeat split; auto. discriminate.
Qed.
Lemma n_end : forall R v r h stop d, chanN R v -> In r R -> v_act v r = ARead None h stop d ->
  exists q, fifo_put_back h stop (v_main v) = Some q /\ (h = [] -> q = v_main v) /\
  exists q', fifo_done d q = Some q' /\
    chanN R (mk_v q' (v_split v) (v_lock v) (v_written v) (v_log v) (upd (v_act v) r ANone)).
Proof.
  intros R v r h stop d [] Hr Ha. assert (forall r', In r' R -> r' = r) as He by auto.
  pose proof (cn_conf0 r Hr) as C. pose proof (cn_count0 r Hr) as K. pose proof (cn_done0 r) as D. pose proof (cn_stop0 r Hr) as P.
  rewrite Ha in C, K, D, P. destruct (put_back_spec _ _ _ _ _ P) as (q & Q1 & Q2 & Q3 & Q4 & Q5).
  cbn [held msgs map donec] in C, K, D.
  exists q. split; auto. split; auto. unfold fifo_done. rewrite Q4.
  assert (q_count (v_main v) <? d = false) as -> by (apply Z.ltb_ge; unfold zlen in *; lia).
  eexists. split; [reflexivity|]. constructor; cbn; auto.
  - congruence.
  - intros r'. destruct (Nat.eq_dec r' r) as [->|Hne]; [rewrite upd_eq; auto|rewrite upd_ne by auto; auto].
  - intros r' Hr'. rewrite (He r' Hr'), !upd_eq. cbn. rewrite Q2, msgs_app. exact C.
  - intros r' Hr'. rewrite (He r' Hr'), !upd_eq. cbn. rewrite Q2, zlen_app2. change (@zlen cell []) with 0. lia.
  - intros r'. destruct (Nat.eq_dec r' r) as [->|Hne]; [rewrite upd_eq; cbn; lia|rewrite upd_ne by auto; auto].
  - intros r' Hr'. rewrite (He r' Hr'), !upd_eq. cbn. auto.
Qed.

(** ** Steps for a writer with split buffers *)
Lemma fill_none : forall v, v_lock v = None -> fx v = [] /\ fk v = O /\ fd v = 0.
Proof. intros v H. unfold fx, fk, fd. rewrite H. auto. Qed.
Lemma fill_some : forall v r j x k d, v_lock v = Some r -> v_act v r = AFill j x k d -> fx v = x /\ fk v = k /\ fd v = d.
Proof. intros v r j x k d H H'. unfold fx, fk, fd. rewrite H, H'. auto. Qed.
(** The filling is not touched by what others do *)
Lemma fill_same : forall v m sp wr lg r y, (forall j x k d, v_act v r <> AFill j x k d) -> (forall j x k d, y <> AFill j x k d) ->
  let w := mk_v m sp (v_lock v) wr lg (upd (v_act v) r y) in fx w = fx v /\ fk w = fk v /\ fd w = fd v.
Proof.
  intros v m sp wr lg r y H1 H2. cbn. unfold fx, fk, fd. cbn. destruct (v_lock v) as [r'|]; auto.
  destruct (Nat.eq_dec r' r) as [->|Hne]; [rewrite upd_eq|rewrite upd_ne by auto; auto].
  destruct (v_act v r) eqn:E; try (exfalso; eapply H1; eauto; fail); destruct y; try (exfalso; eapply H2; eauto; fail); auto.
Qed.
Lemma lock_same : forall v r y, (forall j x k d, v_act v r <> AFill j x k d) -> (forall j x k d, y <> AFill j x k d) ->
  (forall r', v_lock v = Some r' <-> exists j x k d, v_act v r' = AFill j x k d) ->
  forall r', v_lock v = Some r' <-> exists j x k d, upd (v_act v) r y r' = AFill j x k d.
Proof.
  intros v r y H1 H2 H r'. destruct (Nat.eq_dec r' r) as [->|Hne]; [rewrite upd_eq|rewrite upd_ne by auto; auto].
  rewrite H. split; intros (j & x & k & d & E); exfalso; [eapply H1|eapply H2]; eauto.
Qed.
Lemma s_write : forall R os m dist v c, chanS R os m dist v ->
  chanS R os m dist (mk_v (fifo_write c (v_main v)) (v_split v) (v_lock v) (v_written v ++ [e_msg (snd c)]) (v_log v) (v_act v)).
Proof.
  intros R os m dist v c []. constructor; auto; unfold fx, fk, fd in *; cbn in *; auto.
  - rewrite msgs_app. cbn. rewrite <- cs_main0. rewrite !app_assoc. reflexivity.
  - rewrite cs_count0, zlen_app2. cbn. lia.
Qed.
(** An instance gets its buffer *)
Lemma s_own : forall R os m dist v r, chanS R os m dist v -> In r R -> v_act v r = ANone -> v_lock v = None ->
  exists j l, own (v_split v) r = Some (j, l) /\
  exists os' m', chanS R os' m' dist (mk_v (v_main v) l (v_lock v) (v_written v) (v_log v) (upd (v_act v) r (AOwn j))).
Proof.
  intros R os m dist v r H Hr Ha Hl. pose proof H as H0. destruct H0.
  assert (forall j, forall q, own_act (mk_v (v_main v) q (v_lock v) (v_written v) (v_log v) (upd (v_act v) r (AOwn j))) = fun o =>
    match o with Some r' => if (r' =? r)%nat then AOwn j else v_act v r' | None => ANone end) as Ho by reflexivity.
  destruct (fill_none v Hl) as (Fx & Fk & Fd).
  assert (forall j q, let w := mk_v (v_main v) q (v_lock v) (v_written v) (v_log v) (upd (v_act v) r (AOwn j)) in fx w = [] /\ fk w = O /\ fd w = 0) as Fw
    by (intros; apply fill_none; exact Hl).
  destruct (in_dec Nat.eq_dec r os) as [Hin|Hin].
  - destruct (own_in _ _ _ _ cs_owners0 Hin) as (j & Hj & Hn). exists j, (v_split v). split; auto. exists os, m.
    destruct (Fw j (v_split v)) as (Wx & Wk & Wd).
    constructor; auto; rewrite ?Wx, ?Wk, ?Wd; cbn; auto; try lia.
    + apply lock_same; auto; congruence.
    + intros r'. destruct (Nat.eq_dec r' r) as [->|Hne]; [rewrite upd_eq; auto|rewrite upd_ne by auto; apply cs_act0].
    + rewrite Fx in cs_main0. exact cs_main0.
    + rewrite Fx, Fd in cs_count0. exact cs_count0.
    + intros i o q Hi. destruct (cs_buf0 i o q Hi) as (B1 & B2 & B3). unfold extra. rewrite Wk. cbn.
      unfold extra in B1. rewrite Fk in B1. cbn in B1.
      destruct o as [r'|]; cbn in *; auto. destruct (Nat.eq_dec r' r) as [->|Hne]; [rewrite upd_eq|rewrite upd_ne by auto; auto].
      rewrite Ha in *. auto.
    + intros r'. destruct (Nat.eq_dec r' r) as [->|Hne]; [rewrite upd_eq; cbn; lia|rewrite upd_ne by auto; apply cs_done0].
  - destruct m as [|m].
    { exfalso. assert (len (map fst (v_split v)) = len os) as E by (rewrite cs_owners0, app_nil_r, map_length; auto).
      rewrite map_length in E. assert (len (r :: os) <= len R)%nat as L.
      { apply NoDup_incl_length; [constructor; auto|]. intros y [->|Hy]; auto. }
      cbn in L. lia. }
    destruct (own_new _ _ _ _ cs_owners0 Hin) as (l & q & O1 & O2 & O3 & O4). exists (len os), l. split; auto. exists (os ++ [r]), m.
    assert (len l = len (v_split v)) as Ll.
    { transitivity (len (map fst l)); [rewrite map_length; auto|]. transitivity (len (map fst (v_split v))); [|rewrite map_length; auto].
      rewrite O4, cs_owners0, !app_length, !map_length, !repeat_length, app_length. cbn. lia. }
    destruct (Fw (len os) l) as (Wx & Wk & Wd).
    constructor; auto; rewrite ?Wx, ?Wk, ?Wd; cbn; rewrite ?Ll; auto; try lia.
    + apply NoDup_app_iff || idtac. rewrite NoDup_nth_error. intros i j Hi E.
      rewrite app_length in Hi. cbn in Hi.
      destruct (Nat.lt_ge_cases i (len os)) as [Hi1|Hi1]; destruct (Nat.lt_ge_cases j (len os)) as [Hj1|Hj1];
        rewrite ?(nth_error_app1 _ _ Hi1), ?(nth_error_app1 _ _ Hj1), ?(nth_error_app2 _ _ Hi1), ?(nth_error_app2 _ _ Hj1) in E.
      * rewrite NoDup_nth_error in cs_nodup0. auto.
      * exfalso. destruct (j - len os)%nat as [|t] eqn:Et; cbn in E; [apply Hin; eapply nth_error_In; eauto|].
        destruct t; cbn in E; apply nth_error_None in E; lia.
      * exfalso. assert (i - len os = 0)%nat as Ei by lia. rewrite Ei in E. cbn in E. apply Hin. eapply nth_error_In; eauto.
      * assert (i - len os = 0)%nat as Ei by lia. rewrite Ei in E. cbn in E.
        destruct (j - len os)%nat as [|t] eqn:Et; [lia|]. destruct t; discriminate.
    + intros y Hy. apply in_app_or in Hy. destruct Hy as [Hy|[->|[]]]; auto.
    + apply lock_same; auto; congruence.
    + assert (forall i o', nth_error (map fst (v_split v)) i = Some (Some o') -> nth_error (map fst l) i = Some (Some o')) as Hk.
      { intros i o' Hi. rewrite nth_error_map in Hi |- *. rewrite O3. destruct (Nat.eqb_spec i (len os)) as [->|]; auto.
        rewrite O2 in Hi. discriminate. }
      intros r'. destruct (Nat.eq_dec r' r) as [->|Hne].
      * rewrite upd_eq. rewrite nth_error_map, O3, Nat.eqb_refl. reflexivity.
      * rewrite upd_ne by auto. pose proof (cs_act0 r') as A. destruct (v_act v r') as [| | |[j|] ? ? ?]; auto.
    + rewrite Fx in cs_main0. exact cs_main0.
    + rewrite Fx, Fd in cs_count0. exact cs_count0.
    + intros i o q' Hi. unfold extra. rewrite Wk. cbn. rewrite O3 in Hi. destruct (Nat.eqb_spec i (len os)) as [->|Hne].
      * injection Hi as <- <-. destruct (cs_buf0 _ _ _ O2) as (B1 & B2 & B3). unfold extra in B1. rewrite Fk in B1. cbn in *.
        rewrite upd_eq. rewrite (cs_new0 r Hin). auto.
      * destruct (cs_buf0 _ _ _ Hi) as (B1 & B2 & B3). unfold extra in B1. rewrite Fk in B1. cbn in *.
        destruct o as [r'|]; cbn in *; auto. destruct (Nat.eq_dec r' r) as [->|Hn2]; [rewrite upd_eq; rewrite Ha in *; auto|rewrite upd_ne by auto; auto].
    + intros r'. destruct (Nat.eq_dec r' r) as [->|Hne]; [rewrite upd_eq; cbn; lia|rewrite upd_ne by auto; apply cs_done0].
    + intros r' Hr'. apply cs_new0. intros Hy. apply Hr'. apply in_or_app. auto.
Qed.

Definition act_buf (y : act) : option nat := match y with AOwn j | AFill j _ _ _ => Some j | ARead (Some j) _ _ _ => Some j | _ => None end.
Definition nofill (y : act) : Prop := forall j x k d, y <> AFill j x k d.
(** An instance does something with its buffer, not filling *)
Lemma s_reader : forall R os m dist v r j q q' y lr, chanS R os m dist v -> act_buf (v_act v r) = Some j -> nofill (v_act v r) -> nofill y ->
  (act_buf y = Some j \/ y = ANone) -> nth_error (v_split v) j = Some (Some r, q) ->
  lr ++ msgs (held y) ++ msgs (q_list q') ++ msgs (q_wq q') = v_log v r ++ msgs (held (v_act v r)) ++ msgs (q_list q) ++ msgs (q_wq q) ->
  q_count q' = zlen (q_list q') + zlen (held y) + donec y -> 0 <= donec y -> stop_ok y q' ->
  chanS R os m dist (mk_v (v_main v) (put_split (v_split v) j q') (v_lock v) (v_written v) (upd (v_log v) r lr) (upd (v_act v) r y)).
Proof.
  intros R os m dist v r j q q' y lr [] Hb Hf Hy Hby Hn Hm Hc Hd Hs.
  destruct (fill_same v (v_main v) (put_split (v_split v) j q') (v_written v) (upd (v_log v) r lr) r y Hf Hy) as (Wx & Wk & Wd).
  pose proof (put_split_fst _ _ q' _ _ Hn) as Hfst.
  assert (nth_error (map fst (v_split v)) j = Some (Some r)) as Hfj by (rewrite nth_error_map, Hn; reflexivity).
  constructor; auto; rewrite ?Wx, ?Wk, ?Wd; cbn [v_main v_split v_lock v_written v_log v_act]; rewrite ?put_split_length, ?Hfst; auto.
  - apply lock_same; auto.
  - intros r'. destruct (Nat.eq_dec r' r) as [->|Hne]; [rewrite upd_eq|rewrite upd_ne by auto; apply cs_act0].
    destruct Hby as [Hby| ->]; auto. destruct y as [| | |[j0|] ? ? ?]; auto; cbn in Hby; congruence.
  - intros i o q0 Hi. unfold extra. rewrite Wk, Wx. rewrite (put_split_nth _ _ _ _ _ _ Hn) in Hi.
    destruct (Nat.eqb_spec i j) as [->|Hne].
    + injection Hi as <- <-. cbn. rewrite !upd_eq. destruct (cs_buf0 _ _ _ Hn) as (B1 & B2 & B3). cbn in B1. rewrite Hm. auto.
    + destruct (cs_buf0 _ _ _ Hi) as (B1 & B2 & B3). destruct o as [r'|]; cbn; auto.
      destruct (Nat.eq_dec r' r) as [->|Hn2]; [|rewrite !upd_ne by auto; auto].
      exfalso. apply Hne. assert (nth_error (map fst (v_split v)) i = Some (Some r)) as Hfi by (rewrite nth_error_map, Hi; reflexivity).
      rewrite cs_owners0 in Hfi, Hfj. eapply owner_unique; eauto.
  - intros r'. destruct (Nat.eq_dec r' r) as [->|Hne]; [rewrite upd_eq; auto|rewrite upd_ne by auto; apply cs_done0].
  - intros r' Hr'. rewrite upd_ne; auto. intros ->. apply Hr'. rewrite cs_owners0 in Hfj. eapply owner_in; eauto.
Qed.
Lemma put_split_same : forall l j o q, nth_error l j = Some (o, q) -> put_split l j q = l.
Proof.
  intros l j o q H. apply list_ext. intros i. rewrite (put_split_nth _ _ _ _ _ i H). destruct (Nat.eqb_spec i j); subst; auto.
Qed.
Lemma upd_same : forall (A : Type) (f : nat -> A) i k, upd f i (f i) k = f k.
Proof. intros. unfold upd. destruct (Nat.eqb_spec k i); subst; auto. Qed.

(** Filling begins *)
Lemma s_fill_take : forall R os m dist v r j max h stop q, chanS R os m dist v -> v_act v r = AOwn j -> v_lock v = None ->
  fifo_take max (v_main v) = (h, stop, q) ->
  chanS R os m dist (mk_v q (v_split v) (Some r) (v_written v) (v_log v) (upd (v_act v) r (AFill j h 0 0))).
Proof.
  intros R os m dist v r j max h stop q [] Ha Hl Ht. destruct (take_spec _ _ _ _ _ Ht) as (T1 & T2 & T3 & T4).
  destruct (fill_none v Hl) as (Fx & Fk & Fd). rewrite cs_wq0, app_nil_r in *.
  match goal with |- chanS _ _ _ _ ?w => destruct (fill_some w r j h 0 0) as (Wx & Wk & Wd); [reflexivity|cbn; apply upd_eq|] end.
  constructor; auto; rewrite ?Wx, ?Wk, ?Wd; cbn [v_main v_split v_lock v_written v_log v_act]; auto; try lia.
  - intros r'. destruct (Nat.eq_dec r' r) as [->|Hne]; [rewrite upd_eq; split; eauto 6|rewrite upd_ne by auto].
    split; intros E; [congruence|]. apply cs_lock0 in E. congruence.
  - intros r'. destruct (Nat.eq_dec r' r) as [->|Hne]; [rewrite upd_eq|rewrite upd_ne by auto; apply cs_act0].
    pose proof (cs_act0 r) as A. rewrite Ha in A. exact A.
  - rewrite <- msgs_app, T1. rewrite Fx in cs_main0. exact cs_main0.
  - rewrite Fx, Fd in cs_count0. assert (zlen h + zlen (q_list q) = zlen (q_list (v_main v))) by (rewrite <- zlen_app2, T1; auto).
    change (@zlen cell []) with 0 in *. lia.
  - intros i o q0 Hi. destruct (cs_buf0 _ _ _ Hi) as (B1 & B2 & B3). unfold extra in *. rewrite Wk. rewrite Fk in B1. cbn in B1 |- *.
    destruct o as [r'|]; cbn in *; auto. destruct (Nat.eq_dec r' r) as [->|Hn2]; [rewrite upd_eq; rewrite Ha in *; auto|rewrite upd_ne by auto; auto].
  - intros r'. destruct (Nat.eq_dec r' r) as [->|Hne]; [rewrite upd_eq; cbn; lia|rewrite upd_ne by auto; apply cs_done0].
Qed.
(** A clone is put in a buffer *)
Lemma s_fill_put : forall R os m dist v r j c h k d c', chanS R os m dist v -> v_act v r = AFill j (c :: h) k d -> (k < len (v_split v))%nat ->
  e_msg (snd c') = e_msg (snd c) ->
  chanS R os m dist (mk_v (v_main v) (put_split (v_split v) k (fifo_write_delayed c' (split_queue (v_split v) k))) (v_lock v) (v_written v)
    (v_log v) (upd (v_act v) r (AFill j (c :: h) (S k) d))).
Proof.
  intros R os m dist v r j c h k d c' [] Ha Hk Hc.
  assert (v_lock v = Some r) as Hl by (apply cs_lock0; eauto 6).
  destruct (fill_some v _ _ _ _ _ Hl Ha) as (Fx & Fk & Fd).
  match goal with |- chanS _ _ _ _ ?w => destruct (fill_some w r j (c :: h) (S k) d) as (Wx & Wk & Wd); [exact Hl|cbn; apply upd_eq|] end.
  destruct (nth_error (v_split v) k) as [[o q]|] eqn:Hn; [|apply nth_error_None in Hn; lia].
  rewrite (split_queue_nth _ _ _ _ Hn) in *.
  pose proof (put_split_fst _ _ (fifo_write_delayed c' q) _ _ Hn) as Hfst.
  constructor; auto; rewrite ?Wx, ?Wk, ?Wd; cbn [v_main v_split v_lock v_written v_log v_act]; rewrite ?put_split_length, ?Hfst; auto; try lia.
  - intros r'. destruct (Nat.eq_dec r' r) as [->|Hne]; [rewrite upd_eq|rewrite upd_ne by auto; auto]. split; eauto 6.
  - intros r'. destruct (Nat.eq_dec r' r) as [->|Hne]; [rewrite upd_eq|rewrite upd_ne by auto; apply cs_act0].
    pose proof (cs_act0 r) as A. rewrite Ha in A. exact A.
  - rewrite Fx in cs_main0. exact cs_main0.
  - rewrite Fx, Fd in cs_count0. exact cs_count0.
  - assert (forall o', own_act (mk_v (v_main v) (put_split (v_split v) k (fifo_write_delayed c' q)) (v_lock v) (v_written v) (v_log v) (upd (v_act v) r (AFill j (c :: h) (S k) d))) o'
       = match o' with Some r' => if (r' =? r)%nat then AFill j (c :: h) (S k) d else v_act v r' | None => ANone end) as Ho by reflexivity.
    assert (forall o', held match o' with Some r' => if (r' =? r)%nat then AFill j (c :: h) (S k) d else v_act v r' | None => ANone end = held (own_act v o')) as H1.
    { intros [r'|]; auto. destruct (Nat.eqb_spec r' r) as [->|]; cbn; auto. rewrite Ha. reflexivity. }
    assert (forall o', donec match o' with Some r' => if (r' =? r)%nat then AFill j (c :: h) (S k) d else v_act v r' | None => ANone end = donec (own_act v o')) as H2.
    { intros [r'|]; auto. destruct (Nat.eqb_spec r' r) as [->|]; cbn; auto. rewrite Ha. reflexivity. }
    assert (forall o' q', stop_ok (own_act v o') q' -> stop_ok match o' with Some r' => if (r' =? r)%nat then AFill j (c :: h) (S k) d else v_act v r' | None => ANone end q') as H3.
    { intros [r'|] q'; auto. destruct (Nat.eqb_spec r' r) as [->|]; cbn; auto. }
    intros i o' q0 Hi. rewrite Ho, H1, H2. unfold extra. rewrite Wk, Wx. rewrite (put_split_nth _ _ _ _ _ _ Hn) in Hi.
    destruct (Nat.eqb_spec i k) as [->|Hne].
    + injection Hi as <- <-. destruct (cs_buf0 _ _ _ Hn) as (B1 & B2 & B3). unfold extra in B1. rewrite Fk, Nat.ltb_irrefl, app_nil_r in B1.
      assert ((k <? S k)%nat = true) as -> by (apply Nat.ltb_lt; lia).
      unfold own_log in *. cbn [v_log q_list q_wq fifo_write_delayed q_count]. rewrite msgs_app. cbn [msgs map firstn]. rewrite Hc.
      split; [|split; auto]. rewrite <- B1, <- !app_assoc. reflexivity.
    + destruct (cs_buf0 _ _ _ Hi) as (B1 & B2 & B3). unfold extra in B1. rewrite Fk, Fx in B1.
      assert ((i <? S k)%nat = (i <? k)%nat) as -> by (destruct (Nat.ltb_spec i (S k)); destruct (Nat.ltb_spec i k); auto; lia).
      unfold own_log in *. cbn [v_log]. auto.
  - intros r'. destruct (Nat.eq_dec r' r) as [->|Hne]; [rewrite upd_eq; cbn; lia|rewrite upd_ne by auto; apply cs_done0].
Qed.
(** A message has been put in all buffers *)
Lemma s_fill_next : forall R os m dist v r j c h k d, chanS R os m dist v -> v_act v r = AFill j (c :: h) k d -> (len (v_split v) <= k)%nat ->
  chanS R os m (dist ++ [e_msg (snd c)]) (mk_v (v_main v) (v_split v) (v_lock v) (v_written v) (v_log v) (upd (v_act v) r (AFill j h 0 (d + 1)))).
Proof.
  intros R os m dist v r j c h k d [] Ha Hk.
  assert (v_lock v = Some r) as Hl by (apply cs_lock0; eauto 6).
  destruct (fill_some v _ _ _ _ _ Hl Ha) as (Fx & Fk & Fd).
  match goal with |- chanS _ _ _ _ ?w => destruct (fill_some w r j h 0 (d + 1)) as (Wx & Wk & Wd); [exact Hl|cbn; apply upd_eq|] end.
  constructor; auto; rewrite ?Wx, ?Wk, ?Wd; cbn [v_main v_split v_lock v_written v_log v_act]; auto; try lia.
  - intros r'. destruct (Nat.eq_dec r' r) as [->|Hne]; [rewrite upd_eq|rewrite upd_ne by auto; auto]. split; eauto 6.
  - intros r'. destruct (Nat.eq_dec r' r) as [->|Hne]; [rewrite upd_eq|rewrite upd_ne by auto; apply cs_act0].
    pose proof (cs_act0 r) as A. rewrite Ha in A. exact A.
  - rewrite Fx in cs_main0. cbn in cs_main0. rewrite <- cs_main0, <- !app_assoc. reflexivity.
  - rewrite Fx, Fd, zlen_cons in cs_count0. lia.
  - intros i o q Hi. destruct (cs_buf0 _ _ _ Hi) as (B1 & B2 & B3). unfold extra in *. rewrite Wk. rewrite Fk, Fx in B1.
    assert ((i <? k)%nat = true) as Hik. { apply Nat.ltb_lt. assert (i < len (v_split v))%nat by (apply nth_error_Some; congruence). lia. }
    rewrite Hik in B1. cbn in B1 |- *. rewrite app_nil_r.
    destruct o as [r'|]; cbn in *; auto. destruct (Nat.eq_dec r' r) as [->|Hn2]; [rewrite upd_eq; rewrite Ha in *; auto|rewrite upd_ne by auto; auto].
  - intros r'. destruct (Nat.eq_dec r' r) as [->|Hne]; [rewrite upd_eq; cbn; lia|rewrite upd_ne by auto; apply cs_done0].
Qed.
(** Filling ends *)
Lemma s_fill_end : forall R os m dist v r j k d, chanS R os m dist v -> v_act v r = AFill j [] k d ->
  exists q, fifo_done d (v_main v) = Some q /\
  chanS R os m dist (mk_v q (v_split v) None (v_written v) (v_log v) (upd (v_act v) r (AOwn j))).
Proof.
  intros R os m dist v r j k d [] Ha.
  assert (v_lock v = Some r) as Hl by (apply cs_lock0; eauto 6).
  destruct (fill_some v _ _ _ _ _ Hl Ha) as (Fx & Fk & Fd). rewrite Fx, Fd in cs_count0. change (@zlen cell []) with 0 in cs_count0.
  unfold fifo_done. assert (q_count (v_main v) <? d = false) as -> by (apply Z.ltb_ge; unfold zlen in *; lia).
  eexists. split; [reflexivity|].
  match goal with |- chanS _ _ _ _ ?w => destruct (fill_none w eq_refl) as (Wx & Wk & Wd) end.
  constructor; auto; rewrite ?Wx, ?Wk, ?Wd; cbn [v_main v_split v_lock v_written v_log v_act q_list q_wq q_count]; auto; try lia.
  - intros r'. split; [discriminate|]. destruct (Nat.eq_dec r' r) as [->|Hne]; [rewrite upd_eq; intros (? & ? & ? & ? & ?); discriminate|rewrite upd_ne by auto].
    intros E. apply cs_lock0 in E. congruence.
  - intros r'. destruct (Nat.eq_dec r' r) as [->|Hne]; [rewrite upd_eq|rewrite upd_ne by auto; apply cs_act0].
    pose proof (cs_act0 r) as A. rewrite Ha in A. exact A.
  - rewrite Fx in cs_main0. exact cs_main0.
  - change (@zlen cell []) with 0. lia.
  - intros i o q Hi. destruct (cs_buf0 _ _ _ Hi) as (B1 & B2 & B3). unfold extra in *. rewrite Wk. rewrite Fk, Fx in B1.
    assert (forall b : bool, dist ++ (if b then firstn 1 (msgs []) else []) = dist) as E by (intros []; apply app_nil_r). rewrite E in B1.
    cbn. rewrite app_nil_r.
    destruct o as [r'|]; cbn in *; auto. destruct (Nat.eq_dec r' r) as [->|Hn2]; [rewrite upd_eq; rewrite Ha in *; auto|rewrite upd_ne by auto; auto].
  - intros r'. destruct (Nat.eq_dec r' r) as [->|Hne]; [rewrite upd_eq; cbn; lia|rewrite upd_ne by auto; apply cs_done0].
Qed.

(** ** The whole *)
Definition phase_ok (N : net) (r : nat) (p : phase) : Prop :=
  match p with
  | PIdle => True
  | PAt _ rest => incl rest (n_senders N r)
  | PFill n a _ rest | PTake n a _ rest => (1 <= n)%nat /\ In a (n_senders N r) /\ incl rest (n_senders N r) /\ (exists k, n_split N a = Some (S k))
  | PFilling n a _ rest _ _ _ => (1 <= n)%nat /\ In a (n_senders N r) /\ incl rest (n_senders N r) /\ (exists k, n_split N a = Some (S k))
  | PRead n a j rest _ _ _ => (1 <= n)%nat /\ In a (n_senders N r) /\ incl rest (n_senders N r) /\
      match j with Some _ => exists k, n_split N a = Some (S k) | None => n_split N a = None \/ n_split N a = Some O end
  end.
Record inv (N : net) (s : state) : Prop := mk_inv {
  i_chan : forall a, chan N a (view_of s a);
  i_phase : forall r, phase_ok N r (s_poll s r);
  i_sum : forall r, total (map (fun a => len (s_written s a)) (n_senders N r)) =
                    (total (map (fun a => len (got s r a)) (n_senders N r)) + events s r)%nat }.
Lemma total_ext : forall (l : list nat) f g, (forall a, In a l -> f a = g a) -> total (map f l) = total (map g l).
Proof. induction l as [|x l IH]; intros f g H; cbn; auto. rewrite (H x), (IH f g); cbn; auto. intros a Ha. apply H. right. auto. Qed.
Lemma total_one : forall (l : list nat) f g b, NoDup l -> In b l -> (forall a, a <> b -> g a = f a) -> g b = S (f b) ->
  total (map g l) = S (total (map f l)).
Proof.
  induction l as [|x l IH]; intros f g b Hnd Hin Hne Hb; [destruct Hin|]. inversion Hnd; subst. cbn.
  destruct (Nat.eq_dec x b) as [->|Hx].
  - rewrite Hb, (total_ext l g f); [lia|]. intros a Ha. apply Hne. congruence.
  - destruct Hin as [->|Hin]; [congruence|]. rewrite (IH f g b), (Hne x); auto.
Qed.
Lemma chan_cases : forall N a v, chan N a v ->
  ((n_split N a = None \/ n_split N a = Some O) /\ chanN (n_readers N a) v) \/
  ((exists k, n_split N a = Some (S k)) /\ exists os m dist, chanS (n_readers N a) os m dist v).
Proof. intros N a v H. unfold chan in H. destruct (n_split N a) as [[|k]|]; eauto. Qed.
Lemma chan_N : forall N a v, n_split N a = None \/ n_split N a = Some O -> (chan N a v <-> chanN (n_readers N a) v).
Proof. intros N a v [H|H]; unfold chan; rewrite H; tauto. Qed.
Lemma chan_S : forall N a v, (exists k, n_split N a = Some (S k)) -> (chan N a v <-> exists os m dist, chanS (n_readers N a) os m dist v).
Proof. intros N a v [k H]; unfold chan; rewrite H; tauto. Qed.
Lemma got_log : forall s r a x l r' b, s_log s r = l ->
  map (fun y => e_msg (snd y)) (filter (fun y => (fst y =? b)%nat) (upd (s_log s) r (l ++ [(a, x)]) r')) =
  if (r' =? r)%nat && (b =? a)%nat then got s r' b ++ [e_msg x] else got s r' b.
Proof.
  intros s r a x l r' b <-. unfold got. destruct (Nat.eqb_spec r' r) as [->|Hne]; [rewrite upd_eq|rewrite upd_ne by auto; reflexivity].
  rewrite filter_app, map_app. cbn [filter fst]. rewrite (Nat.eqb_sym a b). destruct (b =? a)%nat; cbn; auto. rewrite app_nil_r. reflexivity.
Qed.
Lemma proj_upd : forall f r p k a, proj (upd f r p k) a = upd (fun k => proj (f k) a) r (proj p a) k.
Proof. intros. unfold upd. destruct (k =? r)%nat; auto. Qed.
Lemma inv_start : forall N, ok_net N -> inv N (start N).
Proof.
  intros N Hok. constructor.
  - intros a. pose proof (ok_slots N Hok a) as Hsl. unfold chan.
    assert (forall R, (len R <= 1)%nat -> forall r r' : nat, In r R -> In r' R -> r = r') as Hone.
    { intros [|x [|y R]] H r r' H1 H2; cbn in *; try lia; firstorder congruence. }
    assert (forall sp, n_split N a = sp -> (len (n_readers N a) <= 1)%nat -> (sp = None \/ sp = Some O) -> chanN (n_readers N a) (view_of (start N) a)) as HN.
    { intros sp E L Hs. constructor; cbn; auto; try lia; [exact (Hone _ L)|]. rewrite E. destruct Hs as [-> | ->]; reflexivity. }
    destruct (n_split N a) as [[|k]|] eqn:E.
    + eapply HN; eauto.
    + exists [], (S k), []. 
      constructor; unfold fx, fk, fd; cbn -[repeat]; rewrite ?E, ?repeat_length; auto; try lia.
      * clear. induction (S k); cbn; congruence.
      * constructor.
      * intros y [].
      * intros r. split; [discriminate|]. intros (? & ? & ? & ? & ?). discriminate.
      * intros i o q Hi. apply nth_error_In, repeat_spec in Hi. injection Hi as -> ->. cbn. auto.
    + eapply HN; eauto.
  - intros r. cbn. exact Logic.I.
  - intros r. unfold events. cbn. rewrite Nat.add_0_r. reflexivity.
Qed.
Definition only (a : nat) (p : phase) : Prop := forall b, b <> a -> proj p b = ANone.
Lemma only_intro : forall a p, match p with
  | PIdle | PAt _ _ => True | PFill _ b _ _ | PFilling _ b _ _ _ _ _ | PTake _ b _ _ | PRead _ b _ _ _ _ _ => b = a end -> only a p.
Proof. intros a p H b Hb. destruct p; cbn; auto; subst; rewrite (proj2 (Nat.eqb_neq _ _)); auto. Qed.
Lemma total_more : forall (l : list nat) f g b k, NoDup l -> In b l -> (forall a, a <> b -> g a = f a) -> g b = (f b + k)%nat ->
  total (map g l) = (total (map f l) + k)%nat.
Proof.
  induction l as [|x l IH]; intros f g b k Hnd Hin Hne Hb; [destruct Hin|]. inversion Hnd; subst. cbn.
  destruct (Nat.eq_dec x b) as [->|Hx].
  - rewrite Hb, (total_ext l g f); [lia|]. intros a Ha. apply Hne. congruence.
  - destruct Hin as [->|Hin]; [congruence|]. rewrite (IH f g b k), (Hne x); auto. lia.
Qed.
Lemma inv_step : forall N s s' r a p L, ok_net N -> inv N s -> In a (n_senders N r) ->
  (forall b, b <> a -> s_main s' b = s_main s b /\ s_split s' b = s_split s b /\ s_lock s' b = s_lock s b) ->
  (forall b, s_written s' b = s_written s b) -> s_unsent s' = s_unsent s -> (forall k, s_pending s' k = s_pending s k) ->
  (forall k, s_poll s' k = upd (s_poll s) r p k) -> only a (s_poll s r) -> only a p ->
  (forall k b, got s' k b = if (k =? r)%nat && (b =? a)%nat then got s k b ++ L else got s k b) ->
  phase_ok N r p -> chan N a (view_of s' a) -> (len L + amount s' r = amount s r)%nat -> inv N s'.
Proof.
  intros N s s' r a p L Hok [Hch Hph Hsum] Hin Hfr Hw Hu Hpe Hpo Ho1 Ho2 Hg Hp Ha Ham. constructor.
  - intros b. destruct (Nat.eq_dec b a) as [->|Hne]; auto. destruct (Hfr b Hne) as (F1 & F2 & F3).
    eapply chan_ext; [..|apply (Hch b)]; cbn; auto.
    + intros k. rewrite Hg. rewrite (proj2 (Nat.eqb_neq b a)), andb_false_r; auto.
    + intros k. rewrite Hpo. destruct (Nat.eq_dec k r) as [->|Hk]; [rewrite upd_eq, Ho1, Ho2; auto|rewrite upd_ne; auto].
  - intros k. rewrite Hpo. destruct (Nat.eq_dec k r) as [->|Hk]; [rewrite upd_eq; auto|rewrite upd_ne; auto].
  - intros k. specialize (Hsum k). rewrite (total_ext _ _ (fun a => len (s_written s a))) by (intros; rewrite Hw; auto). rewrite Hsum.
    unfold events. rewrite Hu, Hpe. destruct (Nat.eq_dec k r) as [->|Hk].
    + rewrite (total_more (n_senders N r) (fun b => len (got s r b)) (fun b => len (got s' r b)) a (len L)); auto.
      * lia.
      * apply ok_senders; auto.
      * intros b Hb. rewrite Hg, (proj2 (Nat.eqb_neq b a)), andb_false_r; auto.
      * rewrite Hg, !Nat.eqb_refl. cbn. rewrite app_length. reflexivity.
    + rewrite (total_ext _ (fun b => len (got s' k b)) (fun b => len (got s k b))).
      2:{ intros b _. rewrite Hg, (proj2 (Nat.eqb_neq k r)); auto. }
      unfold amount. rewrite Hpo, upd_ne; auto.
Qed.
Lemma amount_at : forall s r p, s_poll s r = p -> amount s r = match p with
  | PIdle => O | PAt n _ | PFill n _ _ _ | PFilling n _ _ _ _ _ _ | PTake n _ _ _ | PRead n _ _ _ _ _ _ => n end.
Proof. intros s r p <-. reflexivity. Qed.
Lemma set_buffer_parts : forall s a j q, s_poll (set_buffer s a j q) = s_poll s /\ s_log (set_buffer s a j q) = s_log s /\
  s_written (set_buffer s a j q) = s_written s /\ s_unsent (set_buffer s a j q) = s_unsent s /\ s_pending (set_buffer s a j q) = s_pending s /\
  s_lock (set_buffer s a j q) = s_lock s /\ s_handed (set_buffer s a j q) = s_handed s /\
  (forall b, b <> a -> s_main (set_buffer s a j q) b = s_main s b /\ s_split (set_buffer s a j q) b = s_split s b).
Proof.
  intros s a [j|] q; cbn; repeat split; auto; apply upd_ne; auto.
Qed.
(** What an instance reads begins *)
Lemma inv_start_read : forall N s r n a j rest, ok_net N -> inv N s -> In a (n_senders N r) -> incl rest (n_senders N r) -> (1 <= n)%nat ->
  amount s r = n -> only a (s_poll s r) ->
  match j with
  | None => (n_split N a = None \/ n_split N a = Some O) /\ proj (s_poll s r) a = ANone
  | Some j => (exists k, n_split N a = Some (S k)) /\ proj (s_poll s r) a = AOwn j
  end -> inv N (start_read N s r n a j rest).
Proof.
  intros N s r n a j rest Hok Hi Hin Hrest Hn Ham Ho Hj. pose proof Hi as [Hch Hph Hsum].
  assert (In r (n_readers N a)) as Hr by (apply ok_sym; auto).
  unfold start_read. destruct (fifo_populated (buffer s a j)) eqn:Hpop.
  - destruct (fifo_take (n_max N) (buffer s a j)) as [[h stop] q] eqn:Ht.
    destruct (set_buffer_parts s a j q) as (P1 & P2 & P3 & P4 & P5 & P6 & P7 & P8).
    eapply (inv_step N s _ r a (PRead n a j rest h stop 0) []); eauto; cbn [s_main s_split s_lock s_poll s_pending s_unsent s_written s_log set_poll]; rewrite ?P1, ?P2, ?P3, ?P4, ?P5; auto.
    + intros b Hb. destruct (P8 b Hb). rewrite P6. auto.
    + apply only_intro. reflexivity.
    + intros k b. unfold got. cbn. rewrite P2, app_nil_r. destruct ((k =? r)%nat && (b =? a)%nat); auto.
    + cbn. destruct j as [j|]; destruct Hj; auto.
    + destruct j as [j|].
      * destruct Hj as [Hs Hown]. apply (chan_S _ _ _ Hs). specialize (Hch a). apply (chan_S _ _ _ Hs) in Hch. destruct Hch as (os & m & dist & C).
        pose proof (cs_act _ _ _ _ _ C r) as A. cbn in A. rewrite Hown in A. destruct (owner_buf _ _ _ A) as [q0 Hq0].
        pose proof (cs_buf _ _ _ _ _ C j (Some r) q0 Hq0) as (B1 & B2 & B3). cbn in B1, B2, B3. rewrite Hown in B1, B2, B3. cbn in B1, B2.
        cbn [buffer] in Ht. rewrite (split_queue_nth _ _ _ _ Hq0) in Ht. destruct (take_spec _ _ _ _ _ Ht) as (T1 & T2 & T3 & T4).
        assert (chanS (n_readers N a) os m dist (mk_v (s_main s a) (put_split (s_split s a) j q) (s_lock s a) (s_written s a)
           (upd (fun k => got s k a) r (got s r a)) (upd (fun k => proj (s_poll s k) a) r (ARead (Some j) h stop 0)))) as C'.
        { apply (s_reader _ _ _ _ (view_of s a) r j q0 q (ARead (Some j) h stop 0) (got s r a) C); cbn; rewrite ?Hown; cbn; auto; try congruence; try lia.
          - rewrite T2. cbn. rewrite app_nil_r, <- !msgs_app, T1. reflexivity.
          - assert (zlen h + zlen (q_list q) = zlen (q_list q0) + zlen (q_wq q0)) by (rewrite <- !zlen_app2, T1; auto). change (@zlen cell []) with 0 in *. lia. }
        assert (chan N a (mk_v (s_main s a) (put_split (s_split s a) j q) (s_lock s a) (s_written s a)
           (upd (fun k => got s k a) r (got s r a)) (upd (fun k => proj (s_poll s k) a) r (ARead (Some j) h stop 0)))) as D by (apply (chan_S _ _ _ Hs); eauto).
        apply (chan_S _ _ _ Hs). eapply chan_ext; [..|exact D]; cbn; auto.
        -- rewrite upd_eq. reflexivity.
        -- intros k. exact (upd_same _ (fun k0 => got s k0 a) r k).
        -- intros k. rewrite proj_upd. cbn. rewrite Nat.eqb_refl. reflexivity.
      * destruct Hj as [Hs Hown]. specialize (Hch a). apply (chan_N _ _ _ Hs) in Hch. cbn [buffer] in Ht.
        pose proof (n_take _ _ r _ _ _ _ Hch Hr Hown Ht) as C. apply (chan_N _ _ _ Hs) in C.
        eapply chan_ext; [..|exact C]; cbn; auto.
        -- rewrite upd_eq. reflexivity.
        -- intros k. rewrite proj_upd. cbn. rewrite Nat.eqb_refl. reflexivity.
    + rewrite Ham. unfold amount. cbn. rewrite P1, upd_eq. reflexivity.
  - eapply (inv_step N s _ r a (PAt n rest) []); eauto; cbn; auto.
    + apply only_intro. exact Logic.I.
    + intros k b. unfold got. cbn. rewrite app_nil_r. destruct ((k =? r)%nat && (b =? a)%nat); auto.
    + destruct j as [j|].
      * destruct Hj as [Hs Hown]. specialize (Hch a). apply (chan_S _ _ _ Hs) in Hch. destruct Hch as (os & m & dist & C).
        pose proof (cs_act _ _ _ _ _ C r) as A. cbn in A. rewrite Hown in A. destruct (owner_buf _ _ _ A) as [q0 Hq0].
        pose proof (cs_buf _ _ _ _ _ C j (Some r) q0 Hq0) as (B1 & B2 & B3). cbn in B1, B2, B3. rewrite Hown in B1, B2, B3. cbn in B1, B2.
        assert (chan N a (mk_v (s_main s a) (put_split (s_split s a) j q0) (s_lock s a) (s_written s a)
           (upd (fun k => got s k a) r (got s r a)) (upd (fun k => proj (s_poll s k) a) r ANone))) as D.
        { apply (chan_S _ _ _ Hs). exists os, m, dist.
          apply (s_reader _ _ _ _ (view_of s a) r j q0 q0 ANone (got s r a) C); cbn; rewrite ?Hown; cbn; auto; try congruence; try lia. }
        eapply chan_ext; [..|exact D]; cbn; auto.
        -- apply (put_split_same _ _ _ _ Hq0).
        -- intros k. exact (upd_same _ (fun k0 => got s k0 a) r k).
        -- intros k. rewrite proj_upd. reflexivity.
      * destruct Hj as [Hs Hown]. eapply chan_ext; [..|apply (Hch a)]; cbn; auto.
        intros k. rewrite proj_upd. cbn. rewrite <- Hown. symmetry. apply (upd_same _ (fun k0 => proj (s_poll s k0) a)).
    + rewrite Ham. unfold amount. cbn. rewrite upd_eq. reflexivity.
Qed.
Definition vbuf (v : view) (j : option nat) : fifo := match j with None => v_main v | Some j => split_queue (v_split v) j end.
Definition vmain (v : view) (j : option nat) (q : fifo) : fifo := match j with None => q | Some _ => v_main v end.
Definition vsplit (v : view) (j : option nat) (q : fifo) := match j with None => v_split v | Some j => put_split (v_split v) j q end.
Definition kind (N : net) (a : nat) (j : option nat) : Prop :=
  match j with Some _ => exists k, n_split N a = Some (S k) | None => n_split N a = None \/ n_split N a = Some O end.
Lemma chan_read : forall N a v r j c h stop d, chan N a v -> kind N a j -> In r (n_readers N a) -> v_act v r = ARead j (c :: h) stop d ->
  chan N a (mk_v (v_main v) (v_split v) (v_lock v) (v_written v) (upd (v_log v) r (v_log v r ++ [e_msg (snd c)]))
    (upd (v_act v) r (ARead j h stop (d + 1)))).
Proof.
  intros N a v r [j|] c h stop d Hc Hk Hr Ha; cbn in Hk.
  - apply (chan_S _ _ _ Hk) in Hc. destruct Hc as (os & m & dist & C). 
    pose proof (cs_act _ _ _ _ _ C r) as A. rewrite Ha in A. destruct (owner_buf _ _ _ A) as [q0 Hq0].
    pose proof (cs_buf _ _ _ _ _ C j (Some r) q0 Hq0) as (B1 & B2 & B3). cbn in B1, B2, B3. rewrite Ha in B1, B2, B3.
    cbn [held donec] in B1, B2. rewrite zlen_cons in B2. pose proof (cs_done _ _ _ _ _ C r) as D. rewrite Ha in D. cbn in D.
    assert (chan N a (mk_v (v_main v) (put_split (v_split v) j q0) (v_lock v) (v_written v) (upd (v_log v) r (v_log v r ++ [e_msg (snd c)]))
              (upd (v_act v) r (ARead (Some j) h stop (d + 1))))) as E.
    { apply (chan_S _ _ _ Hk). exists os, m, dist. apply (s_reader _ _ _ _ v r j q0 q0 _ _ C); rewrite ?Ha; cbn [act_buf held donec]; auto; try lia.
      - intros ? ? ? ?. discriminate.
      - intros ? ? ? ?. discriminate.
      - cbn [msgs map]. rewrite <- !app_assoc. reflexivity. }
    rewrite (put_split_same _ _ _ _ Hq0) in E. exact E.
  - apply (chan_N _ _ _ Hk). apply (chan_N _ _ _ Hk) in Hc. eapply n_read; eauto.
Qed.
Lemma chan_end : forall N a v r j h stop d, chan N a v -> kind N a j -> In r (n_readers N a) -> v_act v r = ARead j h stop d ->
  exists q, fifo_put_back h stop (vbuf v j) = Some q /\ (h = [] -> q = vbuf v j) /\
  exists q', fifo_done d q = Some q' /\
    chan N a (mk_v (vmain v j q') (vsplit v j q') (v_lock v) (v_written v) (v_log v) (upd (v_act v) r ANone)).
Proof.
  intros N a v r [j|] h stop d Hc Hk Hr Ha; cbn in Hk.
  - apply (chan_S _ _ _ Hk) in Hc. destruct Hc as (os & m & dist & C). 
    pose proof (cs_act _ _ _ _ _ C r) as A. rewrite Ha in A. destruct (owner_buf _ _ _ A) as [q0 Hq0].
    pose proof (cs_buf _ _ _ _ _ C j (Some r) q0 Hq0) as (B1 & B2 & B3). cbn in B1, B2. cbn [own_act] in B3. rewrite Ha in B1, B2, B3.
    cbn [held donec] in B1, B2. pose proof (cs_done _ _ _ _ _ C r) as D. rewrite Ha in D. cbn in D.
    cbn [vbuf vmain vsplit]. rewrite (split_queue_nth _ _ _ _ Hq0).
    destruct (put_back_spec _ _ _ _ _ B3) as (q & Q1 & Q2 & Q3 & Q4 & Q5). exists q. split; auto. split; auto.
    unfold fifo_done. rewrite Q4. assert (q_count q0 <? d = false) as -> by (apply Z.ltb_ge; unfold zlen in *; lia).
    eexists. split; [reflexivity|].
    match goal with |- chan N a (mk_v _ (put_split _ _ ?q') _ _ _ _) =>
      assert (chan N a (mk_v (v_main v) (put_split (v_split v) j q') (v_lock v) (v_written v) (upd (v_log v) r (v_log v r)) (upd (v_act v) r ANone))) as E end.
    { apply (chan_S _ _ _ Hk). exists os, m, dist. eapply (s_reader _ _ _ _ v r j q0 _ _ _ C); rewrite ?Ha; cbn [act_buf held donec q_list q_wq q_count]; auto; try lia.
      - intros ? ? ? ?. discriminate.
      - intros ? ? ? ?. discriminate.
      - rewrite Q2, Q3, msgs_app, <- !app_assoc. reflexivity.
      - rewrite Q2, zlen_app2. change (@zlen cell []) with 0. lia.
      - exact Logic.I. }
    eapply chan_ext; [..|exact E]; cbn; auto. intros k. apply upd_same.
  - apply (chan_N _ _ _ Hk) in Hc. destruct (n_end _ _ _ _ _ _ Hc Hr Ha) as (q & Q1 & Q2 & q' & Q3 & Q4). exists q. split; auto. split; auto.
    exists q'. split; auto. apply (chan_N _ _ _ Hk). exact Q4.
Qed.
Lemma got_same : forall s s' L k b (c : bool), s_log s' = s_log s -> L = [] -> got s' k b = if c then got s k b ++ L else got s k b.
Proof. intros s s' L k b c H ->. unfold got. rewrite H, app_nil_r. destruct c; auto. Qed.
Lemma got_hand : forall N s r a e k b, got (hand_over N s r a e) k b = if (k =? r)%nat && (b =? a)%nat then got s k b ++ [e_msg e] else got s k b.
Proof. intros. unfold got at 1, hand_over. cbn. apply got_log. reflexivity. Qed.

(** A poll, step by step *)
Lemma inv_Step : forall N s r x, ok_net N -> inv N s -> step N s r = Some x -> exists s', x = Ok s' /\ inv N s'.
Proof.
  intros N s r x Hok Hi H. pose proof Hi as [Hch Hph Hsum]. pose proof (Hph r) as Hp. unfold step in H.
  destruct (s_poll s r) as [|n rest|n a j rest|n a j rest h k done|n a j rest|n a j rest h stop done] eqn:Ep; [discriminate|..]; cbn in Hp.
  - assert (forall m, n = 0%nat \/ rest = [] -> (m = n + s_pending s r)%nat -> inv N (set_poll (set_pending s r m) r PIdle)) as Hend.
    { intros m _ ->. constructor.
      - intros a. eapply chan_ext; [..|apply (Hch a)]; cbn; auto. intros k. rewrite proj_upd. cbn. unfold upd. destruct (Nat.eqb_spec k r); auto.
        subst. rewrite Ep. reflexivity.
      - intros k. cbn. unfold upd. destruct (k =? r)%nat; cbn; auto.
      - intros k. specialize (Hsum k). cbn. unfold got, events, amount in *. cbn. unfold upd. destruct (Nat.eqb_spec k r); auto.
        subst. rewrite Ep in Hsum. rewrite Hsum. lia. }
    destruct n as [|n].
    + injection H as <-. eexists. split; [reflexivity|]. specialize (Hend (s_pending s r) (or_introl eq_refl) eq_refl).
      destruct Hend as [E1 E2 E3]. constructor; auto. intros k. specialize (E3 k). unfold got, events, amount in *. cbn in *. unfold upd in *.
      destruct (Nat.eqb_spec k r); subst; auto.
    + destruct rest as [|a rest].
      * injection H as <-. eexists. split; [reflexivity|]. apply Hend; auto. lia.
      * assert (In a (n_senders N r)) as Hin by (apply Hp; left; auto). assert (incl rest (n_senders N r)) as Hrest by (intros y Hy; apply Hp; right; auto).
        assert (In r (n_readers N a)) as Hr by (apply ok_sym; auto).
        assert (only a (s_poll s r)) as Ho by (rewrite Ep; apply only_intro; exact Logic.I).
        assert (proj (s_poll s r) a = ANone) as Hnone by (rewrite Ep; reflexivity).
        assert (amount s r = S n) as Ham by (unfold amount; rewrite Ep; auto).
        destruct (n_split N a) as [[|ks]|] eqn:Es.
        -- injection H as <-. eexists. split; [reflexivity|]. apply inv_start_read; auto. lia.
        -- destruct (s_lock s a) as [o|] eqn:El; [discriminate|].
           assert (exists k, n_split N a = Some (S k)) as Hs by eauto.
           pose proof (Hch a) as C. apply (chan_S _ _ _ Hs) in C. destruct C as (os & m & dist & C).
           destruct (s_own _ _ _ _ _ r C Hr Hnone El) as (j & l & O1 & os' & m' & C'). cbn in O1. rewrite O1 in H.
           injection H as <-. eexists. split; [reflexivity|].
           eapply (inv_step N s _ r a (PFill (S n) a j rest) []); eauto; cbn; auto.
           ++ intros b Hb. rewrite !upd_ne; auto.
           ++ apply only_intro; auto.
           ++ intros. apply got_same; auto.
           ++ repeat split; auto. lia.
           ++ assert (chan N a (mk_v (v_main (view_of s a)) l (v_lock (view_of s a)) (v_written (view_of s a)) (v_log (view_of s a)) (upd (v_act (view_of s a)) r (AOwn j)))) as D
                by (apply (chan_S _ _ _ Hs); eauto).
              eapply chan_ext; [..|exact D]; cbn; auto; [rewrite upd_eq; auto|]. intros k. rewrite proj_upd. cbn. rewrite Nat.eqb_refl. reflexivity.
           ++ rewrite Ham. unfold amount. cbn. rewrite upd_eq. reflexivity.
        -- injection H as <-. eexists. split; [reflexivity|]. apply inv_start_read; auto. lia.
  - destruct Hp as (Hn & Hin & Hrest & Hs).
    assert (only a (s_poll s r)) as Ho by (rewrite Ep; apply only_intro; auto).
    assert (proj (s_poll s r) a = AOwn j) as Hown by (rewrite Ep; cbn; rewrite Nat.eqb_refl; auto).
    assert (amount s r = n) as Ham by (unfold amount; rewrite Ep; auto).
    assert (inv N (set_poll s r (PTake n a j rest))) as Htake.
    { eapply (inv_step N s _ r a (PTake n a j rest) []); eauto; cbn; auto.
      - apply only_intro; auto.
      - intros. apply got_same; auto.
      - eapply chan_ext; [..|apply (Hch a)]; cbn; auto. intros k. rewrite proj_upd. cbn. rewrite Nat.eqb_refl, <- Hown. symmetry.
        exact (upd_same _ (fun k0 => proj (s_poll s k0) a) r k).
      - rewrite Ham. unfold amount. cbn. rewrite upd_eq. reflexivity. }
    destruct (q_count (s_main s a) =? 0); [injection H as <-; eauto|].
    destruct (s_lock s a) as [o|] eqn:El; [injection H as <-; eauto|].
    destruct (fifo_take (n_max N) (s_main s a)) as [[h stop] q] eqn:Ht. injection H as <-. eexists. split; [reflexivity|].
    eapply (inv_step N s _ r a (PFilling n a j rest h 0 0) []); eauto; cbn; auto.
    + intros b Hb. rewrite !upd_ne; auto.
    + apply only_intro; auto.
    + intros. apply got_same; auto.
    + pose proof (Hch a) as C. apply (chan_S _ _ _ Hs) in C. destruct C as (os & m & dist & C).
      pose proof (s_fill_take _ _ _ _ _ r j _ _ _ _ C Hown El Ht) as C'. cbn in C'.
      apply (chan_S _ _ _ Hs). apply (chan_S _ _ _ Hs). eapply chan_ext; [..|apply (chan_S _ _ _ Hs); eexists; eexists; eexists; exact C']; cbn; auto.
      * rewrite upd_eq; auto.
      * rewrite upd_eq; auto.
      * intros k. rewrite proj_upd. cbn. rewrite Nat.eqb_refl. reflexivity.
    + rewrite Ham. unfold amount. cbn. rewrite upd_eq. reflexivity.
  - destruct Hp as (Hn & Hin & Hrest & Hs).
    assert (only a (s_poll s r)) as Ho by (rewrite Ep; apply only_intro; auto).
    assert (proj (s_poll s r) a = AFill j h k done) as Hown by (rewrite Ep; cbn; rewrite Nat.eqb_refl; auto).
    assert (amount s r = n) as Ham by (unfold amount; rewrite Ep; auto).
    pose proof (Hch a) as C. apply (chan_S _ _ _ Hs) in C. destruct C as (os & m & dist & C).
    destruct h as [|c h].
    + destruct (s_fill_end _ _ _ _ _ r j k done C Hown) as (q & Q & C'). cbn in Q. rewrite Q in H. injection H as <-. eexists. split; [reflexivity|].
      eapply (inv_step N s _ r a (PTake n a j rest) []); eauto; cbn; auto.
      * intros b Hb. rewrite !upd_ne; auto.
      * apply only_intro; auto.
      * intros. apply got_same; auto.
      * apply (chan_S _ _ _ Hs). apply (chan_S _ _ _ Hs). eapply chan_ext; [..|apply (chan_S _ _ _ Hs); eexists; eexists; eexists; exact C']; cbn; auto.
        -- rewrite upd_eq; auto.
        -- rewrite upd_eq; auto.
        -- intros k'. rewrite proj_upd. cbn. rewrite Nat.eqb_refl. reflexivity.
      * rewrite Ham. unfold amount. cbn. rewrite upd_eq. reflexivity.
    + destruct (Nat.ltb_spec k (len (s_split s a))) as [Hk|Hk]; injection H as <-; (eexists; split; [reflexivity|]).
      * pose proof (s_fill_put _ _ _ _ _ r j c h k done (s_next s, clone (snd c)) C Hown Hk eq_refl) as C'. cbn in C'.
        eapply (inv_step N s _ r a (PFilling n a j rest (c :: h) (S k) done) []); eauto; cbn; auto.
        -- intros b Hb. rewrite !upd_ne; auto.
        -- apply only_intro; auto.
        -- intros. apply got_same; auto.
        -- apply (chan_S _ _ _ Hs). apply (chan_S _ _ _ Hs). eapply chan_ext; [..|apply (chan_S _ _ _ Hs); eexists; eexists; eexists; exact C']; cbn; auto.
           ++ rewrite upd_eq; auto.
           ++ intros k'. rewrite proj_upd. cbn. rewrite Nat.eqb_refl. reflexivity.
        -- rewrite Ham. unfold amount. cbn. rewrite upd_eq. reflexivity.
      * pose proof (s_fill_next _ _ _ _ _ r j c h k done C Hown Hk) as C'. cbn in C'.
        eapply (inv_step N s _ r a (PFilling n a j rest h 0 (done + 1)) []); eauto; cbn; auto.
        -- apply only_intro; auto.
        -- intros. apply got_same; auto.
        -- apply (chan_S _ _ _ Hs). apply (chan_S _ _ _ Hs). eapply chan_ext; [..|apply (chan_S _ _ _ Hs); eexists; eexists; eexists; exact C']; cbn; auto.
           intros k'. rewrite proj_upd. cbn. rewrite Nat.eqb_refl. reflexivity.
        -- rewrite Ham. unfold amount. cbn. rewrite upd_eq. reflexivity.
  - destruct Hp as (Hn & Hin & Hrest & Hs). injection H as <-. eexists. split; [reflexivity|].
    apply inv_start_read; auto.
    + unfold amount. rewrite Ep. reflexivity.
    + rewrite Ep. apply only_intro. auto.
    + split; auto. rewrite Ep. cbn. rewrite Nat.eqb_refl. reflexivity.
  - destruct Hp as (Hn & Hin & Hrest & Hk). change (kind N a j) in Hk.
    assert (only a (s_poll s r)) as Ho by (rewrite Ep; apply only_intro; auto).
    assert (proj (s_poll s r) a = ARead j h stop done) as Hown by (rewrite Ep; cbn; rewrite Nat.eqb_refl; auto).
    assert (amount s r = n) as Ham by (unfold amount; rewrite Ep; auto).
    assert (In r (n_readers N a)) as Hr by (apply ok_sym; auto).
    assert (forall v, v = view_of s a -> vbuf v j = buffer s a j) as Hvb by (intros v ->; destruct j; reflexivity).
    destruct h as [|c h].
    + destruct (chan_end _ _ _ _ _ _ _ _ (Hch a) Hk Hr Hown) as (q & Q1 & Q2 & q' & Q3 & C). rewrite (Q2 eq_refl), (Hvb _ eq_refl) in Q3.
      unfold end_read in H. rewrite Q3 in H. injection H as <-. eexists. split; [reflexivity|].
      destruct (set_buffer_parts s a j q') as (P1 & P2 & P3 & P4 & P5 & P6 & P7 & P8).
      eapply (inv_step N s _ r a (PAt n rest) []); eauto; cbn; rewrite ?P1, ?P2, ?P3, ?P4, ?P5; auto.
      * intros b Hb. destruct (P8 b Hb). rewrite P6. auto.
      * apply only_intro. exact Logic.I.
      * intros. apply got_same; auto.
      * eapply chan_ext; [..|exact C]; destruct j as [j|]; cbn; auto; try (rewrite upd_eq; auto); intros k; rewrite proj_upd; reflexivity.
      * rewrite Ham. unfold amount. cbn. rewrite P1, upd_eq. reflexivity.
    + pose proof (chan_read _ _ _ _ _ _ _ _ _ (Hch a) Hk Hr Hown) as C. set (s1 := hand_over N s r a (snd c)) in *.
      assert (forall k b, got s1 k b = if (k =? r)%nat && (b =? a)%nat then got s k b ++ [e_msg (snd c)] else got s k b) as Hg by (intros; apply got_hand).
      destruct (pred n) as [|n'] eqn:En.
      * match type of C with chan N a ?v => 
          assert (v_act v r = ARead j h stop (done + 1)) as Hown1 by (cbn; apply upd_eq);
          destruct (chan_end _ _ _ _ _ _ _ _ C Hk Hr Hown1) as (q & Q1 & Q2 & q' & Q3 & C1);
          assert (vbuf v j = buffer s1 a j) as Hvb1 by (destruct j; reflexivity) end.
        rewrite Hvb1 in Q1. rewrite Q1 in H. unfold end_read in H. rewrite Q3 in H. injection H as <-. eexists. split; [reflexivity|].
        destruct (set_buffer_parts s1 a j q') as (P1 & P2 & P3 & P4 & P5 & P6 & P7 & P8).
        eapply (inv_step N s _ r a (PAt 0 rest) [e_msg (snd c)]); eauto; cbn [s_main s_split s_lock s_poll s_pending s_unsent s_written s_log set_poll];
          rewrite ?P1, ?P2, ?P3, ?P4, ?P5; auto.
        -- intros b Hb. destruct (P8 b Hb) as [P9 P10]. rewrite P6, P9, P10. auto.
        -- apply only_intro. exact Logic.I.
        -- intros k b. rewrite <- Hg. unfold got. cbn [s_log set_poll]. rewrite P2. reflexivity.
        -- eapply chan_ext; [..|exact C1]; destruct j as [j|]; cbn; auto; try (rewrite upd_eq; auto).
           ++ intros k. symmetry. etransitivity; [exact (Hg k a)|]. rewrite Nat.eqb_refl, andb_true_r. unfold upd. destruct (Nat.eqb_spec k r); subst; auto.
           ++ intros k. symmetry. etransitivity; [exact (Hg k a)|]. rewrite Nat.eqb_refl, andb_true_r. unfold upd. destruct (Nat.eqb_spec k r); subst; auto.
           ++ intros k. rewrite proj_upd. unfold upd. destruct (k =? r)%nat; auto.
           ++ intros k. rewrite proj_upd. unfold upd. destruct (k =? r)%nat; auto.
        -- rewrite Ham. unfold amount. cbn. rewrite P1, upd_eq. cbn. lia.
      * injection H as <-. eexists. split; [reflexivity|].
        eapply (inv_step N s _ r a (PRead (S n') a j rest h stop (done + 1)) [e_msg (snd c)]); eauto; cbn; auto.
        -- apply only_intro. auto.
        -- repeat split; auto. lia.
        -- eapply chan_ext; [..|exact C]; cbn; auto.
           ++ intros k. symmetry. etransitivity; [exact (Hg k a)|]. rewrite Nat.eqb_refl, andb_true_r. unfold upd. destruct (Nat.eqb_spec k r); subst; auto.
           ++ intros k. rewrite proj_upd. cbn. rewrite Nat.eqb_refl. reflexivity.
        -- rewrite Ham. unfold amount. cbn. rewrite upd_eq. cbn. lia.
Qed.
Lemma to_tell_count : forall N a pick r, ok_net N ->
  count_occ Nat.eq_dec (to_tell N a pick) r = if in_dec Nat.eq_dec a (n_senders N r) then 1%nat else O.
Proof.
  intros N a pick r Hok. pose proof (ok_slots N Hok a) as Hsl. pose proof (ok_sym N Hok a r) as Hsym. unfold to_tell.
  pose proof (ok_readers N Hok a) as Hnd. destruct (n_split N a) as [k|].
  - destruct (in_dec Nat.eq_dec a (n_senders N r)) as [Hin|Hin].
    + pose proof (proj1 (NoDup_count_occ' Nat.eq_dec _) Hnd r (proj2 Hsym Hin)). auto.
    + apply count_occ_not_In. tauto.
  - destruct (n_readers N a) as [|x [|y l]]; cbn in Hsl; [| |lia].
    + rewrite (proj2 (nth_error_None (@nil nat) _)) by (cbn; lia). destruct (in_dec Nat.eq_dec a (n_senders N r)) as [Hin|Hin]; auto. destruct (proj2 Hsym Hin).
    + change (len [x]) with 1%nat. rewrite Nat.mod_1_r. cbn. destruct (Nat.eq_dec x r) as [->|Hne].
      * destruct (in_dec Nat.eq_dec a (n_senders N r)) as [Hin|Hin]; auto. destruct Hin. apply Hsym. left. auto.
      * destruct (in_dec Nat.eq_dec a (n_senders N r)) as [Hin|Hin]; auto. destruct (proj2 Hsym Hin) as [->|[]]. congruence.
Qed.
Lemma inv_write : forall N s a e pick, ok_net N -> inv N s -> inv N (write N s a e pick).
Proof.
  intros N s a e pick Hok [Hch Hph Hsum]. constructor; auto.
  - intros b. destruct (Nat.eq_dec b a) as [->|Hne].
    + assert (chan N a (mk_v (fifo_write (s_next s, e) (s_main s a)) (s_split s a) (s_lock s a) (s_written s a ++ [e_msg e])
                (fun r => got s r a) (fun r => proj (s_poll s r) a))) as D.
      { specialize (Hch a). destruct (chan_cases _ _ _ Hch) as [[Hk C]|[Hk (os & m & dist & C)]].
        - apply (chan_N _ _ _ Hk). apply (n_write _ _ (s_next s, e) C).
        - apply (chan_S _ _ _ Hk). exists os, m, dist. apply (s_write _ _ _ _ _ (s_next s, e) C). }
      eapply chan_ext; [..|exact D]; cbn; auto; rewrite upd_eq; auto.
    + eapply chan_ext; [..|apply (Hch b)]; cbn; auto; rewrite upd_ne; auto.
  - intros r. specialize (Hsum r). unfold write, events, amount, got in *. cbn in *. rewrite count_occ_app, (to_tell_count N a pick r Hok).
    destruct (in_dec Nat.eq_dec a (n_senders N r)) as [Hin|Hin].
    + rewrite (total_one (n_senders N r) (fun b => len (s_written s b)) _ a).
      * rewrite Hsum. lia.
      * apply ok_senders; auto.
      * auto.
      * intros b Hb. rewrite upd_ne; auto.
      * rewrite upd_eq, app_length. cbn. lia.
    + rewrite (total_ext _ _ (fun b => len (s_written s b))); [rewrite Hsum; lia|]. intros b Hb. rewrite upd_ne; auto. congruence.
Qed.
Lemma count_drop : forall r l k, In r l -> (count_occ Nat.eq_dec l k = (if (k =? r)%nat then 1 else 0) + count_occ Nat.eq_dec (drop r l) k)%nat.
Proof.
  induction l as [|x l IH]; intros k Hin; [destruct Hin|]. cbn. destruct (Nat.eqb_spec x r) as [->|Hne].
  - destruct (Nat.eq_dec r k) as [->|Hk]; [rewrite Nat.eqb_refl; auto|rewrite (proj2 (Nat.eqb_neq k r)); auto].
  - destruct Hin as [->|Hin]; [congruence|]. cbn. specialize (IH k Hin). destruct (Nat.eq_dec x k); rewrite IH; lia.
Qed.
Lemma inv_exec : forall N s o x, ok_net N -> inv N s -> exec N s o = Some x -> exists s', x = Ok s' /\ inv N s'.
Proof.
  intros N s o x Hok Hi H. destruct o as [a m pick|a i pick|r|r n|r]; unfold exec in H.
  - injection H as <-. eexists. split; [reflexivity|]. apply inv_write; auto.
  - destruct (nth_error (s_handed s a) i); [|discriminate]. injection H as <-. eexists. split; [reflexivity|]. apply inv_write; auto.
  - destruct (existsb (Nat.eqb r) (s_unsent s)) eqn:E; [|discriminate]. injection H as <-. eexists. split; [reflexivity|].
    apply existsb_exists in E. destruct E as (x & Hx & E). apply Nat.eqb_eq in E. subst x. destruct Hi as [Hch Hph Hsum]. constructor; auto.
    intros k. specialize (Hsum k). unfold events, amount, got in *. cbn in *. rewrite Hsum. rewrite (count_drop r (s_unsent s) k Hx).
    unfold upd. destruct (Nat.eqb_spec k r); subst; lia.
  - destruct (s_poll s r) eqn:Ep; try discriminate.
    destruct (1 <=? n)%nat eqn:E1; [|discriminate]. destruct (n <=? s_pending s r)%nat eqn:E2; [|discriminate].
    destruct (Z.of_nat n <=? 65535) eqn:E3; [|discriminate]. cbn in H. injection H as <-. eexists. split; [reflexivity|].
    apply Nat.leb_le in E2. destruct Hi as [Hch Hph Hsum]. constructor.
    + intros a. eapply chan_ext; [..|apply (Hch a)]; cbn; auto. intros k. rewrite proj_upd. unfold upd. destruct (Nat.eqb_spec k r); subst; auto. rewrite Ep. auto.
    + intros k. cbn. unfold upd. destruct (Nat.eqb_spec k r); subst; auto. cbn. intros y; auto.
    + intros k. specialize (Hsum k). unfold events, amount, got in *. cbn in *. unfold upd. destruct (Nat.eqb_spec k r); subst; auto. rewrite Ep in Hsum. rewrite Hsum. lia.
  - eapply inv_Step; eauto.
Qed.
Lemma inv_run : forall N ops s, ok_net N -> inv N s -> exists s', run N s ops = Ok s' /\ inv N s'.
Proof.
  induction ops as [|o ops IH]; intros s Hok Hi; cbn; [eauto|].
  destruct (exec N s o) as [x|] eqn:E; auto. destruct (inv_exec _ _ _ _ Hok Hi E) as (s' & -> & Hi'). auto.
Qed.

(** ** What follows *)
Lemma begins_conf : forall N s a r, ok_net N -> inv N s -> In a (n_senders N r) -> begins (got s r a) (s_written s a).
Proof.
  intros N s a r Hok [Hch _ _] Hin. assert (In r (n_readers N a)) as Hr by (apply ok_sym; auto).
  destruct (chan_cases _ _ _ (Hch a)) as [[Hk C]|[Hk (os & m & dist & C)]].
  - pose proof (cn_conf _ _ C r Hr) as E. cbn in E. rewrite <- E. eexists. reflexivity.
  - destruct (in_dec Nat.eq_dec r os) as [Ho|Ho].
    + pose proof (cs_main _ _ _ _ _ C) as M. cbn [v_written view_of] in M. apply In_nth_error in Ho. destruct Ho as [i Hi].
      assert (nth_error (map fst (s_split s a)) i = Some (Some r)) as Hn.
      { pose proof (cs_owners _ _ _ _ _ C) as O. cbn in O. rewrite O. rewrite nth_error_app1 by (rewrite map_length; apply nth_error_Some; congruence).
        rewrite nth_error_map, Hi. reflexivity. }
      destruct (owner_buf _ _ _ Hn) as [q Hq]. destruct (cs_buf _ _ _ _ _ C i (Some r) q Hq) as (B1 & _). cbn [own_log v_log view_of] in B1.
      assert (exists t, s_written s a = (dist ++ extra (view_of s a) i) ++ t) as [t Ht].
      { rewrite <- M. unfold extra. destruct (i <? fk (view_of s a))%nat.
        - exists (skipn 1 (msgs (fx (view_of s a))) ++ msgs (q_list (v_main (view_of s a)))). rewrite <- !app_assoc. f_equal.
          rewrite app_assoc, (firstn_skipn 1). reflexivity.
        - rewrite app_nil_r. eexists. reflexivity. }
      rewrite Ht, <- B1, <- !app_assoc. eexists. reflexivity.
    + pose proof (cs_new _ _ _ _ _ C r Ho) as E. cbn in E. rewrite E. exists (s_written s a). reflexivity.
Qed.
Lemma begins_length : forall (A : Type) (l m : list A), begins l m -> (len l <= len m)%nat.
Proof. intros A l m [t ->]. rewrite app_length. lia. Qed.
Lemma begins_full : forall (A : Type) (l m : list A), begins l m -> len l = len m -> l = m.
Proof. intros A l m [t ->] H. rewrite app_length in H. destruct t; [rewrite app_nil_r; auto|cbn in H; lia]. Qed.
Lemma total_le_eq : forall (l : list nat) f g, (forall a, In a l -> (f a <= g a)%nat) -> total (map g l) = total (map f l) -> forall a, In a l -> f a = g a.
Proof.
  induction l as [|x l IH]; intros f g Hle He a Hin; [destruct Hin|]. cbn in He.
  assert (forall l' : list nat, (forall a, In a l' -> (f a <= g a)%nat) -> (total (map f l') <= total (map g l'))%nat) as Hm.
  { clear. induction l' as [|y l' IH]; intros H; cbn; [lia|]. pose proof (H y (or_introl eq_refl)). pose proof (IH (fun a Ha => H a (or_intror Ha))). lia. }
  pose proof (Hle x (or_introl eq_refl)). pose proof (Hm l (fun a Ha => Hle a (or_intror Ha))).
  destruct Hin as [<-|Hin]; [lia|]. apply IH; auto; [intros b Hb; apply Hle; right; auto|lia].
Qed.
Theorem broker_order_proof : forall N ops, ok_net N ->
  exists s, run N (start N) ops = Ok s /\ forall r a, In a (n_senders N r) -> begins (got s r a) (s_written s a).
Proof.
  intros N ops Hok. destruct (inv_run N ops (start N) Hok (inv_start N Hok)) as (s & H & Hi). exists s. split; auto.
  intros. eapply begins_conf; eauto.
Qed.
Theorem broker_events_proof : forall N ops s r, ok_net N -> run N (start N) ops = Ok s -> events s r = unread N s r.
Proof.
  intros N ops s r Hok H. destruct (inv_run N ops (start N) Hok (inv_start N Hok)) as (s' & H' & Hi). rewrite H in H'. injection H' as <-.
  pose proof (i_sum _ _ Hi r) as E. unfold unread. rewrite E. lia.
Qed.
Theorem broker_complete_proof : forall N ops s r a, ok_net N -> run N (start N) ops = Ok s -> events s r = O -> In a (n_senders N r) ->
  got s r a = s_written s a.
Proof.
  intros N ops s r a Hok H He Hin. destruct (inv_run N ops (start N) Hok (inv_start N Hok)) as (s' & H' & Hi). rewrite H in H'. injection H' as <-.
  apply begins_full; [eapply begins_conf; eauto|]. pose proof (i_sum _ _ Hi r) as E. rewrite He, Nat.add_0_r in E.
  refine (total_le_eq (n_senders N r) (fun a => len (got s r a)) (fun a => len (s_written s a)) _ E a Hin).
  intros b Hb. apply begins_length. eapply begins_conf; eauto.
Qed.
