(** Proofs about histories of a broker. *)
From Coq Require Import ZArith List Bool Lia.
From Verif Require Import Common Utf8Model Utf8Spec TopicModel TopicSpec TopicProofs MqttBrokerModel MqttBrokerSpec MqttBrokerProofs MqttBrokerSubProofs.
Import ListNotations.
Open Scope Z_scope.

Lemma Forall2_length : forall A B (R : A -> B -> Prop) l l', Forall2 R l l' -> length l = length l'.
Proof. induction 1; cbn; congruence. Qed.

(** ** Finding sessions *)
Lemma get_session_in : forall l id s, get_session l id = Some s -> In s l /\ ss_id s = id.
Proof.
  induction l as [|x l IH]; intros id s; cbn [get_session]; [discriminate|].
  destruct (str_same (ss_id x) id) eqn:E.
  - intros [= ->]. apply str_same_iff in E. split; auto. left. auto.
  - intros H. apply IH in H as [H1 H2]. split; auto. right. auto.
Qed.
Lemma get_session_none : forall l id, get_session l id = None -> ~ In id (map ss_id l).
Proof.
  induction l as [|x l IH]; intros id; cbn [get_session map]; auto.
  destruct (str_same (ss_id x) id) eqn:E; [discriminate|]. apply str_same_false in E.
  intros H [I|I]; auto. apply (IH id H I).
Qed.
Lemma get_session_some : forall l s, NoDup (map ss_id l) -> In s l -> get_session l (ss_id s) = Some s.
Proof.
  induction l as [|x l IH]; intros s ND I; [destruct I|]. cbn [map] in ND. apply NoDup_cons_iff in ND as [N ND]. cbn [get_session].
  destruct I as [->|I].
  - rewrite str_same_refl. auto.
  - replace (str_same (ss_id x) (ss_id s)) with false; auto. symmetry. apply str_same_false. intros E. apply N. rewrite E. apply in_map. auto.
Qed.
Lemma with_session_none : forall l id f, ~ In id (map ss_id l) -> with_session l id f = l.
Proof.
  induction l as [|x l IH]; intros id f N; cbn [with_session]; auto.
  replace (str_same (ss_id x) id) with false.
  - rewrite IH; auto. intros I. apply N. right. auto.
  - symmetry. apply str_same_false. intros E. apply N. left. auto.
Qed.
Lemma with_session_in : forall l id f x, NoDup (map ss_id l) -> In x (with_session l id f) ->
  (exists s, In s l /\ ss_id s = id /\ x = f s) \/ (In x l /\ ss_id x <> id).
Proof.
  induction l as [|y l IH]; intros id f x ND; cbn [with_session]; [intros []|].
  cbn [map] in ND. apply NoDup_cons_iff in ND as [N ND]. destruct (str_same (ss_id y) id) eqn:E.
  - apply str_same_iff in E. intros [<-|I].
    + left. exists y. split; [left|]; auto.
    + right. split; [right; auto|]. intros C. apply N. rewrite E, <- C. apply in_map. auto.
  - apply str_same_false in E. intros [<-|I].
    + right. split; [left|]; auto.
    + destruct (IH id f x ND I) as [(s & A & B & C)|[A B]].
      * left. exists s. split; [right|]; auto.
      * right. split; [right|]; auto.
Qed.
Lemma with_session_ids : forall l id f, (forall s, ss_id (f s) = ss_id s) -> map ss_id (with_session l id f) = map ss_id l.
Proof.
  intros l id f H. induction l as [|x l IH]; cbn [with_session map]; auto.
  destruct (str_same (ss_id x) id); cbn [map]; congruence.
Qed.
Lemma with_session_get : forall l id f s, (forall s, ss_id (f s) = ss_id s) -> get_session l id = Some s ->
  get_session (with_session l id f) id = Some (f s).
Proof.
  intros l id f s H. induction l as [|x l IH]; cbn [with_session get_session]; [discriminate|].
  destruct (str_same (ss_id x) id) eqn:E; cbn [get_session].
  - rewrite H, E. intros [= ->]. auto.
  - rewrite E. auto.
Qed.
Lemma find_session_spec : forall l id, NoDup (map ss_id l) -> find_session l id None = Done (get_session l id).
Proof.
  assert (A : forall l id s, ~ In id (map ss_id l) -> find_session l id (Some s) = Done (Some s)).
  { induction l as [|x l IH]; intros id s N; cbn [find_session]; auto.
    replace (str_same (ss_id x) id) with false; [apply IH; intros I; apply N; right; auto|].
    symmetry. apply str_same_false. intros E. apply N. left. auto. }
  induction l as [|x l IH]; intros id ND; cbn [find_session get_session]; auto.
  cbn [map] in ND. apply NoDup_cons_iff in ND as [N ND]. destruct (str_same (ss_id x) id) eqn:E; auto.
  apply A. apply str_same_iff in E. congruence.
Qed.

(** ** Retained messages of a history *)
Lemma last_retained_snoc : forall ps p q,
  last_retained (ps ++ [p]) q <-> (q = p /\ p_retain p = true) \/ (last_retained ps q /\ ~ (p_retain p = true /\ p_topic p = p_topic q)).
Proof.
  intros ps p q. split.
  - intros (R & b & a & E & F). destruct a as [|x a _] using rev_ind.
    + apply app_inj_tail in E as [-> ->]. auto.
    + rewrite app_comm_cons, app_assoc in E. apply app_inj_tail in E as [-> ->]. apply Forall_app in F as [F1 F2].
      right. split; [split; auto; exists b, a; auto|]. apply Forall_inv in F2. auto.
  - intros [[-> R]|[(R & b & a & -> & F) N]].
    + split; auto. exists ps, []. auto.
    + split; auto. exists b, (a ++ [p]). split; [rewrite <- app_assoc; auto|]. apply Forall_app. auto.
Qed.

(** [times] are those of the SUBSCRIBE packets so far. *)
Definition rinv (retain : list pub) (ps : list pub) (times : Z -> Prop) : Prop :=
  retain_ok retain /\
  (forall q, In q retain -> last_retained ps q) /\
  (forall q, last_retained ps q -> p_payload q <> [] -> In q retain \/ exists now, times now /\ too_old now q).

Lemma rinv_put : forall l ps times p, rinv l ps times -> pub_ok p -> rinv (put_retained p l) (ps ++ [p]) times.
Proof.
  intros l ps times p (K & A & B) P. split; [apply put_retained_ok; auto|]. unfold put_retained. split.
  - intros q I. apply last_retained_snoc. destruct (p_retain p) eqn:R.
    + apply retain_write_in in I; [|apply K]. destruct I as [[-> _]|[I N]]; auto. right. split; auto. intros [_ C]. congruence.
    + right. split; auto. intros [C _]. congruence.
  - intros q L E. apply last_retained_snoc in L. destruct (p_retain p) eqn:R.
    + destruct L as [[-> _]|[L N]].
      * left. apply retain_write_in; [apply K|]. auto.
      * destruct (B q L E) as [I|I]; auto. left. apply retain_write_in; [apply K|]. right. split; auto.
    + destruct L as [[_ L]|[L N]]; [discriminate|]. auto.
Qed.

(** ** The invariant *)
Definition times_of (h : list (bevent * banswer)) (now : Z) : Prop := exists id req a, In (ESubscribe id req now, a) h.
Definition inv (b : broker) (h : list (bevent * banswer)) : Prop :=
  Forall sess_ok (b_sess b) /\ NoDup (map ss_id (b_sess b)) /\
  (forall s, In s (b_sess b) -> zlen (ss_subs s) <= asked (map fst h) /\
     forall f, slookup (ss_subs s) f = cur (requests (ss_id s) h) f) /\
  rinv (b_retain b) (published h) (times_of h).

Lemma asked_app : forall a b, asked (a ++ b) = asked a + asked b.
Proof. intros. unfold asked. induction a as [|x a IH]; cbn [app fold_right]; lia. Qed.
Lemma asked_nonneg : forall a, 0 <= asked a.
Proof. intros. unfold asked. induction a as [|x a IH]; cbn [fold_right]; [lia|]. destruct x; try lia. pose proof (zlen_nonneg _ req). lia. Qed.
Lemma requests_app : forall id a b, requests id (a ++ b) = requests id a ++ requests id b.
Proof. intros. apply flat_map_app. Qed.
Lemma published_app : forall a b, published (a ++ b) = published a ++ published b.
Proof. intros. apply flat_map_app. Qed.

(** Sessions of [l'] are sessions of [l], with the same subscriptions. *)
Definition evolves (l l' : list sess) : Prop :=
  NoDup (map ss_id l') /\ Forall sess_ok l' /\
  forall s', In s' l' -> exists s, In s l /\ ss_id s' = ss_id s /\ ss_subs s' = ss_subs s.

Lemma evolves_trans : forall a b c, evolves a b -> evolves b c -> evolves a c.
Proof.
  intros a b c (_ & _ & A) (N & O & B). split; auto. split; auto. intros s I. destruct (B s I) as (t & It & E1 & E2).
  destruct (A t It) as (u & Iu & F1 & F2). exists u. split; auto. split; congruence.
Qed.
Lemma evolves_delivered : forall p l l', NoDup (map ss_id l) -> Forall sess_ok l -> Forall2 (delivered p) l l' -> evolves l l'.
Proof.
  intros p l l' N O F. destruct (Forall2_delivered p l l' F) as (E1 & E2 & E3 & _). split; [rewrite E1; auto|]. split; auto.
  clear - F. induction F as [|s s' l l' D F IH]; intros x []. 
  - subst x. exists s. destruct (delivered_id _ _ _ D) as (A & B & _). split; [left|]; auto.
  - destruct (IH x H) as (y & I & J). exists y. split; [right|]; auto.
Qed.
Lemma evolves_with : forall l id f, NoDup (map ss_id l) -> Forall sess_ok l -> (forall s, ss_id (f s) = ss_id s) ->
  (forall s, ss_subs (f s) = ss_subs s) -> (forall s, In s l -> ss_id s = id -> sess_ok (f s)) -> evolves l (with_session l id f).
Proof.
  intros l id f N O I S K. split; [rewrite with_session_ids; auto|]. rewrite Forall_forall in O. split.
  - apply Forall_forall. intros x Ix. apply with_session_in in Ix; auto. destruct Ix as [(s & A & B & ->)|[A _]]; auto.
  - intros x Ix. apply with_session_in in Ix; auto. destruct Ix as [(s & A & B & ->)|[A _]]; eauto.
Qed.
Lemma NoDup_map_filter : forall (h : sess -> bool) l, NoDup (map ss_id l) -> NoDup (map ss_id (filter h l)).
Proof.
  intros h l. induction l as [|x l IH]; intros B; auto. cbn [map] in B. apply NoDup_cons_iff in B as [N B]. cbn [filter]. destruct (h x); auto.
  cbn [map]. constructor; auto. intros I. apply N. apply in_map_iff in I as (y & E & I). apply filter_In in I as [I _]. rewrite <- E. apply in_map. auto.
Qed.
Lemma evolves_filter : forall h l, NoDup (map ss_id l) -> Forall sess_ok l -> evolves l (filter h l).
Proof.
  intros h l N O. split; [apply NoDup_map_filter; auto|]. rewrite Forall_forall in O. split.
  - apply Forall_forall. intros x I. apply filter_In in I as [I _]. auto.
  - intros x I. apply filter_In in I as [I _]. eauto.
Qed.

(** Events which ask for nothing. *)
Lemma inv_quiet : forall b h e a l' r', inv b h -> evolves (b_sess b) l' ->
  (forall id, requests_of id (e, a) = []) ->
  rinv r' (published h ++ a_pubs a) (times_of h) -> inv (mkB l' r') (h ++ [(e, a)]).
Proof.
  intros b h e a l' r' (O & N & S & R) (EN & EO & ES) Q R'. split; auto. split; auto. split.
  - cbn [b_sess]. intros s I. destruct (ES s I) as (t & It & E1 & E2). destruct (S t It) as [Z L]. split.
    + rewrite map_app, asked_app. pose proof (asked_nonneg (map fst [(e, a)])). rewrite E2. lia.
    + intros f. rewrite requests_app. unfold requests at 2. cbn [flat_map]. rewrite Q, ?app_nil_r, E1, E2. cbn [app]. rewrite ?app_nil_r. auto.
  - cbn [b_retain]. rewrite published_app. unfold published at 2. cbn [flat_map snd]. rewrite app_nil_r.
    destruct R' as (K & A & B). split; auto. split; auto. intros q L E. destruct (B q L E) as [I|(now & (id & req & x & T) & O')]; auto.
    right. exists now. split; auto. exists id, req, x. apply in_app_iff. auto.
Qed.

(** ** Wills *)
Lemma deliver_opt_spec : forall l r p ps times, NoDup (map ss_id l) -> Forall sess_ok l -> rinv r ps times ->
  match p with Some p => pub_ok p | None => True end ->
  exists l' r' out, deliver_opt (mkB l r) p = Done (mkB l' r', out) /\ evolves l l' /\ rinv r' (ps ++ out) times /\
    length l' = length l /\ Forall2 (fun s s' => ss_id s' = ss_id s /\ ss_subs s' = ss_subs s /\ ss_will s' = ss_will s) l l'.
Proof.
  intros l r p ps times N O R P. destruct p as [p|]; cbn [deliver_opt].
  - destruct (deliver_spec (mkB l r) p O P) as (ss & -> & F). cbn [obind b_sess b_retain] in *. eexists _, _, [p]. split; [reflexivity|].
    split; [eapply evolves_delivered; eauto|]. split; [apply rinv_put; auto|]. split; [apply (Forall2_delivered _ _ _ F)|].
    clear - F. induction F; constructor; auto. apply delivered_id in H. auto.
  - exists l, r, []. rewrite app_nil_r. split; auto. split; [|split; [auto|split; auto]].
    + split; auto. split; auto. intros s I. exists s. auto.
    + clear. induction l; constructor; auto.
Qed.
Lemma will_due_ok : forall w e now, will_ok w ->
  match fst (will_due w e now) with Some p => pub_ok p | None => True end /\ will_ok (snd (will_due w e now)).
Proof.
  intros [[[p d] t]|] e now H; cbn [will_due]; [|split; exact I].
  destruct (t =? 0); [split; [exact I|exact H]|]. destruct (e || (t <=? now)); split; try exact I; exact H.
Qed.
Lemma will_disconnect_ok : forall w r e now, will_ok w ->
  match fst (will_disconnect w r e now) with Some p => pub_ok p | None => True end /\ will_ok (snd (will_disconnect w r e now)).
Proof.
  intros [[[p d] t]|] r e now H; cbn [will_disconnect]; [|split; exact I].
  apply will_due_ok. destruct (r =? reason_with_will); [exact H|]. destruct (r =? 0); [exact I|exact H].
Qed.

Lemma maintain_loop_spec : forall now fuel dn todo r ps times,
  (length todo <= fuel)%nat -> NoDup (map ss_id (dn ++ todo)) -> Forall sess_ok (dn ++ todo) -> rinv r ps times ->
  exists l' r' out, maintain_loop now fuel dn todo r = Done (mkB l' r', out) /\ evolves (dn ++ todo) l' /\ rinv r' (ps ++ out) times.
Proof.
  intros now. induction fuel as [|fuel IH]; intros dn todo r ps times L N O R.
  - destruct todo; [|cbn in L; lia]. cbn [maintain_loop]. exists dn, r, []. rewrite !app_nil_r in *. split; auto. split; auto.
    split; auto. split; auto. intros s I. exists s. auto.
  - destruct todo as [|s todo]; cbn [maintain_loop].
    + exists dn, r, []. rewrite !app_nil_r in *. split; auto. split; auto. split; auto. split; auto. intros s I. exists s. auto.
    + assert (Os : sess_ok s). { apply Forall_app in O as [_ O]. apply Forall_inv in O. auto. }
      destruct (will_due_ok (ss_will s) (do_expire s now) now (proj2 (proj2 Os))) as [W1 W2].
      destruct (will_due (ss_will s) (do_expire s now) now) as [p w]. cbn [fst snd] in W1, W2.
      destruct (deliver_opt_spec (dn ++ s :: todo) r p ps times N O R W1) as (l1 & r1 & out1 & -> & V1 & R1 & LL & F2). cbn [obind fst snd b_sess b_retain].
      apply Forall2_app_inv_l in F2 as (d1 & t1 & Fd & Ft & ->). inversion Ft as [|s0 s1 td t2 H1 H2 E1 E2]. subst s0 td t1.
      assert (Ld : length dn = length d1) by (eapply Forall2_length; eauto).
      rewrite Ld, firstn_app, firstn_all, Nat.sub_diag, skipn_app, skipn_all, Nat.sub_diag. cbn [firstn skipn app]. rewrite app_nil_r.
      set (mid := if do_expire s now then [] else [set_will s1 w]).
      assert (V2 : evolves (d1 ++ s1 :: t2) ((d1 ++ mid) ++ t2)).
      { destruct V1 as (N1 & O1 & _). rewrite Forall_app, Forall_cons_iff in O1. destruct O1 as (O1 & O2 & O3). unfold mid. destruct (do_expire s now).
        - rewrite app_nil_r. split; [|split].
          + rewrite map_app in *. cbn [map] in N1. apply NoDup_remove_1 in N1. auto.
          + apply Forall_app. auto.
          + intros x I. exists x. split; auto. rewrite in_app_iff in *. cbn [In]. tauto.
        - rewrite <- app_assoc. cbn [app]. split; [|split].
          + rewrite map_app in *. cbn [map] in *. exact N1.
          + apply Forall_app. split; auto. constructor; auto. destruct O2 as (A & B & C). repeat split; auto.
          + intros x I. rewrite in_app_iff in I. destruct I as [I|[<-|I]].
            * exists x. rewrite in_app_iff. auto.
            * exists s1. rewrite in_app_iff. split; [right; left; auto|]. auto.
            * exists x. rewrite in_app_iff. split; [right; right; auto|]. auto. }
      destruct (IH (d1 ++ mid) t2 r1 (ps ++ out1) times) as (l' & r' & out & -> & V3 & R3).
      * apply Forall2_length in H2. cbn in L. lia.
      * apply V2.
      * apply V2.
      * auto.
      * cbn [obind fst snd]. eexists l', r', _. split; [reflexivity|]. split; [|rewrite app_assoc; auto].
        eapply evolves_trans; [exact V1|]. eapply evolves_trans; [exact V2|]. auto.
Qed.

(** ** One event *)
Lemma nil_ok : forall s, sess_ok s -> sess_ok (clean s).
Proof. intros s (A & B & C). split; [constructor|]. split; [constructor|]. exact C. Qed.

Lemma bstep_inv : forall b h e, inv b h -> event_ok e -> asked (map fst h) + asked [e] <= 65536 ->
  exists b' a, bstep b e = Done (b', a) /\ inv b' (h ++ [(e, a)]).
Proof.
  intros b h e INV E Z. assert (INV' := INV). destruct INV' as (O & N & S & R). destruct e as [id c x m w now|id req now|id req|p|id now|id reason now|now]; cbn [bstep].
  - (* CONNECT *)
    unfold connect. rewrite find_session_spec by auto. cbn [obind fst snd]. eexists _, _. split; [reflexivity|].
    set (init := fun s : sess => _).
    assert (Iid : forall s, ss_id (init s) = ss_id s). { intros s. unfold init. destruct c; reflexivity. }
    assert (Iok : forall s, sess_ok s -> sess_ok (init s)).
    { intros s (A & B & C). unfold init. destruct c; (split; [|split]); cbn [ss_subs set_will clean ss_will]; auto; try (constructor; fail);
      destruct w as [[p d]|]; exact E || exact I. }
    set (ss := match get_session (b_sess b) id with Some _ => _ | None => _ end).
    assert (Nss : NoDup (map ss_id ss)). { unfold ss. destruct (get_session (b_sess b) id) eqn:G; auto. cbn [map new_session ss_id]. constructor; auto. apply get_session_none. auto. }
    assert (Oss : Forall sess_ok ss). { unfold ss. destruct (get_session (b_sess b) id) eqn:G; auto. constructor; auto. split; [constructor|]. split; [constructor|]. exact I. }
    rewrite Forall_forall in Oss.
    split; [|split; [|split]]; cbn [b_sess b_retain].
    + apply Forall_forall. intros y Iy. apply with_session_in in Iy; auto. destruct Iy as [(s & A & B & ->)|[A B]]; auto.
    + rewrite with_session_ids; auto.
    + intros y Iy. rewrite map_app, asked_app. cbn [map fst asked fold_right]. apply with_session_in in Iy; auto.
      destruct Iy as [(s & A & B & ->)|[A B]].
      * rewrite Iid, B, requests_app. unfold requests at 2. cbn [flat_map requests_of a_present a_codes]. rewrite same_id_str, str_same_refl, app_nil_r.
        unfold ss in A. destruct (get_session (b_sess b) id) as [s0|] eqn:G.
        -- destruct (S s A) as [Zs Ls]. destruct c; cbn [negb].
           ++ unfold init. cbn [clean ss_subs set_will]. split; [cbn; pose proof (asked_nonneg (map fst h)); lia|]. intros f. rewrite cur_app. reflexivity.
           ++ unfold init. cbn [ss_subs set_will]. split; [lia|]. intros f. rewrite app_nil_r, <- B. auto.
        -- assert (s = new_session id now). { destruct A as [A|A]; auto. exfalso. apply (get_session_none _ _ G). rewrite <- B. apply in_map. auto. }
           subst s. unfold init. split.
           ++ destruct c; cbn; pose proof (asked_nonneg (map fst h)); lia.
           ++ intros f. rewrite cur_app. destruct c; reflexivity.
      * rewrite requests_app. unfold requests at 2. cbn [flat_map requests_of]. rewrite same_id_str.
        replace (str_same id (ss_id y)) with false by (symmetry; apply str_same_false; auto). cbn [app]; rewrite ?app_nil_r.
        assert (Iy : In y (b_sess b)). { unfold ss in A. destruct (get_session (b_sess b) id); auto. destruct A as [<-|A]; auto. exfalso. apply B. reflexivity. }
        destruct (S y Iy) as [Zs Ls]. split; auto. lia.
    + rewrite published_app. unfold published at 2. cbn [flat_map snd a_pubs app]. rewrite app_nil_r.
      destruct R as (K & A & B). split; auto. split; auto. intros q L Q. destruct (B q L Q) as [I|(t & (i & rq & y & T) & O')]; auto.
      right. exists t. split; auto. exists i, rq, y. apply in_app_iff. auto.
  - (* SUBSCRIBE *)
    destruct E as (E1 & E2 & E3). unfold subscribe. destruct (get_session (b_sess b) id) as [s|] eqn:G.
    + destruct (get_session_in _ _ _ G) as [Is Es]. destruct req as [|r0 req']; [congruence|]. set (req := r0 :: req') in *.
      rewrite Forall_forall in O. destruct (O s Is) as (O1 & O2 & O3). destruct (S s Is) as [Zs Ls]. cbn [asked fold_right] in Z.
      destruct (append_unique_spec req (ss_subs s) (conj O1 O2) E2 ltac:(lia)) as (t' & news & -> & G' & Z' & LK & _ & FN). cbn [obind].
      assert (RR : exists rt cs, (match news with [] => Done (b_retain b, []) | _ :: _ => iterate_retain now (b_retain b) news end) = Done (rt, cs) /\
        retain_ok rt /\ (forall q, In q rt -> In q (b_retain b)) /\ (forall q, In q (b_retain b) -> In q rt \/ too_old now q)).
      { destruct R as (K & _ & _). destruct news as [|n0 news'].
        - exists (b_retain b), []. auto.
        - destruct (iterate_retain_spec now (b_retain b) (n0 :: news') K FN) as (cs & -> & _). eexists _, _. split; [reflexivity|].
          split; [apply retain_ok_filter; auto|]. split.
          + intros q I. apply filter_In in I. tauto.
          + intros q I. destruct (expired now q) eqn:X; [right; apply expired_spec; auto|]. left. apply filter_In. rewrite X. auto. }
      destruct RR as (rt & cs & -> & K' & RA & RB). cbn [obind fst snd]. eexists _, _. split; [reflexivity|]. rewrite <- Forall_forall in O.
      split; [|split; [|split]]; cbn [b_sess b_retain].
      * rewrite Forall_forall in *. intros y Iy. apply with_session_in in Iy; auto. destruct Iy as [(s0 & A & B & ->)|[A _]]; auto.
        destruct (O s0 A) as (_ & _ & W). destruct G' as [G1 G2]. repeat split; auto.
      * rewrite with_session_ids; auto.
      * intros y Iy. rewrite map_app, asked_app. cbn [map fst asked fold_right]. apply with_session_in in Iy; auto. rewrite requests_app. unfold requests at 2.
        cbn [flat_map requests_of a_codes]. rewrite app_nil_r, same_id_str. destruct Iy as [(s0 & A & B & ->)|[A B]].
        -- cbn [ss_subs set_delayed set_subs ss_id]. rewrite B, str_same_refl. split; [lia|].
           intros f. rewrite LK, cur_app. f_equal. rewrite <- Es. auto.
        -- replace (str_same id (ss_id y)) with false by (symmetry; apply str_same_false; auto). cbn [app]; rewrite ?app_nil_r. destruct (S y A) as [Zy Ly]. split; auto.
           pose proof (zlen_nonneg _ req). lia.
      * rewrite published_app. unfold published at 2. cbn [flat_map snd a_pubs app]. rewrite app_nil_r.
        destruct R as (K & A & B). split; auto. split; auto. intros q L Q. destruct (B q L Q) as [I|(t & (i & rq & y & T) & O')].
        -- destruct (RB q I) as [J|J]; auto. right. exists now. split; auto. exists id, req. eexists. apply in_app_iff. right. left. reflexivity.
        -- right. exists t. split; auto. exists i, rq, y. apply in_app_iff. auto.
    + cbn [obind fst snd]. eexists _, _. split; [reflexivity|]. destruct b as [l r]. apply inv_quiet with (b := mkB l r); auto.
      * split; auto. split; auto. intros s I. exists s. auto.
      * intros i. cbn [requests_of a_codes]. destruct (same_id id i); auto.
      * cbn [a_pubs]. rewrite app_nil_r. auto.
  - (* UNSUBSCRIBE *)
    unfold unsubscribe. destruct (get_session (b_sess b) id) as [s|] eqn:G.
    + destruct (get_session_in _ _ _ G) as [Is Es]. rewrite Forall_forall in O. destruct (O s Is) as (O1 & O2 & O3). destruct (S s Is) as [Zs Ls].
      destruct (remove_topics_spec req (ss_subs s) (conj O1 O2)) as (t' & src & -> & G' & Z' & LK). cbn [obind fst snd]. eexists _, _. split; [reflexivity|].
      split; [|split; [|split]]; cbn [b_sess b_retain].
      * rewrite Forall_forall in *. intros y Iy. apply with_session_in in Iy; auto. destruct Iy as [(s0 & A & B & ->)|[A _]]; auto.
        destruct (O s0 A) as (_ & _ & W). destruct G' as [G1 G2]. repeat split; auto.
      * rewrite with_session_ids; auto.
      * intros y Iy. rewrite map_app, asked_app. cbn [map fst asked fold_right]. apply with_session_in in Iy; auto. rewrite requests_app. unfold requests at 2.
        cbn [flat_map requests_of a_codes]. rewrite app_nil_r, same_id_str. destruct Iy as [(s0 & A & B & ->)|[A B]].
        -- cbn [ss_subs set_subs ss_id]. rewrite B, str_same_refl. split; [lia|].
           intros f. rewrite LK, cur_app. f_equal. rewrite <- Es. auto.
        -- replace (str_same id (ss_id y)) with false by (symmetry; apply str_same_false; auto). cbn [app]; rewrite ?app_nil_r. destruct (S y A) as [Zy Ly]. split; auto. lia.
      * rewrite published_app. unfold published at 2. cbn [flat_map snd a_pubs app]. rewrite app_nil_r.
        destruct R as (K & A & B). split; auto. split; auto. intros q L Q. destruct (B q L Q) as [I|(t & (i & rq & y & T) & O')]; auto.
        right. exists t. split; auto. exists i, rq, y. apply in_app_iff. auto.
    + cbn [obind fst snd]. eexists _, _. split; [reflexivity|]. destruct b as [l r]. apply inv_quiet with (b := mkB l r); auto.
      * split; auto. split; auto. intros s I. exists s. auto.
      * intros i. cbn [requests_of a_codes]. destruct (same_id id i); auto.
      * cbn [a_pubs]. rewrite app_nil_r. auto.
  - (* PUBLISH *)
    destruct (deliver_spec b p O E) as (ss & -> & F). cbn [obind]. eexists _, _. split; [reflexivity|].
    eapply inv_quiet; eauto.
    + eapply evolves_delivered; eauto.
    + cbn [a_pubs]. apply rinv_put; auto.
  - (* heartbeat *)
    eexists _, _. split; [reflexivity|]. unfold heartbeat. eapply inv_quiet; eauto.
    + assert (O' := O). rewrite Forall_forall in O'. apply evolves_with; auto. intros y Iy _. exact (O' y Iy).
    + cbn [a_pubs]. rewrite app_nil_r. auto.
  - (* disconnect *)
    unfold disconnect. destruct (get_session (b_sess b) id) as [s|] eqn:G.
    + destruct (get_session_in _ _ _ G) as [Is Es]. assert (Os : sess_ok s) by (rewrite Forall_forall in O; auto).
      destruct (reason =? reason_taken_over).
      * cbn [obind fst snd]. eexists _, _. split; [reflexivity|]. eapply inv_quiet; eauto.
        -- assert (O' := O). rewrite Forall_forall in O'. apply evolves_with; auto. intros y Iy _. exact (O' y Iy).
        -- cbn [a_pubs]. rewrite app_nil_r. auto.
      * destruct (will_disconnect_ok (ss_will s) reason (ss_expiry s =? 0) now (proj2 (proj2 Os))) as [W1 W2].
        destruct (will_disconnect (ss_will s) reason (ss_expiry s =? 0) now) as [p w]. cbn [fst snd] in W1, W2.
        set (ss := if ss_expiry s =? 0 then _ else _).
        assert (V : evolves (b_sess b) ss).
        { unfold ss. destruct (ss_expiry s =? 0); [apply evolves_filter; auto|]. assert (O' := O). rewrite Forall_forall in O'. apply evolves_with; auto.
          intros y Iy _. destruct (O' y Iy) as (A & B & C). repeat split; auto. }
        destruct (deliver_opt_spec ss (b_retain b) p (published h) (times_of h)) as (l' & r' & out & -> & V' & R' & _); auto; [apply V|apply V|].
        cbn [obind fst snd]. eexists _, _. split; [reflexivity|]. eapply inv_quiet; eauto. eapply evolves_trans; eauto.
    + cbn [obind fst snd]. eexists _, _. split; [reflexivity|]. destruct b as [l r]. apply inv_quiet with (b := mkB l r); auto.
      * split; auto. split; auto. intros s I. exists s. auto.
      * cbn [a_pubs]. rewrite app_nil_r. auto.
  - (* maintenance *)
    unfold maintain. destruct (maintain_loop_spec now (length (b_sess b)) [] (b_sess b) (b_retain b) (published h) (times_of h)) as (l' & r' & out & -> & V & R'); auto.
    cbn [obind fst snd]. eexists _, _. split; [reflexivity|]. eapply inv_quiet; eauto.
Qed.

Lemma brun_inv : forall es b h, inv b h -> Forall event_ok es -> asked (map fst h) + asked es <= 65536 ->
  exists b' h', brun b es = Done (b', h') /\ map fst h' = es /\ inv b' (h ++ h').
Proof.
  induction es as [|e es IH]; intros b h I F Z; cbn [brun].
  - exists b, []. rewrite app_nil_r. auto.
  - apply Forall_cons_iff in F as [E F]. assert (A : asked (e :: es) = asked [e] + asked es) by (apply (asked_app [e] es)). pose proof (asked_nonneg es).
    destruct (bstep_inv b h e I E ltac:(lia)) as (b1 & a & -> & I1). cbn [obind fst snd].
    destruct (IH b1 (h ++ [(e, a)]) I1 F) as (b' & h' & -> & M & I').
    + rewrite map_app, asked_app. cbn [map fst]. lia.
    + cbn [obind fst snd]. exists b', ((e, a) :: h'). split; auto. split; [cbn [map fst]; congruence|]. rewrite <- app_assoc in I'. exact I'.
Qed.

Lemma inv_start : inv start [].
Proof.
  split; [constructor|]. split; [constructor|]. split; [intros s []|]. split; [split; constructor|]. split; [intros q []|].
  intros q (_ & b & a & E & _). destruct b; discriminate.
Qed.

(** ** Histories from the start *)
Lemma run_ok : forall es, Forall event_ok es -> asked es <= 65536 ->
  exists b h, brun start es = Done (b, h) /\ map fst h = es /\ inv b h.
Proof.
  intros es F Z. destruct (brun_inv es start [] inv_start F) as (b & h & R & M & I); [exact Z|]. exists b, h. auto.
Qed.
Lemma run_det : forall es b h, Forall event_ok es -> asked es <= 65536 -> brun start es = Done (b, h) -> map fst h = es /\ inv b h.
Proof. intros es b h F Z R. destruct (run_ok es F Z) as (b1 & h1 & R1 & M & I). rewrite R in R1. injection R1 as <- <-. auto. Qed.

Lemma inv_subscribed : forall b h s f q, inv b h -> In s (b_sess b) ->
  (In (f, q) (pairs (ss_subs s)) <-> subscribed (requests (ss_id s) h) f q).
Proof.
  intros b h s f q (O & N & S & R) I. rewrite Forall_forall in O. destruct (O s I) as (_ & ND & _).
  rewrite <- slookup_some by auto. destruct (S s I) as [_ L]. rewrite L. apply cur_spec.
Qed.
Lemma pairs_fst : forall l, map fst (pairs l) = map s_filter l.
Proof. intros. unfold pairs. rewrite map_map. apply map_ext. auto. Qed.

Lemma inv_subscriptions : forall b h s, inv b h -> In s (b_sess b) -> subscriptions h (ss_id s) (pairs (ss_subs s)).
Proof.
  intros b h s I Is. split.
  - rewrite pairs_fst. destruct I as (O & _). rewrite Forall_forall in O. apply O. auto.
  - intros. apply inv_subscribed with (b := b); auto.
Qed.

(** *** UNSUBSCRIBE answers *)
Lemma remove_topics_codes : forall source target, good_subs target -> Forall (fun s => s_qos s = 0) source -> NoDup (map s_filter source) ->
  exists t' src, remove_topics target source = Done (t', src) /\
    map s_qos src = map (fun s => match slookup target (s_filter s) with Some _ => 0 | None => 17 end) source.
Proof.
  induction source as [|s source IH]; intros target G F N; cbn [remove_topics map].
  - exists target, []. auto.
  - apply Forall_cons_iff in F as [Q F]. cbn [map] in N. apply NoDup_cons_iff in N as [Ns N]. rewrite Q. cbn [Z.eqb negb].
    destruct (remove_topic_spec target (s_filter s) G) as (l' & -> & G' & Z' & L'). cbn [obind snd fst].
    destruct (IH l' G' F N) as (t' & src & -> & M). cbn [obind snd fst]. eexists t', _. split; [reflexivity|]. cbn [map s_qos]. f_equal.
    + destruct (slookup target (s_filter s)) eqn:E.
      * replace (inb (s_filter s) target) with true; auto. symmetry. apply inb_spec. destruct (in_dec (list_eq_dec Z.eq_dec) (s_filter s) (map s_filter target)); auto.
        apply slookup_none in n. congruence.
      * apply slookup_none in E. destruct (inb (s_filter s) target) eqn:B; auto. apply inb_spec in B. tauto.
    + rewrite M. apply map_ext_in. intros x Ix. rewrite L'. replace (str_same (s_filter s) (s_filter x)) with false; auto.
      symmetry. apply str_same_false. intros C. apply Ns. rewrite C. apply in_map. auto.
Qed.

(** *** Sessions of disconnected clients *)
Definition kept (id : list Z) (E : Z) (s : sess) (b : broker) : Prop :=
  NoDup (map ss_id (b_sess b)) /\
  exists s' more moreR, get_session (b_sess b) id = Some s' /\ ss_expire s' = E /\ ss_subs s' = ss_subs s /\ ss_expiry s' = ss_expiry s /\
    ss_to s' = ss_to s ++ more /\ ss_delayed s' = ss_delayed s ++ moreR /\ ss_from s' = ss_from s.

Lemma get_forall2 : forall (R : sess -> sess -> Prop) l l' id s, (forall a b, R a b -> ss_id b = ss_id a) -> Forall2 R l l' ->
  get_session l id = Some s -> exists s', get_session l' id = Some s' /\ R s s'.
Proof.
  intros R l l' id s H F. induction F as [|x y l l' r F IH]; cbn [get_session]; [discriminate|].
  rewrite (H _ _ r). destruct (str_same (ss_id x) id); auto. intros [= <-]. eauto.
Qed.
Lemma get_with_other : forall l id i f, (forall s, ss_id (f s) = ss_id s) -> i <> id -> get_session (with_session l i f) id = get_session l id.
Proof.
  intros l id i f H N. induction l as [|x l IH]; cbn [with_session get_session]; auto. destruct (str_same (ss_id x) i) eqn:E; cbn [get_session].
  - rewrite H. apply str_same_iff in E. replace (str_same (ss_id x) id) with false; auto. symmetry. apply str_same_false. congruence.
  - rewrite IH. auto.
Qed.
Lemma get_filter_other : forall l id i, i <> id -> get_session (filter (fun x => negb (str_same (ss_id x) i)) l) id = get_session l id.
Proof.
  intros l id i N. induction l as [|x l IH]; cbn [filter get_session]; auto. destruct (str_same (ss_id x) i) eqn:E; cbn [negb get_session].
  - apply str_same_iff in E. rewrite IH. replace (str_same (ss_id x) id) with false; auto. symmetry. apply str_same_false. congruence.
  - rewrite IH. auto.
Qed.
Lemma kept_same : forall id E s b b', kept id E s b -> NoDup (map ss_id (b_sess b')) -> get_session (b_sess b') id = get_session (b_sess b) id -> kept id E s b'.
Proof. intros id E s b b' (_ & K) N G. split; auto. rewrite G. auto. Qed.
Lemma kept_deliver : forall id E s l r p l' r' out, kept id E s (mkB l r) -> deliver_opt (mkB l r) p = Done (mkB l' r', out) ->
  Forall sess_ok l -> match p with Some p => pub_ok p | None => True end -> kept id E s (mkB l' r').
Proof.
  intros id E s l r p l' r' out (N & s' & m1 & m2 & G & X1 & X2 & X3 & X4 & X5 & X6) D O P. destruct p as [p|]; cbn [deliver_opt] in D.
  - destruct (deliver_spec (mkB l r) p O P) as (ss & ED & F). rewrite ED in D. cbn [obind b_sess] in *. injection D as <- <- <-.
    split; [cbn [b_sess]; destruct (Forall2_delivered p l ss F) as (-> & _); auto|].
    destruct (get_forall2 (delivered p) l ss id s' (fun a b H => proj1 (delivered_id _ _ _ H)) F G) as (s2 & G2 & cs & -> & _).
    exists (set_to s' (ss_to s' ++ cs)), (m1 ++ cs), m2. split; [exact G2|]. cbn [ss_expire ss_subs ss_expiry ss_to ss_delayed ss_from set_to]. rewrite X4, app_assoc. auto 10.
  - injection D as <- <- <-. split; auto. exists s', m1, m2. auto 10.
Qed.

(** One run of the maintenance keeps the session. *)
Lemma maintain_loop_kept : forall now id E s fuel dn todo r b' out,
  (length todo <= fuel)%nat -> Forall sess_ok (dn ++ todo) -> retain_ok r -> now < E -> E <> 0 -> kept id E s (mkB (dn ++ todo) r) ->
  maintain_loop now fuel dn todo r = Done (b', out) -> kept id E s b'.
Proof.
  intros now id E s. induction fuel as [|fuel IH]; intros dn todo r b' out L O R T T0 K M.
  - destruct todo; [|cbn in L; lia]. cbn [maintain_loop] in M. injection M as <- <-. rewrite app_nil_r in K. auto.
  - destruct todo as [|x todo]; cbn [maintain_loop] in M.
    + injection M as <- <-. rewrite app_nil_r in K. auto.
    + assert (Os : sess_ok x). { apply Forall_app in O as [_ O]. apply Forall_inv in O. auto. }
      destruct (will_due_ok (ss_will x) (do_expire x now) now (proj2 (proj2 Os))) as [W1 W2].
      destruct (will_due (ss_will x) (do_expire x now) now) as [p w]. cbn [fst snd] in W1, W2.
      assert (N := K). destruct N as (N & _). cbn [b_sess] in N.
      assert (Ri : rinv r [] (fun _ => True) \/ True) by auto. clear Ri.
      assert (exists l1 r1 out1, deliver_opt (mkB (dn ++ x :: todo) r) p = Done (mkB l1 r1, out1) /\ Forall sess_ok l1 /\ retain_ok r1 /\
        Forall2 (fun s s' => ss_id s' = ss_id s /\ ss_expire s' = ss_expire s /\ ss_heart s' = ss_heart s) (dn ++ x :: todo) l1) as (l1 & r1 & out1 & D & O1 & R1 & F2).
      { destruct p as [p|]; cbn [deliver_opt].
        - destruct (deliver_spec (mkB (dn ++ x :: todo) r) p O W1) as (ss & -> & F). cbn [obind b_sess b_retain] in *. eexists _, _, _. split; [reflexivity|].
          split; [|split; [apply put_retained_ok; auto|]].
          + destruct (Forall2_delivered p _ _ F) as (_ & _ & H & _). auto.
          + clear - F. induction F as [|s s' l l' D F IH]; constructor; auto. destruct D as (cs & -> & _). auto.
        - eexists _, _, _. split; [reflexivity|]. split; auto. split; auto. clear. induction (dn ++ x :: todo); constructor; auto. }
      pose proof (kept_deliver id E s _ _ _ _ _ _ K D O W1) as K1. rewrite D in M. cbn [obind fst snd b_sess b_retain] in M.
      apply Forall2_app_inv_l in F2 as (d1 & t1 & Fd & Ft & ->). inversion Ft as [|s0 s1 td t2 H1 H2 E1 E2]. subst s0 td t1.
      assert (Ld : length dn = length d1) by (eapply Forall2_length; eauto).
      rewrite Ld, firstn_app, firstn_all, Nat.sub_diag, skipn_app, skipn_all, Nat.sub_diag in M. cbn [firstn skipn app] in M. rewrite app_nil_r in M.
      set (mid := if do_expire x now then [] else [set_will s1 w]) in *.
      destruct (maintain_loop now fuel (d1 ++ mid) t2 r1) as [[b2 out2]|] eqn:ML; [|discriminate]. cbn [obind fst snd] in M. injection M as <- <-.
      apply (IH (d1 ++ mid) t2 r1 b2 out2); auto.
      * apply Forall2_length in H2. cbn in L. lia.
      * rewrite Forall_app, Forall_cons_iff in O1. destruct O1 as (O1 & O2 & O3). unfold mid. destruct (do_expire x now).
        -- rewrite app_nil_r. apply Forall_app. auto.
        -- rewrite <- app_assoc. apply Forall_app. split; auto. constructor; auto. destruct O2 as (A & B & C). repeat split; auto.
      * (* the session itself *)
        destruct K1 as (N1 & s' & m1 & m2 & G & X1 & X2). cbn [b_sess] in N1, G. destruct H1 as (H1 & H3 & H4). unfold mid.
        destruct (do_expire x now) eqn:DE.
        -- rewrite app_nil_r. split; cbn [b_sess].
           ++ rewrite map_app in *. cbn [map] in N1. apply NoDup_remove_1 in N1. auto.
           ++ exists s', m1, m2. split; [|auto].
              assert (Q : ss_id s1 <> id).
              { intros Q. apply get_session_in in G as [I1 I2]. assert (s' = s1).
                { assert (G1 : get_session (d1 ++ s1 :: t2) (ss_id s1) = Some s1) by (apply get_session_some; auto; apply in_app_iff; right; left; auto).
                  assert (G2 : get_session (d1 ++ s1 :: t2) (ss_id s') = Some s') by (apply get_session_some; auto).
                  rewrite I2, <- Q, G1 in G2. congruence. }
                subst s'. unfold do_expire in DE. rewrite <- H3, X1 in DE. lia. }
              rewrite <- G. clear - Q. induction d1 as [|y d1 IHd]; cbn [app get_session].
              ** replace (str_same (ss_id s1) id) with false; auto. symmetry. apply str_same_false. auto.
              ** rewrite IHd. auto.
        -- rewrite <- app_assoc. cbn [app]. split; cbn [b_sess].
           ++ rewrite map_app in *. cbn [map] in *. exact N1.
           ++ destruct (list_eq_dec Z.eq_dec (ss_id s1) id) as [Q|Q].
              ** apply get_session_in in G as [I1 I2]. assert (s' = s1).
                 { assert (G1 : get_session (d1 ++ s1 :: t2) (ss_id s1) = Some s1) by (apply get_session_some; auto; apply in_app_iff; right; left; auto).
                   assert (G2 : get_session (d1 ++ s1 :: t2) (ss_id s') = Some s') by (apply get_session_some; auto).
                   rewrite I2, <- Q, G1 in G2. congruence. }
                 subst s'. exists (set_will s1 w), m1, m2. split; [|exact (conj X1 X2)].
                 replace id with (ss_id (set_will s1 w)) at 1 by exact Q. apply get_session_some.
                 { rewrite map_app in *. cbn [map] in *. exact N1. } apply in_app_iff. right. left. auto.
              ** exists s', m1, m2. split; [|auto]. rewrite <- G. clear - Q. induction d1 as [|y d1 IHd]; cbn [app get_session].
                 { replace (str_same (ss_id s1) id) with false by (symmetry; apply str_same_false; auto).
                   replace (str_same (ss_id (set_will s1 w)) id) with false; auto. symmetry. apply str_same_false. exact Q. }
                 rewrite IHd. auto.
Qed.

Lemma bstep_kept : forall b h e b' a id E s, inv b h -> event_ok e -> asked (map fst h) + asked [e] <= 65536 -> E <> 0 ->
  kept id E s b -> away id E e -> bstep b e = Done (b', a) -> kept id E s b'.
Proof.
  intros b h e b' a id E s I OK Z E0 K A B. assert (J : inv b' (h ++ [(e, a)])).
  { destruct (bstep_inv b h e I OK Z) as (b1 & a1 & B1 & J). rewrite B in B1. injection B1 as <- <-. auto. }
  destruct I as (O & N & S & R). assert (N' : NoDup (map ss_id (b_sess b'))) by apply J.
  destruct e as [i c x m w now|i req now|i req|p|i now|i reason now|now]; cbn [bstep away] in *.
  - unfold connect in B. rewrite find_session_spec in B by auto. cbn [obind fst snd] in B. injection B as <- _. cbn [b_sess] in *.
    eapply kept_same; eauto. cbn [b_sess]. rewrite get_with_other; auto; [|intros y; destruct c; reflexivity].
    destruct (get_session (b_sess b) i); auto. cbn [get_session new_session ss_id]. replace (str_same i id) with false; auto. symmetry. apply str_same_false. auto.
  - unfold subscribe in B. destruct (get_session (b_sess b) i) as [y|]; [|injection B as <- _; auto]. destruct req as [|r0 req]; [discriminate|].
    destruct (append_unique (ss_subs y) (r0 :: req)) as [[t n]|]; [|discriminate]. cbn [obind] in B.
    destruct (match n with [] => Done (b_retain b, []) | _ :: _ => iterate_retain now (b_retain b) n end) as [rr|]; [|discriminate]. cbn [obind fst snd] in B.
    injection B as <- _. eapply kept_same; eauto. cbn [b_sess]. apply get_with_other; auto.
  - unfold unsubscribe in B. destruct (get_session (b_sess b) i) as [y|]; [|injection B as <- _; auto].
    destruct (remove_topics (ss_subs y) req) as [t|]; [|discriminate]. cbn [obind fst snd] in B.
    injection B as <- _. eapply kept_same; eauto. cbn [b_sess]. apply get_with_other; auto.
  - destruct (deliver b p) as [[l' r']|] eqn:D; [|discriminate]. cbn [obind] in B. injection B as <- _. destruct b as [l r].
    apply (kept_deliver id E s l r (Some p) l' r' [p]); auto. cbn [deliver_opt]. rewrite D. auto.
  - injection B as <- _. unfold heartbeat. eapply kept_same; eauto. cbn [b_sess]. apply get_with_other; auto.
  - unfold disconnect in B. destruct (get_session (b_sess b) i) as [y|] eqn:G; [|injection B as <- _; auto].
    destruct (get_session_in _ _ _ G) as [Is Es]. assert (Os : sess_ok y) by (rewrite Forall_forall in O; auto).
    destruct (reason =? reason_taken_over).
    + cbn [obind fst snd] in B. injection B as <- _. eapply kept_same; eauto. cbn [b_sess]. apply get_with_other; auto.
    + destruct (will_disconnect_ok (ss_will y) reason (ss_expiry y =? 0) now (proj2 (proj2 Os))) as [W1 W2].
      destruct (will_disconnect (ss_will y) reason (ss_expiry y =? 0) now) as [p w]. cbn [fst snd] in W1, W2.
      set (ss := if ss_expiry y =? 0 then _ else _) in *.
      assert (V : evolves (b_sess b) ss).
      { unfold ss. destruct (ss_expiry y =? 0); [apply evolves_filter; auto|]. assert (O' := O). rewrite Forall_forall in O'. apply evolves_with; auto.
        intros z Iz _. destruct (O' z Iz) as (A1 & B1 & C1). repeat split; auto. }
      assert (K1 : kept id E s (mkB ss (b_retain b))).
      { eapply kept_same; eauto; cbn [b_sess]; [apply V|]. unfold ss. destruct (ss_expiry y =? 0); [apply get_filter_other; auto|apply get_with_other; auto]. }
      destruct (deliver_opt (mkB ss (b_retain b)) p) as [[[l' r'] o]|] eqn:D; [|discriminate]. cbn [obind fst snd] in B. injection B as <- _.
      eapply kept_deliver; eauto. apply V.
  - unfold maintain in B. destruct (maintain_loop now (length (b_sess b)) [] (b_sess b) (b_retain b)) as [[b2 o]|] eqn:M; [|discriminate].
    cbn [obind fst snd] in B. injection B as <- _. eapply maintain_loop_kept with (dn := []); eauto. apply R.
Qed.
Lemma brun_kept : forall es b h b' h' id E s, inv b h -> Forall event_ok es -> asked (map fst h) + asked es <= 65536 -> E <> 0 ->
  kept id E s b -> Forall (away id E) es -> brun b es = Done (b', h') -> kept id E s b'.
Proof.
  induction es as [|e es IH]; intros b h b' h' id E s I F Z E0 K A B; cbn [brun] in B.
  - injection B as <- _. auto.
  - apply Forall_cons_iff in F as [OK F]. apply Forall_cons_iff in A as [Ae A]. assert (Q : asked (e :: es) = asked [e] + asked es) by (apply (asked_app [e] es)). pose proof (asked_nonneg es).
    destruct (bstep_inv b h e I OK ltac:(lia)) as (b1 & a & B1 & I1). rewrite B1 in B. cbn [obind fst snd] in B.
    destruct (brun b1 es) as [[b2 h2]|] eqn:B2; [|discriminate]. cbn [obind fst snd] in B. injection B as <- _.
    eapply IH with (h := h ++ [(e, a)]); eauto.
    + rewrite map_app, asked_app. cbn [map fst]. lia.
    + apply (bstep_kept b h e b1 a id E s); auto. lia.
Qed.

(** ** Wills published by the maintenance *)
Definition due (now : Z) (s : sess) : list pub :=
  match fst (will_due (ss_will s) (do_expire s now) now) with Some p => [p] | None => [] end.
Lemma maintain_loop_pubs : forall now fuel dn todo r b' out,
  (length todo <= fuel)%nat -> Forall sess_ok (dn ++ todo) ->
  maintain_loop now fuel dn todo r = Done (b', out) -> out = flat_map (due now) todo.
Proof.
  intros now. induction fuel as [|fuel IH]; intros dn todo r b' out L O M.
  - destruct todo; [|cbn in L; lia]. cbn [maintain_loop] in M. injection M as <- <-. auto.
  - destruct todo as [|x todo]; cbn [maintain_loop] in M.
    + injection M as <- <-. auto.
    + assert (Os : sess_ok x). { apply Forall_app in O as [_ O]. apply Forall_inv in O. auto. }
      destruct (will_due_ok (ss_will x) (do_expire x now) now (proj2 (proj2 Os))) as [W1 W2].
      cbn [flat_map]. unfold due at 1. destruct (will_due (ss_will x) (do_expire x now) now) as [p w]. cbn [fst snd] in W1, W2 |- *.
      assert (exists l1 r1, deliver_opt (mkB (dn ++ x :: todo) r) p = Done (mkB l1 r1, match p with Some p => [p] | None => [] end) /\ Forall sess_ok l1 /\
        Forall2 (fun s s' => ss_will s' = ss_will s /\ ss_expire s' = ss_expire s /\ ss_heart s' = ss_heart s) (dn ++ x :: todo) l1) as (l1 & r1 & D & O1 & F2).
      { destruct p as [p|]; cbn [deliver_opt].
        - destruct (deliver_spec (mkB (dn ++ x :: todo) r) p O W1) as (ss & -> & F). cbn [obind b_sess b_retain] in *. eexists _, _. split; [reflexivity|].
          split.
          + destruct (Forall2_delivered p _ _ F) as (_ & _ & H & _). auto.
          + clear - F. induction F as [|s s' l l' D F IH]; constructor; auto. destruct D as (cs & -> & _). auto.
        - eexists _, _. split; [reflexivity|]. split; auto. clear. induction (dn ++ x :: todo); constructor; auto. }
      rewrite D in M. cbn [obind fst snd b_sess b_retain] in M.
      apply Forall2_app_inv_l in F2 as (d1 & t1 & Fd & Ft & ->). inversion Ft as [|s0 s1 td t2 H1 H2 E1 E2]. subst s0 td t1.
      assert (Ld : length dn = length d1) by (eapply Forall2_length; eauto).
      rewrite Ld, firstn_app, firstn_all, Nat.sub_diag, skipn_app, skipn_all, Nat.sub_diag in M. cbn [firstn skipn app] in M. rewrite app_nil_r in M.
      set (mid := if do_expire x now then [] else [set_will s1 w]) in *.
      destruct (maintain_loop now fuel (d1 ++ mid) t2 r1) as [[b2 out2]|] eqn:ML; [|discriminate]. cbn [obind fst snd] in M. injection M as <- <-.
      f_equal. apply IH in ML.
      * rewrite ML. clear - H2. induction H2 as [|a b l l' (A & B & C) F IH]; cbn [flat_map]; auto. rewrite IH. f_equal. unfold due, do_expire. rewrite A, B, C. auto.
      * apply Forall2_length in H2. cbn in L. lia.
      * rewrite Forall_app, Forall_cons_iff in O1. destruct O1 as (O1 & O2 & O3). unfold mid. destruct (do_expire x now).
        -- rewrite app_nil_r. apply Forall_app. auto.
        -- rewrite <- app_assoc. apply Forall_app. split; auto. constructor; auto. destruct O2 as (A & B & C). repeat split; auto.
Qed.

(** ** One more event after a history *)
Lemma after_unsubscribe : forall b h id req, inv b h -> In id (map ss_id (b_sess b)) -> Forall (fun s => s_qos s = 0) req -> NoDup (map s_filter req) ->
  exists b' codes, bstep b (EUnsubscribe id req) = Done (b', mkA false (Some codes) []) /\
    Forall2 (fun s c => (c = 0 /\ exists q, subscribed (requests id h) (s_filter s) q) \/
                        (c = 17 /\ forall q, ~ subscribed (requests id h) (s_filter s) q)) req codes.
Proof.
  intros b h id req (O & N & S & R) I F ND. apply in_map_iff in I as (s & <- & I). cbn [bstep]. unfold unsubscribe. rewrite get_session_some by auto.
  rewrite Forall_forall in O. destruct (O s I) as (O1 & O2 & _). destruct (remove_topics_codes req (ss_subs s) (conj O1 O2) F ND) as (t' & src & -> & M).
  cbn [obind fst snd]. rewrite M. eexists _, _. split; [reflexivity|]. destruct (S s I) as [_ L]. clear - L.
  induction req as [|x req IH]; cbn [map]; constructor; auto. rewrite L.
  destruct (cur (requests (ss_id s) h) (s_filter x)) as [q|] eqn:E.
  - left. split; auto. exists q. apply cur_spec. auto.
  - right. split; auto. intros q C. apply cur_spec in C. congruence.
Qed.
Lemma after_publish : forall b h p, inv b h -> pub_ok p ->
  exists b', bstep b (EPublish p) = Done (b', mkA false None [p]) /\
    Forall2 (fun s s' => exists subs cs, subscriptions h (ss_id s) subs /\
      ss_id s' = ss_id s /\ ss_to s' = ss_to s ++ cs /\ ss_delayed s' = ss_delayed s /\
      ((ss_max s <> 0 /\ ss_max s < p_size p /\ cs = []) \/ ((ss_max s = 0 \/ p_size p <= ss_max s) /\ copies false p subs cs))) (b_sess b) (b_sess b').
Proof.
  intros b h p I P. assert (I' := I). destruct I' as (O & N & S & R). cbn [bstep]. destruct (deliver_spec b p O P) as (ss & -> & F). cbn [obind].
  eexists. split; [reflexivity|]. cbn [b_sess]. pose proof (fun s => inv_subscriptions b h s I) as V. clear - F V.
  induction F as [|s s' l l' D F IH]; constructor.
  - destruct D as (cs & -> & D). exists (pairs (ss_subs s)), cs. split; [apply V; left; auto|]. auto.
  - apply IH. intros x Ix. apply V. right. auto.
Qed.
Lemma after_subscribe : forall b h id req now, inv b h -> event_ok (ESubscribe id req now) -> asked (map fst h) + zlen req <= 65536 ->
  In id (map ss_id (b_sess b)) -> (forall t, times_of h t -> t <= now) ->
  exists b' s s' rs cs, bstep b (ESubscribe id req now) = Done (b', mkA false (Some (map s_qos req)) []) /\
    get_session (b_sess b) id = Some s /\ get_session (b_sess b') id = Some s' /\
    ss_to s' = ss_to s /\ ss_delayed s' = ss_delayed s ++ concat cs /\
    NoDup (map p_topic rs) /\
    (let news := filter (fun x => (s_qos x <=? 2) && negb (inb (s_filter x) (ss_subs s))) req in news = [] \/
     (forall p, In p rs <-> last_retained (published h) p /\ p_payload p <> [] /\ ~ too_old now p)) /\
    Forall2 (fun p c => copies true p (pairs (filter (fun x => (s_qos x <=? 2) && negb (inb (s_filter x) (ss_subs s))) req)) c) rs cs.
Proof.
  intros b h id req now I (E1 & E2 & E3) Z J T. destruct I as (O & N & S & R). apply in_map_iff in J as (s & Es & Is). cbn [bstep]. unfold subscribe.
  assert (G : get_session (b_sess b) id = Some s) by (rewrite <- Es; apply get_session_some; auto). rewrite G.
  destruct req as [|r0 req']; [congruence|]. set (req := r0 :: req') in *.
  rewrite Forall_forall in O. destruct (O s Is) as (O1 & O2 & O3). destruct (S s Is) as [Zs Ls].
  destruct (append_unique_spec req (ss_subs s) (conj O1 O2) E2 ltac:(lia)) as (t' & news & -> & G' & Z' & LK & NN & FN). cbn [obind].
  rewrite (NN E3) in *. clear NN. set (nw := filter (fun x => (s_qos x <=? 2) && negb (inb (s_filter x) (ss_subs s))) req) in *. destruct R as (K & A & B).
  assert (X : exists rt cs rs, (match nw with [] => Done (b_retain b, []) | _ :: _ => iterate_retain now (b_retain b) nw end) = Done (rt, concat cs) /\
    Forall2 (fun p c => copies true p (pairs nw) c) rs cs /\ NoDup (map p_topic rs) /\
    (nw = [] \/ forall p, In p rs <-> last_retained (published h) p /\ p_payload p <> [] /\ ~ too_old now p)).
  { destruct nw as [|n0 nws] eqn:NE.
    - exists (b_retain b), [], []. split; auto. split; [constructor|]. split; [constructor|auto].
    - destruct (iterate_retain_spec now (b_retain b) (n0 :: nws) K FN) as (cs & -> & C). eexists _, cs, _. split; [reflexivity|]. split; [exact C|]. split.
      + apply retain_ok_filter. auto.
      + right. intros p. rewrite filter_In. split.
        * intros [Ip X]. split; auto. split.
          -- destruct K as [K _]. rewrite Forall_forall in K. apply K. auto.
          -- intros C2. apply expired_spec in C2. rewrite C2 in X. discriminate.
        * intros (L & P & X). destruct (B p L P) as [Ip|(t & Ht & Ho)].
          -- split; auto. destruct (expired now p) eqn:Y; auto. apply expired_spec in Y. tauto.
          -- exfalso. apply X. destruct Ho as [Ho1 Ho2]. split; auto. apply T in Ht. lia. }
  destruct X as (rt & cs & rs & -> & F & ND & D). cbn [obind fst snd]. eexists _, s, _, rs, cs. split; [reflexivity|]. split; auto. cbn [b_sess].
  split; [apply with_session_get; [reflexivity|exact G]|]. cbn [ss_to ss_delayed set_delayed set_subs]. auto 10.
Qed.

Lemma after_disconnect : forall b h id reason now s, inv b h -> get_session (b_sess b) id = Some s -> reason <> 142 ->
  0 < ss_expiry s < 4294967295 -> 0 <= now ->
  exists b' a, bstep b (EDisconnect id reason now) = Done (b', a) /\ kept id (now + ss_expiry s * 1000000) s b'.
Proof.
  intros b h id reason now s (O & N & S & R) G NR X NW. cbn [bstep]. unfold disconnect. rewrite G. destruct (get_session_in _ _ _ G) as [Is Es].
  assert (Os : sess_ok s) by (rewrite Forall_forall in O; auto).
  replace (reason =? reason_taken_over) with false by (unfold reason_taken_over; lia). replace (ss_expiry s =? 0) with false by lia.
  destruct (will_disconnect_ok (ss_will s) reason false now (proj2 (proj2 Os))) as [W1 W2].
  destruct (will_disconnect (ss_will s) reason false now) as [p w]. cbn [fst snd] in W1, W2. set (ss := with_session _ _ _).
  assert (V : evolves (b_sess b) ss).
  { unfold ss. assert (O' := O). rewrite Forall_forall in O'. apply evolves_with; auto. intros y Iy _. destruct (O' y Iy) as (A & B & C). repeat split; auto. }
  assert (K : kept id (now + ss_expiry s * 1000000) s (mkB ss (b_retain b))).
  { split; [apply V|]. eexists _, [], []. cbn [b_sess]. split; [unfold ss; apply with_session_get; [reflexivity|exact G]|].
    cbn [ss_expire ss_subs ss_expiry ss_to ss_delayed ss_from set_will set_expire]. unfold expire_at. replace (ss_expiry s =? 4294967295) with false by lia.
    replace (ss_expiry s =? 0) with false by lia. rewrite !app_nil_r. repeat split; auto. lia. }
  destruct (deliver_opt_spec ss (b_retain b) p (published h) (times_of h)) as (l' & r' & out & D & V' & _); auto; [apply V|apply V|]. rewrite D.
  cbn [obind fst snd]. eexists _, _. split; [reflexivity|]. eapply kept_deliver; eauto. apply V.
Qed.

(** The filters of a SUBSCRIBE packet which are granted and new. *)
Lemma news_spec : forall b h s req, inv b h -> In s (b_sess b) ->
  forall f q, In (f, q) (pairs (filter (fun x => (s_qos x <=? 2) && negb (inb (s_filter x) (ss_subs s))) req)) <->
    (exists x, In x req /\ s_filter x = f /\ s_qos x = q) /\ q <= 2 /\ (forall q', ~ subscribed (requests (ss_id s) h) f q').
Proof.
  intros b h s req I Is f q. destruct I as (_ & _ & S & _). destruct (S s Is) as [_ L].
  assert (A : forall f, inb f (ss_subs s) = false <-> forall q', ~ subscribed (requests (ss_id s) h) f q').
  { intros g. split.
    - intros B q' C. apply cur_spec in C. rewrite <- L in C. assert (D : slookup (ss_subs s) g = None).
      { apply slookup_none. intros D. apply inb_spec in D. congruence. } congruence.
    - intros B. destruct (inb g (ss_subs s)) eqn:E; auto. exfalso. apply inb_spec in E. destruct (slookup (ss_subs s) g) as [q'|] eqn:F.
      + rewrite L in F. apply cur_spec in F. apply (B q' F).
      + apply slookup_none in F. tauto. }
  unfold pairs. rewrite in_map_iff. split.
  - intros (x & [= <- <-] & J). apply filter_In in J as [J1 J2]. apply andb_true_iff in J2 as [J2 J3]. apply negb_true_iff in J3.
    split; [exists x; auto|]. split; [lia|]. apply A. auto.
  - intros ((x & J & <- & <-) & Q & B). exists x. split; auto. apply filter_In. split; auto. apply A in B. rewrite B. cbn. lia.
Qed.
Lemma news_nodup : forall (h : sub -> bool) l, NoDup (map s_filter l) -> NoDup (map fst (pairs (filter h l))).
Proof.
  intros h l. rewrite pairs_fst. induction l as [|x l IH]; intros B; auto. cbn [map] in B. apply NoDup_cons_iff in B as [N B]. cbn [filter]. destruct (h x); auto.
  cbn [map]. constructor; auto. intros I. apply N. apply in_map_iff in I as (y & E & I). apply filter_In in I as [I _]. rewrite <- E. apply in_map. auto.
Qed.

Lemma disconnect_will : forall b h id s p d t reason now b' a, inv b h -> get_session (b_sess b) id = Some s -> ss_will s = Some (p, d, t) ->
  0 <= d <= 4294 -> 0 < now -> reason <> 142 -> bstep b (EDisconnect id reason now) = Done (b', a) ->
    (reason = 0 -> a_pubs a = [] /\ forall s', get_session (b_sess b') id = Some s' -> ss_will s' = None) /\
    (reason <> 0 -> (ss_expiry s = 0 \/ d = 0) -> a_pubs a = [p] /\ forall s', get_session (b_sess b') id = Some s' -> ss_will s' = None) /\
    (reason <> 0 -> ss_expiry s <> 0 -> d <> 0 -> a_pubs a = [] /\ exists s', get_session (b_sess b') id = Some s' /\ ss_will s' = Some (p, d, now + d * 1000000)).
Proof.
  intros b h id s p d t reason now b' a I G W D NW NR B. destruct I as (O & N & S & R). destruct (get_session_in _ _ _ G) as [Is Es].
  assert (Os : sess_ok s) by (rewrite Forall_forall in O; auto).
  cbn [bstep] in B. unfold disconnect in B. rewrite G in B. replace (reason =? reason_taken_over) with false in B by (unfold reason_taken_over; lia).
  assert (WT : will_time now d = now + d * 1000000).
  { unfold will_time, u32. rewrite (Z.mod_small (d * 1000)) by lia. rewrite Z.mod_small by lia. lia. }
  destruct (will_disconnect_ok (ss_will s) reason (ss_expiry s =? 0) now (proj2 (proj2 Os))) as [W1 W2].
  assert (WD : will_disconnect (ss_will s) reason (ss_expiry s =? 0) now =
    if reason =? 0 then (None, None) else if (ss_expiry s =? 0) || (d =? 0) then (Some p, None) else (None, Some (p, d, now + d * 1000000))).
  { rewrite W. cbn [will_disconnect]. rewrite WT. destruct (Z.eqb_spec reason 0) as [->|NZ]; [reflexivity|].
    destruct (reason =? reason_with_will); cbn [will_due]; replace (now + d * 1000000 =? 0) with false by lia;
      replace (now + d * 1000000 <=? now) with (d =? 0) by lia; reflexivity. }
  rewrite WD in *. clear WD.
  set (q := if reason =? 0 then (None, None) else if (ss_expiry s =? 0) || (d =? 0) then (Some p, None) else (None, Some (p, d, now + d * 1000000))) in *.
  destruct q as [pq w] eqn:EQ. cbn [fst snd] in W1, W2.
  set (ss := if ss_expiry s =? 0 then _ else _) in *.
  assert (V : evolves (b_sess b) ss).
  { unfold ss. destruct (ss_expiry s =? 0); [apply evolves_filter; auto|]. assert (O' := O). rewrite Forall_forall in O'. apply evolves_with; auto.
    intros z Iz _. destruct (O' z Iz) as (A1 & B1 & C1). repeat split; auto. }
  assert (GS : forall s', get_session ss id = Some s' -> ss_will s' = w).
  { intros s' H. unfold ss in H. destruct (ss_expiry s =? 0).
    - exfalso. apply get_session_in in H as [H1 H2]. apply (filter_In (fun x => negb (str_same (ss_id x) id))) in H1 as [_ H1]. rewrite H2, str_same_refl in H1. discriminate.
    - rewrite with_session_get with (s := s) in H; [|reflexivity|exact G]. injection H as <-. reflexivity. }
  assert (GE : ss_expiry s <> 0 -> exists s', get_session ss id = Some s').
  { intros H. unfold ss. replace (ss_expiry s =? 0) with false by lia. eexists. apply with_session_get; [reflexivity|exact G]. }
  destruct (deliver_opt_spec ss (b_retain b) pq (published h) (times_of h)) as (l' & r' & out & DE & V' & _ & _ & F2); auto; [apply V|apply V|].
  assert (OUT : out = match pq with Some p => [p] | None => [] end).
  { destruct pq as [p0|]; cbn [deliver_opt] in DE; [destruct (deliver (mkB ss (b_retain b)) p0); cbn [obind] in DE; [|discriminate]|]; congruence. }
  rewrite DE in B. cbn [obind fst snd] in B. injection B as <- <-. cbn [a_pubs b_sess].
  assert (BK : forall s', get_session l' id = Some s' -> ss_will s' = w).
  { intros s' H. destruct (get_session ss id) as [s0|] eqn:G0.
    - destruct (get_forall2 (fun s s' => ss_id s' = ss_id s /\ ss_subs s' = ss_subs s /\ ss_will s' = ss_will s) ss l' id s0 (fun a b H => proj1 H) F2 G0) as (s2 & G2 & _ & _ & E2).
      rewrite H in G2. injection G2 as <-. rewrite E2. auto.
    - exfalso. apply get_session_none in G0. apply G0. apply get_session_in in H as [H1 H2]. destruct V' as (_ & _ & V'). destruct (V' s' H1) as (y & Iy & Ey & _).
      rewrite <- H2, Ey. apply in_map. auto. }
  split; [|split].
  - intros ->. injection EQ as <- <-. rewrite OUT. auto.
  - intros NZ C. unfold q in EQ. replace (reason =? 0) with false in EQ by lia. replace ((ss_expiry s =? 0) || (d =? 0)) with true in EQ by lia.
    injection EQ as <- <-. rewrite OUT. auto.
  - intros NZ C1 C2. unfold q in EQ. replace (reason =? 0) with false in EQ by lia. replace ((ss_expiry s =? 0) || (d =? 0)) with false in EQ by lia.
    injection EQ as <- <-. rewrite OUT. split; auto. destruct (GE C1) as (s0 & G0).
    destruct (get_forall2 (fun s s' => ss_id s' = ss_id s /\ ss_subs s' = ss_subs s /\ ss_will s' = ss_will s) ss l' id s0 (fun a b H => proj1 H) F2 G0) as (s2 & G2 & _ & _ & E2).
    exists s2. split; auto.
Qed.
