(** Proofs on two sessions and the connection between them. *)
From Coq Require Import ZArith List Bool Lia Permutation Sorted.
From Verif Require Import Common IdPoolModel MqttQosModel MqttQosSpec MqttQosProofs MqttQosRecvProofs.
Import ListNotations.
Open Scope Z_scope.

(** ** Parts of lists *)
Inductive sub {T} : list T -> list T -> Prop :=
| sub_nil : sub [] []
| sub_keep : forall x l l', sub l l' -> sub (x :: l) (x :: l')
| sub_skip : forall x l l', sub l l' -> sub l (x :: l').
Lemma sub_refl : forall T (l : list T), sub l l. Proof. induction l; constructor; auto. Qed.
Lemma lose_sub : forall T (l : list T) k, sub (lose k l) l.
Proof. intros T l. induction l as [|x l IH]; intros [|b k]; cbn [lose]; try (apply sub_refl). destruct b; constructor; auto. Qed.
Lemma sub_filter : forall T (f : T -> bool) l l', sub l l' -> sub (filter f l) (filter f l').
Proof. induction 1; cbn [filter]; [ constructor | | ]; destruct (f x); try constructor; auto. Qed.
Lemma sub_in : forall T (l l' : list T) x, sub l l' -> In x l -> In x l'.
Proof. induction 1; intros HI; [ exact HI | destruct HI as [->|HI]; [ left; auto | right; auto ] | right; auto ]. Qed.
Lemma sub_Forall : forall T (P : T -> Prop) l l', sub l l' -> Forall P l' -> Forall P l.
Proof. intros T P l l' HS HF. rewrite Forall_forall in *. intros x Hx. apply HF. eapply sub_in; eauto. Qed.
Lemma sub_app : forall T (u v l : list T), sub l (u ++ v) -> exists u' v', l = u' ++ v' /\ sub u' u /\ sub v' v.
Proof.
  intros T u. induction u as [|x u IH]; intros v l H; cbn [app] in H.
  - exists [], l. split; [ reflexivity | split; [ constructor | exact H ] ].
  - inversion H as [|? ? ? H1|? ? ? H1]; subst.
    + destruct (IH _ _ H1) as (u' & v' & -> & HU & HV). exists (x :: u'), v'. split; [ reflexivity | split; [ constructor; auto | auto ] ].
    + destruct (IH _ _ H1) as (u' & v' & -> & HU & HV). exists u', v'. split; [ reflexivity | split; [ constructor; auto | auto ] ].
Qed.
Definition two {T} (P Q : T -> Prop) (l : list T) : Prop := exists u v, l = u ++ v /\ Forall P u /\ Forall Q v.
Lemma two_sub : forall T (P Q : T -> Prop) l l', sub l l' -> two P Q l' -> two P Q l.
Proof.
  intros T P Q l l' HS (u & v & -> & HU & HV). destruct (sub_app _ _ _ _ HS) as (u' & v' & -> & H1 & H2).
  exists u', v'. split; [ reflexivity | split; eapply sub_Forall; eauto ].
Qed.
Lemma two_snoc : forall T (P Q : T -> Prop) l x, two P Q l -> Q x -> two P Q (l ++ [x]).
Proof. intros T P Q l x (u & v & -> & HU & HV) HX. exists u, (v ++ [x]). split; [ symmetry; apply app_assoc | split; [ auto | apply Forall_app; auto ] ]. Qed.
Lemma two_head : forall T (P Q : T -> Prop) x l, two P Q (x :: l) -> ~ P x -> Forall Q (x :: l).
Proof. intros T P Q x l (u & v & E & HU & HV) HN. destruct u as [|y u]; [ cbn in E; rewrite E; auto | ]. injection E as <- E. inversion HU; subst. contradiction. Qed.
Lemma two_tail : forall T (P Q : T -> Prop) x l, two P Q (x :: l) -> two P Q l.
Proof. intros T P Q x l H. eapply two_sub; [ | exact H ]. constructor. apply sub_refl. Qed.
Lemma two_first : forall T (P Q : T -> Prop) l, Forall P l -> two P Q l.
Proof. intros T P Q l H. exists l, []. rewrite app_nil_r. auto. Qed.
Lemma two_second : forall T (P Q : T -> Prop) l, Forall Q l -> two P Q l.
Proof. intros T P Q l H. exists [], l. auto. Qed.

(** ** One identifier *)
Definition at_id (i : Z) (l : list entry) : list entry := filter (fun e => e_id e =? i) l.
Definition b1 (i : Z) (w : wire) : bool :=
  match w with WPub _ _ q j _ => (j =? i) && negb (q =? 0) | WAck Pubrel j _ => j =? i | _ => false end.
Definition b2 (i : Z) (w : wire) : bool :=
  match w with WAck (Puback | Pubrec | Pubcomp) j _ => j =? i | _ => false end.
Definition is_p (m q : Z) (w : wire) : Prop := match w with WPub m' _ q' _ _ => m' = m /\ q' = q | _ => False end.
Definition is_q1 (w : wire) : Prop := match w with WPub _ _ q _ _ => q = 1 | _ => False end.
Definition is_a (a : ack) (w : wire) : Prop := match w with WAck a' _ _ => a' = a | _ => False end.
Definition old1 (w : wire) : Prop := is_a Pubrel w \/ is_q1 w.
Definition old2 (w : wire) : Prop := is_a Puback w \/ is_a Pubcomp w.
Definition q1 (e : entry) : Prop := e_qos e = 1.
Definition gone (e : entry) : Prop := e_qos e = 2 /\ e_pubrel e = true.
Definition wait (m : Z) (e : entry) : Prop :=
  e_qos e = 2 /\ e_msg e = m /\ e_pubrec e = true /\ e_pubrel e = false /\ e_pubcomp e = false.
Notation cnt := (count_occ Z.eq_dec).

Definition slot_idle (p1 p2 : list wire) (es : list entry) : Prop :=
  Forall old1 p1 /\ Forall old2 p2 /\ Forall (fun e => q1 e \/ gone e) es.
Definition slot_two (x : entry) (p1 p2 : list wire) (es : list entry) (g : list Z) : Prop :=
  if e_pubcomp x then Forall (is_a Pubrel) p1 /\ Forall (is_a Pubcomp) p2 /\ Forall gone es /\ cnt g (e_msg x) = 1%nat /\ e_pubrec x = true /\ e_pubrel x = true
  else if e_pubrec x then e_pubrel x = true /\
    ((two (is_p (e_msg x) 2) (is_a Pubrel) p1 /\ Forall (is_a Pubrec) p2 /\ (exists y, es = [y] /\ wait (e_msg x) y) /\ cnt g (e_msg x) = 0%nat) \/
     (Forall (is_a Pubrel) p1 /\ two (is_a Pubrec) (is_a Pubcomp) p2 /\ Forall gone es /\ cnt g (e_msg x) = 1%nat))
  else e_pubrel x = false /\ Forall (is_p (e_msg x) 2) p1 /\ Forall (is_a Pubrec) p2 /\ cnt g (e_msg x) = 0%nat /\
    ((Forall q1 es /\ p2 = []) \/ (exists y, es = [y] /\ wait (e_msg x) y)).
Definition slot_one (x : entry) (p1 p2 : list wire) (es : list entry) (g : list Z) : Prop :=
  Forall (is_p (e_msg x) 1) p1 /\ Forall (is_a Puback) p2 /\ (p2 <> [] \/ e_puback x = true -> In (e_msg x) g) /\ Forall q1 es.
Definition slot_ok (xs : list entry) (p1 p2 : list wire) (es : list entry) (g : list Z) : Prop :=
  match xs with
  | [x] =>
      match e_kind x with
      | KPub => if e_qos x =? 2 then slot_two x p1 p2 es g else if e_qos x =? 1 then slot_one x p1 p2 es g else slot_idle p1 p2 es
      | _ => slot_idle p1 p2 es
      end
  | _ => slot_idle p1 p2 es
  end.

Lemma slot_sub : forall xs p1 p2 es g p1' p2', slot_ok xs p1 p2 es g -> sub p1' p1 -> sub p2' p2 -> slot_ok xs p1' p2' es g.
Proof.
  intros xs p1 p2 es g p1' p2' H S1 S2.
  assert (HI : slot_idle p1 p2 es -> slot_idle p1' p2' es) by (intros (A & B & C); split; [ eapply sub_Forall; eauto | split; [ eapply sub_Forall; eauto | auto ] ]).
  unfold slot_ok in *. destruct xs as [|x [|]]; auto. destruct (e_kind x); auto. destruct (e_qos x =? 2).
  - unfold slot_two in *. destruct (e_pubcomp x).
    + destruct H as (A & B & C). split; [ eapply sub_Forall; eauto | split; [ eapply sub_Forall; eauto | auto ] ].
    + destruct (e_pubrec x).
      * destruct H as (H & [(A & B & C)|(A & B & C)]); split; auto; [ left | right ]; (split; [ | split; [ | exact C ] ]);
          try (eapply sub_Forall; eauto; fail); eapply two_sub; eauto.
      * destruct H as (H & A & B & C & D). split; [ auto | split; [ eapply sub_Forall; eauto | split; [ eapply sub_Forall; eauto | split; [ auto | ] ] ] ].
        destruct D as [(D1 & ->)|D]; [ left; split; [ auto | inversion S2; auto ] | auto ].
  - destruct (e_qos x =? 1); auto. unfold slot_one in *. destruct H as (A & B & C & D).
    split; [ eapply sub_Forall; eauto | split; [ eapply sub_Forall; eauto | split; [ | auto ] ] ].
    intros [HN|HP]; apply C; [ left; intros ->; inversion S2; congruence | auto ].
Qed.
Lemma slot_more : forall xs p1 p2 es g g', slot_ok xs p1 p2 es g -> incl g g' ->
  (forall x, xs = [x] -> e_kind x = KPub -> e_qos x = 2 -> cnt g' (e_msg x) = cnt g (e_msg x)) -> slot_ok xs p1 p2 es g'.
Proof.
  intros xs p1 p2 es g g' H HI HC. unfold slot_ok in *. destruct xs as [|x [|]]; auto. destruct (e_kind x) eqn:EK; auto.
  destruct (Z.eqb_spec (e_qos x) 2) as [E2|E2].
  - unfold slot_two in *. rewrite (HC x eq_refl EK E2). exact H.
  - destruct (e_qos x =? 1); auto. unfold slot_one in *. destruct H as (A & B & C & D). auto 6.
Qed.

(** ** All of one direction *)
Definition tags (a : list entry) : list Z := map e_msg (filter (fun e => is_pub (e_kind e)) a).
Definition pub0 (f : list wire) : list Z := flat_map (fun w => match w with WPub m _ q _ _ => if q =? 0 then [m] else [] | _ => [] end) f.
Definition le_sorted (l : list entry) : Prop := StronglySorted Z.le (map e_id l).
Record DI (a : list entry) (f1 f2 : list wire) (E : list entry) (g : list Z) (q : list (Z * Z)) : Prop := {
  d_nodup : NoDup (nz a);
  d_fine : Forall fine_to a;
  d_from : Forall fine_from E;
  d_q : NoDup (map fst q);
  d_qos : forall m k, In (m, k) q -> 0 <= k <= 2;
  d_a : forall e, In e a -> e_kind e = KPub -> In (e_msg e, e_qos e) q;
  d_one : NoDup (tags a);
  d_e : forall e, In e E -> In (e_msg e, e_qos e) q /\ (e_qos e = 1 \/ e_qos e = 2);
  d_f : forall m z k i d, In (WPub m z k i d) f1 -> In (m, k) q;
  d_sort : le_sorted E;
  d_slot : forall i, i <> 0 -> slot_ok (at_id i a) (filter (b1 i) f1) (filter (b2 i) f2) (at_id i E) g;
  d_0 : forall e, In e a -> e_id e = 0 -> e_kind e = KPub -> e_qos e = 2 -> cnt g (e_msg e) = 0%nat;
  d_2 : forall m, In (m, 2) q -> ~ In m (tags a) -> cnt g m = 1%nat;
  d_1 : forall m, In (m, 1) q -> ~ In m (tags a) -> In m g;
  d_g : forall m, In m g -> exists k, In (m, k) q;
  d_z : forall m, In (m, 0) q -> (cnt g m + cnt (pub0 f1) m + cnt (tags a) m <= 1)%nat }.

Lemma DI_new : DI [] [] [] [] [] [].
Proof. constructor; try (constructor; fail); try (intros ? []; fail); try (intros ? ? []; fail); try (intros ? ? ? ? ? []; fail).
  intros i _. cbn. repeat split; constructor. Qed.
Lemma DI_lose : forall a f1 f2 E g q f1' f2', DI a f1 f2 E g q -> sub f1' f1 -> sub f2' f2 -> DI a f1' f2' E g q.
Proof.
  intros a f1 f2 E g q f1' f2' H S1 S2. destruct H. constructor; auto.
  - intros m z k i d HI. eapply d_f0. eapply sub_in; eauto.
  - intros i Hi. eapply slot_sub; [ apply d_slot0, Hi | | ]; apply sub_filter; auto.
  - intros m Hm. specialize (d_z0 m Hm). enough (cnt (pub0 f1') m <= cnt (pub0 f1) m)%nat by lia.
    clear - S1. induction S1 as [|w l l' H IH|w l l' H IH]; [ lia | | ]; unfold pub0 in *; cbn [flat_map]; rewrite !count_occ_app; lia.
Qed.

(** Two entries which differ only in the acknowledgements. *)
Definition same (e e' : entry) : Prop :=
  e_kind e' = e_kind e /\ e_msg e' = e_msg e /\ e_qos e' = e_qos e /\ e_id e' = e_id e.
Lemma tags_same : forall a a', Forall2 same a a' -> tags a' = tags a /\ nz a' = nz a.
Proof.
  unfold tags. induction 1 as [|e e' a a' (HK & HM & HQ & HI) H (IH1 & IH2)]; [ auto | ]. cbn [filter]. rewrite HK, !nz_cons, HI, IH2. split; [ | reflexivity ].
  destruct (is_pub (e_kind e)); cbn [map]; congruence.
Qed.
Lemma nodup_fst : forall (q : list (Z * Z)) m k k', NoDup (map fst q) -> In (m, k) q -> In (m, k') q -> k = k'.
Proof.
  induction q as [|[x y] q IH]; intros m k k' HN H1 H2; [ destruct H1 | ]. inversion HN as [|? ? HX HR]; subst. cbn [fst] in HX.
  destruct H1 as [H1|H1], H2 as [H2|H2]; try congruence.
  - injection H1 as -> ->. destruct HX. apply (in_map fst) in H2. exact H2.
  - injection H2 as -> ->. destruct HX. apply (in_map fst) in H1. exact H1.
  - eauto.
Qed.

(** A change which concerns one identifier. *)
Lemma DI_upd : forall i a f1 f2 E g q a' f1' f2' E' g', DI a f1 f2 E g q -> i <> 0 ->
  Forall2 same a a' -> Forall fine_to a' -> (forall e', In e' a' -> e_id e' = 0 -> In e' a) ->
  Forall fine_from E' -> le_sorted E' -> (forall e, In e E' -> In (e_msg e, e_qos e) q /\ (e_qos e = 1 \/ e_qos e = 2)) ->
  (forall m z k j d, In (WPub m z k j d) f1' -> In (m, k) q) ->
  (forall j, j <> i -> j <> 0 -> at_id j a' = at_id j a /\ filter (b1 j) f1' = filter (b1 j) f1 /\ filter (b2 j) f2' = filter (b2 j) f2 /\ at_id j E' = at_id j E) ->
  slot_ok (at_id i a') (filter (b1 i) f1') (filter (b2 i) f2') (at_id i E') g' ->
  incl g g' -> (forall m, In m g' -> In m g \/ exists k, In (m, k) q) ->
  (forall m, In (m, 2) q -> cnt g' m = cnt g m \/ exists x, In x a /\ e_kind x = KPub /\ e_id x = i /\ e_msg x = m) ->
  (forall m, In (m, 0) q -> (cnt g' m + cnt (pub0 f1') m <= cnt g m + cnt (pub0 f1) m)%nat) ->
  DI a' f1' f2' E' g' q.
Proof.
  intros i a f1 f2 E g q a' f1' f2' E' g' H Hi HS HF HZ HFr HSo HE HP HJ HSl HG HGq H2 H0.
  destruct (tags_same a a' HS) as (ET & EN). destruct H.
  assert (HB : forall e', In e' a' -> exists e, In e a /\ same e e').
  { clear - HS. induction HS; intros e' HI; [ destruct HI | ]. destruct HI as [<-|HI]; [ exists x; split; [ left; auto | auto ] | ].
    destruct (IHHS e' HI) as (e & He & Hs). exists e. split; [ right; auto | auto ]. }
  assert (HC : forall m x, In (m, 2) q -> In x a -> e_kind x = KPub -> e_msg x = m -> e_id x <> i -> cnt g' m = cnt g m).
  { intros m x Hm Hx HK Ex Hne. destruct (H2 m Hm) as [->|(y & Hy & HKy & Iy & My)]; [ auto | ]. exfalso. apply Hne. rewrite <- Iy. f_equal.
    clear - d_one0 Hx Hy HK HKy Ex My. unfold tags in d_one0. subst m. induction a as [|z a IH]; [ destruct Hx | ].
    assert (HT : forall u, In u a -> e_kind u = KPub -> In (e_msg u) (map e_msg (filter (fun e => is_pub (e_kind e)) a))).
    { intros u Hu Ku. apply in_map, filter_In. rewrite Ku. auto. }
    cbn [filter] in d_one0. destruct Hx as [<-|Hx], Hy as [<-|Hy]; [ auto | | | ].
    - rewrite HK in d_one0. cbn [is_pub map] in d_one0. inversion d_one0; subst. destruct H1. rewrite <- My. auto.
    - rewrite HKy in d_one0. cbn [is_pub map] in d_one0. inversion d_one0; subst. destruct H1. rewrite My. auto.
    - apply IH; auto. destruct (is_pub (e_kind z)); [ inversion d_one0; auto | auto ]. }
  constructor; auto.
  - rewrite EN. auto.
  - intros e' He' HK. destruct (HB e' He') as (e & He & (A & B & C & D)). rewrite B, C. apply d_a0; congruence.
  - rewrite ET. auto.
  - intros j Hj. destruct (Z.eq_dec j i) as [->|Hji]; [ exact HSl | ]. destruct (HJ j Hji Hj) as (-> & -> & -> & ->).
    eapply slot_more; [ apply d_slot0, Hj | exact HG | ]. intros x Hx HK HQ.
    assert (HIx : In x (at_id j a)) by (rewrite Hx; left; reflexivity). unfold at_id in HIx. apply (filter_In (fun e => e_id e =? j)) in HIx as [HIx Hid].
    apply (HC _ x); auto; [ rewrite <- HQ; apply d_a0; auto | lia ].
  - intros e He Hid HK HQ. specialize (HZ e He Hid). rewrite (HC _ e); auto; [ rewrite <- HQ; apply d_a0; auto | lia ].
  - intros m Hm HN. rewrite ET in HN. destruct (H2 m Hm) as [->|(y & Hy & HKy & Iy & My)]; [ auto | ]. destruct HN. rewrite <- My. apply in_map, filter_In. rewrite HKy. auto.
  - intros m Hm HN. rewrite ET in HN. apply HG. auto.
  - intros m Hm. destruct (HGq m Hm) as [Hm'|Hm']; auto.
  - intros m Hm. rewrite ET. specialize (d_z0 m Hm). specialize (H0 m Hm). lia.
Qed.

(** ** A reads a packet *)
Lemma at_app : forall i a b, at_id i (a ++ b) = at_id i a ++ at_id i b.
Proof. intros. unfold at_id. apply filter_app. Qed.
Lemma at_away : forall i l, away i l -> at_id i l = [].
Proof.
  intros i l. induction l as [|e l IH]; intros H; [ reflexivity | ]. apply away_cons in H as [H1 H2]. unfold at_id in *. cbn [filter].
  destruct (Z.eqb_spec (e_id e) i); [ contradiction | auto ].
Qed.
Lemma at_cons : forall i e l, at_id i (e :: l) = (if e_id e =? i then [e] else []) ++ at_id i l.
Proof. intros. unfold at_id. cbn [filter]. destruct (e_id e =? i); reflexivity. Qed.
Lemma nz_look : forall l i, NoDup (nz l) -> i <> 0 -> away i l \/ exists l1 e l2, l = l1 ++ e :: l2 /\ e_id e = i /\ away i l1 /\ away i l2.
Proof.
  induction l as [|e r IH]; intros i H Hi; [ left; intros x [] | ]. rewrite nz_cons in H.
  destruct (Z.eq_dec (e_id e) i) as [E|E].
  - right. exists [], e, r. split; [ reflexivity | split; [ exact E | split ] ]; [ intros x [] | ]. intros x HI Ex.
    destruct (Z.eqb_spec (e_id e) 0); [ congruence | ]. cbn [app] in H. inversion H; subst. apply H2. apply nz_in. split; [ auto | exists x; auto ].
  - assert (H1 : NoDup (nz r)) by (destruct (e_id e =? 0); [ exact H | inversion H; auto ]).
    destruct (IH i H1 Hi) as [HA|(l1 & x & l2 & -> & Ex & A1 & A2)].
    + left. apply away_cons. auto.
    + right. exists (e :: l1), x, l2. split; [ reflexivity | split; [ exact Ex | split; auto ] ]. apply away_cons. auto.
Qed.
Lemma filter_none : forall T (f : T -> bool) l, (forall x, In x l -> f x = false) -> filter f l = [].
Proof. intros T f l. induction l as [|x l IH]; intros H; [ reflexivity | ]. cbn [filter]. rewrite (H x (or_introl eq_refl)). apply IH. intros. apply H. right. auto. Qed.
Lemma DI_ext : forall a f1 f2 E g q x1 x2, DI a f1 f2 E g q ->
  (forall w, In w x1 -> (forall i, b1 i w = false) /\ match w with WPub _ _ _ _ _ => False | _ => True end) ->
  (forall w i, In w x2 -> b2 i w = false) -> DI a (f1 ++ x1) (f2 ++ x2) E g q.
Proof.
  intros a f1 f2 E g q x1 x2 H H1 H2. destruct H. constructor; auto.
  - intros m z k i d HI. apply in_app_or in HI as [HI|HI]; [ eauto | ]. destruct (H1 _ HI) as (_ & []).
  - intros i Hi. rewrite !filter_app. rewrite (filter_none _ (b1 i) x1), (filter_none _ (b2 i) x2), !app_nil_r; auto. intros w Hw. apply H1, Hw.
  - intros m Hm. unfold pub0. rewrite flat_map_app, count_occ_app. replace (flat_map _ x1) with (@nil Z); [ cbn; specialize (d_z0 m Hm); unfold pub0 in d_z0; lia | ].
    clear - H1. induction x1 as [|w x1 IH]; [ reflexivity | ]. cbn [flat_map]. destruct (H1 w (or_introl eq_refl)) as (_ & HW).
    destruct w; [ destruct HW | | | ]; cbn [app]; apply IH; intros; apply H1; right; auto.
Qed.
Lemma sents_deliver : forall l, sents (map Deliver l) = []. Proof. unfold sents. induction l; auto. Qed.
Lemma sents_app : forall a b, sents (a ++ b) = sents a ++ sents b. Proof. intros. apply flat_map_app. Qed.
Lemma delivers_app : forall a b, delivers (a ++ b) = delivers a ++ delivers b. Proof. intros. apply flat_map_app. Qed.
Lemma delivers_map : forall l, delivers (map Deliver l) = l. Proof. unfold delivers. induction l as [|x l IH]; [ reflexivity | ]. cbn [map flat_map app]. congruence. Qed.
Lemma sents_sent : forall l, sents (map Sent l) = l. Proof. unfold sents. induction l as [|x l IH]; [ reflexivity | ]. cbn [map flat_map app]. congruence. Qed.
Lemma process_in_to : forall s a id s' f del err, process_ack s a id false = Some (s', f, del, err) ->
  s_to s' = s_to s /\ s_delayed s' = s_delayed s.
Proof.
  intros s a id s' f del err H. unfold process_ack in H. destruct (ack_loop _ _ _ _ _) as [[[[l f1] d] er]|]; [ | discriminate ].
  destruct (_ && _); [ discriminate | ]. injection H as <- <- <- <-. auto.
Qed.
Definition answer (w : wire) : Prop := match w with WAck (Puback | Pubrec | Pubcomp) _ _ => True | _ => False end.
Lemma send_in_to : forall s a id rs pre s' evs c, send_out a = false -> answer (WAck a id rs) -> sents pre = [] ->
  send_now s a id rs pre = Some (s', evs, c) -> s_to s' = s_to s /\ s_delayed s' = s_delayed s /\ Forall answer (sents evs).
Proof.
  intros s a id rs pre s' evs c HO HA HP H. unfold send_now in H. rewrite HO in H.
  destruct (process_ack s a id false) as [[[[s1 f] d] er]|] eqn:EP; [ | discriminate ]. destruct (process_in_to _ _ _ _ _ _ _ EP) as (E1 & E2).
  destruct er; injection H as <- <- <-; (split; [ auto | split; [ auto | ] ]); rewrite !sents_app, ?sents_deliver, HP; cbn; auto.
Qed.
Lemma incoming_to : forall cf now s w s' evs c, incoming w = true -> receive cf now s w = Some (s', evs, c) ->
  s_to s' = s_to s /\ s_delayed s' = s_delayed s /\ Forall answer (sents evs).
Proof.
  intros cf now s w s' evs c HI H. destruct w as [m z q id dup|a id rs|id|id]; try discriminate; cbn [receive] in H.
  - unfold handle_publish in H. destruct (q =? 0); [ injection H as <- <- <-; cbn; auto | ].
    destruct (q =? 1); [ eapply send_in_to in H; cbn; auto | ]. destruct (find_qos2 id (s_from s)); [ | eapply send_in_to in H; cbn; auto ].
    destruct (_ || _); [ injection H as <- <- <-; cbn; auto | eapply send_in_to in H; cbn; auto ].
  - destruct a; try discriminate. unfold handle_middle in H. cbn [recv_out] in H.
    destruct (process_ack s Pubrel id false) as [[[[s1 f] d] er]|] eqn:EP; [ | discriminate ]. destruct (process_in_to _ _ _ _ _ _ _ EP) as (E1 & E2).
    cbv zeta in H. destruct (_ && _); [ injection H as <- <- <-; rewrite sents_deliver; auto | ].
    eapply send_in_to in H; cbn; auto; [ | apply sents_deliver ]. destruct H as (A & B & C). split; [ congruence | split; [ congruence | auto ] ].
Qed.

(** A change of the entry with the identifier at A. *)
Lemma DI_atA : forall l1 x l2 x' f1 f2 f1' f2' E g q, DI (l1 ++ x :: l2) f1 f2 E g q -> e_id x <> 0 -> same x x' -> fine_to x' ->
  away (e_id x) l1 -> away (e_id x) l2 ->
  (forall m z k j d, In (WPub m z k j d) f1' -> In (m, k) q) ->
  (forall j, j <> e_id x -> filter (b1 j) f1' = filter (b1 j) f1 /\ filter (b2 j) f2' = filter (b2 j) f2) ->
  slot_ok [x'] (filter (b1 (e_id x)) f1') (filter (b2 (e_id x)) f2') (at_id (e_id x) E) g ->
  pub0 f1' = pub0 f1 -> DI (l1 ++ x' :: l2) f1' f2' E g q.
Proof.
  intros l1 x l2 x' f1 f2 f1' f2' E g q H Hi HS HF A1 A2 HP HJ HSl H0.
  assert (HR : forall l, Forall2 same l l) by (induction l; constructor; auto; repeat split).
  assert (Ei : e_id x' = e_id x) by apply HS.
  eapply (DI_upd (e_id x)); [ exact H | exact Hi | | | | apply H | apply H | apply H | exact HP | | | apply incl_refl | auto | auto | ].
  - apply Forall2_app; [ apply HR | constructor; [ exact HS | apply HR ] ].
  - pose proof (d_fine _ _ _ _ _ _ H) as HFi. rewrite Forall_app in *. destruct HFi as [F1 F2]. inversion F2; subst. auto.
  - intros e He H00. apply in_app_or in He as [He|[<-|He]]; apply in_or_app; [ auto | congruence | right; right; auto ].
  - intros j Hj Hj0. destruct (HJ j Hj) as (-> & ->). rewrite !at_app, !at_cons, Ei. destruct (Z.eqb_spec (e_id x) j); [ congruence | ]. auto.
  - rewrite at_app, at_cons, Ei, Z.eqb_refl, (at_away _ _ A1), (at_away _ _ A2). exact HSl.
  - intros m Hm. rewrite H0. lia.
Qed.
Lemma DI_slot1 : forall l1 x l2 f1 f2 E g q, DI (l1 ++ x :: l2) f1 f2 E g q -> e_id x <> 0 -> away (e_id x) l1 -> away (e_id x) l2 ->
  slot_ok [x] (filter (b1 (e_id x)) f1) (filter (b2 (e_id x)) f2) (at_id (e_id x) E) g.
Proof.
  intros l1 x l2 f1 f2 E g q H Hi A1 A2. pose proof (d_slot _ _ _ _ _ _ H (e_id x) Hi) as HS.
  rewrite at_app, at_cons, Z.eqb_refl, (at_away _ _ A1), (at_away _ _ A2) in HS. exact HS.
Qed.
Lemma b2_head : forall j w f, b2 j w = false -> filter (b2 j) (w :: f) = filter (b2 j) f.
Proof. intros j w f H. cbn [filter]. rewrite H. reflexivity. Qed.
Lemma process_to : forall s a id l f del err, ack_loop a id true 0 (s_to s) = Some (l, f, del, err) -> f <= 1 ->
  process_ack s a id true = Some (mk_s l (s_delayed s) (s_from s) (s_grace s) (s_pool s), f, del, err).
Proof. intros s a id l f del err E Hf. unfold process_ack. rewrite E. replace (1 <? f) with false by lia. rewrite andb_false_r. reflexivity. Qed.

Lemma A_read : forall cf now s w s' evs c f1 f2 E g q, sinv s -> wire_ok w -> DI (s_to s ++ s_delayed s) f1 (w :: f2) E g q ->
  receive cf now s w = Some (s', evs, c) -> DI (s_to s' ++ s_delayed s') (f1 ++ sents evs) f2 E g q.
Proof.
  intros cf now s w s' evs c f1 f2 E g q HI HW HD H.
  assert (HL : DI (s_to s ++ s_delayed s) f1 f2 E g q) by (eapply DI_lose; [ exact HD | apply sub_refl | constructor; apply sub_refl ]).
  destruct (incoming w) eqn:EI.
  { destruct (incoming_to _ _ _ _ _ _ _ EI H) as (-> & -> & HA). rewrite <- (app_nil_r f2). apply DI_ext; [ exact HL | | intros ? ? [] ].
    intros x Hx. rewrite Forall_forall in HA. specialize (HA x Hx). destruct x as [|a| |]; try contradiction. destruct a; try contradiction; auto. }
  destruct w as [m z k id dup|a id rs|id|id]; try discriminate; cbn [receive] in H;
    [ | injection H as <- <- <-; cbn [sents flat_map]; rewrite app_nil_r; exact HL | injection H as <- <- <-; cbn [sents flat_map]; rewrite app_nil_r; exact HL ].
  destruct HW as (HP & Hid). assert (Hi0 : id <> 0) by lia.
  assert (HND : NoDup (nz (s_to s))). { pose proof (d_nodup _ _ _ _ _ _ HD) as HN. rewrite nz_app in HN. destruct HI as (_ & _ & HZ & _). rewrite HZ, app_nil_r in HN. exact HN. }
  assert (HDel : away id (s_delayed s)).
  { intros e He Ee. destruct HI as (_ & _ & HZ & _). assert (In id (nz (s_delayed s))) by (apply nz_in; split; [ auto | exists e; auto ]). rewrite HZ in H0. destruct H0. }
  destruct (nz_look (s_to s) id HND Hi0) as [HA|(l1 & x & l2 & ETo & Ex & A1 & A2)].
  { (* no such entry *)
    assert (HPr : forall b, process_ack s b id true = Some (s, 0, [], false)).
    { intros b. rewrite (process_to _ _ _ _ _ _ _ (ack_loop_away _ _ _ _ _ HA)) by lia. destruct s; reflexivity. }
    destruct a; try discriminate.
    - unfold handle_final in H. cbn [recv_out] in H. rewrite HPr in H. injection H as <- <- <-. cbn [map sents flat_map]. rewrite app_nil_r. exact HL.
    - exfalso. pose proof (d_slot _ _ _ _ _ _ HD id Hi0) as HS. rewrite at_app, (at_away _ _ HA), (at_away _ _ HDel) in HS. cbn [app slot_ok] in HS.
      destruct HS as (_ & HS & _). cbn [filter b2] in HS. rewrite Z.eqb_refl in HS. inversion HS as [|? ? [HO|HO] _]; subst; discriminate.
    - unfold handle_final in H. cbn [recv_out] in H. rewrite HPr in H. injection H as <- <- <-. cbn [map sents flat_map]. rewrite app_nil_r. exact HL. }
  assert (A2' : away id (l2 ++ s_delayed s)) by (intros e He; apply in_app_or in He as [He|He]; auto).
  assert (EA : s_to s ++ s_delayed s = l1 ++ x :: (l2 ++ s_delayed s)) by (rewrite ETo, <- app_assoc; reflexivity).
  assert (HFx : fine_to x). { pose proof (d_fine _ _ _ _ _ _ HD) as HF. rewrite EA in HF. rewrite Forall_app in HF. destruct HF as [_ HF]. inversion HF; auto. }
  rewrite EA in HD, HL. rewrite <- Ex in A1, A2, A2', Hi0.
  pose proof (DI_slot1 _ _ _ _ _ _ _ _ HD Hi0 A1 A2') as HSx. cbn [filter] in HSx.
  assert (HOut : e_kind x = KPub -> e_out x = true) by (intros HK; destruct HFx as (HO & _); rewrite HK in HO; exact HO).
  assert (HJ2 : forall j r, j <> e_id x -> filter (b2 j) f2 = filter (b2 j) (WAck a id r :: f2)).
  { intros j r Hj. symmetry. apply b2_head. unfold b2. destruct a; try reflexivity; lia. }
  (* an error: nothing changes *)
  assert (HErr : (e_kind x <> KPub \/ e_qos x = 0) -> forall b, plain b = true -> ack_loop b id true 0 (s_to s) = Some (s_to s, 0, [], true)).
  { intros HK b Hb. rewrite ETo. rewrite (ack_loop_one b id true l1 x l2 0 x 0 [] FErr); [ reflexivity | rewrite <- Ex; auto | rewrite <- Ex; auto | ].
    unfold ack_entry. rewrite Ex, Z.eqb_refl. cbn [negb]. destruct HFx as (HO & _). unfold ack_bug. rewrite HO. destruct (e_kind x) eqn:EK.
    - destruct HK as [HK|HK]; [ congruence | ]. unfold ack_publish. rewrite HK. destruct b; try discriminate; reflexivity.
    - destruct b; try discriminate; reflexivity.
    - destruct b; try discriminate; reflexivity. }
  assert (HErr2 : (e_kind x <> KPub \/ e_qos x = 0) -> DI (s_to s' ++ s_delayed s') (f1 ++ sents evs) f2 E g q).
  { intros HK. assert (HPr : forall b, plain b = true -> process_ack s b id true = Some (s, 0, [], true)).
    { intros b Hb. rewrite (process_to _ _ _ _ _ _ _ (HErr HK b Hb)) by lia. destruct s; reflexivity. }
    assert (Es : s' = s /\ sents evs = []).
    { destruct a; try discriminate.
      - unfold handle_final in H. cbn [recv_out] in H. rewrite HPr in H by auto. injection H as <- <- <-. auto.
      - unfold handle_middle in H. cbn [recv_out] in H. rewrite HPr in H by auto. cbv zeta in H. destruct (_ && _); [ injection H as <- <- <-; auto | ].
        unfold send_now in H. cbn [send_out] in H. rewrite HPr in H by auto. injection H as <- <- <-. auto.
      - unfold handle_final in H. cbn [recv_out] in H. rewrite HPr in H by auto. injection H as <- <- <-. auto. }
    destruct Es as (-> & ->). rewrite app_nil_r, EA. exact HL. }
  destruct (e_kind x) eqn:EK; [ | apply HErr2; left; congruence | apply HErr2; left; congruence ].
  specialize (HOut eq_refl). cbn [slot_ok] in HSx. rewrite EK in HSx.
  assert (HQx : 0 <= e_qos x <= 2). { apply (d_qos _ _ _ _ _ _ HD (e_msg x)). apply (d_a _ _ _ _ _ _ HD); [ apply in_or_app; right; left; reflexivity | exact EK ]. }
  destruct (Z.eqb_spec (e_qos x) 2) as [E2|E2]; [ | destruct (Z.eqb_spec (e_qos x) 1) as [E1|E1]; [ | apply HErr2; right; lia ] ].
  - (* QoS 2 *)
    assert (HAck : forall b e', ack_entry b id true 0 x = Some (e', 1, [], FStop) ->
              process_ack s b id true = Some (mk_s (l1 ++ e' :: l2) (s_delayed s) (s_from s) (s_grace s) (s_pool s), 1, [], false)).
    { intros b e' HE. apply process_to; [ | lia ]. rewrite ETo. rewrite <- Ex in HE |- *. apply (ack_loop_one b (e_id x) true l1 x l2 0 e' 1 [] FStop); auto. }
    assert (HBug : forall b, plain b = true -> ack_bug b true x = false).
    { intros b Hb. unfold ack_bug. rewrite HOut, EK. destruct b; try discriminate; reflexivity. }
    destruct a; try discriminate.
    + (* PUBACK *) exfalso. cbn [b2 filter] in HSx. rewrite <- Ex, Z.eqb_refl in HSx. unfold slot_two in HSx.
      destruct (e_pubcomp x); [ destruct HSx as (_ & HX & _); inversion HX; discriminate | ]. destruct (e_pubrec x).
      * destruct HSx as (_ & [(_ & HX & _)|(_ & HX & _)]); [ inversion HX; discriminate | ]. apply two_head in HX; [ inversion HX; discriminate | discriminate ].
      * destruct HSx as (_ & _ & HX & _). inversion HX; discriminate.
    + (* PUBREC *)
      assert (HE1 : ack_entry Pubrec id true 0 x = Some (set_pubrec x true, 1, [], FStop)).
      { unfold ack_entry. rewrite Ex, Z.eqb_refl, (HBug Pubrec eq_refl), EK. unfold ack_publish. rewrite E2. reflexivity. }
      unfold handle_middle in H. cbn [recv_out] in H. rewrite (HAck _ _ HE1) in H. cbv zeta in H. cbn [andb] in H.
      unfold send_now in H. cbn [send_out] in H.
      set (x2 := set_pubrel (set_pubrec x true) true) in *.
      assert (HE2 : ack_entry Pubrel id true 0 (set_pubrec x true) = Some (x2, 1, [], FStop)).
      { unfold ack_entry. cbn [set_pubrec e_id e_kind]. rewrite Ex, Z.eqb_refl. cbn [negb]. change (ack_bug Pubrel true (set_pubrec x true)) with (ack_bug Pubrel true x).
        rewrite (HBug Pubrel eq_refl), EK. unfold ack_publish. cbn [set_pubrec e_qos e_pubrec e_pubrel e_out]. rewrite E2, HOut. cbn [Z.eqb Pos.eqb negb].
        destruct (e_pubrel x); reflexivity. }
      rewrite (process_to (mk_s (l1 ++ set_pubrec x true :: l2) (s_delayed s) (s_from s) (s_grace s) (s_pool s)) Pubrel id (l1 ++ x2 :: l2) 1 [] false) in H; [ | | lia ].
      2: { cbn [s_to]. rewrite <- Ex in HE2 |- *. apply (ack_loop_one Pubrel (e_id x) true l1 (set_pubrec x true) l2 0 x2 1 [] FStop); auto. }
      injection H as <- <- <-. cbn [s_to s_delayed negb Z.eqb Pos.eqb map app sents flat_map]. rewrite <- app_assoc. cbn [app].
      apply (DI_atA l1 x (l2 ++ s_delayed s) x2 f1 (WAck Pubrec id rs :: f2)); auto.
      * repeat split.
      * destruct HFx as (HO & _). split; [ exact HO | ]. intros H0. destruct (Hi0 H0).
      * intros m z k j d HI'. apply in_app_or in HI' as [HI'|[HI'|[]]]; [ eapply d_f; eauto | discriminate ].
      * intros j Hj. split; [ | apply HJ2, Hj ]. rewrite filter_app. cbn [filter b1]. destruct (Z.eqb_spec id j); [ congruence | apply app_nil_r ].
      * rewrite filter_app. cbn [filter b1]. rewrite Ex, Z.eqb_refl. cbn [slot_ok]. change (e_kind x2) with (e_kind x). change (e_qos x2) with (e_qos x). rewrite EK, E2. cbn [Z.eqb Pos.eqb].
        rewrite Ex in HSx. cbn [b2 filter] in HSx. rewrite Z.eqb_refl in HSx. unfold slot_two in *.
        change (e_pubcomp x2) with (e_pubcomp x). change (e_pubrec x2) with true. change (e_pubrel x2) with true. change (e_msg x2) with (e_msg x).
        destruct (e_pubcomp x); [ destruct HSx as (_ & HX & _); inversion HX; discriminate | ]. split; [ reflexivity | ].
        assert (HRel : is_a Pubrel (WAck Pubrel id 0)) by reflexivity.
        destruct (e_pubrec x).
        -- destruct HSx as (_ & [(P1 & P2 & P3 & P4)|(P1 & P2 & P3 & P4)]).
           ++ left. split; [ apply two_snoc; auto | split; [ inversion P2; auto | auto ] ].
           ++ right. split; [ apply Forall_app; auto | split; [ eapply two_tail; eauto | auto ] ].
        -- destruct HSx as (_ & P1 & P2 & P4 & [(_ & P3)|P3]); [ discriminate | ]. left. split; [ apply two_snoc; [ apply two_first; auto | auto ] | split; [ inversion P2; auto | auto ] ].
      * unfold pub0. rewrite flat_map_app. cbn [flat_map]. apply app_nil_r.
    + (* PUBCOMP *)
      rewrite Ex in HSx. cbn [b2 filter] in HSx. rewrite Z.eqb_refl in HSx. unfold slot_two in HSx.
      assert (HX : e_pubrec x = true /\ e_pubrel x = true /\ Forall (is_a Pubrel) (filter (b1 id) f1) /\ Forall (is_a Pubcomp) (filter (b2 id) f2) /\
                   Forall gone (at_id id E) /\ cnt g (e_msg x) = 1%nat).
      { destruct (e_pubcomp x); [ destruct HSx as (P1 & P2 & P3 & P4 & P5 & P6); inversion P2; auto 8 | ].
        destruct (e_pubrec x).
        - destruct HSx as (HR & [(_ & P2 & _)|(P1 & P2 & P3 & P4)]); [ inversion P2; discriminate | ]. apply two_head in P2; [ inversion P2; auto 8 | discriminate ].
        - destruct HSx as (_ & _ & P2 & _). inversion P2; discriminate. }
      destruct HX as (X1 & X2 & X3 & X4 & X5 & X6).
      assert (HE1 : ack_entry Pubcomp id true 0 x = Some (set_pubcomp x true, 1, [], FStop)).
      { unfold ack_entry. rewrite Ex, Z.eqb_refl, (HBug Pubcomp eq_refl), EK. unfold ack_publish. rewrite E2, X1, X2. reflexivity. }
      unfold handle_final in H. cbn [recv_out] in H. rewrite (HAck _ _ HE1) in H. injection H as <- <- <-. cbn [map sents flat_map s_to s_delayed]. rewrite app_nil_r, <- app_assoc. cbn [app].
      apply (DI_atA l1 x (l2 ++ s_delayed s) (set_pubcomp x true) f1 (WAck Pubcomp id rs :: f2)); auto.
      * repeat split.
      * destruct HFx as (HO & _). split; [ exact HO | ]. intros H0. destruct (Hi0 H0).
      * intros m z k j d HI'. eapply d_f; eauto.
      * cbn [slot_ok]. change (e_kind (set_pubcomp x true)) with (e_kind x). change (e_qos (set_pubcomp x true)) with (e_qos x). rewrite EK, E2. cbn [Z.eqb Pos.eqb].
        unfold slot_two. change (e_pubcomp (set_pubcomp x true)) with true. rewrite Ex. change (e_msg (set_pubcomp x true)) with (e_msg x).
        change (e_pubrec (set_pubcomp x true)) with (e_pubrec x). change (e_pubrel (set_pubcomp x true)) with (e_pubrel x). auto 8.
  - (* QoS 1 *)
    rewrite Ex in HSx. destruct HSx as (S1 & S2 & S3 & S4). cbn [b2] in S2, S3.
    destruct a; try discriminate; cbn [filter] in S2; rewrite Z.eqb_refl in S2;
      [ | inversion S2; discriminate | inversion S2; discriminate ].
    assert (HE1 : ack_entry Puback id true 0 x = Some (set_puback x true, 1, [], FStop)).
    { unfold ack_entry. rewrite Ex, Z.eqb_refl. cbn [negb]. unfold ack_bug. rewrite HOut, EK. cbn [Bool.eqb is_pub negb andb]. unfold ack_publish. rewrite E1, HOut. cbn [Z.eqb Pos.eqb negb].
      destruct (e_puback x); reflexivity. }
    unfold handle_final in H. cbn [recv_out] in H.
    rewrite (process_to s Puback id (l1 ++ set_puback x true :: l2) 1 [] false) in H; [ | | lia ].
    2: { rewrite ETo. rewrite <- Ex in HE1 |- *. apply (ack_loop_one Puback (e_id x) true l1 x l2 0 _ 1 [] FStop); auto. }
    injection H as <- <- <-. cbn [map sents flat_map s_to s_delayed]. rewrite app_nil_r, <- app_assoc. cbn [app].
    apply (DI_atA l1 x (l2 ++ s_delayed s) (set_puback x true) f1 (WAck Puback id rs :: f2)); auto.
    + repeat split.
    + destruct HFx as (HO & _). split; [ exact HO | ]. intros H0. destruct (Hi0 H0).
    + intros m z k j d HI'. eapply d_f; eauto.
    + cbn [slot_ok]. change (e_kind (set_puback x true)) with (e_kind x). change (e_qos (set_puback x true)) with (e_qos x). rewrite EK, E1. cbn [Z.eqb Pos.eqb].
      unfold slot_one. rewrite Ex. change (e_msg (set_puback x true)) with (e_msg x). split; [ auto | split; [ inversion S2; auto | split; [ | auto ] ] ].
      intros _. apply S3. left. rewrite Z.eqb_refl. discriminate.
Qed.

(** ** B reads a packet *)
Definition eff (a : ack) (i : Z) (e e' : entry) : Prop :=
  e' = e \/ (e_id e = i /\
    match a with
    | Puback => e_qos e = 1 /\ exists b, e' = set_puback e b
    | Pubrec => e_qos e = 2 /\ e' = set_pubrec e true
    | Pubrel => e_qos e = 2 /\ e' = set_pubrel e true
    | Pubcomp => e_qos e = 2 /\ exists b, e' = set_pubcomp e b
    | _ => False
    end).
Definition src (a : ack) (i : Z) (l : list entry) (d : Z) : Prop :=
  exists e, In e l /\ e_id e = i /\ e_msg e = d /\
    match a with Puback => e_qos e = 1 | Pubrel => e_qos e = 2 /\ e_pubrel e = false | _ => False end.
Lemma eff_refl : forall a i l, Forall2 (eff a i) l l. Proof. induction l; constructor; auto. left. reflexivity. Qed.
Lemma ack_publish_eff : forall a i f e e' f' del fl, e_id e = i -> ack_publish a f e = (e', f', del, fl) ->
  eff a i e e' /\ (forall d, In d del -> src a i [e] d).
Proof.
  intros a i f e e' f' del fl Hi H. unfold ack_publish in H. unfold eff, src.
  destruct a; cbn [orb] in H; cbv zeta in H.
  - destruct (Z.eqb_spec (e_qos e) 1) as [E|E]; cbn [negb] in H; [ | injection H as <- <- <- <-; split; [ auto | intros d [] ] ].
    assert (HB : exists b, e = set_puback e b) by (exists (e_puback e); destruct e; reflexivity).
    destruct (e_puback e).
    + destruct (f =? 1); injection H as <- <- <- <-; (split; [ right; split; [ auto | split; [ auto | first [ exists true; reflexivity | exists false; reflexivity ] ] ] | intros d [] ]).
    + destruct (e_out e); destruct (f =? 1); injection H as <- <- <- <-; (split; [ first [ left; reflexivity | right; split; [ auto | split; [ auto | exists true; reflexivity ] ] ] | ]);
        intros d Hd; cbn [In] in Hd; try contradiction; destruct Hd as [<-|[]]; exists e; cbn [In]; auto.
  - destruct (Z.eqb_spec (e_qos e) 2); cbn [negb] in H; injection H as <- <- <- <-; (split; [ auto | intros d [] ]).
  - destruct (Z.eqb_spec (e_qos e) 2); cbn [negb] in H; [ | injection H as <- <- <- <-; split; [ auto | intros d [] ] ].
    destruct (e_pubrec e); cbn [negb] in H; injection H as <- <- <- <-; (split; [ auto | ]); intros d Hd; [ | destruct Hd ].
    destruct (e_pubrel e) eqn:ER; [ destruct Hd | ]. destruct (e_out e); [ destruct Hd | ]. destruct Hd as [<-|[]]. exists e. cbn [In]. auto.
  - destruct (Z.eqb_spec (e_qos e) 2); cbn [negb] in H; [ | injection H as <- <- <- <-; split; [ auto | intros d [] ] ].
    destruct (negb (e_pubrel e) || negb (e_pubrec e)); injection H as <- <- <- <-; (split; [ right; eauto | intros d [] ]).
  - injection H as <- <- <- <-. split; [ auto | intros d [] ].
  - injection H as <- <- <- <-. split; [ auto | intros d [] ].
Qed.
Lemma ack_loop_eff : forall a i l f l' f' del err, Forall fine_from l -> ack_loop a i false f l = Some (l', f', del, err) ->
  Forall2 (eff a i) l l' /\ (forall d, In d del -> src a i l d).
Proof.
  intros a i l. induction l as [|e r IH]; intros f l' f' del err HF H; cbn [ack_loop] in H.
  - injection H as <- <- <- <-. split; [ constructor | intros d [] ].
  - inversion HF as [|? ? HF1 HF2]; subst. destruct (ack_entry a i false f e) as [[[[e1 f1] d1] fl]|] eqn:EE; [ | discriminate ].
    assert (HE : eff a i e e1 /\ (forall d, In d d1 -> src a i [e] d)).
    { unfold ack_entry in EE. destruct (Z.eqb_spec (e_id e) i) as [Ei|Ei]; cbn [negb] in EE; [ | injection EE as <- <- <- <-; split; [ left; auto | intros d [] ] ].
      destruct (ack_bug a false e); [ discriminate | ]. destruct HF1 as (HK & _). rewrite HK in EE. injection EE as EE. eapply ack_publish_eff; eauto. }
    destruct HE as (HE1 & HE2). assert (HS : forall l0 d, src a i [e] d -> src a i (e :: l0) d).
    { intros l0 d (x & [<-|[]] & Hx). exists e. split; [ left; auto | exact Hx ]. }
    assert (HS' : forall d, src a i r d -> src a i (e :: r) d) by (intros d (x & Hx & Hx'); exists x; split; [ right; auto | auto ]).
    destruct fl.
    + destruct (ack_loop a i false f1 r) as [[[[r1 f2] d2] er]|] eqn:EL; [ | discriminate ]. injection H as <- <- <- <-.
      destruct (IH _ _ _ _ _ HF2 EL) as (A & B). split; [ constructor; auto | ]. intros d Hd. apply in_app_or in Hd as [Hd|Hd]; auto.
    + injection H as <- <- <- <-. split; [ constructor; [ auto | apply eff_refl ] | auto ].
    + destruct (ack_loop a i false f1 r) as [[[[r1 f2] d2] er]|] eqn:EL; [ | discriminate ]. injection H as <- <- <- <-.
      destruct (IH _ _ _ _ _ HF2 EL) as (A & B). split; [ constructor; auto | ]. intros d Hd. apply in_app_or in Hd as [Hd|Hd]; auto.
Qed.
Lemma eff_same : forall a i e e', eff a i e e' -> same e e' /\ e_out e' = e_out e /\ (e_id e <> i -> e' = e).
Proof.
  intros a i e e' [->|(Hi & H)]; [ unfold same; auto 8 | ].
  assert (HX : same e e' /\ e_out e' = e_out e) by (destruct a; try contradiction; destruct H as (_ & H); try (destruct H as (b & H)); subst e'; unfold same; cbn; auto 8).
  split; [ apply HX | split; [ apply HX | intros HN; contradiction ] ].
Qed.
(** What these changes preserve. *)
Definition good (q : list (Z * Z)) (E : list entry) : Prop :=
  Forall fine_from E /\ le_sorted E /\ (forall e, In e E -> In (e_msg e, e_qos e) q /\ (e_qos e = 1 \/ e_qos e = 2)).
Lemma good_eff : forall a i q E E', good q E -> Forall2 (eff a i) E E' ->
  good q E' /\ (forall j, j <> i -> at_id j E' = at_id j E) /\ Forall2 (eff a i) (at_id i E) (at_id i E').
Proof.
  intros a i q E E' (H1 & H2 & H3) HE.
  assert (HM : map e_id E' = map e_id E).
  { clear - HE. induction HE as [|e e' l l' He _ IH]; [ reflexivity | ]. cbn [map]. apply eff_same in He as ((_ & _ & _ & HI) & _). congruence. }
  split; [ split; [ | split ] | split ].
  - clear - H1 HE. induction HE as [|e e' l l' He _ IH]; [ constructor | ]. inversion H1; subst. constructor; [ | auto ].
    apply eff_same in He as ((A & B & C & D) & F & _). destruct H2 as (X & Y & Z). repeat split; congruence.
  - unfold le_sorted. rewrite HM. exact H2.
  - clear - H3 HE. induction HE as [|e e' l l' He _ IH]; intros x Hx; [ destruct Hx | ]. destruct Hx as [<-|Hx].
    + apply eff_same in He as ((A & B & C & D) & _). rewrite B, C. apply H3. left. reflexivity.
    + apply IH; auto. intros y Hy. apply H3. right. auto.
  - intros j Hj. clear - HE Hj. induction HE as [|e e' l l' He _ IH]; [ reflexivity | ]. rewrite !at_cons, IH. apply eff_same in He as ((A & B & C & D) & _ & F). rewrite D.
    destruct (Z.eqb_spec (e_id e) j); [ | reflexivity ]. rewrite F by congruence. reflexivity.
  - clear - HE. induction HE as [|e e' l l' He _ IH]; [ constructor | ]. rewrite !at_cons. pose proof He as He0. apply eff_same in He as ((A & B & C & D) & _). rewrite D.
    destruct (e_id e =? i); cbn [app]; [ constructor; auto | auto ].
Qed.
Lemma le_cons : forall e l, le_sorted (e :: l) <-> le_sorted l /\ forall x, In x l -> e_id e <= e_id x.
Proof.
  intros. unfold le_sorted. cbn [map]. split.
  - intros H. apply StronglySorted_inv in H as [H1 H2]. split; [ exact H1 | ]. intros x HI. rewrite Forall_forall in H2. apply H2, in_map, HI.
  - intros [H1 H2]. constructor; [ exact H1 | ]. apply Forall_forall. intros i HI. apply in_map_iff in HI as (x & <- & HI). auto.
Qed.
Lemma insert_good : forall q e E, good q E -> fine_from e -> In (e_msg e, e_qos e) q -> (e_qos e = 1 \/ e_qos e = 2) ->
  good q (insert_id e E) /\ (forall j, j <> e_id e -> at_id j (insert_id e E) = at_id j E) /\ at_id (e_id e) (insert_id e E) = e :: at_id (e_id e) E.
Proof.
  intros q e E (H1 & H2 & H3) HF HQ HK. split; [ split; [ apply insert_from; auto | split ] | split ].
  - clear - H2. induction E as [|x r IH]; cbn [insert_id]; [ apply le_cons; split; [ constructor | intros ? [] ] | ].
    apply le_cons in H2 as [H2 H4]. destruct (e_id x <? e_id e) eqn:EL.
    + apply le_cons. split; [ auto | ]. intros y Hy. assert (y = e \/ In y r) as [->|Hy'].
      { clear - Hy. induction r as [|z r IH]; cbn [insert_id] in Hy; [ destruct Hy as [<-|[]]; auto | ]. destruct (e_id z <? e_id e).
        - destruct Hy as [<-|Hy]; [ right; left; auto | ]. destruct (IH Hy); [ auto | right; right; auto ].
        - destruct Hy as [<-|Hy]; auto. }
      * lia.
      * auto.
    + apply le_cons. split; [ apply le_cons; auto | ]. intros y [<-|Hy]; [ lia | ]. specialize (H4 y Hy). lia.
  - intros x Hx. assert (x = e \/ In x E) as [->|Hx'].
    { clear - Hx. induction E as [|z r IH]; cbn [insert_id] in Hx; [ destruct Hx as [<-|[]]; auto | ]. destruct (e_id z <? e_id e).
      - destruct Hx as [<-|Hx]; [ right; left; auto | ]. destruct (IH Hx); [ auto | right; right; auto ].
      - destruct Hx as [<-|Hx]; auto. }
    + auto.
    + auto.
  - intros j Hj. clear - Hj. induction E as [|x r IH]; cbn [insert_id].
    + rewrite at_cons. destruct (Z.eqb_spec (e_id e) j); [ congruence | reflexivity ].
    + destruct (e_id x <? e_id e); rewrite at_cons; [ rewrite IH, at_cons; reflexivity | ]. destruct (Z.eqb_spec (e_id e) j); [ congruence | reflexivity ].
  - clear - H2. induction E as [|x r IH]; cbn [insert_id].
    + rewrite at_cons, Z.eqb_refl. reflexivity.
    + apply le_cons in H2 as [H2 H4]. destruct (e_id x <? e_id e) eqn:EL.
      * rewrite !at_cons. destruct (Z.eqb_spec (e_id x) (e_id e)); [ lia | ]. cbn [app]. auto.
      * rewrite at_cons, Z.eqb_refl. reflexivity.
Qed.
Lemma at_split : forall i l e es, at_id i l = e :: es -> exists l1 l2, l = l1 ++ e :: l2 /\ away i l1 /\ at_id i l2 = es /\ e_id e = i.
Proof.
  intros i l. induction l as [|x r IH]; intros e es H; [ discriminate | ]. rewrite at_cons in H. destruct (Z.eqb_spec (e_id x) i) as [Ex|Ex].
  - cbn [app] in H. injection H as <- H. exists [], r. split; [ reflexivity | split; [ intros ? [] | auto ] ].
  - cbn [app] in H. destruct (IH _ _ H) as (l1 & l2 & -> & A & B & C). exists (x :: l1), l2. split; [ reflexivity | split; [ apply away_cons; auto | auto ] ].
Qed.
Lemma at_none : forall i l, at_id i l = [] -> away i l.
Proof.
  intros i l H e He Ee. assert (In e (at_id i l)) by (apply (filter_In (fun e => e_id e =? i)); rewrite Ee, Z.eqb_refl; auto). rewrite H in H0. destruct H0.
Qed.
Lemma at_find : forall i l, le_sorted l -> find_qos2 i l = hd_error (at_id i l).
Proof.
  intros i l. induction l as [|x r IH]; intros H; [ reflexivity | ]. apply le_cons in H as [H1 H2]. cbn [find_qos2]. rewrite at_cons.
  destruct (e_id x <? i) eqn:EL.
  - destruct (Z.eqb_spec (e_id x) i); [ lia | ]. cbn [app]. auto.
  - destruct (Z.eqb_spec (e_id x) i) as [E|E]; [ reflexivity | ]. cbn [app].
    rewrite (at_away i r); [ reflexivity | ]. intros e He Ee. specialize (H2 e He). lia.
Qed.
Lemma process_from_inv : forall s a i s' f del err, process_ack s a i false = Some (s', f, del, err) ->
  ack_loop a i false 0 (s_from s) = Some (s_from s', f, del, err).
Proof.
  intros s a i s' f del err H. unfold process_ack in H. destruct (ack_loop _ _ _ _ _) as [[[[l f1] d] er]|]; [ | discriminate ].
  destruct (_ && _); [ discriminate | ]. injection H as <- <- <- <-. reflexivity.
Qed.
Lemma send_from_inv : forall s a i rs pre s' evs c, send_out a = false -> send_now s a i rs pre = Some (s', evs, c) ->
  exists f del err, ack_loop a i false 0 (s_from s) = Some (s_from s', f, del, err) /\
    delivers evs = delivers pre ++ del /\ sents evs = sents pre ++ (if err then [] else [WAck a i rs]).
Proof.
  intros s a i rs pre s' evs c HO H. unfold send_now in H. rewrite HO in H. destruct (process_ack s a i false) as [[[[s1 f] d] er]|] eqn:EP; [ | discriminate ].
  apply process_from_inv in EP. exists f, d, er. destruct er; injection H as <- <- <-; (split; [ exact EP | ]);
    rewrite !delivers_app, !sents_app, ?delivers_map, ?sents_deliver; cbn [delivers sents flat_map app]; rewrite ?app_nil_r; auto.
Qed.
Lemma DI_good : forall a f1 f2 E g q, DI a f1 f2 E g q -> good q E.
Proof. intros a f1 f2 E g q H. split; [ apply H | split; apply H ]. Qed.
Lemma cnt_other : forall g del m, ~ In m del -> cnt (g ++ del) m = cnt g m.
Proof. intros. rewrite count_occ_app. rewrite (proj1 (count_occ_not_In Z.eq_dec del m)) by auto. lia. Qed.
(** A packet with the identifier is read at B. *)
Lemma DI_atE : forall i w a f1 f2 E g q ex E' del, DI a (w :: f1) f2 E g q -> i <> 0 -> (forall j, j <> i -> b1 j w = false) ->
  match w with WPub _ _ k _ _ => k <> 0 | _ => True end ->
  good q E' -> (forall j, j <> i -> at_id j E' = at_id j E) -> (forall j x, j <> i -> In x ex -> b2 j x = false) ->
  slot_ok (at_id i a) (filter (b1 i) f1) (filter (b2 i) (f2 ++ ex)) (at_id i E') (g ++ del) ->
  (forall d, In d del -> exists k, In (d, k) q /\ (k = 1 \/ (k = 2 /\ exists x, In x a /\ e_kind x = KPub /\ e_id x = i /\ e_msg x = d))) ->
  DI a f1 (f2 ++ ex) E' (g ++ del) q.
Proof.
  intros i w a f1 f2 E g q ex E' del H Hi HB Hk (G1 & G2 & G3) HJ HX HS HD.
  eapply (DI_upd i); [ exact H | exact Hi | | apply H | auto | exact G1 | exact G2 | exact G3 | | | exact HS | | | | ].
  - clear. induction a; constructor; auto. repeat split.
  - intros m z k j d HI. eapply (d_f _ _ _ _ _ _ H). right. exact HI.
  - intros j Hj Hj0. cbn [filter]. rewrite (HB j Hj), filter_app, (filter_none _ (b2 j) ex), app_nil_r by (intros; apply HX; auto). auto.
  - intros x Hx. apply in_or_app. auto.
  - intros m Hm. apply in_app_or in Hm as [Hm|Hm]; [ auto | ]. destruct (HD m Hm) as (k & Hk' & _). eauto.
  - intros m Hm. destruct (in_dec Z.eq_dec m del) as [Hd|Hd]; [ | left; apply cnt_other; auto ].
    destruct (HD m Hd) as (k & Hk' & [->|(-> & HH)]); [ | auto ]. pose proof (nodup_fst _ _ _ _ (d_q _ _ _ _ _ _ H) Hm Hk'). lia.
  - intros m Hm. rewrite cnt_other.
    + unfold pub0 at 2. cbn [flat_map]. rewrite count_occ_app. unfold pub0. lia.
    + intros Hd. destruct (HD m Hd) as (k & Hk' & [->|(-> & _)]); pose proof (nodup_fst _ _ _ _ (d_q _ _ _ _ _ _ H) Hm Hk'); lia.
Qed.
Lemma eff_q1gone : forall a i l l', a <> Pubrec -> Forall2 (eff a i) l l' -> Forall (fun e => q1 e \/ gone e) l -> Forall (fun e => q1 e \/ gone e) l'.
Proof.
  intros a i l l' Ha H. induction H as [|e e' l l' He _ IH]; intros HF; [ constructor | ]. inversion HF; subst. constructor; [ | auto ].
  destruct He as [->|(_ & He)]; [ auto | ]. unfold q1, gone in *. destruct a; try contradiction; destruct He as (HQ & He); try (destruct He as (b & He)); subst e'; cbn; auto.
Qed.
Lemma eff_gone : forall a i l l', Forall2 (eff a i) l l' -> Forall gone l -> Forall gone l'.
Proof.
  intros a i l l' H. induction H as [|e e' l l' He _ IH]; intros HF; [ constructor | ]. inversion HF; subst. constructor; [ | auto ].
  destruct He as [->|(_ & He)]; [ auto | ]. unfold gone in *. destruct H1. destruct a; try contradiction; destruct He as (HQ & He); try (destruct He as (b & He)); subst e'; cbn; auto; congruence.
Qed.
Lemma eff_q1 : forall i l l', Forall2 (eff Puback i) l l' -> Forall q1 l -> Forall q1 l'.
Proof.
  intros i l l' H. induction H as [|e e' l l' He _ IH]; intros HF; [ constructor | ]. inversion HF; subst. constructor; [ | auto ].
  destruct He as [->|(_ & HQ & b & ->)]; auto.
Qed.
Lemma zombies : forall i l f l' f' del err, Forall fine_from l -> Forall q1 (at_id i l) -> at_id i l <> [] -> ack_loop Pubrec i false f l = Some (l', f', del, err) ->
  l' = l /\ del = [] /\ err = true.
Proof.
  assert (HX : forall i l f, Forall fine_from l -> Forall q1 (at_id i l) -> exists err, ack_loop Pubrec i false f l = Some (l, f, [], err) /\ (at_id i l <> [] -> err = true)).
  { intros i l. induction l as [|e r IH]; intros f HF HQ; cbn [ack_loop]; [ exists false; split; [ reflexivity | intros HN; destruct (HN eq_refl) ] | ].
    inversion HF as [|? ? HF1 HF2]; subst. rewrite at_cons in HQ. destruct HF1 as (HK & HO & HN). unfold ack_entry. destruct (Z.eqb_spec (e_id e) i) as [E|E]; cbn [negb app] in *.
    - inversion HQ as [|? ? HQ1 HQ2]; subst. unfold ack_bug. rewrite HK, andb_false_r. unfold ack_publish. rewrite HQ1. cbn [Z.eqb Pos.eqb negb].
      destruct (IH f HF2 HQ2) as (er & -> & _). exists true. auto.
    - destruct (IH f HF2 HQ) as (er & -> & Her). exists er. split; [ reflexivity | ]. rewrite at_cons. destruct (Z.eqb_spec (e_id e) i); [ congruence | ]. exact Her. }
  intros i l f l' f' del err HF HQ HN H. destruct (HX i l f HF HQ) as (er & E & Her). rewrite E in H. injection H as <- <- <- <-. auto.
Qed.
Lemma outgoing_sents : forall cf now s w s' evs c, incoming w = false -> sinv s -> wire_ok w -> receive cf now s w = Some (s', evs, c) ->
  forall x i, In x (sents evs) -> b2 i x = false.
Proof.
  intros cf now s w s' evs c HN HI HW H x i Hx. destruct w as [m z k id dup|a id rs|id|id]; try discriminate; cbn [receive] in H;
    [ | injection H as <- <- <-; destruct Hx | injection H as <- <- <-; destruct Hx ].
  destruct HW as (HP & Hid). destruct a; try discriminate.
  - unfold handle_final in H. destruct (process_ack _ _ _ _) as [[[[s1 f] d] er]|]; [ | discriminate ]. injection H as <- <- <-. rewrite sents_deliver in Hx. destruct Hx.
  - unfold handle_middle in H. destruct (process_ack _ _ _ _) as [[[[s1 f] d] er]|]; [ | discriminate ]. cbv zeta in H.
    destruct (_ && _); [ injection H as <- <- <-; rewrite sents_deliver in Hx; destruct Hx | ]. unfold send_now in H.
    destruct (process_ack _ _ _ _) as [[[[s2 f2] d2] er2]|]; [ | discriminate ]. destruct er2; injection H as <- <- <-; rewrite !sents_app, !sents_deliver in Hx; cbn in Hx; [ destruct Hx | ].
    destruct Hx as [<-|[]]. reflexivity.
  - unfold handle_final in H. destruct (process_ack _ _ _ _) as [[[[s1 f] d] er]|]; [ | discriminate ]. injection H as <- <- <-. rewrite sents_deliver in Hx. destruct Hx.
Qed.
Lemma at_one : forall i a, NoDup (nz a) -> i <> 0 -> at_id i a = [] \/ exists x, at_id i a = [x] /\ In x a /\ e_id x = i.
Proof.
  intros i a HN Hi. destruct (nz_look a i HN Hi) as [HA|(l1 & x & l2 & -> & Ex & A1 & A2)]; [ left; apply at_away; auto | right ].
  exists x. rewrite at_app, at_cons, Ex, Z.eqb_refl, (at_away _ _ A1), (at_away _ _ A2). split; [ reflexivity | split; [ apply in_or_app; right; left; auto | auto ] ].
Qed.

Lemma B_read_1 : forall cf now s m z i dup s' evs c a f1 f2 g q, i <> 0 ->
  DI a (WPub m z 1 i dup :: f1) f2 (s_from s) g q -> receive cf now s (WPub m z 1 i dup) = Some (s', evs, c) ->
  DI a f1 (f2 ++ sents evs) (s_from s') (g ++ delivers evs) q.
Proof.
  intros cf now s m z i dup s' evs c a f1 f2 g q Hi HD H. cbn [receive] in H. unfold handle_publish in H. cbn [Z.eqb Pos.eqb] in H.
  set (e := mk_e KPub m z 1 i dup now false 0 false false false false false) in *.
  apply send_from_inv in H as (f & del & err & EL & ED & ES); [ | reflexivity ]. cbn [delivers sents flat_map app] in ED, ES. rewrite ED, ES. cbn [with_from s_from] in EL.
  assert (HQ : In (m, 1) q) by (eapply (d_f _ _ _ _ _ _ HD); left; reflexivity).
  destruct (insert_good q e (s_from s) (DI_good _ _ _ _ _ _ HD)) as (G1 & GJ & GI); [ repeat split; auto | exact HQ | left; reflexivity | ]. change (e_id e) with i in *.
  destruct (ack_loop_eff _ _ _ _ _ _ _ _ (proj1 G1) EL) as (HE & HSrc). destruct (good_eff _ _ _ _ _ G1 HE) as (G2 & GJ2 & GI2).
  assert (HIn : In m del).
  { destruct (at_split _ _ _ _ GI) as (l1 & l2 & El & A1 & _). rewrite El, ack_loop_pre in EL by auto. cbn [ack_loop] in EL. unfold ack_entry in EL. cbn [e e_id e_kind] in EL. rewrite Z.eqb_refl in EL.
    cbn in EL. destruct (ack_loop Puback i false 1 l2) as [[[[r1 f2'] d2] er]|]; [ | discriminate ]. injection EL as _ _ <- _. left. reflexivity. }
  rewrite GI in GI2.
  eapply (DI_atE i _ _ _ _ _ _ _ _ _ _ HD); auto.
  - intros j Hj. cbn [b1]. destruct (Z.eqb_spec i j); [ congruence | reflexivity ].
  - discriminate.
  - intros j Hj. rewrite GJ2, GJ; auto.
  - intros j x Hj Hx. destruct err; [ destruct Hx | ]. destruct Hx as [<-|[]]. cbn [b2]. destruct (Z.eqb_spec i j); [ congruence | reflexivity ].
  - pose proof (d_slot _ _ _ _ _ _ HD i Hi) as HS. cbn [filter b1] in HS. rewrite Z.eqb_refl in HS. cbn [Z.eqb andb negb] in HS.
    rewrite filter_app.
    assert (HF2 : forall P : wire -> Prop, P (WAck Puback i 0) -> Forall P (filter (b2 i) f2) -> Forall P (filter (b2 i) f2 ++ filter (b2 i) (if err then [] else [WAck Puback i 0]))).
    { intros P HP HF. apply Forall_app. split; [ auto | ]. destruct err; cbn [filter b2]; rewrite ?Z.eqb_refl; auto. }
    assert (HId : slot_idle (WPub m z 1 i dup :: filter (b1 i) f1) (filter (b2 i) f2) (at_id i (s_from s)) ->
                  slot_idle (filter (b1 i) f1) (filter (b2 i) f2 ++ filter (b2 i) (if err then [] else [WAck Puback i 0])) (at_id i (s_from s'))).
    { intros (S1 & S2 & S3). split; [ inversion S1; auto | split; [ apply HF2; [ left; reflexivity | auto ] | ] ].
      eapply eff_q1gone; [ | exact GI2 | ]; [ discriminate | ]. constructor; [ left; reflexivity | auto ]. }
    destruct (at_one i a (d_nodup _ _ _ _ _ _ HD) Hi) as [Ea|(x & Ea & Hx & Ix)]; [ rewrite Ea in *; apply HId; exact HS | ]. rewrite Ea in *. cbn [slot_ok] in *.
    destruct (e_kind x); try (apply HId; exact HS). destruct (e_qos x =? 2).
    + exfalso. unfold slot_two in HS. destruct (e_pubcomp x); [ destruct HS as (HX & _); inversion HX; contradiction | ]. destruct (e_pubrec x).
      * destruct HS as (_ & [(HX & _)|(HX & _)]); [ | inversion HX; contradiction ]. apply two_head in HX; [ inversion HX; contradiction | ]. intros (_ & HX'). discriminate.
      * destruct HS as (_ & HX & _). inversion HX as [|? ? HX1 _]. destruct HX1 as (_ & HX1). discriminate.
    + destruct (e_qos x =? 1); [ | apply HId; exact HS ]. destruct HS as (S1 & S2 & S3 & S4). inversion S1 as [|? ? S11 S12]; subst. destruct S11 as (EM & _).
      split; [ auto | split; [ apply HF2; [ reflexivity | auto ] | split ] ].
      * intros _. apply in_or_app. right. rewrite <- EM. exact HIn.
      * eapply eff_q1; [ exact GI2 | ]. constructor; [ reflexivity | auto ].
  - intros d Hd. destruct (HSrc d Hd) as (x & Hx & Ix & Mx & Qx). exists 1. split; [ | auto ]. rewrite <- Mx, <- Qx. apply G1. exact Hx.
Qed.

Lemma wait_eff : forall m i y y', eff Pubrec i y y' -> wait m y -> wait m y'.
Proof. intros m i y y' [->|(_ & _ & ->)] H; [ auto | ]. destruct H as (A & B & C & D & F). repeat split; auto. Qed.
Lemma B_read_2 : forall cf now s m z i dup s' evs c a f1 f2 g q, i <> 0 ->
  DI a (WPub m z 2 i dup :: f1) f2 (s_from s) g q -> receive cf now s (WPub m z 2 i dup) = Some (s', evs, c) ->
  DI a f1 (f2 ++ sents evs) (s_from s') (g ++ delivers evs) q.
Proof.
  intros cf now s m z i dup s' evs c a f1 f2 g q Hi HD H. cbn [receive] in H. unfold handle_publish in H. cbn [Z.eqb Pos.eqb] in H.
  set (e := mk_e KPub m z 2 i dup now false 0 false false false false false) in *.
  assert (HQ : In (m, 2) q) by (eapply (d_f _ _ _ _ _ _ HD); left; reflexivity).
  assert (HL : DI a f1 f2 (s_from s) g q) by (eapply DI_lose; [ exact HD | constructor; apply sub_refl | apply sub_refl ]).
  pose proof (DI_good _ _ _ _ _ _ HD) as HG.
  (* the entry at A *)
  pose proof (d_slot _ _ _ _ _ _ HD i Hi) as HS. cbn [filter b1] in HS. rewrite Z.eqb_refl in HS. cbn [Z.eqb andb negb] in HS.
  assert (HNo : forall p2 es, ~ slot_idle (WPub m z 2 i dup :: filter (b1 i) f1) p2 es).
  { intros p2 es (HX & _). inversion HX as [|? ? HX1 _]. destruct HX1 as [HX1|HX1]; [ exact HX1 | discriminate ]. }
  destruct (at_one i a (d_nodup _ _ _ _ _ _ HD) Hi) as [Ea|(x & Ea & Hx & Ix)]; [ rewrite Ea in HS; destruct (HNo _ _ HS) | ].
  rewrite Ea in HS. cbn [slot_ok] in HS. destruct (e_kind x) eqn:EK; try (destruct (HNo _ _ HS)).
  destruct (e_qos x =? 2) eqn:EQ.
  2: { destruct (e_qos x =? 1); [ | destruct (HNo _ _ HS) ]. destruct HS as (HX & _). inversion HX as [|? ? HX1 _]. destruct HX1 as (_ & HX1). discriminate. }
  assert (HJb : forall j, j <> i -> b1 j (WPub m z 2 i dup) = false) by (intros j Hj; cbn [b1]; destruct (Z.eqb_spec i j); [ congruence | reflexivity ]).
  (* B holds the message: it stays so, PUBREC is sent or the connection closed *)
  assert (HW : forall y, at_id i (s_from s) = [y] -> wait (e_msg x) y ->
    (forall p2', (p2' = filter (b2 i) f2 \/ p2' = filter (b2 i) f2 ++ [WAck Pubrec i 0]) -> forall y', wait (e_msg x) y' -> slot_ok [x] (filter (b1 i) f1) p2' [y'] g) ->
    DI a f1 (f2 ++ sents evs) (s_from s') (g ++ delivers evs) q).
  { intros y Ey Wy HSl. rewrite (at_find i _ (proj1 (proj2 HG))), Ey in H. cbn [hd_error] in H.
    destruct (negb (e_size y =? z) || negb dup); [ injection H as <- <- <-; cbn [sents delivers flat_map]; rewrite !app_nil_r; exact HL | ].
    apply send_from_inv in H as (f & del & err & EL & ED & ES); [ | reflexivity ]. cbn [delivers sents flat_map app] in ED, ES. rewrite ED, ES. clear ED ES.
    destruct (ack_loop_eff _ _ _ _ _ _ _ _ (proj1 HG) EL) as (HE & HSrc). destruct (good_eff _ _ _ _ _ HG HE) as (G2 & GJ2 & GI2).
    assert (del = []) by (destruct del as [|d del]; [ reflexivity | destruct (HSrc d (or_introl eq_refl)) as (? & _ & _ & _ & []) ]). subst del.
    rewrite Ey in GI2. destruct (at_id i (s_from s')) as [|y' lr] eqn:EB; [ inversion GI2 | ]. inversion GI2 as [|? ? ? ? Hy' HR].
    assert (Hlr : lr = []) by (inversion HR; reflexivity). rewrite Hlr in EB.
    eapply (DI_atE i _ _ _ _ _ _ _ _ _ _ HD); auto.
    - discriminate.
    - intros j w Hj Hw. destruct err; [ destruct Hw | ]. destruct Hw as [<-|[]]. cbn [b2]. destruct (Z.eqb_spec i j); [ congruence | reflexivity ].
    - rewrite app_nil_r, Ea, EB, filter_app. apply HSl; [ | eapply wait_eff; eauto ].
      destruct err; cbn [filter b2]; [ left; apply app_nil_r | right; rewrite Z.eqb_refl; reflexivity ].
    - intros d []. }
  unfold slot_two in HS.
  destruct (e_pubcomp x) eqn:EC; [ destruct HS as (HX & _); inversion HX; contradiction | ].
  destruct (e_pubrec x) eqn:ER.
  - destruct HS as (HRl & [(S1 & S2 & (y & Ey & Wy) & S4)|(S1 & _)]); [ | inversion S1; contradiction ].
    apply (HW y Ey Wy). intros p2' Hp2 y' Wy'. cbn [slot_ok]. rewrite EK, EQ. unfold slot_two. rewrite EC, ER. split; [ auto | left ].
    split; [ eapply two_tail; eauto | split; [ | split; [ exists y'; auto | auto ] ] ]. destruct Hp2 as [->| ->]; [ auto | apply Forall_app; split; [ auto | constructor; [ reflexivity | auto ] ] ].
  - destruct HS as (HRl & S1 & S2 & S4 & [(S5 & S6)|(y & Ey & Wy)]).
    + destruct (at_id i (s_from s)) as [|y0 es] eqn:Ees.
      * (* a new message *)
        rewrite (at_find i _ (proj1 (proj2 HG))), Ees in H. cbn [hd_error] in H.
        apply send_from_inv in H as (f & del & err & EL & ED & ES); [ | reflexivity ]. cbn [delivers sents flat_map app] in ED, ES. rewrite ED, ES. clear ED ES. cbn [with_from s_from] in EL.
        destruct (insert_good q e (s_from s) HG) as (G1 & GJ & GI); [ repeat split; auto | exact HQ | right; reflexivity | ]. change (e_id e) with i in *. rewrite Ees in GI.
        destruct (at_split _ _ _ _ GI) as (l1 & l2 & El & A1 & A2 & _). apply at_none in A2.
        assert (HE : ack_entry Pubrec i false 0 e = Some (set_pubrec e true, 1, [], FStop)) by (unfold ack_entry; cbn [e e_id e_kind]; rewrite Z.eqb_refl; reflexivity).
        pose proof (ack_loop_one Pubrec i false l1 e l2 0 _ _ _ _ A1 A2 HE) as HLo. rewrite <- El, EL in HLo. injection HLo as Efr _ Edel Eerr. subst del err.
        assert (HEf : Forall2 (eff Pubrec i) (insert_id e (s_from s)) (s_from s')).
        { rewrite El, Efr. apply Forall2_app; [ apply eff_refl | ]. constructor; [ right; repeat split | apply eff_refl ]. }
        destruct (good_eff _ _ _ _ _ G1 HEf) as (G2 & GJ2 & _).
        eapply (DI_atE i _ _ _ _ _ _ _ _ _ _ HD); auto.
        -- discriminate.
        -- intros j Hj. rewrite GJ2, GJ; auto.
        -- intros j w Hj [<-|[]]. cbn [b2]. destruct (Z.eqb_spec i j); [ congruence | reflexivity ].
        -- rewrite app_nil_r, Ea, Efr, filter_app, S6. cbn [filter b2 is_err]. rewrite Z.eqb_refl. rewrite at_app, at_cons, (at_away _ _ A1), (at_away _ _ A2). cbn [set_pubrec e e_id]. rewrite Z.eqb_refl.
           cbn [app slot_ok]. rewrite EK, EQ. unfold slot_two. rewrite EC, ER. inversion S1 as [|? ? S11 S12]. destruct S11 as (EM & _).
           split; [ auto | split; [ auto | split; [ constructor; [ reflexivity | auto ] | split; [ auto | right ] ] ] ]. eexists. split; [ reflexivity | ]. repeat split; auto.
        -- intros d [].
      * (* left overs of QoS 1: the connection is closed *)
        rewrite (at_find i _ (proj1 (proj2 HG))), Ees in H. cbn [hd_error] in H.
        destruct (negb (e_size y0 =? z) || negb dup); [ injection H as <- <- <-; cbn [sents delivers flat_map]; rewrite !app_nil_r; exact HL | ].
        apply send_from_inv in H as (f & del & err & EL & ED & ES); [ | reflexivity ]. cbn [delivers sents flat_map app] in ED, ES. rewrite ED, ES. clear ED ES.
        assert (HZo : s_from s' = s_from s /\ del = [] /\ err = true).
        { eapply zombies; [ exact (proj1 HG) | | | exact EL ]; rewrite Ees; [ auto | discriminate ]. }
        destruct HZo as (-> & -> & ->). rewrite !app_nil_r. exact HL.
    + apply (HW y Ey Wy). intros p2' Hp2 y' Wy'. cbn [slot_ok]. rewrite EK, EQ. unfold slot_two. rewrite EC, ER. inversion S1.
      split; [ auto | split; [ auto | split; [ | split; [ auto | right; exists y'; auto ] ] ] ]. destruct Hp2 as [->| ->]; [ auto | apply Forall_app; split; [ auto | constructor; [ reflexivity | auto ] ] ].
Qed.

Lemma B_read_rel : forall cf now s i rs s' evs c a f1 f2 g q, i <> 0 ->
  DI a (WAck Pubrel i rs :: f1) f2 (s_from s) g q -> receive cf now s (WAck Pubrel i rs) = Some (s', evs, c) ->
  DI a f1 (f2 ++ sents evs) (s_from s') (g ++ delivers evs) q.
Proof.
  intros cf now s i rs s' evs c a f1 f2 g q Hi HD H. cbn [receive] in H. unfold handle_middle in H. cbn [recv_out] in H.
  pose proof (DI_good _ _ _ _ _ _ HD) as HG.
  destruct (process_ack s Pubrel i false) as [[[[s1 f] del1] err1]|] eqn:EP; [ | discriminate ]. apply process_from_inv in EP. cbv zeta in H.
  set (rs' := if negb (f =? 1) then 146 else if err1 then 128 else 0) in *.
  destruct (ack_loop_eff _ _ _ _ _ _ _ _ (proj1 HG) EP) as (HE1 & HSrc). destruct (good_eff _ _ _ _ _ HG HE1) as (G1 & GJ1 & GI1).
  (* the second part *)
  assert (HX : exists ex, delivers evs = del1 /\ sents evs = ex /\ (ex = [] \/ ex = [WAck Pubcomp i rs']) /\ exists b, b = true \/ b = false).
  { destruct (err1 && negb (c_v5 cf)); [ injection H as <- <- <-; exists []; rewrite delivers_map, sents_deliver; eauto 8 | ].
    apply send_from_inv in H as (f' & del2 & err2 & EL & ED & ES); [ | reflexivity ].
    destruct (ack_loop_eff _ _ _ _ _ _ _ _ (proj1 G1) EL) as (_ & HSrc2).
    assert (N2 : del2 = []) by (destruct del2 as [|d del2]; [ reflexivity | destruct (HSrc2 d (or_introl eq_refl)) as (? & _ & _ & _ & []) ]).
    rewrite delivers_map in ED. rewrite sents_deliver in ES. rewrite ED, ES, N2, app_nil_r. cbn [app]. exists (if err2 then [] else [WAck Pubcomp i rs']). destruct err2; eauto 8. }
  destruct HX as (ex & ED & ES & Hex & _).
  assert (HE2 : Forall2 (eff Pubcomp i) (s_from s1) (s_from s')).
  { clear - H G1. destruct (err1 && negb (c_v5 cf)); [ injection H as <- <- <-; apply eff_refl | ].
    apply send_from_inv in H as (f' & del2 & err2 & EL & _); [ | reflexivity ]. apply (ack_loop_eff _ _ _ _ _ _ _ _ (proj1 G1) EL). }
  destruct (good_eff _ _ _ _ _ G1 HE2) as (G2 & GJ2 & GI2). rewrite ED, ES. clear ED ES.
  pose proof (d_slot _ _ _ _ _ _ HD i Hi) as HS. cbn [filter b1] in HS. rewrite Z.eqb_refl in HS.
  assert (HJb : forall j, j <> i -> b1 j (WAck Pubrel i rs) = false) by (intros j Hj; cbn [b1]; destruct (Z.eqb_spec i j); [ congruence | reflexivity ]).
  assert (HEx : forall j x, j <> i -> In x ex -> b2 j x = false).
  { intros j x Hj Hx. destruct Hex as [->| ->]; [ destruct Hx | ]. destruct Hx as [<-|[]]. cbn [b2]. destruct (Z.eqb_spec i j); [ congruence | reflexivity ]. }
  assert (HFx : filter (b2 i) ex = [] \/ filter (b2 i) ex = [WAck Pubcomp i rs']).
  { destruct Hex as [->| ->]; [ left; reflexivity | right; cbn [filter b2]; rewrite Z.eqb_refl; reflexivity ]. }
  assert (HFP : forall P : wire -> Prop, P (WAck Pubcomp i rs') -> Forall P (filter (b2 i) f2) -> Forall P (filter (b2 i) (f2 ++ ex))).
  { intros P HP HF. rewrite filter_app. apply Forall_app. split; [ auto | ]. destruct HFx as [->| ->]; auto. }
  (* nothing is held: nothing is delivered *)
  assert (HQuiet : Forall (fun e => q1 e \/ gone e) (at_id i (s_from s)) ->
            (Forall (fun e => q1 e \/ gone e) (at_id i (s_from s')) -> (Forall gone (at_id i (s_from s)) -> Forall gone (at_id i (s_from s'))) ->
             slot_ok (at_id i a) (filter (b1 i) f1) (filter (b2 i) (f2 ++ ex)) (at_id i (s_from s')) g) -> DI a f1 (f2 ++ ex) (s_from s') (g ++ del1) q).
  { intros HF HSl. assert (del1 = []) as ->.
    { destruct del1 as [|d del1]; [ reflexivity | ]. destruct (HSrc d (or_introl eq_refl)) as (x & Hx & Ix & _ & Qx & Rx).
      rewrite Forall_forall in HF. destruct (HF x) as [HQ|[_ HR]]; [ apply (filter_In (fun e => e_id e =? i)); rewrite Ix, Z.eqb_refl; auto | unfold q1 in HQ; lia | congruence ]. }
    eapply (DI_atE i _ _ _ _ _ _ _ _ _ _ HD); auto.
    - intros j Hj. rewrite GJ2, GJ1; auto.
    - rewrite app_nil_r. apply HSl.
      + refine (eff_q1gone Pubcomp i _ _ _ GI2 _); [ discriminate | ]. refine (eff_q1gone Pubrel i _ _ _ GI1 HF). discriminate.
      + intros HGo. eapply eff_gone; [ exact GI2 | ]. eapply eff_gone; [ exact GI1 | exact HGo ].
    - intros d []. }
  assert (HGQ : forall l, Forall gone l -> Forall (fun e => q1 e \/ gone e) l) by (intros l; apply Forall_impl; auto).
  assert (HId : slot_idle (WAck Pubrel i rs :: filter (b1 i) f1) (filter (b2 i) f2) (at_id i (s_from s)) ->
     (forall p1 p2 es g, slot_idle p1 p2 es -> slot_ok (at_id i a) p1 p2 es g) -> DI a f1 (f2 ++ ex) (s_from s') (g ++ del1) q).
  { intros (S1 & S2 & S3) HSl. apply HQuiet; [ exact S3 | ]. intros HF _. apply HSl. split; [ inversion S1; auto | split; [ | exact HF ] ]. apply HFP; [ right; reflexivity | auto ]. }
  destruct (at_one i a (d_nodup _ _ _ _ _ _ HD) Hi) as [Ea|(x & Ea & Hx & Ix)]; [ rewrite Ea in HS; apply HId; [ exact HS | rewrite Ea; auto ] | ].
  rewrite Ea in HS. cbn [slot_ok] in HS. destruct (e_kind x) eqn:EK; try (apply HId; [ exact HS | rewrite Ea; intros; cbn [slot_ok]; rewrite EK; auto ]).
  destruct (e_qos x =? 2) eqn:EQ.
  2: { destruct (e_qos x =? 1) eqn:EQ1; [ | apply HId; [ exact HS | rewrite Ea; intros; cbn [slot_ok]; rewrite EK, EQ, EQ1; auto ] ].
       destruct HS as (HX & _). inversion HX as [|? ? HX1 _]. destruct HX1. }
  unfold slot_two in HS.
  destruct (e_pubcomp x) eqn:EC.
  { destruct HS as (S1 & S2 & S3 & S4). apply HQuiet; [ auto | ]. intros _ HGo. rewrite Ea. cbn [slot_ok]. rewrite EK, EQ. unfold slot_two. rewrite EC.
    split; [ inversion S1; auto | split; [ apply HFP; [ reflexivity | auto ] | auto ] ]. }
  destruct (e_pubrec x) eqn:ER.
  2: { destruct HS as (_ & HX & _). inversion HX as [|? ? HX1 _]. destruct HX1. }
  destruct HS as (HRl & [(S1 & S2 & (y & Ey & Wy) & S4)|(S1 & S2 & S3 & S4)]).
  - (* the message is released *)
    apply two_head in S1; [ | intros [] ]. assert (HIy : In y (s_from s) /\ e_id y = i).
    { assert (HI0 : In y (at_id i (s_from s))) by (rewrite Ey; left; auto). apply (filter_In (fun e => e_id e =? i)) in HI0 as [A B]. split; [ auto | lia ]. }
    destruct HIy as (HIy & IDy). destruct HG as (F1 & F2 & F3). rewrite Forall_forall in F1. destruct (F1 y HIy) as (KY & OY & _).
    destruct Wy as (W1 & W2 & W3 & W4 & W5).
    destruct (at_split _ _ _ _ Ey) as (l1 & l2 & El & A1 & A2 & _). apply at_none in A2.
    assert (HE : ack_entry Pubrel i false 0 y = Some (set_pubrel y true, 1, [e_msg y], FStop)).
    { unfold ack_entry, ack_bug, ack_publish. rewrite IDy, Z.eqb_refl, KY, W1, W3, W4, OY. reflexivity. }
    pose proof (ack_loop_one Pubrel i false l1 y l2 0 _ _ _ _ A1 A2 HE) as HL. rewrite <- El, EP in HL. injection HL as Es1 Ef Edel Eerr.
    assert (Hgone : Forall gone (at_id i (s_from s'))).
    { eapply eff_gone; [ exact GI2 | ]. rewrite Es1, at_app, at_cons, (at_away _ _ A1), (at_away _ _ A2). cbn [set_pubrel e_id]. rewrite IDy, Z.eqb_refl. cbn [app]. constructor; [ | constructor ]. split; [ exact W1 | reflexivity ]. }
    eapply (DI_atE i _ _ _ _ _ _ _ _ _ _ HD); auto.
    + intros j Hj. rewrite GJ2, GJ1; auto.
    + rewrite Ea. cbn [slot_ok]. rewrite EK, EQ. unfold slot_two. rewrite EC, ER. split; [ auto | right ]. split; [ inversion S1; auto | split; [ | split; [ auto | ] ] ].
      * rewrite filter_app. destruct HFx as [->| ->]; [ rewrite app_nil_r; apply two_first; auto | ]. apply two_snoc; [ apply two_first; auto | reflexivity ].
      * rewrite Edel, count_occ_app, S4, W2. cbn [count_occ]. destruct (Z.eq_dec (e_msg x) (e_msg x)); [ reflexivity | contradiction ].
    + intros d Hd. rewrite Edel in Hd. destruct Hd as [<-|[]]. exists 2. split; [ rewrite <- W1; apply F3; auto | right ]. split; [ auto | exists x; auto ].
  - apply HQuiet; [ auto | ]. intros _ HGo. rewrite Ea. cbn [slot_ok]. rewrite EK, EQ. unfold slot_two. rewrite EC, ER. split; [ auto | right ].
    split; [ inversion S1; auto | split; [ | auto ] ]. rewrite filter_app. destruct HFx as [->| ->]; [ rewrite app_nil_r; auto | apply two_snoc; [ auto | reflexivity ] ].
Qed.

Lemma B_read_0 : forall a m z i dup f1 f2 E g q, DI a (WPub m z 0 i dup :: f1) f2 E g q -> DI a f1 f2 E (g ++ [m]) q.
Proof.
  intros a m z i dup f1 f2 E g q HD. assert (HQ : In (m, 0) q) by (eapply (d_f _ _ _ _ _ _ HD); left; reflexivity).
  assert (HB : forall j, b1 j (WPub m z 0 i dup) = false) by (intros j; cbn [b1]; apply andb_false_r).
  assert (HC : forall m', In (m', 2) q -> cnt (g ++ [m]) m' = cnt g m').
  { intros m' Hm'. apply cnt_other. intros [<-|[]]. pose proof (nodup_fst _ _ _ _ (d_q _ _ _ _ _ _ HD) Hm' HQ). lia. }
  eapply (DI_upd 1); [ exact HD | discriminate | | apply HD | auto | apply HD | apply HD | apply HD | | | | | | | ].
  - clear. induction a; constructor; auto. repeat split.
  - intros m' z' k j d HI. eapply (d_f _ _ _ _ _ _ HD). right. exact HI.
  - intros j Hj Hj0. cbn [filter]. rewrite HB. auto.
  - pose proof (d_slot _ _ _ _ _ _ HD 1) as HS. cbn [filter] in HS. rewrite HB in HS. eapply slot_more; [ apply HS; discriminate | intros x Hx; apply in_or_app; auto | ].
    intros x Ex HK Hk. apply HC. rewrite <- Hk. apply (d_a _ _ _ _ _ _ HD); [ | exact HK ].
    assert (HI0 : In x (at_id 1 a)) by (rewrite Ex; left; auto). apply (filter_In (fun e => e_id e =? 1)) in HI0. apply HI0.
  - intros x Hx. apply in_or_app. auto.
  - intros x Hx. apply in_app_or in Hx as [Hx|[<-|[]]]; [ auto | right; eauto ].
  - intros m' Hm'. left. auto.
  - intros m' Hm'. unfold pub0 at 2. cbn [flat_map Z.eqb]. rewrite !count_occ_app. unfold pub0. lia.
Qed.

Lemma B_read : forall cf now s w s' evs c a f1 f2 g q, sinv s -> wire_ok w -> DI a (w :: f1) f2 (s_from s) g q ->
  receive cf now s w = Some (s', evs, c) -> DI a f1 (f2 ++ sents evs) (s_from s') (g ++ delivers evs) q.
Proof.
  intros cf now s w s' evs c a f1 f2 g q HI HW HD H. destruct (incoming w) eqn:EI.
  - destruct w as [m z k i dup|b i rs|i|i]; try discriminate.
    + destruct HW as (Hk & Hi). assert (k = 0 \/ k = 1 \/ k = 2) as [->|[->| ->]] by lia.
      * cbn [receive] in H. unfold handle_publish in H. cbn [Z.eqb] in H. injection H as <- <- <-. cbn [sents delivers flat_map app]. rewrite app_nil_r. eapply B_read_0; eauto.
      * eapply B_read_1; eauto. specialize (Hi ltac:(discriminate)). lia.
      * eapply B_read_2; eauto. specialize (Hi ltac:(discriminate)). lia.
    + destruct b; try discriminate. destruct HW as (_ & Hi). eapply B_read_rel; eauto. lia.
  - destruct (recv_quiet _ _ _ _ _ _ _ HI HW EI H) as (-> & ->). rewrite app_nil_r. rewrite <- (app_nil_r f1). apply DI_ext; [ | intros ? [] | ].
    + eapply DI_lose; [ exact HD | constructor; apply sub_refl | apply sub_refl ].
    + intros x i Hx. eapply outgoing_sents; eauto.
Qed.

(** ** B sends from its queues *)
Lemma core_pred : forall e e', core e e' -> (q1 e -> q1 e') /\ (gone e -> gone e') /\ (forall m, wait m e -> wait m e').
Proof. intros e e' H. unfold core in H. decompose [and] H. unfold q1, gone, wait. repeat split; intuition congruence. Qed.
Lemma mid_Forall : forall T (P : T -> Prop) u e v, Forall P (u ++ e :: v) <-> Forall P u /\ P e /\ Forall P v.
Proof. intros. rewrite Forall_app, Forall_cons_iff. tauto. Qed.
Lemma mid_one : forall T (u : list T) e v y, u ++ e :: v = [y] -> u = [] /\ e = y /\ v = [].
Proof. intros T u e v y H. destruct u as [|x u]; [ injection H as -> ->; auto | ]. injection H as _ H. destruct u; discriminate. Qed.
Lemma slot_entries : forall xs p1 p2 es es' g, slot_ok xs p1 p2 es g ->
  (Forall q1 es -> Forall q1 es') -> (Forall gone es -> Forall gone es') -> (Forall (fun e => q1 e \/ gone e) es -> Forall (fun e => q1 e \/ gone e) es') ->
  (forall m y, es = [y] -> wait m y -> exists y', es' = [y'] /\ wait m y') -> slot_ok xs p1 p2 es' g.
Proof.
  intros xs p1 p2 es es' g H H1 H2 H3 H4.
  assert (HI : slot_idle p1 p2 es -> slot_idle p1 p2 es') by (intros (A & B & C); split; auto).
  unfold slot_ok in *. destruct xs as [|x [|]]; auto. destruct (e_kind x); auto. destruct (e_qos x =? 2).
  - unfold slot_two in *. destruct (e_pubcomp x); [ destruct H as (A & B & C & D); auto | ]. destruct (e_pubrec x).
    + destruct H as (H & [(A & B & (y & Ey & Wy) & D)|(A & B & C & D)]); split; auto; [ left | right ]; auto 6.
      destruct (H4 _ _ Ey Wy) as (y' & Ey' & Wy'). eauto 8.
    + destruct H as (H & A & B & C & [(D1 & D2)|(y & Ey & Wy)]); auto 8. destruct (H4 _ _ Ey Wy) as (y' & Ey' & Wy'). eauto 12.
  - destruct (e_qos x =? 1); auto. unfold slot_one in *. destruct H as (A & B & C & D). auto.
Qed.
Lemma slot_rec : forall xs p1 p2 es e g w, slot_ok xs p1 p2 es g -> In e es -> e_qos e = 2 -> e_pubrel e = false -> is_a Pubrec w ->
  slot_ok xs p1 (p2 ++ [w]) es g.
Proof.
  intros xs p1 p2 es e g w H HI HQ HR HW.
  assert (HN1 : ~ Forall gone es) by (rewrite Forall_forall; intros HF; destruct (HF e HI); congruence).
  assert (HN2 : ~ Forall q1 es) by (rewrite Forall_forall; intros HF; specialize (HF e HI); unfold q1 in HF; lia).
  assert (HN3 : ~ Forall (fun e => q1 e \/ gone e) es) by (rewrite Forall_forall; intros HF; destruct (HF e HI) as [HF'|(_ & HF')]; [ unfold q1 in HF'; lia | congruence ]).
  assert (HX : slot_idle p1 p2 es -> False) by (intros (_ & _ & HX); auto).
  unfold slot_ok in *. destruct xs as [|x [|]]; try (exfalso; auto; fail). destruct (e_kind x); try (exfalso; auto; fail). destruct (e_qos x =? 2).
  - unfold slot_two in *. destruct (e_pubcomp x); [ destruct H as (A & B & C & D); contradiction | ]. destruct (e_pubrec x).
    + destruct H as (H & [(A & B & C & D)|(A & B & C & D)]); [ | contradiction ]. split; [ auto | left ]. split; [ auto | split; [ | auto ] ]. apply Forall_app. auto.
    + destruct H as (H & A & B & C & [(D1 & D2)|D]); [ contradiction | ]. split; [ auto | split; [ auto | split; [ apply Forall_app; auto | split; [ auto | right; auto ] ] ] ].
  - destruct (e_qos x =? 1); [ | exfalso; auto ]. destruct H as (A & B & C & D). contradiction.
Qed.
Lemma DI_B : forall a f1 f2 pre e es' r g q ex, DI a f1 f2 (pre ++ e :: r) g q ->
  (es' = [] \/ exists e', es' = [e'] /\ core e e') ->
  (forall w j, In w ex -> b2 j w = true -> j = e_id e) ->
  slot_ok (at_id (e_id e) a) (filter (b1 (e_id e)) f1) (filter (b2 (e_id e)) (f2 ++ ex)) (at_id (e_id e) (pre ++ es' ++ r)) g ->
  DI a f1 (f2 ++ ex) (pre ++ es' ++ r) g q.
Proof.
  intros a f1 f2 pre e es' r g q ex HD HE HX HS.
  assert (HFi : fine_from e) by (pose proof (d_from _ _ _ _ _ _ HD) as HF; rewrite Forall_forall in HF; apply HF, in_or_app; right; left; reflexivity).
  assert (Hid : e_id e <> 0) by apply HFi.
  assert (HIn : forall x, In x (pre ++ es' ++ r) -> exists y, In y (pre ++ e :: r) /\ core y x).
  { intros x Hx. apply in_app_or in Hx as [Hx|Hx]; [ exists x; split; [ apply in_or_app; auto | apply core_refl ] | ].
    apply in_app_or in Hx as [Hx|Hx]; [ | exists x; split; [ apply in_or_app; right; right; auto | apply core_refl ] ].
    destruct HE as [->|(e' & -> & HC)]; [ destruct Hx | ]. destruct Hx as [<-|[]]. exists e. split; [ apply in_or_app; right; left; auto | auto ]. }
  eapply (DI_upd (e_id e)); [ exact HD | exact Hid | | apply HD | auto | | | | apply HD | | exact HS | apply incl_refl | auto | left; auto | lia ].
  - clear. induction a; constructor; auto. repeat split.
  - apply Forall_forall. intros x Hx. destruct (HIn x Hx) as (y & Hy & Hc). pose proof (d_from _ _ _ _ _ _ HD) as HF. rewrite Forall_forall in HF.
    eapply core_fine_from; [ exact Hc | apply HF, Hy ].
  - pose proof (d_sort _ _ _ _ _ _ HD) as HSo. unfold le_sorted in *. rewrite !map_app in *. cbn [map] in HSo.
    destruct HE as [->|(e' & -> & HC)]; cbn [map app].
    + clear - HSo. induction (map e_id pre) as [|x l IH]; cbn [app] in *; [ inversion HSo; auto | ]. inversion HSo as [|? ? A B]; subst. constructor; [ auto | ].
      apply Forall_app in B as [B1 B2]. inversion B2; subst. apply Forall_app. auto.
    + replace (e_id e') with (e_id e); [ exact HSo | ]. unfold core in HC. decompose [and] HC. congruence.
  - intros x Hx. destruct (HIn x Hx) as (y & Hy & Hc). pose proof (d_e _ _ _ _ _ _ HD y Hy) as HY. unfold core in Hc. decompose [and] Hc. replace (e_msg x) with (e_msg y) by congruence. replace (e_qos x) with (e_qos y) by congruence. exact HY.
  - intros j Hj Hj0. split; [ reflexivity | split; [ reflexivity | split ] ].
    + rewrite filter_app, (filter_none _ (b2 j) ex), app_nil_r; [ reflexivity | ]. intros x Hx. destruct (b2 j x) eqn:EB; [ | reflexivity ]. elim Hj. eauto.
    + rewrite !at_app, at_cons. destruct (Z.eqb_spec (e_id e) j); [ congruence | ]. cbn [app]. do 1 f_equal.
      destruct HE as [->|(e' & -> & HC)]; [ reflexivity | ]. rewrite at_cons. unfold core in HC. decompose [and] HC. destruct (Z.eqb_spec (e_id e') j); [ congruence | reflexivity ].
Qed.
Lemma B_pass : forall pool l k d p ws, PR pool l k d p ws -> forall a f1 f2 pre g q,
  DI a f1 f2 (pre ++ l) g q -> DI a f1 (f2 ++ ws) (pre ++ k) g q.
Proof.
  induction 1 as [pool l|pool e r k d p ws HF H IH|pool pool' id e r k d p ws H0 HF HG Hid H IH|pool pool' e r H0 HG|pool e e' r k d p ws HN HF HC H IH|pool e e1 e' w r k d p ws HN HF HC1 HC HW H IH|pool pool' e e1 r k d p ws HN HF HC HK HQ HO HE H IH];
    intros a f1 f2 pre g q HD; try (assert (HFi : fine_from e) by (pose proof (d_from _ _ _ _ _ _ HD) as HF0; rewrite Forall_forall in HF0; apply HF0, in_or_app; right; left; reflexivity)).
  - rewrite app_nil_r. exact HD.
  - apply IH. pose proof (d_slot _ _ _ _ _ _ HD (e_id e) (proj2 (proj2 HFi))) as HS. rewrite at_app, at_cons, Z.eqb_refl in HS. cbn [app] in HS.
    rewrite <- (app_nil_r f2). change (pre ++ r) with (pre ++ [] ++ r). eapply DI_B; [ exact HD | auto | intros ? ? [] | ]. cbn [app]. rewrite app_nil_r, at_app.
    eapply slot_entries; [ exact HS | | | | ]; try (rewrite mid_Forall, Forall_app; tauto).
    intros m y Ey (W1 & _ & _ & _ & W5). apply mid_one in Ey as (_ & Ey & _). destruct HFi as (HK & _). unfold finished in HF. rewrite HK, Ey, W1, W5 in HF. discriminate.
  - destruct HFi as (_ & _ & HX). contradiction.
  - destruct HFi as (_ & _ & HX). contradiction.
  - assert (HD1 : DI a f1 (f2 ++ []) (pre ++ [e'] ++ r) g q).
    { eapply DI_B; [ exact HD | right; eauto | intros ? ? [] | ]. rewrite app_nil_r.
      pose proof (d_slot _ _ _ _ _ _ HD (e_id e) (proj2 (proj2 HFi))) as HS. rewrite at_app, at_cons, Z.eqb_refl in HS. cbn [app] in HS.
      assert (EI : e_id e' = e_id e) by (unfold core in HC; decompose [and] HC; auto). cbn [app]. rewrite at_app, at_cons, EI, Z.eqb_refl. cbn [app].
      destruct (core_pred _ _ HC) as (P1 & P2 & P3). eapply slot_entries; [ exact HS | | | | ]; try (rewrite !mid_Forall; tauto).
      intros m y Ey Wy. apply mid_one in Ey as (-> & -> & ->). exists e'. auto. }
    rewrite app_nil_r in HD1. cbn [app] in HD1. change (e' :: r) with ([e'] ++ r) in HD1. change (e' :: k) with ([e'] ++ k). rewrite app_assoc in *. apply IH. exact HD1.
  - assert (HW2 : w = WAck Pubrec (e_id e) 0 /\ e_qos e = 2 /\ e_pubrel e = false).
    { unfold core in HC1. decompose [and] HC1. destruct HFi as (HK & HO & _). unfold can_send in HW. rewrite H0, HK in HW. destruct HW as (HW & _).
      unfold to_transmit in HW. rewrite H5, HO, andb_false_r in HW. destruct (Z.eqb_spec (e_qos e1) 2) as [E2|E2]; [ | discriminate ].
      destruct (e_pubrel e1) eqn:EL; [ discriminate | ]. cbn [negb andb] in HW. destruct (e_pubrec e1); [ | discriminate ]. injection HW as <-. rewrite H4. split; [ reflexivity | split; congruence ]. }
    destruct HW2 as (-> & HQ & HL).
    assert (HD1 : DI a f1 (f2 ++ [WAck Pubrec (e_id e) 0]) (pre ++ [e'] ++ r) g q).
    { eapply DI_B; [ exact HD | right; eauto | | ].
      - intros x j [<-|[]]. cbn [b2]. lia.
      - pose proof (d_slot _ _ _ _ _ _ HD (e_id e) (proj2 (proj2 HFi))) as HS. rewrite at_app, at_cons, Z.eqb_refl in HS. cbn [app] in HS.
        assert (EI : e_id e' = e_id e) by (unfold core in HC; decompose [and] HC; auto). cbn [app]. rewrite at_app, at_cons, EI, Z.eqb_refl. cbn [app].
        rewrite filter_app. cbn [filter b2]. rewrite Z.eqb_refl. apply (slot_rec _ _ _ _ e _ (WAck Pubrec (e_id e) 0)) in HS; [ | apply in_or_app; right; left; auto | auto | auto | reflexivity ].
        destruct (core_pred _ _ HC) as (P1 & P2 & P3). eapply slot_entries; [ exact HS | | | | ]; try (rewrite !mid_Forall; tauto).
        intros m y Ey Wy. apply mid_one in Ey as (-> & -> & ->). exists e'. auto. }
    change (WAck Pubrec (e_id e) 0 :: ws) with ([WAck Pubrec (e_id e) 0] ++ ws). change (e' :: k) with ([e'] ++ k). rewrite !app_assoc in *. apply IH. rewrite <- app_assoc. rewrite <- app_assoc in HD1. exact HD1.
  - destruct HFi as (_ & HX & _). congruence.
Qed.

(** ** A sends from its queues *)
Lemma tags_app : forall a b, tags (a ++ b) = tags a ++ tags b.
Proof. intros. unfold tags. rewrite filter_app, map_app. reflexivity. Qed.
Lemma tags_cons : forall e l, tags (e :: l) = (if is_pub (e_kind e) then [e_msg e] else []) ++ tags l.
Proof. intros. unfold tags. cbn [filter]. destruct (is_pub (e_kind e)); reflexivity. Qed.
Lemma tags_in : forall l m, In m (tags l) <-> exists e, In e l /\ e_kind e = KPub /\ e_msg e = m.
Proof.
  intros. unfold tags. rewrite in_map_iff. split.
  - intros (e & <- & H). apply (filter_In (fun e => is_pub (e_kind e))) in H as [H1 H2]. exists e. destruct (e_kind e); try discriminate. auto.
  - intros (e & H1 & H2 & H3). exists e. split; [ auto | ]. apply (filter_In (fun e => is_pub (e_kind e))). rewrite H2. auto.
Qed.
Lemma tags_inj : forall l x y, NoDup (tags l) -> In x l -> In y l -> e_kind x = KPub -> e_kind y = KPub -> e_msg x = e_msg y -> x = y.
Proof.
  induction l as [|e l IH]; intros x y HN Hx Hy Kx Ky EM; [ destruct Hx | ]. rewrite tags_cons in HN.
  assert (HN2 : NoDup (tags l)) by (destruct (is_pub (e_kind e)); [ inversion HN; auto | exact HN ]).
  destruct Hx as [<-|Hx], Hy as [<-|Hy]; [ auto | | | eauto ].
  - rewrite Kx in HN. inversion HN as [|? ? HX _]; subst. destruct HX. rewrite EM. apply tags_in. eauto.
  - rewrite Ky in HN. inversion HN as [|? ? HX _]; subst. destruct HX. rewrite <- EM. apply tags_in. eauto.
Qed.
Lemma slot_core : forall x x' p1 p2 es g, slot_ok [x] p1 p2 es g -> core x x' -> slot_ok [x'] p1 p2 es g.
Proof.
  intros x x' p1 p2 es g H HC. unfold core in HC. decompose [and] HC. unfold slot_ok, slot_two, slot_one in *.
  repeat match goal with E : ?p x' = ?p x |- _ => rewrite E; clear E end. exact H.
Qed.
Lemma core_fine : forall e e', core e e' -> fine_to e -> (e_id e = 0 -> idle e') -> fine_to e'.
Proof. intros e e' HC (A & B) HI. unfold core in HC. decompose [and] HC. split; [ congruence | ]. intros H10. apply HI. congruence. Qed.
Lemma core_same : forall e e', core e e' -> same e e'.
Proof. intros e e' HC. unfold core in HC. decompose [and] HC. unfold same. auto. Qed.
(** An entry changes only DUP and the time, and a packet may be sent. *)
Lemma DI_coreA : forall pre e e' r f1 f2 E g q, DI (pre ++ e :: r) f1 f2 E g q -> core e e' -> (e_id e = 0 -> idle e') -> DI (pre ++ e' :: r) f1 f2 E g q.
Proof.
  intros pre e e' r f1 f2 E g q HD HC HI. pose proof (core_same _ _ HC) as (SK & SM & SQ & SI).
  assert (HS : Forall2 same (pre ++ e :: r) (pre ++ e' :: r)).
  { assert (forall l, Forall2 same l l) by (induction l; constructor; auto; repeat split). apply Forall2_app; [ auto | ]. constructor; [ repeat split; auto | auto ]. }
  destruct (tags_same _ _ HS) as (ET & EN). assert (HIn : forall x, In x (pre ++ e' :: r) -> exists y, In y (pre ++ e :: r) /\ core y x).
  { intros x Hx. apply in_app_or in Hx as [Hx|[<-|Hx]]; [ exists x | exists e | exists x ]; (split; [ apply in_or_app; cbn [In]; auto | auto ]); apply core_refl. }
  destruct HD. constructor; auto.
  - rewrite EN. auto.
  - apply Forall_app in d_fine0 as [F1 F2]. inversion F2; subst. apply Forall_app. split; [ auto | ]. constructor; [ eapply core_fine; eauto | auto ].
  - intros x Hx HK. destruct (HIn x Hx) as (y & Hy & Hc). apply core_same in Hc as (A & B & C & D). rewrite B, C. apply d_a0; congruence.
  - rewrite ET. auto.
  - intros i Hi. specialize (d_slot0 i Hi). rewrite at_app, at_cons in *. rewrite SI. destruct (Z.eqb_spec (e_id e) i) as [Ei|Ei]; [ | exact d_slot0 ].
    cbn [app] in *. pose proof (d_nodup0) as HN. rewrite nz_app, nz_cons in HN. destruct (Z.eqb_spec (e_id e) 0); [ congruence | ]. cbn [app] in HN.
    apply NoDup_remove_2 in HN. assert (A1 : at_id i pre = []) by (apply at_away; intros x Hx Ex; apply HN, in_or_app; left; apply nz_in; split; [ lia | exists x; split; [ auto | lia ] ]).
    assert (A2 : at_id i r = []) by (apply at_away; intros x Hx Ex; apply HN, in_or_app; right; apply nz_in; split; [ lia | exists x; split; [ auto | lia ] ]).
    rewrite A1, A2 in *. cbn [app] in *. eapply slot_core; eauto.
  - intros x Hx H0 HK HQ. destruct (HIn x Hx) as (y & Hy & Hc). apply core_same in Hc as (A & B & C & D). rewrite B. apply d_3; congruence.
  - rewrite ET. auto.
  - rewrite ET. auto.
  - rewrite ET. auto.
Qed.
Lemma nodup_away : forall pre e r, NoDup (nz (pre ++ e :: r)) -> e_id e <> 0 -> away (e_id e) pre /\ away (e_id e) r /\ ~ In (e_id e) (nz (pre ++ r)) /\ NoDup (nz (pre ++ r)).
Proof.
  intros pre e r HN Hi. rewrite nz_app, nz_cons in HN. destruct (Z.eqb_spec (e_id e) 0); [ congruence | ]. cbn [app] in HN.
  pose proof (NoDup_remove_1 _ _ _ HN) as HN1. apply NoDup_remove_2 in HN. rewrite <- nz_app in *. split; [ | split; [ | auto ] ];
    intros x Hx Ex; apply HN; apply nz_in; (split; [ auto | exists x; split; [ apply in_or_app; auto | auto ] ]).
Qed.
(** A packet of the entry is sent. *)
Lemma DI_sendA : forall pre e e1 r w f1 f2 E g q, DI (pre ++ e :: r) f1 f2 E g q -> e_id e <> 0 -> core e e1 -> can_send e1 w -> DI (pre ++ e :: r) (f1 ++ [w]) f2 E g q.
Proof.
  intros pre e e1 r w f1 f2 E g q HD Hi HC HW.
  destruct (nodup_away _ _ _ (d_nodup _ _ _ _ _ _ HD) Hi) as (A1 & A2 & _).
  pose proof (DI_slot1 _ _ _ _ _ _ _ _ HD Hi A1 A2) as HS.
  assert (HF : fine_to e) by (pose proof (d_fine _ _ _ _ _ _ HD) as HF; rewrite Forall_forall in HF; apply HF, in_or_app; right; left; auto).
  assert (HE : In e (pre ++ e :: r)) by (apply in_or_app; right; left; auto).
  unfold core in HC. destruct HC as (CK & CM & _ & CQ & CI & CO & _ & C1 & C2 & C3 & C4 & _). unfold can_send in HW. rewrite CK in HW.
  destruct (e_kind e) eqn:EK.
  - destruct HW as (HW & HB & HP). destruct HF as (HO & _). rewrite EK in HO. cbn [is_pub] in HO. unfold to_transmit in HW. rewrite CO, HO, andb_true_r, CQ in HW.
    destruct (Z.eqb_spec (e_qos e) 0) as [E0|E0]; [ rewrite E0 in HW; discriminate | ]. cbn [orb] in HW.
    assert (HQ0 : In (e_msg e, e_qos e) q) by (apply (d_a _ _ _ _ _ _ HD); auto).
    assert (HX : forall x, w = x -> (forall j, j <> e_id e -> b1 j x = false) -> match x with WPub m _ k _ _ => m = e_msg e /\ k = e_qos e | _ => True end ->
       slot_ok [e] (filter (b1 (e_id e)) (f1 ++ [w])) (filter (b2 (e_id e)) f2) (at_id (e_id e) E) g -> DI (pre ++ e :: r) (f1 ++ [w]) f2 E g q).
    { intros x Ex HJ HM HSl. subst x. eapply DI_atA; [ exact HD | exact Hi | repeat split | | auto | auto | | | exact HSl | ].
      - pose proof (d_fine _ _ _ _ _ _ HD) as HF. rewrite Forall_forall in HF. auto.
      - intros m z k j dd HI. apply in_app_or in HI as [HI|[HI|[]]]; [ eapply (d_f _ _ _ _ _ _ HD); eauto | ]. rewrite HI in HM. destruct HM as (-> & ->). exact HQ0.
      - intros j Hj. split; [ | auto ]. rewrite filter_app. cbn [filter]. rewrite (HJ j Hj), app_nil_r. reflexivity.
      - unfold pub0. rewrite flat_map_app. cbn [flat_map]. destruct w as [m z k j dd| | | ]; rewrite ?app_nil_r; auto. destruct HM as (_ & ->).
        destruct (Z.eqb_spec (e_qos e) 0); [ contradiction | ]. rewrite !app_nil_r. reflexivity. }
    cbn [slot_ok] in HS. rewrite EK in HS.
    destruct (Z.eqb_spec (e_qos e) 1) as [E1|E1].
    + injection HW as HW. eapply HX; [ symmetry; exact HW | | | ]; unfold as_wire.
      * intros j Hj. cbn [b1]. destruct (Z.eqb_spec (e_id e1) j); [ congruence | reflexivity ].
      * auto.
      * cbn [slot_ok]. rewrite EK. rewrite E1 in *. cbn [Z.eqb] in *. destruct HS as (S1 & S2 & S3 & S4). split; [ | auto ]. rewrite filter_app. apply Forall_app. split; [ auto | ].
        rewrite <- HW. cbn [filter as_wire b1]. destruct (_ && _); repeat constructor; cbn; congruence.
    + destruct (Z.eqb_spec (e_qos e) 2) as [E2|E2]; [ | discriminate ]. rewrite HP, C3, C2 in HW. cbn [negb andb] in HW. unfold slot_two in HS. rewrite <- C4, HP in HS.
      destruct (e_pubrel e) eqn:ER.
      * injection HW as HW. eapply HX; [ symmetry; exact HW | | exact Logic.I | ].
        { intros j Hj. cbn [b1]. lia. }
        cbn [slot_ok]. rewrite EK, E2. cbn [Z.eqb]. unfold slot_two. rewrite <- C4, HP. destruct (e_pubrec e); [ | destruct HS as (HS & _); congruence ].
        rewrite filter_app, <- HW. cbn [filter b1]. rewrite CI, Z.eqb_refl. destruct HS as (S0 & [(S1 & S2)|(S1 & S2)]); split; auto; [ left | right ]; (split; [ | exact S2 ]).
        -- apply two_snoc; [ auto | reflexivity ].
        -- apply Forall_app. split; [ auto | ]. constructor; [ reflexivity | constructor ].
      * destruct (e_pubrec e) eqn:EC; [ discriminate | ]. injection HW as HW. eapply HX; [ symmetry; exact HW | | | ]; unfold as_wire.
        -- intros j Hj. cbn [b1]. destruct (Z.eqb_spec (e_id e1) j); [ congruence | reflexivity ].
        -- auto.
        -- cbn [slot_ok]. rewrite EK, E2. cbn [Z.eqb]. unfold slot_two. rewrite <- C4, HP, EC. destruct HS as (S0 & S1 & S2). split; [ auto | split; [ | exact S2 ] ].
           rewrite filter_app. apply Forall_app. split; [ auto | ]. rewrite <- HW. cbn [filter as_wire b1]. destruct (_ && _); repeat constructor; cbn; congruence.
  - subst w. rewrite <- (app_nil_r f2). apply DI_ext; [ exact HD | intros x [<-|[]]; split; [ reflexivity | exact Logic.I ] | intros ? ? [] ].
  - subst w. rewrite <- (app_nil_r f2). apply DI_ext; [ exact HD | intros x [<-|[]]; split; [ reflexivity | exact Logic.I ] | intros ? ? [] ].
Qed.
(** An entry is removed. *)
Lemma DI_rem : forall pre e r ex f1 f2 E g q, DI (pre ++ e :: r) f1 f2 E g q -> e_id e <> 0 ->
  slot_idle (filter (b1 (e_id e)) f1) (filter (b2 (e_id e)) f2) (at_id (e_id e) E) ->
  (e_kind e = KPub -> e_qos e = 2 -> cnt g (e_msg e) = 1%nat) -> (e_kind e = KPub -> e_qos e = 1 -> In (e_msg e) g) ->
  (ex = [] \/ e_kind e = KPub /\ e_qos e = 0 /\ exists z i d, ex = [WPub (e_msg e) z 0 i d]) ->
  DI (pre ++ r) (f1 ++ ex) f2 E g q.
Proof.
  intros pre e r ex f1 f2 E g q HD Hi HS H2 H1 HX.
  destruct (nodup_away _ _ _ (d_nodup _ _ _ _ _ _ HD) Hi) as (A1 & A2 & HN & HN2).
  assert (HIn : forall x, In x (pre ++ r) -> In x (pre ++ e :: r)) by (intros x Hx; apply in_app_or in Hx as [Hx|Hx]; apply in_or_app; cbn [In]; auto).
  assert (HB : forall j, filter (b1 j) (f1 ++ ex) = filter (b1 j) f1).
  { intros j. rewrite filter_app. destruct HX as [->|(_ & _ & z & i & d & ->)]; cbn [filter b1]; rewrite ?andb_false_r, app_nil_r; reflexivity. }
  assert (HT : forall m k, In (m, k) q -> ~ In m (tags (pre ++ r)) -> ~ In m (tags (pre ++ e :: r)) \/ (e_kind e = KPub /\ e_msg e = m /\ e_qos e = k)).
  { intros m k Hm HN0. destruct (is_pub (e_kind e)) eqn:EK.
    - assert (KE : e_kind e = KPub) by (destruct (e_kind e); auto; discriminate). destruct (Z.eq_dec (e_msg e) m) as [Em|Em].
      + right. split; [ auto | split; [ auto | ] ]. eapply nodup_fst; [ apply (d_q _ _ _ _ _ _ HD) | | exact Hm ]. rewrite <- Em. apply (d_a _ _ _ _ _ _ HD); [ apply in_or_app; right; left; auto | auto ].
      + left. rewrite tags_app in HN0. rewrite tags_app, tags_cons, EK. rewrite in_app_iff in *. cbn [app In]. intuition.
    - left. rewrite tags_app in HN0. rewrite tags_app, tags_cons, EK. exact HN0. }
  pose proof (d_slot _ _ _ _ _ _ HD) as HSl. destruct HD. constructor; auto.
  - apply Forall_app in d_fine0 as [F1 F2]. inversion F2; subst. apply Forall_app. auto.
  - rewrite tags_app, tags_cons in *. destruct (is_pub (e_kind e)); [ apply NoDup_remove_1 in d_one0; auto | auto ].
  - intros m z k i d HI. apply in_app_or in HI as [HI|HI]; [ eauto | ]. destruct HX as [->|(HK & HQ & z' & i' & d' & ->)]; [ destruct HI | ].
    destruct HI as [HI|[]]. injection HI as <- <- <- <- <-. rewrite <- HQ. apply d_a0; [ apply in_or_app; right; left; auto | auto ].
  - intros j Hj. rewrite HB. specialize (HSl j Hj). rewrite at_app, at_cons in HSl. rewrite at_app.
    destruct (Z.eqb_spec (e_id e) j) as [Ej|Ej]; [ | exact HSl ]. rewrite <- Ej, (at_away _ _ A1), (at_away _ _ A2). exact HS.
  - intros m Hm HN0. destruct (HT m 2 Hm HN0) as [HT'|(T1 & T2 & T3)]; [ auto | ]. rewrite <- T2. auto.
  - intros m Hm HN0. destruct (HT m 1 Hm HN0) as [HT'|(T1 & T2 & T3)]; [ auto | ]. rewrite <- T2. auto.
  - intros m Hm. specialize (d_z0 m Hm). rewrite tags_app, tags_cons, !count_occ_app in *. unfold pub0 in *. rewrite flat_map_app, count_occ_app.
    destruct HX as [->|(HK & HQ & z' & i' & d' & ->)]; [ cbn [flat_map count_occ]; lia | ]. rewrite HK in d_z0. cbn [is_pub flat_map Z.eqb app count_occ] in *. destruct (Z.eq_dec (e_msg e) m); lia.
Qed.
(** An entry gets an identifier. *)
Lemma DI_setid : forall pre e r id f1 f2 E g q, DI (pre ++ e :: r) f1 f2 E g q -> e_id e = 0 -> id <> 0 -> ~ In id (nz (pre ++ e :: r)) ->
  slot_ok [set_id e id] (filter (b1 id) f1) (filter (b2 id) f2) (at_id id E) g -> DI (pre ++ set_id e id :: r) f1 f2 E g q.
Proof.
  intros pre e r id f1 f2 E g q HD H0 Hid HN HS.
  assert (HIn : forall x, In x (pre ++ set_id e id :: r) -> x = set_id e id \/ In x (pre ++ e :: r)) by (intros x Hx; apply in_app_or in Hx as [Hx|[<-|Hx]]; [ right; apply in_or_app | | right; apply in_or_app ]; cbn [In]; auto).
  assert (HA : forall l, ~ In id (nz l) -> at_id id l = []) by (intros l HN0; apply at_away; intros x Hx Ex; apply HN0, nz_in; eauto).
  assert (HT : tags (pre ++ set_id e id :: r) = tags (pre ++ e :: r)) by (rewrite !tags_app, !tags_cons; reflexivity).
  assert (HE : In e (pre ++ e :: r)) by (apply in_or_app; right; left; auto).
  destruct HD. constructor; auto; rewrite ?HT; auto.
  - rewrite nz_app, nz_cons in *. rewrite H0 in *. cbn [set_id e_id Z.eqb app] in *. destruct (Z.eqb_spec id 0); [ contradiction | ]. cbn [app].
    apply (Permutation_NoDup (l := id :: (nz pre ++ nz r))); [ apply Permutation_middle | ]. constructor; auto.
  - apply Forall_app in d_fine0 as [F1 F2]. inversion F2; subst. apply Forall_app. split; [ auto | ]. constructor; [ apply set_id_fine; auto | auto ].
  - intros x Hx HK. destruct (HIn x Hx) as [->|Hx']; [ apply (d_a0 e); auto | auto ].
  - intros j Hj. specialize (d_slot0 j Hj). rewrite at_app, at_cons in *. rewrite H0 in d_slot0. destruct (Z.eqb_spec 0 j); [ congruence | ]. cbn [app] in d_slot0. cbn [set_id e_id].
    destruct (Z.eqb_spec id j) as [<-|Ej]; [ | exact d_slot0 ].
    assert (HNpre : ~ In id (nz pre)) by (intros HX; apply HN; rewrite nz_app; apply in_or_app; auto).
    assert (HNr : ~ In id (nz r)) by (intros HX; apply HN; rewrite nz_app, nz_cons; apply in_or_app; right; apply in_or_app; auto).
    rewrite (HA pre HNpre), (HA r HNr). exact HS.
  - intros x Hx Hx0 HK HQ. destruct (HIn x Hx) as [->|Hx']; [ cbn [set_id e_id] in Hx0; contradiction | auto ].
Qed.
Lemma PR_head : forall pool e r k d p ws, PR pool (e :: r) k d p ws -> e_id e <> 0 -> finished e = false -> (e_kind e = KPub -> e_qos e <> 0) ->
  exists e' k', k = e' :: k' /\ core e e'.
Proof. intros pool e r k d p ws H Hi HF HQ. inversion H; subst; try congruence; try (do 2 eexists; split; [ reflexivity | auto ]; fail). - do 2 eexists; split; [ reflexivity | apply core_refl ]. - elim HQ; auto. Qed.
Definition clear_of (f10 f2 : list wire) (E : list entry) (id : Z) : Prop :=
  (forall x, In x f10 -> b1 id x = false) /\ (forall x, In x f2 -> b2 id x = false) /\ (forall e, In e E -> e_qos e = 2 -> e_id e <> id).
Lemma finished_slot : forall e p1 p2 es g, finished e = true -> slot_ok [e] p1 p2 es g ->
  slot_idle p1 p2 es /\ (e_kind e = KPub -> e_qos e = 2 -> cnt g (e_msg e) = 1%nat) /\ (e_kind e = KPub -> e_qos e = 1 -> In (e_msg e) g).
Proof.
  intros e p1 p2 es g HF HS. unfold finished in HF. cbn [slot_ok] in HS. destruct (e_kind e); try (split; [ exact HS | split; discriminate ]).
  destruct (Z.eqb_spec (e_qos e) 2) as [E2|E2].
  - rewrite E2 in HF. cbn in HF. unfold slot_two in HS. rewrite HF in HS. destruct HS as (A & B & C & D & _). split; [ | split; [ auto | lia ] ].
    split; [ eapply Forall_impl; [ | exact A ]; unfold old1; auto | split; [ eapply Forall_impl; [ | exact B ]; unfold old2; auto | eapply Forall_impl; [ | exact C ]; cbv beta; auto ] ].
  - destruct (Z.eqb_spec (e_qos e) 1) as [E1|E1]; [ | split; [ exact HS | split; lia ] ]. rewrite E1 in HF. cbn in HF. destruct HS as (A & B & C & D).
    split; [ | split; [ lia | intros; apply C; destruct (e_puback e); [ auto | discriminate ] ] ].
    split; [ eapply Forall_impl; [ | exact A ] | split; [ eapply Forall_impl; [ | exact B ]; unfold old2; auto | eapply Forall_impl; [ | exact D ]; cbv beta; auto ] ].
    intros w Hw. right. destruct w; cbn in *; try contradiction. apply Hw.
Qed.
Lemma A_pass : forall f10 f2 E g q a0 pool l k d p ws, PR pool l k d p ws -> forall pre f1 L,
  DI (pre ++ l) f1 f2 E g q -> holds pool L -> incl (nz (pre ++ l)) L ->
  (forall w i, In w f1 -> b1 i w = true -> In w f10 \/ In i (nz pre)) -> NoDup (tags a0) ->
  (forall e, In e l -> e_kind e = KPub -> e_id e = 0 -> exists e0, In e0 a0 /\ e_kind e0 = KPub /\ e_msg e0 = e_msg e /\ e_id e0 = 0) ->
  (forall e, In e k -> e_kind e = KPub -> e_qos e <> 0 -> e_id e <> 0 ->
     (exists e0, In e0 a0 /\ e_kind e0 = KPub /\ e_msg e0 = e_msg e /\ e_id e0 = e_id e) \/ clear_of f10 f2 E (e_id e)) ->
  DI (pre ++ k) (f1 ++ ws) f2 E g q.
Proof.
  intros f10 f2 E g q a0 pool l k d p ws H.
  induction H as [pool l|pool e r k d p ws HF H IH|pool pool' id e r k d p ws H0 HF HG Hid H IH|pool pool' e r H0 HG|pool e e' r k d p ws HN HF HC H IH|pool e e1 e' w r k d p ws HN HF HC1 HC HW H IH|pool pool' e e1 r k d p ws HN HF HC HK HQ HO HE H IH];
    intros pre f1 L HD HL HIL HT HNT HZ HFr;
    try (assert (HFi : fine_to e) by (pose proof (d_fine _ _ _ _ _ _ HD) as HF0; rewrite Forall_forall in HF0; apply HF0, in_or_app; right; left; reflexivity)).
  - rewrite app_nil_r. exact HD.
  - pose proof (fine_finished _ HFi HF) as HN. destruct (nodup_away _ _ _ (d_nodup _ _ _ _ _ _ HD) HN) as (A1 & A2 & _).
    pose proof (DI_slot1 _ _ _ _ _ _ _ _ HD HN A1 A2) as HS. destruct (finished_slot _ _ _ _ _ HF HS) as (S1 & S2 & S3).
    apply (IH _ _ L); auto.
    + rewrite <- (app_nil_r f1). eapply DI_rem; eauto.
    + intros i Hi. apply HIL. rewrite nz_app, nz_cons in *. rewrite !in_app_iff in *. tauto.
    + intros x Hx. apply HZ. right. auto.
  - destruct (holds_get _ _ HL) as (p1 & id1 & EG & HX). rewrite HG in EG. injection EG as <- <-. destruct HX as [(_ & HNin & HL')|(HX & _)]; [ | contradiction ].
    assert (HNz : ~ In id (nz (pre ++ e :: r))) by auto.
    apply (IH _ _ (id :: L)); auto.
    + apply DI_setid; auto.
      pose proof (d_slot _ _ _ _ _ _ HD id Hid) as HS.
      assert (HA : at_id id (pre ++ e :: r) = []) by (apply at_away; intros x Hx Ex; apply HNz, nz_in; eauto). rewrite HA in HS.
      assert (HClr : e_kind e = KPub -> e_qos e <> 0 -> clear_of f10 f2 E id).
      { intros HK HQ. destruct (PR_head _ _ _ _ _ _ _ H Hid) as (e' & k' & Ek & HC); [ unfold finished in *; exact HF | auto | ].
        unfold core in HC. cbn [set_id e_kind e_msg e_size e_qos e_id e_out e_until e_puback e_pubrec e_pubrel e_pubcomp e_suback] in HC. destruct HC as (CK & CM & _ & CQ & CI & _).
        destruct (HFr e') as [(e0 & He0 & K0 & M0 & I0)|HX]; [ rewrite Ek; left; auto | congruence | congruence | congruence | | rewrite CI in HX; exact HX ].
        destruct (HZ e (or_introl eq_refl) HK H0) as (e2 & He2 & K2 & M2 & I2). assert (e0 = e2) by (eapply tags_inj; [ exact HNT | auto | auto | auto | auto | congruence ]). subst e2. congruence. }
      assert (HFree : clear_of f10 f2 E id -> filter (b1 id) f1 = [] /\ filter (b2 id) f2 = [] /\ Forall q1 (at_id id E)).
      { intros (C1 & C2 & C3). split; [ | split ].
        - apply filter_none. intros x Hx. destruct (b1 id x) eqn:EB; [ | reflexivity ]. destruct (HT x id Hx EB) as [HX|HX]; [ rewrite (C1 x HX) in EB; discriminate | ].
          elim HNz. rewrite nz_app. apply in_or_app. auto.
        - apply filter_none. auto.
        - apply Forall_forall. intros x Hx. apply (filter_In (fun e => e_id e =? id)) in Hx as [Hx1 Hx2]. destruct (d_e _ _ _ _ _ _ HD x Hx1) as (_ & [HQ|HQ]); [ exact HQ | ]. elim (C3 x Hx1 HQ). lia. }
      destruct HFi as (_ & HIdle). destruct (HIdle H0) as (I1 & I2 & I3 & I4 & I5 & I6).
      cbn [slot_ok set_id e_kind e_qos]. destruct (e_kind e) eqn:EK; [ | exact HS | exact HS ].
      destruct (Z.eqb_spec (e_qos e) 2) as [E2|E2].
      * destruct (HFree (HClr eq_refl ltac:(lia))) as (F1 & F2 & F3). unfold slot_two. cbn [set_id e_pubcomp e_pubrec e_pubrel e_msg]. rewrite I5, I3, F1, F2.
        split; [ auto | split; [ constructor | split; [ constructor | split; [ | left; auto ] ] ] ].
        apply (d_0 _ _ _ _ _ _ HD); auto. apply in_or_app. right. left. auto.
      * destruct (Z.eqb_spec (e_qos e) 1) as [E1|E1]; [ | exact HS ].
        destruct (HFree (HClr eq_refl ltac:(lia))) as (F1 & F2 & F3). unfold slot_one. cbn [set_id e_puback e_msg]. rewrite F1, F2, I2.
        split; [ constructor | split; [ constructor | split; [ | auto ] ] ]. intros [HX|HX]; congruence.
    + intros i Hi. rewrite nz_app, nz_cons in Hi. cbn [set_id e_id] in Hi. destruct (Z.eqb_spec id 0); [ contradiction | ]. cbn [app] in Hi. rewrite in_app_iff in Hi. cbn [In] in Hi.
      destruct Hi as [Hi|[Hi|Hi]]; [ right; apply HIL; rewrite nz_app; apply in_or_app; auto | left; auto | right; apply HIL; rewrite nz_app, nz_cons, !in_app_iff; auto ].
    + intros x [<-|Hx] Kx Ix; [ cbn [set_id e_id] in Ix; contradiction | ]. apply HZ; auto. right. auto.
  - rewrite app_nil_r. destruct HFi as (_ & HIdle). specialize (HIdle H0). eapply DI_coreA; [ exact HD | unfold core; cbn; auto 12 | ]. intros _. unfold idle in *. cbn. tauto.
  - change (e' :: k) with ([e'] ++ k). rewrite app_assoc. assert (EI : e_id e' = e_id e) by apply (core_same _ _ HC). apply (IH _ _ L); auto.
    + rewrite <- app_assoc. cbn [app]. eapply DI_coreA; eauto. contradiction.
    + rewrite <- app_assoc. cbn [app]. rewrite nz_app, (nz_core _ _ _ HC), <- nz_app. exact HIL.
    + intros w i Hw Hb. destruct (HT w i Hw Hb) as [HX|HX]; [ auto | ]. right. rewrite nz_app. apply in_or_app. auto.
    + intros x Hx. apply HZ. right. auto.
    + intros x Hx. apply HFr. right. auto.
  - change (e' :: k) with ([e'] ++ k). change (w :: ws) with ([w] ++ ws). rewrite !app_assoc. assert (EI : e_id e' = e_id e) by apply (core_same _ _ HC). apply (IH _ _ L); auto.
    + rewrite <- app_assoc. cbn [app]. eapply DI_coreA; [ exact (DI_sendA _ _ _ _ _ _ _ _ _ _ HD HN HC1 HW) | exact HC | contradiction ].
    + rewrite <- app_assoc. cbn [app]. rewrite nz_app, (nz_core _ _ _ HC), <- nz_app. exact HIL.
    + intros x i Hx Hb. apply in_app_or in Hx as [Hx|[<-|[]]]; [ destruct (HT x i Hx Hb) as [HX|HX]; [ auto | right; rewrite nz_app; apply in_or_app; auto ] | ].
      right. assert (i = e_id e).
      { apply core_same in HC1 as (_ & _ & _ & HC1). clear - HW Hb HC1. unfold can_send in HW. destruct (e_kind e1); [ | subst; discriminate | subst; discriminate ].
        destruct HW as (HW & _). unfold to_transmit, as_wire in HW. repeat (match type of HW with context [if ?b then _ else _] => destruct b end); try discriminate;
          injection HW as <-; cbn [b1] in Hb; lia. }
      subst i. rewrite nz_app, nz_cons, EI. destruct (Z.eqb_spec (e_id e) 0); [ contradiction | ]. apply in_or_app. right. left. reflexivity.
    + intros x Hx. apply HZ. right. auto.
    + intros x Hx. apply HFr. right. auto.
  - change (as_wire e1 :: ws) with ([as_wire e1] ++ ws). rewrite app_assoc.
    destruct (nodup_away _ _ _ (d_nodup _ _ _ _ _ _ HD) HN) as (A1 & A2 & A3 & _).
    assert (HIe : In (e_id e) L) by (apply HIL, nz_in; split; [ auto | exists e; split; [ apply in_or_app; right; left; auto | auto ] ]).
    apply in_split in HIe as (L1 & L2 & EL).
    destruct (holds_release pool (L1 ++ L2) (e_id e)) as (p' & EP & HL').
    { eapply holds_perm; [ exact HL | ]. rewrite EL. apply Permutation_sym, Permutation_middle. }
    unfold free_id in HE. rewrite HE in EP. injection EP as <-.
    pose proof (DI_slot1 _ _ _ _ _ _ _ _ HD HN A1 A2) as HS. cbn [slot_ok] in HS. rewrite HK, HQ in HS. cbn [Z.eqb] in HS.
    unfold core in HC. destruct HC as (CK & CM & _ & CQ & CI & _).
    apply (IH _ _ (L1 ++ L2)); auto.
    + eapply DI_rem; eauto; [ lia | lia | ]. right. split; [ auto | split; [ auto | ] ]. unfold as_wire. rewrite CM, CQ, HQ. eauto.
    + intros i Hi. assert (HX : In i L) by (apply HIL; rewrite nz_app, nz_cons in *; rewrite !in_app_iff in *; tauto).
      rewrite EL, in_app_iff in HX. cbn [In] in HX. destruct HX as [HX|[HX|HX]]; [ apply in_or_app; auto | subst i; contradiction | apply in_or_app; auto ].
    + intros x i Hx Hb. apply in_app_or in Hx as [Hx|[<-|[]]]; [ auto | ]. unfold as_wire in Hb. rewrite CQ, HQ in Hb. cbn [b1] in Hb. rewrite andb_false_r in Hb. discriminate.
    + intros x Hx. apply HZ. right. auto.
Qed.
