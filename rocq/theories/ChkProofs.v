(** Queues of data: every octet is sent once. *)
From Coq Require Import ZArith List Bool Lia Permutation.
From Verif Require Import Common ChkTypes ChkModel ChkSpec.
Import ListNotations.
Open Scope Z_scope.

Definition rem (c : chunk) : list Z := skipn (Z.to_nat (k_pos c)) (k_data c).
Definition nos (l : list chunk) : list nat := map k_no l.
Definition wf (c : chunk) : Prop := 0 <= k_pos c <= zlen (k_data c).

Lemma stream_app a b : stream (a ++ b) = stream a ++ stream b.
Proof. apply flat_map_app. Qed.
Lemma octets_app k a b : octets_of k (a ++ b) = octets_of k a ++ octets_of k b.
Proof. apply flat_map_app. Qed.
Lemma gone_app a b : gone (a ++ b) = gone a ++ gone b.
Proof. apply flat_map_app. Qed.
Lemma gone_private_app a b : gone_private (a ++ b) = gone_private a ++ gone_private b.
Proof. apply flat_map_app. Qed.
Lemma successes_app a b : successes (a ++ b) = successes a ++ successes b.
Proof. apply flat_map_app. Qed.
Lemma nos_app a b : nos (a ++ b) = nos a ++ nos b.
Proof. apply map_app. Qed.

(** Nothing but octets of one chunk *)
Definition writes (k : nat) (ws : list event) : Prop := Forall (fun e => exists o, e = Wrote k o) ws.
Lemma writes_facts k ws : writes k ws -> (forall i, octets_of i ws = if Nat.eqb i k then stream ws else []) /\ gone ws = [] /\ successes ws = [] /\ gone_private ws = [].
Proof.
  induction 1 as [ | e ws (o & ->) W (H1 & H2 & H3 & H4) ]; [ repeat split; intros i; destruct (Nat.eqb i k); reflexivity | ].
  cbn. fold (octets_of) (stream ws) (gone ws) (successes ws) (gone_private ws). repeat split; auto.
  intros i. specialize (H1 i). unfold octets_of in *. cbn. rewrite H1, (Nat.eqb_sym k i). destruct (Nat.eqb i k); reflexivity.
Qed.

Lemma skipn_plus (l : list Z) : forall a b, skipn a (skipn b l) = skipn (a + b) l.
Proof.
  intros a b. revert l. induction b as [ | b IH ]; intros l; [ now rewrite Nat.add_0_r | ]. destruct l as [ | x l ]; [ now rewrite !skipn_nil | ]. rewrite Nat.add_succ_r. cbn [skipn]. apply IH.
Qed.
Lemma firstn_skipn_split (l : list Z) (a b c : Z) : 0 <= a -> a <= b -> b <= c ->
  firstn (Z.to_nat (b - a)) (skipn (Z.to_nat a) l) ++ firstn (Z.to_nat (c - b)) (skipn (Z.to_nat b) l) = firstn (Z.to_nat (c - a)) (skipn (Z.to_nat a) l).
Proof.
  intros. replace (Z.to_nat b) with (Z.to_nat (b - a) + Z.to_nat a)%nat by lia. rewrite <- skipn_plus. set (m := skipn (Z.to_nat a) l).
  rewrite <- (firstn_skipn (Z.to_nat (b - a)) (firstn (Z.to_nat (c - a)) m)). f_equal; [ rewrite firstn_firstn; f_equal; lia | ].
  rewrite skipn_firstn_comm. f_equal. lia.
Qed.

Lemma sendto_ok tries k data : forall done ss ret n ws ss', 0 <= done <= zlen data -> sendto tries k data done ss = (ret, n, ws, ss') ->
  done <= n <= zlen data /\ writes k ws /\ stream ws = firstn (Z.to_nat (n - done)) (skipn (Z.to_nat done) data) /\
  (ret = OK -> n = zlen data).
Proof.
  induction tries as [ | tries IH ]; intros done ss ret n ws ss' B E; cbn [sendto] in E.
  - injection E as <- <- <- <-. rewrite Z.sub_diag. repeat split; try lia; try constructor. discriminate.
  - set (s := hd Again ss) in *. set (m := match s with Takes n => Z.max 0 (Z.min n (zlen data - done)) | _ => 0 end) in *.
    assert (M : 0 <= m <= zlen data - done) by (unfold m; destruct s; lia). clearbody m.
    set (w := if m =? 0 then [] else [Wrote k (firstn (Z.to_nat m) (skipn (Z.to_nat done) data))]) in *.
    assert (W : writes k w) by (unfold w; destruct (m =? 0); repeat constructor; eauto).
    assert (SW : stream w = firstn (Z.to_nat m) (skipn (Z.to_nat done) data)).
    { unfold w. destruct (Z.eqb_spec m 0) as [ E0 | ]; [ rewrite E0; reflexivity | cbn; apply app_nil_r ]. }
    clearbody w. destruct (Z.eqb_spec (done + m) (zlen data)) as [ D | D ].
    + injection E as <- <- <- <-. repeat split; try lia; try assumption. rewrite SW. do 2 f_equal. lia.
    + assert (Q : forall r x y, (r, done + m, w, y) = (ret, n, ws, ss') -> r <> OK -> x = 0 -> done <= n <= zlen data /\ writes k ws /\ stream ws = firstn (Z.to_nat (n - done)) (skipn (Z.to_nat done) data) /\ (ret = OK -> n = zlen data)).
      { intros r x y Q NE _. injection Q as -> <- <- <-. repeat split; try lia; try assumption; try congruence. rewrite SW. do 2 f_equal. lia. }
      assert (R : (let '(ret, done, ws, ss) := sendto tries k data (done + m) (tl ss) in (ret, done, w ++ ws, ss)) = (ret, n, ws, ss') ->
        done <= n <= zlen data /\ writes k ws /\ stream ws = firstn (Z.to_nat (n - done)) (skipn (Z.to_nat done) data) /\ (ret = OK -> n = zlen data)).
      { destruct (sendto tries k data (done + m) (tl ss)) as (((r0, n0), w0), s0) eqn:E0. intros R. injection R as <- <- <- <-.
        destruct (IH (done + m) (tl ss) r0 n0 w0 s0 ltac:(lia) E0) as (H1 & H2 & H3 & H4). split; [ lia | ]. split; [ now apply Forall_app | ]. split; [ | exact H4 ].
        rewrite stream_app, SW, H3. rewrite <- (firstn_skipn_split data done (done + m) n0) by lia. do 3 f_equal. lia. }
      destruct s; try exact (R E); [ exact (Q _ 0 _ E ltac:(discriminate) eq_refl) | exact (Q _ 0 _ E ltac:(discriminate) eq_refl) ].
Qed.

(** ** What a step does to each chunk *)
Record moves (l l' : list chunk) (es : list event) : Prop := {
  mv_perm : Permutation (nos l) (gone es ++ nos l');
  mv_kept : forall c', In c' l' -> exists c, In c l /\ k_no c = k_no c' /\ k_data c = k_data c' /\ k_private c = k_private c' /\ k_pos c <= k_pos c' <= zlen (k_data c) /\ octets_of (k_no c) es = firstn (Z.to_nat (k_pos c' - k_pos c)) (rem c);
  mv_gone : forall k, In k (gone es) -> exists c, In c l /\ k_no c = k /\ octets_of k es = rem c;
  mv_other : forall k, ~ In k (nos l) -> octets_of k es = [] }.

Lemma moves_refl l : Forall wf l -> moves l l [].
Proof.
  intros W. constructor; [ reflexivity | | intros k [] | reflexivity ]. intros c I. rewrite Forall_forall in W. specialize (W c I). unfold wf in W.
  exists c. rewrite Z.sub_diag. repeat split; auto; lia.
Qed.
Lemma in_nos c l : In c l -> In (k_no c) (nos l).
Proof. apply in_map. Qed.
Lemma nodup_app_l (a b : list nat) k : NoDup (a ++ b) -> In k a -> ~ In k b.
Proof.
  induction a as [ | x a IH ]; intros ND I; [ destruct I | ]. apply NoDup_cons_iff in ND. destruct ND as (NI & ND). destruct I as [ -> | I ]; [ intros J; apply NI, in_or_app; auto | auto ].
Qed.
Lemma moves_nos l l' es k : moves l l' es -> In k (gone es) \/ In k (nos l') -> In k (nos l).
Proof. intros M H. eapply Permutation_in; [ symmetry; apply (mv_perm _ _ _ M) | ]. now apply in_or_app. Qed.
Lemma moves_app l1 l1' e1 l2 l2' e2 : NoDup (nos (l1 ++ l2)) -> moves l1 l1' e1 -> moves l2 l2' e2 -> moves (l1 ++ l2) (l1' ++ l2') (e1 ++ e2).
Proof.
  intros ND M1 M2. rewrite nos_app in ND.
  assert (NI : forall k, In k (nos l1) -> octets_of k e2 = []) by (intros k I; apply (mv_other _ _ _ M2); eapply nodup_app_l; eauto).
  assert (NI2 : forall k, In k (nos l2) -> octets_of k e1 = []).
  { intros k I. apply (mv_other _ _ _ M1). intros J. eapply nodup_app_l; eauto. }
  constructor.
  - rewrite !nos_app, gone_app. rewrite (mv_perm _ _ _ M1), (mv_perm _ _ _ M2). rewrite <- !app_assoc. apply Permutation_app_head. rewrite !app_assoc. apply Permutation_app_tail. apply Permutation_app_comm.
  - intros c' I. apply in_app_or in I. destruct I as [ I | I ].
    + destruct (mv_kept _ _ _ M1 c' I) as (c & IC & H1 & H2 & H3 & H4 & H5). exists c. repeat split; auto; try lia; [ apply in_or_app; auto | ]. rewrite octets_app, H5, (NI (k_no c)) by now apply in_nos. apply app_nil_r.
    + destruct (mv_kept _ _ _ M2 c' I) as (c & IC & H1 & H2 & H3 & H4 & H5). exists c. repeat split; auto; try lia; [ apply in_or_app; auto | ]. rewrite octets_app, H5, (NI2 (k_no c)) by now apply in_nos. reflexivity.
  - intros k I. rewrite gone_app in I. apply in_app_or in I. destruct I as [ I | I ].
    + destruct (mv_gone _ _ _ M1 k I) as (c & IC & E & H). exists c. split; [ apply in_or_app; auto | ]. split; [ exact E | ]. rewrite octets_app, H, (NI k); [ apply app_nil_r | ]. rewrite <- E. now apply in_nos.
    + destruct (mv_gone _ _ _ M2 k I) as (c & IC & E & H). exists c. split; [ apply in_or_app; auto | ]. split; [ exact E | ]. rewrite octets_app, H, (NI2 k); [ reflexivity | ]. rewrite <- E. now apply in_nos.
  - intros k N. rewrite nos_app in N. rewrite octets_app, (mv_other _ _ _ M1), (mv_other _ _ _ M2); auto; intros J; apply N, in_or_app; auto.
Qed.

Lemma rem_length c : wf c -> zlen (rem c) = zlen (k_data c) - k_pos c.
Proof. unfold wf, rem, zlen. intros W. rewrite skipn_length. lia. Qed.
(** A part of a chunk *)
Lemma moves_part c n ws : wf c -> writes (k_no c) ws -> 0 <= n <= zlen (rem c) -> stream ws = firstn (Z.to_nat n) (rem c) -> moves [c] [advance c n] ws.
Proof.
  intros W WS N S. pose proof (rem_length c W) as L. unfold wf in W. destruct (writes_facts _ _ WS) as (H1 & H2 & _). constructor.
  - rewrite H2. reflexivity.
  - intros c' [ <- | [] ]. exists c. cbn [advance k_no k_data k_pos k_private]. repeat split; auto; try lia; [ now left | ]. rewrite H1, Nat.eqb_refl, S. do 2 f_equal. lia.
  - rewrite H2. intros k [].
  - intros k NI. rewrite H1. destruct (Nat.eqb_spec k (k_no c)) as [ E | ]; [ exfalso; apply NI; left; auto | reflexivity ].
Qed.
(** A whole chunk *)
Lemma moves_whole c ws es : wf c -> writes (k_no c) ws -> stream ws = rem c -> (forall i, octets_of i es = []) -> gone es = [k_no c] -> moves [c] [] (ws ++ es).
Proof.
  intros W WS S O G. destruct (writes_facts _ _ WS) as (H1 & H2 & _). constructor.
  - rewrite gone_app, H2, G. reflexivity.
  - intros c' [].
  - rewrite gone_app, H2, G. intros k [ <- | [] ]. exists c. split; [ now left | ]. split; [ reflexivity | ]. rewrite octets_app, H1, O, Nat.eqb_refl, S. apply app_nil_r.
  - intros k NI. rewrite octets_app, H1, O. destruct (Nat.eqb_spec k (k_no c)) as [ E | ]; [ exfalso; apply NI; left; auto | reflexivity ].
Qed.

Lemma skipn_all_rem c : firstn (Z.to_nat (zlen (rem c))) (rem c) = rem c.
Proof. unfold zlen. rewrite Nat2Z.id. apply firstn_all. Qed.

Lemma send_list_cons c r ss : send_list (c :: r) ss =
  let '(ret, n, ws, ss) := sendto 9 (k_no c) (rem c) 0 ss in
  if negb (ret =? OK) then (ret, (if ret =? INCOMPLETE then advance c n else c) :: r, ws, ss)
  else let '(ret, l, es, ss) := send_list r ss in (ret, l, ws ++ [Success (k_private c); Freed (k_no c) (k_private c)] ++ es, ss).
Proof. reflexivity. Qed.
Lemma send_list_moves l : forall ss ret l' es ss', NoDup (nos l) -> Forall wf l -> send_list l ss = (ret, l', es, ss') -> ret = OK \/ ret = INCOMPLETE -> moves l l' es.
Proof.
  induction l as [ | c l IH ]; intros ss ret l' es ss' ND W E R.
  - injection E as <- <- <- <-. now apply moves_refl.
  - inversion W as [ | ? ? WC WL ]; subst. rewrite send_list_cons in E. destruct (sendto 9 (k_no c) (rem c) 0 ss) as (((r0, n), ws), s0) eqn:ES.
    destruct (sendto_ok _ _ _ _ _ _ _ _ _ (conj (Z.le_refl 0) (zlen_nonneg _ _)) ES) as (B & WS & SW & F). rewrite Z.sub_0_r in SW. cbn [Z.to_nat skipn] in SW.
    destruct (Z.eqb_spec r0 OK) as [ E0 | E0 ]; cbn [negb] in E.
    + destruct (send_list l s0) as (((r1, l1), e1), s1) eqn:E1. injection E as <- <- <- <-.
      change (moves (([c] ++ l)) ([] ++ l1) (ws ++ [Success (k_private c); Freed (k_no c) (k_private c)] ++ e1)). rewrite app_assoc. apply moves_app; [ exact ND | | ].
      * apply moves_whole; auto. rewrite SW, (F E0). apply skipn_all_rem.
      * apply (IH s0 r1 l1 e1 s1); auto. now inversion ND.
    + injection E as <- <- <- <-. destruct R as [ R | R ]; [ contradiction | ]. rewrite R, Z.eqb_refl. rewrite <- (app_nil_r ws). change (moves ([c] ++ l) ([advance c n] ++ l) (ws ++ [])).
      apply moves_app; [ exact ND | now apply moves_part | now apply moves_refl ].
Qed.

Lemma write_list_moves l : forall ret max rs ret' max' l' es rs', NoDup (nos l) -> Forall wf l -> write_list l ret max rs = (ret', max', l', es, rs') -> moves l l' es.
Proof.
  induction l as [ | c l IH ]; intros ret max rs ret' max' l' es rs' ND W E; cbn [write_list] in E.
  - injection E as <- <- <- <- <-. now apply moves_refl.
  - inversion W as [ | ? ? WC WL ]; subst. fold (rem c) in E.
    set (n := Z.max 0 (Z.min (fst (hd (0, INCOMPLETE) rs)) (zlen (rem c)))) in *. assert (N : 0 <= n <= zlen (rem c)) by (pose proof (zlen_nonneg _ (rem c)); lia). clearbody n.
    set (r1 := Z.ldiff (snd (hd (0, INCOMPLETE) rs)) INCOMPLETE) in *. clearbody r1.
    set (w := if n =? 0 then [] else [Wrote (k_no c) (firstn (Z.to_nat n) (rem c))]) in *.
    assert (WW : writes (k_no c) w) by (unfold w; destruct (n =? 0); repeat constructor; eauto).
    assert (SW : stream w = firstn (Z.to_nat n) (rem c)) by (unfold w; destruct (Z.eqb_spec n 0) as [ E0 | ]; [ rewrite E0; reflexivity | cbn; apply app_nil_r ]). clearbody w.
    set (kept := if k_pos (advance c n) =? zlen (k_data c) then [] else [advance c n]) in *.
    set (here := w ++ (if k_pos (advance c n) =? zlen (k_data c) then [Freed (k_no c) (k_private c)] else [])) in *.
    assert (M : moves [c] kept here).
    { unfold kept, here. pose proof (rem_length c WC) as L. cbn [advance k_pos]. destruct (Z.eqb_spec (k_pos c + n) (zlen (k_data c))) as [ D | D ].
      - apply moves_whole; auto. rewrite SW. replace n with (zlen (rem c)) by lia. apply skipn_all_rem.
      - rewrite app_nil_r. now apply moves_part. }
    clearbody kept here. inversion ND as [ | ? ? _ NDL ]; subst.
    destruct (negb (r1 =? 0) || (n =? 0)); [ | destruct (max =? 0) ].
    + injection E as <- <- <- <- <-. rewrite <- (app_nil_r here). apply (moves_app [c]); [ exact ND | exact M | now apply moves_refl ].
    + injection E as <- <- <- <- <-. rewrite <- (app_nil_r here). apply (moves_app [c]); [ exact ND | exact M | now apply moves_refl ].
    + destruct (write_list l r1 (max - 1) (tl rs)) as ((((r2, m2), l2), e2), s2) eqn:E2. injection E as <- <- <- <- <-. apply (moves_app [c]); [ exact ND | exact M | ]. eapply IH; eauto.
Qed.

(** ** All together *)
Definition all (q : queue) : list chunk := q_high q ++ q_normal q.
Record inv (ps : list (list Z * Z)) (es cs : list event) (q : queue) : Prop := {
  i_next : q_next q = length ps;
  i_perm : Permutation (gone es ++ gone cs ++ nos (all q)) (seq 0 (length ps));
  i_wf : Forall wf (all q);
  i_wait : forall c, In c (all q) -> nth_error ps (k_no c) = Some (k_data c, k_private c) /\ octets_of (k_no c) es = firstn (Z.to_nat (k_pos c)) (k_data c);
  i_gone : forall k, In k (gone es) -> exists p, nth_error ps k = Some (octets_of k es, p);
  i_drop : forall k, In k (gone cs) -> exists d p rest, nth_error ps k = Some (d, p) /\ octets_of k es ++ rest = d;
  i_none : forall k, (length ps <= k)%nat -> octets_of k es = [] }.

Lemma inv_nodup ps es cs q : inv ps es cs q -> NoDup (gone es ++ gone cs ++ nos (all q)).
Proof. intros I. eapply Permutation_NoDup; [ symmetry; apply (i_perm _ _ _ _ I) | apply seq_NoDup ]. Qed.
Lemma nodup_app_r (a b : list nat) : NoDup (a ++ b) -> NoDup b.
Proof. induction a as [ | x a IH ]; intros H; [ exact H | inversion H; auto ]. Qed.
Lemma inv_nos ps es cs q : inv ps es cs q -> NoDup (nos (all q)).
Proof. intros I. apply inv_nodup in I. now apply nodup_app_r, nodup_app_r in I. Qed.

Lemma inv_moves ps es cs q q' e : inv ps es cs q -> q_next q' = q_next q -> moves (all q) (all q') e -> inv ps (es ++ e) cs q'.
Proof.
  intros I QN M. pose proof (inv_nodup _ _ _ _ I) as ND.
  assert (NG : forall k, In k (gone es) -> octets_of k e = []).
  { intros k G. apply (mv_other _ _ _ M). intros J. eapply (nodup_app_l _ _ k ND G). apply in_or_app. auto. }
  assert (NC : forall k, In k (gone cs) -> octets_of k e = []).
  { intros k G. apply (mv_other _ _ _ M). apply nodup_app_r in ND. eapply (nodup_app_l _ _ k ND G). }
  assert (TAKE : forall c, In c (all q) -> wf c -> octets_of (k_no c) es = firstn (Z.to_nat (k_pos c)) (k_data c)) by (intros c IC _; apply (i_wait _ _ _ _ I c IC)).
  pose proof (i_wf _ _ _ _ I) as WF. rewrite Forall_forall in WF.
  constructor.
  - rewrite QN. apply (i_next _ _ _ _ I).
  - etransitivity; [ | apply (i_perm _ _ _ _ I) ]. rewrite gone_app, (mv_perm _ _ _ M). rewrite <- !app_assoc. apply Permutation_app_head. rewrite !app_assoc. apply Permutation_app_tail. apply Permutation_app_comm.
  - apply Forall_forall. intros c' IC. destruct (mv_kept _ _ _ M c' IC) as (c & J & E1 & E2 & E3 & B & _). specialize (WF c J). unfold wf in *. rewrite <- E2. lia.
  - intros c' IC. destruct (mv_kept _ _ _ M c' IC) as (c & J & E1 & E2 & E3 & B & O). destruct (i_wait _ _ _ _ I c J) as (H1 & H2). specialize (WF c J). unfold wf in WF.
    rewrite <- E1, <- E2, <- E3. split; [ exact H1 | ]. rewrite octets_app, H2, O. unfold rem.
    pose proof (firstn_skipn_split (k_data c) 0 (k_pos c) (k_pos c')) as F. rewrite !Z.sub_0_r in F. cbn [Z.to_nat skipn] in F. apply F; lia.
  - intros k G. rewrite gone_app in G. apply in_app_or in G. destruct G as [ G | G ].
    + rewrite octets_app, (NG k G), app_nil_r. apply (i_gone _ _ _ _ I k G).
    + destruct (mv_gone _ _ _ M k G) as (c & J & <- & O). destruct (i_wait _ _ _ _ I c J) as (H1 & H2). exists (k_private c). rewrite octets_app, H2, O. unfold rem. rewrite firstn_skipn. exact H1.
  - intros k G. rewrite octets_app, (NC k G), app_nil_r. apply (i_drop _ _ _ _ I k G).
  - intros k G. rewrite octets_app, (i_none _ _ _ _ I k G). apply (mv_other _ _ _ M). intros J.
    assert (X : In k (seq 0 (length ps))). { eapply Permutation_in; [ apply (i_perm _ _ _ _ I) | ]. apply in_or_app; right; apply in_or_app; right; exact J. }
    apply in_seq in X. lia.
Qed.

Lemma inv_push ps es cs q u d p : inv ps es cs q -> inv (ps ++ [(d, p)]) es cs (push q u d p).
Proof.
  intros I. pose proof (i_next _ _ _ _ I) as QN. set (c := mk_chunk (q_next q) d 0 p).
  assert (PA : Permutation (all (push q u d p)) (all q ++ [c])).
  { unfold push, all. fold c. destruct u; cbn [q_high q_normal].
    - rewrite <- !app_assoc. apply Permutation_app_head. apply Permutation_app_comm.
    - rewrite app_assoc. reflexivity. }
  assert (IN : forall x, In x (all (push q u d p)) -> In x (all q) \/ x = c).
  { intros x IX. eapply Permutation_in in IX; [ | exact PA ]. apply in_app_or in IX. destruct IX as [ | [ <- | [] ] ]; auto. }
  assert (EXT : forall k x, nth_error ps k = Some x -> nth_error (ps ++ [(d, p)]) k = Some x).
  { intros k x H. rewrite nth_error_app1; [ exact H | ]. apply nth_error_Some. congruence. }
  constructor.
  - rewrite app_length. cbn [length]. unfold push. destruct u; cbn [q_next]; lia.
  - rewrite app_length. cbn [length]. rewrite Nat.add_1_r, seq_S. cbn [plus]. unfold nos. rewrite PA. rewrite map_app. cbn [map k_no c]. rewrite !app_assoc. unfold c; cbn [k_no]. rewrite QN. apply Permutation_app_tail. rewrite <- app_assoc. apply (i_perm _ _ _ _ I).
  - rewrite Forall_forall. intros x IX. destruct (IN x IX) as [ J | -> ]; [ pose proof (i_wf _ _ _ _ I) as W; rewrite Forall_forall in W; auto | ]. unfold wf, c. cbn [k_pos k_data]. pose proof (zlen_nonneg _ d). lia.
  - intros x IX. destruct (IN x IX) as [ J | -> ].
    + destruct (i_wait _ _ _ _ I x J) as (H1 & H2). auto.
    + unfold c. cbn [k_no k_data k_private k_pos Z.to_nat firstn]. rewrite QN. split; [ | apply (i_none _ _ _ _ I); lia ]. rewrite nth_error_app2 by lia. now rewrite Nat.sub_diag.
  - intros k G. destruct (i_gone _ _ _ _ I k G) as (p' & H). eauto.
  - intros k G. destruct (i_drop _ _ _ _ I k G) as (d' & p' & r & H & E). eauto 6.
  - intros k L. rewrite app_length in L. cbn [length] in L. apply (i_none _ _ _ _ I). lia.
Qed.

Lemma gone_freed l : gone (freed l) = nos l.
Proof. unfold gone, freed, nos. induction l as [ | c l IH ]; cbn; [ reflexivity | now rewrite IH ]. Qed.
Lemma inv_clear ps es cs q : inv ps es cs q -> inv ps es (cs ++ snd (clear q)) (fst (clear q)).
Proof.
  intros I. unfold clear. cbn [fst snd]. constructor; cbn [q_next all q_high q_normal app nos map]; try apply I.
  - etransitivity; [ | apply (i_perm _ _ _ _ I) ]. rewrite gone_app, gone_freed, !app_nil_r. reflexivity.
  - constructor.
  - intros c [].
  - intros k G. rewrite gone_app, gone_freed in G. apply in_app_or in G. destruct G as [ G | G ]; [ apply (i_drop _ _ _ _ I k G) | ].
    apply in_map_iff in G. destruct G as (c & <- & J). destruct (i_wait _ _ _ _ I c J) as (H1 & H2). exists (k_data c), (k_private c), (rem c). split; [ exact H1 | ]. rewrite H2. apply firstn_skipn.
Qed.

Lemma nodup_app_parts (a b : list nat) : NoDup (a ++ b) -> NoDup a /\ NoDup b.
Proof. intros H. split; [ | now apply nodup_app_r in H ]. induction a as [ | x a IH ]; [ constructor | ]. inversion H; subst. constructor; [ intros J; apply H2, in_or_app; auto | auto ]. Qed.
Lemma send_moves q ss q' ret es : NoDup (nos (all q)) -> Forall wf (all q) -> send q ss = (q', ret, es) -> ret = OK \/ ret = INCOMPLETE -> moves (all q) (all q') es /\ q_next q' = q_next q.
Proof.
  intros ND W E R. unfold send in E. unfold all in *. rewrite Forall_app in W. destruct W as (W1 & W2). pose proof ND as ND'. rewrite nos_app in ND'. apply nodup_app_parts in ND'. destruct ND' as (ND1 & ND2).
  destruct (send_list (q_high q) ss) as (((r1, h), e1), s1) eqn:E1. destruct (Z.eqb_spec r1 OK) as [ E0 | E0 ]; cbn [negb] in E.
  - destruct (send_list (q_normal q) s1) as (((r2, n), e2), s2) eqn:E2. injection E as <- <- <-. cbn [q_high q_normal q_next]. split; [ | reflexivity ]. apply moves_app; [ exact ND | eapply send_list_moves; eauto | eapply send_list_moves; eauto ].
  - injection E as <- <- <-. cbn [q_high q_normal q_next]. split; [ | reflexivity ]. rewrite <- (app_nil_r e1). apply moves_app; [ exact ND | eapply send_list_moves; eauto | now apply moves_refl ].
Qed.
Lemma write_moves q rs q' ret es : NoDup (nos (all q)) -> Forall wf (all q) -> write q rs = (q', ret, es) -> moves (all q) (all q') es /\ q_next q' = q_next q.
Proof.
  intros ND W E. unfold write in E. unfold all in *. rewrite Forall_app in W. destruct W as (W1 & W2). pose proof ND as ND'. rewrite nos_app in ND'. apply nodup_app_parts in ND'. destruct ND' as (ND1 & ND2).
  destruct (write_list (q_high q) 0 10 rs) as ((((r1, m1), h), e1), s1) eqn:E1. destruct (write_list (q_normal q) r1 m1 s1) as ((((r2, m2), n), e2), s2) eqn:E2. injection E as <- <- <-. cbn [q_high q_normal q_next]. split; [ | reflexivity ].
  apply moves_app; [ exact ND | eapply write_list_moves; eauto | eapply write_list_moves; eauto ].
Qed.

Lemma run_inv os : forall ps es cs q q' xs, inv ps es cs q -> run q os = (q', xs) -> Forall2 fine os xs ->
  inv (ps ++ pushed os) (es ++ sending xs) (cs ++ clearing xs) q'.
Proof.
  induction os as [ | o os IH ]; intros ps es cs q q' xs I E F; cbn [run] in E.
  - injection E as <- <-. unfold pushed, sending, clearing. cbn [flat_map]. now rewrite !app_nil_r.
  - destruct (step q o) as (q1, x) eqn:ES. destruct (run q1 os) as (q2, xs2) eqn:ER. injection E as <- <-. inversion F as [ | ? ? ? ? FO FR ]; subst.
    unfold pushed, sending, clearing. cbn [flat_map]. fold (pushed os) (sending xs2) (clearing xs2). rewrite !app_assoc. eapply IH; [ | exact ER | exact FR ].
    destruct o as [ u d p | ss | rs | ]; cbn [step] in ES.
    + injection ES as <- <-. cbn [pushed1]. rewrite !app_nil_r. now apply inv_push.
    + destruct (send q ss) as ((q0, r0), e0) eqn:E0. injection ES as <- <-. cbn [pushed1]. rewrite !app_nil_r. cbn [fine no_error] in FO.
      destruct (send_moves _ _ _ _ _ (inv_nos _ _ _ _ I) (i_wf _ _ _ _ I) E0 FO) as (M & N). eapply inv_moves; eauto.
    + destruct (write q rs) as ((q0, r0), e0) eqn:E0. injection ES as <- <-. cbn [pushed1]. rewrite !app_nil_r.
      destruct (write_moves _ _ _ _ _ (inv_nos _ _ _ _ I) (i_wf _ _ _ _ I) E0) as (M & N). eapply inv_moves; eauto.
    + injection ES as <- <-. cbn [pushed1]. rewrite !app_nil_r. exact (inv_clear _ _ _ _ I).
Qed.
Lemma inv_new : inv [] [] [] queue_new.
Proof. constructor; cbn; auto; try tauto. Qed.
