From Coq Require Import ZArith List Bool Lia.
From Verif Require Import Common SlotModel HolderModel HolderSpec.
Import ListNotations.
Open Scope Z_scope.

(** How many references to [e] a thread accounts for, and how many it still has to take. *)
Definition cnt (e : Z) (l : list Z) : Z := zlen (filter (fun x => x =? e) l).
Definition claim (e : Z) (th : thread) : Z :=
  cnt e (t_owned th) +
  match t_pc th with
  | Writing x => cnt e [x] + cnt e (t_coll th)
  | Shifting _ => cnt e (tl (t_coll th))
  | _ => cnt e (t_coll th)
  end.
Definition debt (e : Z) (th : thread) : Z := match t_pc th with Increfing x => cnt e [x] | _ => 0 end.
Fixpoint sum (f : thread -> Z) (l : list thread) : Z := match l with [] => 0 | x :: r => f x + sum f r end.
Definition in_slot (e : Z) (s : slot) : Z := match sl_entry s with Some x => cnt e [x] | None => 0 end.

Definition inv (m : machine) : Prop :=
  (forall e, match m_heap m e with
             | Some h => h_refs h = sum (claim e) (m_threads m) + in_slot e (m_slot m) - sum (debt e) (m_threads m) /\ 1 <= h_refs h
             | None => sum (claim e) (m_threads m) + in_slot e (m_slot m) = 0 /\ sum (debt e) (m_threads m) = 0
             end) /\
  (forall t th e, nth_error (m_threads m) t = Some th -> t_pc th = Increfing e ->
     sl_entry (m_slot m) = Some e /\ exists h, m_heap m e = Some h /\ h_owner h = Some t) /\
  (forall t th e, nth_error (m_threads m) t = Some th -> t_pc th = Shifting e -> t_coll th = [e]) /\
  (forall e, m_next m <= e -> m_heap m e = None).

Lemma cnt_nonneg : forall e l, 0 <= cnt e l.
Proof. intros. apply zlen_nonneg. Qed.
Lemma cnt_cons : forall e x l, cnt e (x :: l) = (if x =? e then 1 else 0) + cnt e l.
Proof. intros e x l. unfold cnt. cbn [filter]. destruct (x =? e); rewrite ?zlen_cons; lia. Qed.
Lemma cnt_nil : forall e, cnt e [] = 0.
Proof. reflexivity. Qed.
Lemma cnt_app : forall e a b, cnt e (a ++ b) = cnt e a + cnt e b.
Proof. intros e a b. unfold cnt. rewrite filter_app, zlen_app. reflexivity. Qed.
Lemma cnt_remove : forall e x l, mem x l = true -> cnt e (remove_one x l) = cnt e l - (if x =? e then 1 else 0).
Proof.
  intros e x l. induction l as [ | y l IH ]; cbn [mem existsb remove_one]; [ discriminate | ].
  destruct (y =? x) eqn:E; cbn [orb]; intro H.
  - rewrite cnt_cons. replace y with x by lia. lia.
  - rewrite !cnt_cons. rewrite IH by exact H. lia.
Qed.
Lemma mem_cnt : forall e l, mem e l = true -> 1 <= cnt e l.
Proof.
  intros e l. induction l as [ | y l IH ]; cbn [mem existsb]; [ discriminate | ]. rewrite cnt_cons. pose proof (cnt_nonneg e l).
  destruct (y =? e); cbn [orb]; [ lia | ]. intro H'. specialize (IH H'). lia.
Qed.
Lemma claim_nonneg : forall e th, 0 <= claim e th.
Proof.
  intros e th. unfold claim. pose proof (cnt_nonneg e (t_owned th)). pose proof (cnt_nonneg e (t_coll th)). pose proof (cnt_nonneg e (tl (t_coll th))).
  destruct (t_pc th) as [ | x | x | x ]; try lia. pose proof (cnt_nonneg e [x]). lia.
Qed.
Lemma debt_nonneg : forall e th, 0 <= debt e th.
Proof. intros e th. unfold debt. destruct (t_pc th); try lia. apply cnt_nonneg. Qed.
Lemma sum_nonneg : forall f l, (forall x, 0 <= f x) -> 0 <= sum f l.
Proof. intros f l H. induction l as [ | x l IH ]; cbn [sum]; [ lia | ]. specialize (H x). lia. Qed.
Lemma sum_set : forall f l t x y, nth_error l t = Some x -> sum f (set_nth l t y) = sum f l - f x + f y.
Proof.
  intros f l. induction l as [ | z l IH ]; intros [ | t ] x y; cbn [nth_error set_nth sum]; try discriminate.
  - intros [= ->]. lia.
  - intro H. rewrite (IH t x y H). lia.
Qed.
Lemma sum_ge : forall f l t x, (forall x, 0 <= f x) -> nth_error l t = Some x -> f x <= sum f l.
Proof.
  intros f l. induction l as [ | z l IH ]; intros [ | t ] x H; cbn [nth_error sum]; try discriminate.
  - intros [= ->]. pose proof (sum_nonneg f l H). lia.
  - intro E. specialize (IH t x H E). specialize (H z). lia.
Qed.
Lemma sum_pos : forall f l, (forall x, 0 <= f x) -> 0 < sum f l -> exists t x, nth_error l t = Some x /\ 0 < f x.
Proof.
  intros f l H. induction l as [ | z l IH ]; cbn [sum]; [ lia | ]. intro P. destruct (Z_lt_dec 0 (f z)) as [ J | J ].
  - exists O, z. auto.
  - specialize (H z). destruct IH as (t & x & E & X); [ lia | ]. exists (S t), x. auto.
Qed.
Lemma nth_set_same : forall l t x y, nth_error l t = Some x -> nth_error (set_nth l t y) t = Some y.
Proof. induction l as [ | z l IH ]; intros [ | t ] x y; cbn [nth_error set_nth]; try discriminate; auto. apply IH. Qed.
Lemma nth_set_other : forall l t t' y, t <> t' -> nth_error (set_nth l t y) t' = nth_error l t'.
Proof. induction l as [ | z l IH ]; intros [ | t ] [ | t' ] y N; cbn [nth_error set_nth]; auto; congruence. Qed.
Lemma in_slot_nonneg : forall e s, 0 <= in_slot e s.
Proof. intros e s. unfold in_slot. destruct (sl_entry s); [ apply cnt_nonneg | lia ]. Qed.

(** Nobody is about to take a reference to a holder which thread [t], itself not doing
    so, may lock. *)
Lemma no_debt : forall m t th e h, inv m -> nth_error (m_threads m) t = Some th -> debt e th = 0 ->
  m_heap m e = Some h -> lockable h t = true -> sum (debt e) (m_threads m) = 0.
Proof.
  intros m t th e h (_ & C & _) Ht D Hh L.
  destruct (Z.eq_dec (sum (debt e) (m_threads m)) 0) as [ J | J ]; [ exact J | ]. exfalso.
  assert (0 < sum (debt e) (m_threads m)) as P by (pose proof (sum_nonneg (debt e) (m_threads m) (debt_nonneg e)); lia).
  apply (sum_pos _ _ (debt_nonneg e)) in P as (t' & th' & E' & X).
  unfold debt in X. destruct (t_pc th') as [ | | x | ] eqn:Ep; try lia.
  assert (x = e). { rewrite cnt_cons, cnt_nil in X. destruct (x =? e) eqn:Ee; lia. } subst x.
  destruct (C t' th' e E' Ep) as (_ & h' & Hh' & O). rewrite Hh in Hh'. injection Hh' as <-.
  unfold lockable in L. rewrite O in L. apply Nat.eqb_eq in L. subst t'. rewrite Ht in E'. injection E' as <-.
  unfold debt in D. rewrite Ep, cnt_cons, cnt_nil, Z.eqb_refl in D. lia.
Qed.

(** A holder which somebody refers to is there. *)
Lemma alive : forall m t th e, inv m -> nth_error (m_threads m) t = Some th -> 0 < claim e th -> exists h, m_heap m e = Some h.
Proof.
  intros m t th e (A & _) Ht P. specialize (A e). destruct (m_heap m e) as [ h | ]; [ eauto | ]. exfalso.
  pose proof (sum_ge (claim e) _ _ _ (claim_nonneg e) Ht). pose proof (in_slot_nonneg e (m_slot m)). lia.
Qed.
Lemma alive_slot : forall m e, inv m -> sl_entry (m_slot m) = Some e -> exists h, m_heap m e = Some h.
Proof.
  intros m e (A & _) E. specialize (A e). destruct (m_heap m e) as [ h | ]; [ eauto | ]. exfalso.
  unfold in_slot in A. rewrite E, cnt_cons, cnt_nil, Z.eqb_refl in A.
  pose proof (sum_nonneg (claim e) (m_threads m) (claim_nonneg e)). lia.
Qed.
Lemma owned_claim : forall e th, mem e (t_owned th) = true -> 0 < claim e th.
Proof.
  intros e th H. apply mem_cnt in H. unfold claim. pose proof (cnt_nonneg e (t_coll th)). pose proof (cnt_nonneg e (tl (t_coll th))).
  destruct (t_pc th) as [ | x | x | x ]; try lia. pose proof (cnt_nonneg e [x]). lia.
Qed.

(** A new holder, for an idle thread. *)
Lemma alloc_inv : forall m t th th', inv m -> nth_error (m_threads m) t = Some th -> t_pc th = Idle ->
  (forall e, claim e th' = claim e th + (if m_next m =? e then 1 else 0)) -> (t_pc th' = Idle \/ exists e, t_pc th' = Writing e) ->
  inv (with_thread (alloc m) t th').
Proof.
  intros m t th th' (A & C & E & D) Ht Hp Hc Hp'.
  assert (HD : forall e, debt e th = 0) by (intro e; unfold debt; rewrite Hp; reflexivity).
  assert (HD' : forall e, debt e th' = 0) by (intro e; unfold debt; destruct Hp' as [ -> | (x & ->) ]; reflexivity).
  unfold inv, with_thread, alloc. cbn [m_heap m_next m_slot m_threads].
  split; [ | split; [ | split ] ].
  - intro e. unfold hupd. rewrite !(sum_set _ _ t th th' Ht), HD, HD', Hc. specialize (A e). destruct (e =? m_next m) eqn:Ee.
    + rewrite (D e) in A by lia. cbn [holder_new h_refs]. replace (m_next m =? e) with true by lia. lia.
    + replace (m_next m =? e) with false by lia. destruct (m_heap m e); lia.
  - intros t' x e Hx Hpx. destruct (Nat.eq_dec t t') as [ <- | NE ].
    + rewrite (nth_set_same _ _ th) in Hx by exact Ht. injection Hx as <-. exfalso. destruct Hp' as [ J | (y & J) ]; congruence.
    + rewrite nth_set_other in Hx by exact NE. destruct (C t' x e Hx Hpx) as (C1 & h & C2 & C3). split; [ exact C1 | ]. exists h.
      split; [ | exact C3 ]. unfold hupd. destruct (e =? m_next m) eqn:Ee; [ | exact C2 ]. rewrite (D e) in C2 by lia. discriminate.
  - intros t' x e Hx Hpx. destruct (Nat.eq_dec t t') as [ <- | NE ].
    + rewrite (nth_set_same _ _ th) in Hx by exact Ht. injection Hx as <-. exfalso. destruct Hp' as [ J | (y & J) ]; congruence.
    + rewrite nth_set_other in Hx by exact NE. eauto.
  - intros e He. unfold hupd. replace (e =? m_next m) with false by lia. apply D. lia.
Qed.

(** A reference dropped by a thread which may lock the holder. *)
Lemma decref_inv : forall m t th th' e h h0, inv m -> nth_error (m_threads m) t = Some th ->
  m_heap m e = Some h -> lockable h t = true -> debt e th = 0 -> h_refs h0 = h_refs h ->
  (forall x, debt x th' = 0 /\ debt x th = 0) -> (forall x, claim x th' = claim x th - (if e =? x then 1 else 0)) ->
  (forall x, t_pc th' = Shifting x -> t_coll th' = [x]) -> (forall x, t_pc th' <> Increfing x) ->
  inv (with_thread (with_heap m e (decref h0)) t th').
Proof.
  intros m t th th' e h h0 I Ht Hh L De R Dd Cc Sh Ni. pose proof (no_debt m t th e h I Ht De Hh L) as ND.
  destruct I as (A & C & E & D). unfold inv, with_thread, with_heap. cbn [m_heap m_next m_slot m_threads].
  split; [ | split; [ | split ] ].
  - intro x. rewrite !(sum_set _ _ t th th' Ht), (proj1 (Dd x)), (proj2 (Dd x)), Cc. specialize (A x). unfold hupd. destruct (x =? e) eqn:Ex.
    + replace x with e in * by lia. rewrite Z.eqb_refl. rewrite Hh in A. unfold decref. rewrite R. destruct (h_refs h - 1 =? 0) eqn:E0; cbn [h_refs]; lia.
    + replace (e =? x) with false by lia. destruct (m_heap m x); lia.
  - intros t' x y Hx Hpx. destruct (Nat.eq_dec t t') as [ <- | NE ].
    + rewrite (nth_set_same _ _ th) in Hx by exact Ht. injection Hx as <-. exfalso. eapply Ni; eauto.
    + rewrite nth_set_other in Hx by exact NE. destruct (C t' x y Hx Hpx) as (C1 & h' & C2 & C3). split; [ exact C1 | ]. exists h'.
      split; [ | exact C3 ]. unfold hupd. destruct (y =? e) eqn:Ee; [ exfalso | exact C2 ]. replace y with e in * by lia.
      pose proof (sum_ge (debt e) _ _ _ (debt_nonneg e) Hx) as G. unfold debt in G at 1. rewrite Hpx, cnt_cons, cnt_nil, Z.eqb_refl in G. lia.
  - intros t' x y Hx Hpx. destruct (Nat.eq_dec t t') as [ <- | NE ].
    + rewrite (nth_set_same _ _ th) in Hx by exact Ht. injection Hx as <-. auto.
    + rewrite nth_set_other in Hx by exact NE. eauto.
  - intros x Hx. unfold hupd. destruct (x =? e) eqn:Ex; [ | auto ]. rewrite D in Hh by lia. discriminate.
Qed.

(** Changes of the lock only, by a thread which may lock. *)
Lemma lock_inv : forall m t th e h h', inv m -> nth_error (m_threads m) t = Some th -> t_pc th = Idle ->
  m_heap m e = Some h -> lockable h t = true -> h_refs h' = h_refs h -> inv (with_heap m e (Some h')).
Proof.
  intros m t th e h h' I Ht Hp Hh L R.
  assert (De : debt e th = 0) by (unfold debt; rewrite Hp; reflexivity).
  pose proof (no_debt m t th e h I Ht De Hh L) as ND.
  destruct I as (A & C & E & D). unfold inv, with_heap. cbn [m_heap m_next m_slot m_threads].
  split; [ | split; [ | split ] ]; auto.
  - intro x. specialize (A x). unfold hupd. destruct (x =? e) eqn:Ex; [ | exact A ].
    replace x with e in * by lia. rewrite Hh in A. rewrite R. exact A.
  - intros t' x y Hx Hpx. destruct (C t' x y Hx Hpx) as (C1 & h1 & C2 & C3). split; [ exact C1 | ]. exists h1.
    split; [ | exact C3 ]. unfold hupd. destruct (y =? e) eqn:Ee; [ exfalso | exact C2 ]. replace y with e in * by lia.
    pose proof (sum_ge (debt e) _ _ _ (debt_nonneg e) Hx) as G. unfold debt in G at 1. rewrite Hpx, cnt_cons, cnt_nil, Z.eqb_refl in G. lia.
  - intros x Hx. unfold hupd. destruct (x =? e) eqn:Ex; [ | auto ]. rewrite D in Hh by lia. discriminate.
Qed.

(** Storing in the empty slot. *)
Lemma store_inv : forall m t th th' e s, inv m -> nth_error (m_threads m) t = Some th -> sl_entry (m_slot m) = None -> sl_entry s = Some e ->
  (forall x, debt x th = 0) -> (forall x, claim x th' - debt x th' = claim x th - (if e =? x then 1 else 0)) ->
  (forall x, t_pc th' = Shifting x -> t_coll th' = [x]) ->
  (forall x, t_pc th' = Increfing x -> x = e /\ exists h, m_heap m e = Some h /\ h_owner h = Some t) ->
  (exists h, m_heap m e = Some h) ->
  inv (with_thread (with_slot m s) t th').
Proof.
  intros m t th th' e s (A & C & E & D) Ht S0 S1 Dd Cc Sh In1 (h0 & Hh0). unfold inv, with_thread, with_slot. cbn [m_heap m_next m_slot m_threads].
  split; [ | split; [ | split ] ]; auto.
  - intro x. rewrite !(sum_set _ _ t th th' Ht), (Dd x). specialize (A x). specialize (Cc x). unfold in_slot in *. rewrite S0 in A. rewrite S1, cnt_cons, cnt_nil.
    pose proof (debt_nonneg x th'). destruct (m_heap m x) eqn:Hx; [ lia | ].
    assert (e =? x = false). { destruct (e =? x) eqn:Ex; [ | reflexivity ]. replace x with e in Hx by lia. congruence. }
    rewrite H0 in *.
    assert (debt x th' = 0). { unfold debt in *. destruct (t_pc th') eqn:Ep; auto. destruct (In1 _ eq_refl) as [ -> _ ]. rewrite cnt_cons, cnt_nil, H0. reflexivity. }
    lia.
  - intros t' x y Hx Hpx. destruct (Nat.eq_dec t t') as [ <- | NE ].
    + rewrite (nth_set_same _ _ th) in Hx by exact Ht. injection Hx as <-. destruct (In1 _ Hpx) as [ -> J ]. auto.
    + rewrite nth_set_other in Hx by exact NE. destruct (C t' x y Hx Hpx) as (C1 & _). congruence.
  - intros t' x y Hx Hpx. destruct (Nat.eq_dec t t') as [ <- | NE ].
    + rewrite (nth_set_same _ _ th) in Hx by exact Ht. injection Hx as <-. auto.
    + rewrite nth_set_other in Hx by exact NE. eauto.
Qed.

Lemma slot_inv : forall m s, inv m -> sl_entry s = sl_entry (m_slot m) -> inv (with_slot m s).
Proof.
  intros m s (A & C & E & D) H. unfold inv, with_slot. cbn [m_heap m_next m_slot m_threads].
  split; [ | split; [ | split ] ]; auto.
  - intro e. specialize (A e). unfold in_slot in *. rewrite H. exact A.
  - intros. rewrite H. eauto.
Qed.

(** The entry is taken from the slot and its reference dropped. *)
Lemma take_inv : forall m t th e h s, inv m -> nth_error (m_threads m) t = Some th -> t_pc th = Idle ->
  sl_entry (m_slot m) = Some e -> m_heap m e = Some h -> lockable h t = true -> sl_entry s = None ->
  inv (with_heap (with_slot m s) e (decref h)).
Proof.
  intros m t th e h s I Ht Hp Se Hh L S0.
  assert (De : debt e th = 0) by (unfold debt; rewrite Hp; reflexivity).
  pose proof (no_debt m t th e h I Ht De Hh L) as ND.
  destruct I as (A & C & E & D). unfold inv, with_heap, with_slot. cbn [m_heap m_next m_slot m_threads].
  split; [ | split; [ | split ] ]; auto.
  - intro x. specialize (A x). unfold hupd, in_slot in *. rewrite S0. rewrite Se, cnt_cons, cnt_nil in A. destruct (x =? e) eqn:Ex.
    + replace x with e in * by lia. rewrite Z.eqb_refl in A. rewrite Hh in A. unfold decref. destruct (h_refs h - 1 =? 0) eqn:E0; cbn [h_refs]; lia.
    + replace (e =? x) with false in A by lia. destruct (m_heap m x); lia.
  - intros t' x y Hx Hpx. exfalso. destruct (C t' x y Hx Hpx) as (C1 & h1 & C2 & C3). assert (y = e) by congruence. subst y.
    pose proof (sum_ge (debt e) _ _ _ (debt_nonneg e) Hx) as G. unfold debt in G at 1. rewrite Hpx, cnt_cons, cnt_nil, Z.eqb_refl in G. lia.
  - intros x Hx. unfold hupd. destruct (x =? e) eqn:Ex; [ | auto ]. rewrite D in Hh by lia. discriminate.
Qed.

Lemma slot_read_entry : forall s self a s' r, slot_read s self true a = Ok (s', r) ->
  match r with
  | RGiven e true _ _ => sl_entry s = Some e /\ sl_entry s' = None
  | RGiven e false _ _ => sl_entry s = Some e /\ sl_entry s' = Some e
  | _ => sl_entry s' = sl_entry s
  end.
Proof.
  intros s self a s' r. unfold slot_read. destruct (sl_entry s) as [ m | ] eqn:En; [ | intros [= <- <-]; auto ].
  cbn [negb]. destruct (sl_readers s) as [ | r0 rr ].
  - destruct (_ || _); [ intros [= <- <-]; auto | ]. change (zlen (@nil Z) <=? 0) with true. intros [= <- <-]. auto.
  - destruct (reader_index _ _) as [ [i rs] | ]; [ | discriminate ]. destruct (nth i (sl_has_read s) false); [ intros [= <- <-]; auto | ].
    destruct (_ || _); [ intros [= <- <-]; auto | ]. destruct (_ <=? _); intros [= <- <-]; auto.
Qed.
Lemma slot_read_not_uaf : forall s self c a, slot_read s self c a <> Uaf.
Proof.
  intros s self c a. unfold slot_read. destruct (sl_entry s) as [ m | ]; [ | discriminate ].
  destruct (sl_readers s) as [ | r0 rr ].
  - destruct (negb c); [ discriminate | ]. destruct (_ || _); [ discriminate | ]. change (zlen (@nil Z) <=? 0) with true. discriminate.
  - destruct (reader_index _ _) as [ [i rs] | ]; [ | discriminate ]. destruct (nth i (sl_has_read s) false); [ discriminate | ].
    destruct (negb c); [ discriminate | ]. destruct (_ || _); [ discriminate | ]. destruct (_ <=? _); discriminate.
Qed.
Lemma slot_write_entry : forall s e b s', slot_write s e b = (s', true) -> sl_entry s = None /\ sl_entry s' = Some e.
Proof. intros s e b s'. unfold slot_write. destruct (sl_entry s); [ discriminate | ]. destruct b; [ | discriminate ]. intros [= <-]. auto. Qed.

(** A thread changes nothing but how its references are kept. *)
Lemma thread_inv : forall m t th th', inv m -> nth_error (m_threads m) t = Some th ->
  (forall x, claim x th' = claim x th) -> (forall x, debt x th' = 0 /\ debt x th = 0) ->
  (forall x, t_pc th' = Shifting x -> t_coll th' = [x]) -> (forall x, t_pc th' <> Increfing x) ->
  inv (with_thread m t th').
Proof.
  intros m t th th' (A & C & E & D) Ht Cc Dd Sh Ni. unfold inv, with_thread. cbn [m_heap m_next m_slot m_threads].
  split; [ | split; [ | split ] ]; auto.
  - intro x. rewrite !(sum_set _ _ t th th' Ht), (proj1 (Dd x)), (proj2 (Dd x)), Cc. specialize (A x). destruct (m_heap m x); lia.
  - intros t' x y Hx Hpx. destruct (Nat.eq_dec t t') as [ <- | NE ].
    + rewrite (nth_set_same _ _ th) in Hx by exact Ht. injection Hx as <-. exfalso. eapply Ni; eauto.
    + rewrite nth_set_other in Hx by exact NE. eauto.
  - intros t' x y Hx Hpx. destruct (Nat.eq_dec t t') as [ <- | NE ].
    + rewrite (nth_set_same _ _ th) in Hx by exact Ht. injection Hx as <-. auto.
    + rewrite nth_set_other in Hx by exact NE. eauto.
Qed.

Ltac th_facts Hp := intro; unfold claim, debt; cbn [t_pc t_owned t_coll]; rewrite Hp; rewrite ?cnt_cons, ?cnt_nil; cbn [tl]; lia.

Lemma step_inv : forall m t l, inv m -> disciplined m t l ->
  step m t l = Bug \/ exists m', step m t l = Ok m' /\ inv m'.
Proof.
  intros m t l I Di. unfold step. destruct (nth_error (m_threads m) t) as [ th | ] eqn:Ht; [ | eauto ].
  pose proof I as (A & C & E & D).
  destruct (t_pc th) as [ | e | e | e ] eqn:Hp.
  - assert (D0 : forall x, debt x th = 0) by (intro x; unfold debt; rewrite Hp; reflexivity).
    destruct l as [ | e | e | e | | src | store | | e | | e | | | self keep_ref a ]; eauto.
    + right. eexists. split; [ reflexivity | ]. apply alloc_inv with (th := th); [ exact I | exact Ht | exact Hp | th_facts Hp | cbn [t_pc]; eauto ].
    + destruct (mem e (t_owned th)) eqn:Me; cbn [negb]; [ | eauto ]. right.
      destruct (alive m t th e I Ht (owned_claim e th Me)) as (h & Hh). rewrite Hh. destruct (lockable h t) eqn:L; [ | eauto ].
      eexists. split; [ reflexivity | ]. eapply lock_inv; eauto.
    + destruct (mem e (t_owned th)) eqn:Me; cbn [negb]; [ | eauto ]. right.
      destruct (alive m t th e I Ht (owned_claim e th Me)) as (h & Hh). rewrite Hh.
      destruct (h_owner h) as [ o | ] eqn:Ho; [ | eauto ]. destruct (Nat.eqb o t) eqn:Eo; [ | eauto ].
      eexists. split; [ reflexivity | ]. eapply lock_inv; eauto.
      * unfold lockable. rewrite Ho. exact Eo.
      * unfold unlocked. destruct (_ <=? _); reflexivity.
    + destruct (mem e (t_owned th)) eqn:Me; cbn [negb]; [ | eauto ]. right.
      destruct (alive m t th e I Ht (owned_claim e th Me)) as (h & Hh). rewrite Hh.
      destruct (lockable h t && (h_depth h <=? 1)) eqn:L; [ | eauto ]. apply andb_prop in L as [L _].
      eexists. split; [ reflexivity | ]. apply decref_inv with (th := th) (h := h); [ exact I | exact Ht | exact Hh | exact L | apply D0 | | | | discriminate | discriminate ].
      * unfold unlocked. destruct (_ <=? _); reflexivity.
      * intro x. split; [ reflexivity | apply D0 ].
      * intro x. unfold claim. cbn [t_pc t_owned t_coll]. rewrite Hp, cnt_remove by exact Me. lia.
    + right. eexists. split; [ reflexivity | ]. apply alloc_inv with (th := th); [ exact I | exact Ht | exact Hp | th_facts Hp | cbn [t_pc]; eauto ].
    + destruct (mem src (t_owned th)) eqn:Me; cbn [negb]; [ | eauto ]. right.
      destruct (alive m t th src I Ht (owned_claim src th Me)) as (h & Hh). rewrite Hh.
      eexists. split; [ reflexivity | ]. apply alloc_inv with (th := th); [ exact I | exact Ht | exact Hp | th_facts Hp | cbn [t_pc]; eauto ].
    + destruct (mem e (t_owned th)) eqn:Me; cbn [negb]; [ | eauto ]. right.
      destruct (slot_write (m_slot m) e true) as [ s [ | ] ] eqn:W; [ | eauto ]. apply slot_write_entry in W as [W1 W2].
      destruct Di as (h & Hh & Ho). eexists. split; [ reflexivity | ]. eapply store_inv with (th := th) (e := e); [ exact I | exact Ht | exact W1 | exact W2 | exact D0 | | discriminate | | eauto ].
      * th_facts Hp.
      * cbn [t_pc]. intros x [= <-]. eauto.
    + destruct (mem e (t_owned th)) eqn:Me; cbn [negb]; [ | eauto ]. right. eexists. split; [ reflexivity | ].
      apply thread_inv with (th := th); [ exact I | exact Ht | | | discriminate | discriminate ].
      * intro x. unfold claim. cbn [t_pc t_owned t_coll]. rewrite Hp, cnt_remove, cnt_app, cnt_cons, cnt_nil by exact Me. lia.
      * intro x. split; [ reflexivity | apply D0 ].
    + specialize (Di th Ht). destruct (t_coll th) as [ | e [ | ] ] eqn:Ec; [ eauto | | cbn [length] in Di; lia ]. right.
      destruct (slot_write (m_slot m) e true) as [ s [ | ] ] eqn:W; [ | eauto ]. apply slot_write_entry in W as [W1 W2].
      assert (P : 0 < claim e th).
      { unfold claim. rewrite Hp, Ec, cnt_cons, cnt_nil, Z.eqb_refl. pose proof (cnt_nonneg e (t_owned th)). lia. }
      eexists. split; [ reflexivity | ]. eapply store_inv with (th := th) (e := e); [ exact I | exact Ht | exact W1 | exact W2 | exact D0 | | | discriminate | eapply alive; eauto ].
      * intro x. unfold claim, debt. cbn [t_pc t_owned t_coll tl]. rewrite Hp, Ec, cnt_cons, cnt_nil. lia.
      * cbn [t_pc t_coll]. intros x [= <-]. reflexivity.
    + destruct (slot_read (m_slot m) self true a) as [ [s r] | | ] eqn:R; [ | auto | destruct (slot_read_not_uaf _ _ _ _ R) ].
      apply slot_read_entry in R. right. destruct r as [ | | e taken done ret ].
      * eexists. split; [ reflexivity | ]. apply slot_inv; auto.
      * eexists. split; [ reflexivity | ]. apply slot_inv; auto.
      * assert (Se : sl_entry (m_slot m) = Some e) by (destruct taken; apply R).
        destruct (alive_slot m e I Se) as (h & Hh). rewrite Hh. destruct (lockable h t) eqn:L; [ | eauto ].
        eexists. split; [ reflexivity | ].
        set (m0 := if keep_ref then _ else m).
        assert (I0 : inv m0 /\ m_slot m0 = m_slot m /\ m_heap m0 e = Some h /\ exists th0, nth_error (m_threads m0) t = Some th0 /\ t_pc th0 = Idle).
        { unfold m0. destruct keep_ref; [ | eauto 8 ]. split; [ apply alloc_inv with (th := th); [ exact I | exact Ht | exact Hp | th_facts Hp | cbn [t_pc]; eauto ] | ]. split; [ reflexivity | ].
          split; [ | eexists; split; [ eapply nth_set_same; eauto | reflexivity ] ].
          unfold with_thread, alloc, hupd. cbn [m_heap]. destruct (e =? m_next m) eqn:Ee; [ | exact Hh ]. rewrite D in Hh by lia. discriminate. }
        clearbody m0. destruct I0 as (I0 & S0 & H0 & th0 & T0 & P0). destruct taken.
        -- eapply take_inv; eauto; [ rewrite S0; exact Se | apply R ].
        -- apply slot_inv; auto. rewrite S0, Se. apply R.
  - destruct l as [ | x | x | x | | src | store | | x | | x | | | self keep_ref a ]; eauto; right.
    + assert (P : 0 < claim e th).
      { unfold claim. rewrite Hp, cnt_cons, cnt_nil, Z.eqb_refl. pose proof (cnt_nonneg e (t_owned th)). pose proof (cnt_nonneg e (t_coll th)). lia. }
      destruct (alive m t th e I Ht P) as (h & Hh). rewrite Hh. destruct (sl_entry (m_slot m)) as [ x | ] eqn:Se; [ eauto | ].
      destruct (slot_write (m_slot m) e store) as [ s [ | ] ] eqn:W.
      * apply slot_write_entry in W as [W1 W2]. eexists. split; [ reflexivity | ]. eapply store_inv with (th := th) (e := e); [ exact I | exact Ht | exact W1 | exact W2 | | | discriminate | discriminate | eauto ].
        -- intro y. unfold debt. rewrite Hp. reflexivity.
        -- th_facts Hp.
      * destruct (lockable h t) eqn:L; [ | eauto ]. eexists. split; [ reflexivity | ]. apply decref_inv with (th := th) (h := h); [ exact I | exact Ht | exact Hh | exact L | | reflexivity | | | discriminate | discriminate ].
        -- unfold debt. rewrite Hp. reflexivity.
        -- intro y. unfold debt. rewrite Hp. auto.
        -- th_facts Hp.
    + assert (P : 0 < claim e th).
      { unfold claim. rewrite Hp, cnt_cons, cnt_nil, Z.eqb_refl. pose proof (cnt_nonneg e (t_owned th)). pose proof (cnt_nonneg e (t_coll th)). lia. }
      destruct (alive m t th e I Ht P) as (h & Hh). rewrite Hh.
      destruct (lockable h t) eqn:L; [ | eauto ]. eexists. split; [ reflexivity | ]. apply decref_inv with (th := th) (h := h); [ exact I | exact Ht | exact Hh | exact L | | reflexivity | | | discriminate | discriminate ].
      * unfold debt. rewrite Hp. reflexivity.
      * intro y. unfold debt. rewrite Hp. auto.
      * th_facts Hp.
  - destruct l as [ | x | x | x | | src | store | | x | | x | | | self keep_ref a ]; eauto. right.
    destruct (C t th e Ht Hp) as (Se & h & Hh & Ho). rewrite Hh. destruct (lockable h t); [ | eauto ].
    eexists. split; [ reflexivity | ]. set (th' := mk_thread Idle (t_owned th) (t_coll th)).
    assert (Cc : forall x, claim x th' = claim x th) by (unfold th'; th_facts Hp).
    assert (Dd : forall x, debt x th' = 0 /\ debt x th = if e =? x then 1 else 0).
    { intro x. unfold debt, th'. cbn [t_pc]. rewrite Hp, cnt_cons, cnt_nil. lia. }
    unfold inv, with_thread, with_heap. cbn [m_heap m_next m_slot m_threads].
    split; [ | split; [ | split ] ].
    + intro x. rewrite !(sum_set _ _ t th th' Ht), (proj1 (Dd x)), (proj2 (Dd x)), Cc. specialize (A x). unfold hupd. destruct (x =? e) eqn:Ex.
      * replace x with e in * by lia. rewrite Z.eqb_refl. rewrite Hh in A. cbn [h_refs]. lia.
      * replace (e =? x) with false by lia. destruct (m_heap m x); lia.
    + intros t' x y Hx Hpx. destruct (Nat.eq_dec t t') as [ <- | NE ].
      * rewrite (nth_set_same _ _ th) in Hx by exact Ht. injection Hx as <-. discriminate.
      * rewrite nth_set_other in Hx by exact NE. destruct (C t' x y Hx Hpx) as (C1 & h' & C2 & C3). exfalso.
        assert (y = e) by congruence. subst y. congruence.
    + intros t' x y Hx Hpx. destruct (Nat.eq_dec t t') as [ <- | NE ].
      * rewrite (nth_set_same _ _ th) in Hx by exact Ht. injection Hx as <-. discriminate.
      * rewrite nth_set_other in Hx by exact NE. eauto.
    + intros x Hx. unfold hupd. destruct (x =? e) eqn:Ex; [ | auto ]. rewrite D in Hh by lia. discriminate.
  - destruct l as [ | x | x | x | | src | store | | x | | x | | | self keep_ref a ]; eauto. right.
    pose proof (E t th e Ht Hp) as Ec. rewrite Ec. eexists. split; [ reflexivity | ].
    apply thread_inv with (th := th); [ exact I | exact Ht | | | discriminate | discriminate ].
    + intro x. unfold claim. cbn [t_pc t_owned t_coll]. rewrite Hp, Ec. cbn [tl]. lia.
    + intro x. unfold debt. rewrite Hp. auto.
Qed.

Lemma init_inv : forall r n, inv (initial r n).
Proof.
  intros r n. unfold inv, initial. cbn [m_heap m_next m_slot m_threads].
  assert (X : forall k t th, nth_error (repeat (mk_thread Idle [] []) k) t = Some th -> th = mk_thread Idle [] []).
  { intros k t th H. apply nth_error_In, repeat_spec in H. exact H. }
  split; [ | split; [ | split ] ].
  - intro e. unfold in_slot. cbn [reader_count_set slot_new sl_entry]. split; [ | induction n; cbn [repeat sum]; unfold debt in *; cbn in *; lia ].
    assert (sum (claim e) (repeat (mk_thread Idle [] []) n) = 0); [ | lia ]. induction n as [ | n IH ]; cbn [repeat sum]; [ reflexivity | ].
    rewrite IH. unfold claim. cbn [t_pc t_owned t_coll]. rewrite cnt_nil. reflexivity.
  - intros t th e H. apply X in H. subst. discriminate.
  - intros t th e H. apply X in H. subst. discriminate.
  - reflexivity.
Qed.

Lemma run_safe : forall ls m, inv m -> disciplined_run m ls -> run m ls = Bug \/ exists m', run m ls = Ok m' /\ inv m'.
Proof.
  induction ls as [ | [t l] ls IH ]; intros m I Di; cbn [run]; [ eauto | ]. destruct Di as [D1 D2].
  destruct (step_inv m t l I D1) as [ -> | (m' & E & I') ]; [ auto | ]. rewrite E. auto.
Qed.

(** When nobody refers to a holder any more it is freed. *)
Lemma no_leak : forall m e, inv m -> (forall th, In th (m_threads m) -> claim e th = 0) -> sl_entry (m_slot m) <> Some e ->
  m_heap m e = None.
Proof.
  intros m e (A & C & _) H S. specialize (A e). destruct (m_heap m e) as [ h | ]; [ exfalso | reflexivity ].
  assert (Z : sum (claim e) (m_threads m) = 0).
  { clear -H. induction (m_threads m) as [ | x l IH ]; cbn [sum]; [ reflexivity | ]. rewrite (H x) by (left; reflexivity). rewrite IH; [ reflexivity | ].
    intros th Hth. apply H. right. exact Hth. }
  assert (Y : in_slot e (m_slot m) = 0).
  { unfold in_slot. destruct (sl_entry (m_slot m)) as [ x | ]; [ | reflexivity ]. rewrite cnt_cons, cnt_nil.
    destruct (x =? e) eqn:Ex; [ exfalso; apply S; f_equal; lia | reflexivity ]. }
  pose proof (sum_nonneg (debt e) (m_threads m) (debt_nonneg e)). lia.
Qed.

Lemma cnt_zero : forall e l, ~ In e l -> cnt e l = 0.
Proof.
  intros e l H. induction l as [ | x l IH ]; [ reflexivity | ]. rewrite cnt_cons, IH by (intro; apply H; right; auto).
  destruct (x =? e) eqn:E; [ | reflexivity ]. exfalso. apply H. left. lia.
Qed.
Lemma not_referred : forall m e, inv m -> ~ referred e m -> m_heap m e = None.
Proof.
  intros m e I N. apply no_leak; [ exact I | | ].
  - intros th H. unfold claim.
    assert (cnt e (t_owned th) = 0) as -> by (apply cnt_zero; intro; apply N; right; eauto).
    assert (Z1 : ~ In e (t_coll th)) by (intro; apply N; right; eauto).
    assert (Z2 : ~ In e (tl (t_coll th))) by (intro J; apply Z1; destruct (t_coll th); [ exact J | right; exact J ]).
    destruct (t_pc th) as [ | x | x | x ] eqn:Ep; rewrite ?(cnt_zero e _ Z1), ?(cnt_zero e _ Z2); try reflexivity.
    rewrite cnt_cons, cnt_nil. destruct (x =? e) eqn:E; [ | reflexivity ]. exfalso. apply N. right. exists th. split; [ exact H | ].
    right. right. rewrite Ep. f_equal. lia.
  - intro J. apply N. left. exact J.
Qed.
Lemma referred_alive : forall m e, inv m -> (sl_entry (m_slot m) = Some e \/ exists th, In th (m_threads m) /\ In e (t_owned th)) ->
  exists h, m_heap m e = Some h /\ 1 <= h_refs h.
Proof.
  intros m e I [ S | (th & T & O) ].
  - destruct (alive_slot m e I S) as (h & H). exists h. split; [ exact H | ]. destruct I as (A & _). specialize (A e). rewrite H in A. lia.
  - apply In_nth_error in T as (t & T). assert (M : mem e (t_owned th) = true) by (apply existsb_exists; exists e; split; [ exact O | apply Z.eqb_refl ]).
    destruct (alive m t th e I T (owned_claim e th M)) as (h & H). exists h. split; [ exact H | ]. destruct I as (A & _). specialize (A e). rewrite H in A. lia.
Qed.
