(** What is there is read: no deadlock, and every poll reads something. *)
From Coq Require Import ZArith List Bool Lia PeanoNat.
From Verif Require Import Common BrokModel BrokSpec BrokProofs.
Import ListNotations.
Open Scope Z_scope.
Notation len := Datatypes.length.

Lemma run_app : forall N l1 l2 s s', run N s l1 = Ok s' -> run N s (l1 ++ l2) = run N s' l2.
Proof.
  induction l1 as [|o l1 IH]; intros l2 s s' H; cbn in *; [congruence|].
  destruct (exec N s o) as [[s1| |]|]; try discriminate; auto.
Qed.
Definition solo (s : state) (r : nat) : Prop := forall k, k <> r -> s_poll s k = PIdle.
Lemma locks_free : forall N s r a, inv N s -> solo s r -> (forall j x k d, proj (s_poll s r) a <> AFill j x k d) ->
  (exists k, n_split N a = Some (S k)) -> s_lock s a = None.
Proof.
  intros N s r a [Hch _ _] Hs Hr Hk. specialize (Hch a). apply (chan_S _ _ _ Hk) in Hch. destruct Hch as (os & m & dist & C).
  destruct (s_lock s a) as [o|] eqn:El; auto. apply (cs_lock _ _ _ _ _ C o) in El. destruct El as (j & x & k & d & E). cbn in E.
  destruct (Nat.eq_dec o r) as [->|Hne]; [exfalso; eapply Hr; eauto|]. rewrite (Hs o Hne) in E. discriminate.
Qed.
(** ** No deadlock *)
Theorem broker_no_deadlock_proof : forall N ops s, ok_net N -> run N (start N) ops = Ok s ->
  (forall r, exec N s (Tell r) = None /\ (forall n, exec N s (Poll r n) = None) /\ exec N s (Step r) = None) -> at_rest s.
Proof.
  intros N ops s Hok H Hno. destruct (inv_run N ops (start N) Hok (inv_start N Hok)) as (s' & H' & Hi). rewrite H in H'. injection H' as <-.
  assert (forall r, s_poll s r = PIdle) as Hidle.
  { assert (forall r, s_poll s r = PIdle \/ exists n a rest o, s_poll s r = PAt n (a :: rest) /\ s_lock s a = Some o /\ (exists k, n_split N a = Some (S k))) as Hb.
    { intros r. destruct (Hno r) as (_ & _ & E). cbn in E. unfold step in E. destruct (s_poll s r) as [|n rest|n a j rest|n a j rest h k d|n a j rest|n a j rest h stop d]; auto.
      - destruct n as [|n]; [discriminate|]. destruct rest as [|a rest]; [discriminate|]. destruct (n_split N a) as [[|k]|] eqn:Es; try discriminate.
        destruct (s_lock s a) as [o|] eqn:El; [|destruct (own (s_split s a) r) as [[? ?]|]; discriminate].
        right. exists (S n), a, rest, o. eauto.
      - destruct (q_count (s_main s a) =? 0); [discriminate|]. destruct (s_lock s a); [discriminate|]. destruct (fifo_take (n_max N) (s_main s a)) as [[? ?] ?]; discriminate.
      - destruct h as [|c h]; [destruct (fifo_done d (s_main s a)); discriminate|]. destruct (k <? len (s_split s a))%nat; discriminate.
      - discriminate.
      - destruct h as [|c h]; [discriminate|]. cbv zeta in E. destruct (pred n); [|discriminate].
        destruct (fifo_put_back h stop (buffer (hand_over N s r a (snd c)) a j)); discriminate. }
    intros r. destruct (Hb r) as [E|(n & a & rest & o & E & El & Hk)]; auto. exfalso.
    pose proof (i_chan _ _ Hi a) as C. apply (chan_S _ _ _ Hk) in C. destruct C as (os & m & dist & C).
    apply (cs_lock _ _ _ _ _ C o) in El. destruct El as (j & x & k & d & Ea). cbn in Ea.
    destruct (Hb o) as [E2|(n2 & a2 & rest2 & o2 & E2 & _)]; rewrite E2 in Ea; discriminate. }
  split.
  - destruct (s_unsent s) as [|x l] eqn:Eu; auto. destruct (Hno x) as (E & _). cbn in E. rewrite Eu in E. cbn in E. rewrite Nat.eqb_refl in E. discriminate.
  - intros r. split; auto. destruct (Hno r) as (_ & E & _). specialize (E 1%nat). unfold exec in E. rewrite Hidle in E.
    destruct (s_pending s r) as [|n]; auto. discriminate.
Qed.

(** ** One instance alone *)
Definition steps (r m : nat) : list op := repeat (Step r) m.
Lemma run_step : forall N s r s' m, step N s r = Some (Ok s') -> run N s (steps r (S m)) = run N s' (steps r m).
Proof. intros N s r s' m H. cbn. rewrite H. reflexivity. Qed.
Lemma solo_upd : forall s r p (q : nat -> phase), solo s r -> (forall k, q k = upd (s_poll s) r p k) -> forall k, k <> r -> q k = PIdle.
Proof. intros s r p q H E k Hk. rewrite E, upd_ne; auto. Qed.
Record fill_frame (s s' : state) (a : nat) : Prop := mk_ff {
  ff_written : s_written s' = s_written s; ff_log : s_log s' = s_log s; ff_pending : s_pending s' = s_pending s; ff_unsent : s_unsent s' = s_unsent s;
  ff_main : q_list (s_main s' a) = q_list (s_main s a) }.
Lemma fill_put_loop : forall N r t s n a j rest c h k d, ok_net N -> inv N s -> solo s r -> s_poll s r = PFilling n a j rest (c :: h) k d ->
  (len (s_split s a) - k = t)%nat ->
  exists m s', run N s (steps r m) = Ok s' /\ inv N s' /\ solo s' r /\ s_poll s' r = PFilling n a j rest h 0 (d + 1) /\ fill_frame s s' a.
Proof.
  intros N r. induction t as [|t IH]; intros s n a j rest c h k d Hok Hi Hso Ep Ht.
  - exists 1%nat, (set_poll s r (PFilling n a j rest h 0 (d + 1))).
    assert (step N s r = Some (Ok (set_poll s r (PFilling n a j rest h 0 (d + 1))))) as E.
    { unfold step. rewrite Ep. rewrite (proj2 (Nat.ltb_ge _ _)) by lia. reflexivity. }
    destruct (inv_Step _ _ _ _ Hok Hi E) as (s' & E2 & Hi'). injection E2 as <-.
    rewrite (run_step _ _ _ _ 0 E). split; [reflexivity|]. split; auto. split; [|split].
    + intros k' Hk. cbn. rewrite upd_ne; auto.
    + cbn. apply upd_eq.
    + constructor; reflexivity.
  - set (s1 := set_split s a (put_split (s_split s a) k (fifo_write_delayed (s_next s, clone (snd c)) (split_queue (s_split s a) k)))).
    set (s2 := mk_s (s_main s1) (s_split s1) (s_lock s1) (upd (s_poll s1) r (PFilling n a j rest (c :: h) (S k) d)) (s_pending s1)
                       (s_unsent s1) (S (s_next s1)) (s_written s1) (s_log s1) (s_handed s1)).
    assert (step N s r = Some (Ok s2)) as E.
    { unfold step. rewrite Ep. rewrite (proj2 (Nat.ltb_lt _ _)) by lia. reflexivity. }
    destruct (inv_Step _ _ _ _ Hok Hi E) as (s' & E2 & Hi'). injection E2 as <-.
    destruct (IH s2 n a j rest c h (S k) d Hok Hi') as (m & s' & R1 & R2 & R3 & R4 & [F1 F2 F3 F4 F5]).
    + intros k' Hk. cbn. rewrite upd_ne; auto.
    + cbn. apply upd_eq.
    + cbn. rewrite upd_eq, put_split_length. lia.
    + exists (S m), s'. rewrite (run_step _ _ _ _ m E). split; auto. split; auto. split; auto. split; auto. constructor; auto.
Qed.
Lemma fill_loop : forall N r h s n a j rest k d, ok_net N -> inv N s -> solo s r -> s_poll s r = PFilling n a j rest h k d ->
  exists m s', run N s (steps r m) = Ok s' /\ inv N s' /\ solo s' r /\ s_poll s' r = PTake n a j rest /\ fill_frame s s' a.
Proof.
  intros N r. induction h as [|c h IH]; intros s n a j rest k d Hok Hi Hso Ep.
  - destruct (step N s r) as [x|] eqn:E.
    2:{ unfold step in E. rewrite Ep in E. destruct (fifo_done d (s_main s a)); discriminate. }
    destruct (inv_Step _ _ _ _ Hok Hi E) as (s' & -> & Hi'). exists 1%nat, s'. rewrite (run_step _ _ _ _ 0 E).
    unfold step in E. rewrite Ep in E. destruct (fifo_done d (s_main s a)) as [q|] eqn:Eq; [|discriminate]. injection E as <-.
    unfold fifo_done in Eq. destruct (q_count (s_main s a) <? d); [discriminate|]. injection Eq as <-.
    split; [reflexivity|]. split; auto. split; [|split].
    + intros k' Hk. cbn. rewrite upd_ne; auto.
    + cbn. apply upd_eq.
    + constructor; cbn; auto. rewrite upd_eq. reflexivity.
  - destruct (fill_put_loop N r _ s n a j rest c h k d Hok Hi Hso Ep eq_refl) as (m & s1 & R1 & R2 & R3 & R4 & [F1 F2 F3 F4 F5]).
    destruct (IH s1 n a j rest O (d + 1) Hok R2 R3 R4) as (m' & s2 & Q1 & Q2 & Q3 & Q4 & [G1 G2 G3 G4 G5]).
    exists (m + m')%nat, s2. unfold steps in *. rewrite repeat_app, (run_app _ _ _ _ _ R1). split; auto. split; auto. split; auto. split; auto.
    constructor; congruence.
Qed.
(** Reading what has been taken *)
Record read_frame (s s' : state) : Prop := mk_rf {
  rf_written : s_written s' = s_written s; rf_pending : s_pending s' = s_pending s; rf_unsent : s_unsent s' = s_unsent s }.
Lemma set_buffer_rf : forall s a j q, read_frame s (set_buffer s a j q).
Proof. intros s a [j|] q; constructor; reflexivity. Qed.
Lemma read_loop : forall N r h s n a j rest stop d, ok_net N -> inv N s -> solo s r -> s_poll s r = PRead n a j rest h stop d ->
  exists m s' n', run N s (steps r m) = Ok s' /\ inv N s' /\ solo s' r /\ s_poll s' r = PAt n' rest /\ read_frame s s' /\
    (n' <= n)%nat /\ (h <> [] -> (n' < n)%nat) /\ (h = [] -> s_log s' = s_log s /\ n' = n).
Proof.
  intros N r. induction h as [|c h IH]; intros s n a j rest stop d Hok Hi Hso Ep.
  - destruct (step N s r) as [x|] eqn:E; [|unfold step in E; rewrite Ep in E; discriminate].
    destruct (inv_Step _ _ _ _ Hok Hi E) as (s' & -> & Hi'). exists 1%nat, s', n. rewrite (run_step _ _ _ _ 0 E).
    unfold step, end_read in E. rewrite Ep in E. destruct (fifo_done d (buffer s a j)) as [q|]; [|discriminate]. injection E as <-.
    destruct (set_buffer_parts s a j q) as (P1 & P2 & P3 & P4 & P5 & P6 & P7 & P8).
    split; [reflexivity|]. split; auto. split; [|split; [|split; [|split; [|split]]]]; auto.
    + intros k' Hk. cbn. rewrite P1, upd_ne; auto.
    + cbn. apply upd_eq.
    + constructor; cbn; auto.
    + congruence.
  - pose proof (i_phase _ _ Hi r) as Hp. rewrite Ep in Hp. destruct Hp as (Hn & _).
    destruct (step N s r) as [x|] eqn:E.
    2:{ unfold step in E. rewrite Ep in E. cbv zeta in E. destruct (pred n); [|discriminate]. destruct (fifo_put_back h stop (buffer (hand_over N s r a (snd c)) a j)); discriminate. }
    destruct (inv_Step _ _ _ _ Hok Hi E) as (s1 & -> & Hi'). pose proof E as E0. unfold step in E. rewrite Ep in E. cbv zeta in E.
    destruct (pred n) as [|n1] eqn:En.
    + destruct (fifo_put_back h stop (buffer (hand_over N s r a (snd c)) a j)) as [q|]; [|discriminate]. unfold end_read in E.
      destruct (fifo_done (d + 1) q) as [q'|]; [|discriminate]. injection E as <-.
      destruct (set_buffer_parts (hand_over N s r a (snd c)) a j q') as (P1 & P2 & P3 & P4 & P5 & P6 & P7 & P8).
      eexists 1%nat, _, O. rewrite (run_step _ _ _ _ 0 E0). split; [reflexivity|]. split; auto. split; [|split; [|split; [|split; [|split]]]]; auto.
      * intros k' Hk. cbn [s_poll set_poll]. rewrite P1, upd_ne; auto. cbn. auto.
      * cbn. apply upd_eq.
      * constructor; cbn [s_written s_pending s_unsent set_poll]; rewrite ?P3, ?P4, ?P5; reflexivity.
      * lia.
      * discriminate.
    + injection E as <-. set (s1 := set_poll (hand_over N s r a (snd c)) r (PRead (S n1) a j rest h stop (d + 1))) in *.
      destruct (IH s1 (S n1) a j rest stop (d + 1) Hok Hi') as (m & s2 & n' & R1 & R2 & R3 & R4 & [F1 F2 F3] & R5 & R6 & R7).
      * intros k' Hk. cbn. rewrite upd_ne; auto.
      * cbn. apply upd_eq.
      * exists (S m), s2, n'. rewrite (run_step _ _ _ _ m E0). repeat (split; [solve [auto|lia|constructor; auto|intros; lia]|]). discriminate.
Qed.
Lemma zlen_zero : forall (A : Type) (l : list A), zlen l = 0 -> l = [].
Proof. intros A [|x l] H; auto. rewrite zlen_cons in H. unfold zlen in H. lia. Qed.
Lemma take_nonempty : forall max q h stop q', (1 <= max)%nat -> fifo_take max q = (h, stop, q') -> q_list q ++ q_wq q <> [] -> h <> [] .
Proof.
  intros max q h stop q' Hm H Hne. unfold fifo_take in H. injection H as <- _ _. destruct max; [lia|]. destruct (q_list q ++ q_wq q); [congruence|discriminate].
Qed.
Lemma populated_nonempty : forall q, q_count q = zlen (q_list q) -> fifo_populated q = true -> q_list q ++ q_wq q <> [].
Proof.
  intros q H Hp E. apply app_eq_nil in E. destruct E as [E1 E2]. unfold fifo_populated in Hp. rewrite H, E1, E2 in Hp. discriminate.
Qed.
Lemma not_populated : forall q, q_count q = zlen (q_list q) -> fifo_populated q = false -> q_list q = [] /\ q_wq q = [].
Proof.
  intros q H Hp. unfold fifo_populated in Hp. apply orb_false_iff in Hp. destruct Hp as [H1 H2]. apply negb_false_iff, Z.eqb_eq in H1, H2.
  split; apply zlen_zero; congruence.
Qed.
(** The beginning of reading and the reading *)
Lemma start_loop : forall N s r n a j rest, ok_net N -> inv N (start_read N s r n a j rest) -> solo s r -> (q_count (buffer s a j) = zlen (q_list (buffer s a j))) ->
  exists m s' n', run N (start_read N s r n a j rest) (steps r m) = Ok s' /\ inv N s' /\ solo s' r /\ s_poll s' r = PAt n' rest /\ read_frame s s' /\
    ((n' < n)%nat \/ (n' = n /\ s_log s' = s_log s /\ q_list (buffer s a j) = [] /\ q_wq (buffer s a j) = [])).
Proof.
  intros N s r n a j rest Hok Hi Hso Hq. unfold start_read in *. destruct (fifo_populated (buffer s a j)) eqn:Ep.
  - destruct (fifo_take (n_max N) (buffer s a j)) as [[h stop] q] eqn:Et.
    pose proof (take_nonempty _ _ _ _ _ (ok_max N Hok) Et (populated_nonempty _ Hq Ep)) as Hne.
    destruct (set_buffer_parts s a j q) as (P1 & P2 & P3 & P4 & P5 & P6 & P7 & P8).
    destruct (read_loop N r h (set_poll (set_buffer s a j q) r (PRead n a j rest h stop 0)) n a j rest stop 0 Hok Hi) as (m & s' & n' & R1 & R2 & R3 & R4 & [F1 F2 F3] & R5 & R6 & R7).
    + intros k Hk. cbn. rewrite P1, upd_ne; auto.
    + cbn. apply upd_eq.
    + exists m, s', n'. split; auto. split; auto. split; auto. split; auto. split; [|left; auto].
      cbn in F1, F2, F3. constructor; congruence.
  - destruct (not_populated _ Hq Ep) as [E1 E2]. exists O, (set_poll s r (PAt n rest)), n. split; [reflexivity|]. split; auto. split; [|split; [|split]].
    + intros k Hk. cbn. rewrite upd_ne; auto.
    + cbn. apply upd_eq.
    + constructor; reflexivity.
    + right. auto.
Qed.
Lemma take_done : forall N s r n a j rest, ok_net N -> inv N s -> solo s r -> s_poll s r = PTake n a j rest ->
  exists m s' n', run N s (steps r m) = Ok s' /\ inv N s' /\ solo s' r /\ s_poll s' r = PAt n' rest /\ read_frame s s' /\
    ((n' < n)%nat \/ (n' = n /\ s_log s' = s_log s /\ (len (got s r a) + len (q_list (s_main s a)) = len (s_written s a))%nat)).
Proof.
  intros N s r n a j rest Hok Hi Hso Ep. pose proof (i_phase _ _ Hi r) as Hp. rewrite Ep in Hp. destruct Hp as (Hn & Hin & Hrest & Hk).
  assert (step N s r = Some (Ok (start_read N s r n a (Some j) rest))) as E by (unfold step; rewrite Ep; reflexivity).
  destruct (inv_Step _ _ _ _ Hok Hi E) as (s1 & E2 & Hi'). injection E2 as <-.
  pose proof (i_chan _ _ Hi a) as C. apply (chan_S _ _ _ Hk) in C. destruct C as (os & mm & dist & C).
  assert (proj (s_poll s r) a = AOwn j) as Hown by (rewrite Ep; cbn; rewrite Nat.eqb_refl; auto).
  pose proof (cs_act _ _ _ _ _ C r) as A. cbn in A. rewrite Hown in A. destruct (owner_buf _ _ _ A) as [q Hq].
  assert (s_lock s a = None) as Hl by (eapply locks_free; eauto; rewrite Hown; discriminate).
  destruct (fill_none (view_of s a) Hl) as (Fx & Fk & Fd).
  pose proof (cs_buf _ _ _ _ _ C j (Some r) q Hq) as (B1 & B2 & _). cbn in B1, B2. rewrite Hown in B1, B2. cbn in B1, B2. unfold extra in B1. rewrite Fk in B1. cbn in B1.
  assert (buffer s a (Some j) = q) as Eb by (cbn; apply (split_queue_nth _ _ _ _ Hq)).
  destruct (start_loop N s r n a (Some j) rest Hok Hi' Hso) as (m & s' & n' & R1 & R2 & R3 & R4 & R5 & R6).
  { rewrite Eb. change (@zlen cell []) with 0 in B2. lia. }
  exists (S m), s', n'. rewrite (run_step _ _ _ _ m E). split; auto. split; auto. split; auto. split; auto. split; auto.
  destruct R6 as [R6|(R6 & R7 & R8 & R9)]; auto. right. split; auto. split; auto. rewrite Eb in R8, R9.
  pose proof (cs_main _ _ _ _ _ C) as M. rewrite Fx in M. cbn in M. rewrite R8, R9 in B1. cbn in B1. rewrite !app_nil_r in B1.
  rewrite <- M, <- B1, app_length. unfold msgs. rewrite map_length. reflexivity.
Qed.
Lemma sender_done : forall N s r n a rest, ok_net N -> inv N s -> solo s r -> s_poll s r = PAt n (a :: rest) -> (1 <= n)%nat ->
  exists m s' n', run N s (steps r m) = Ok s' /\ inv N s' /\ solo s' r /\ s_poll s' r = PAt n' rest /\ read_frame s s' /\
    ((n' < n)%nat \/ (n' = n /\ s_log s' = s_log s /\ got s r a = s_written s a)).
Proof.
  intros N s r n a rest Hok Hi Hso Ep Hn. pose proof (i_phase _ _ Hi r) as Hp. rewrite Ep in Hp. cbn in Hp.
  assert (In a (n_senders N r)) as Hin by (apply Hp; left; auto). assert (In r (n_readers N a)) as Hr by (apply ok_sym; auto).
  assert (proj (s_poll s r) a = ANone) as Hnone by (rewrite Ep; reflexivity).
  destruct n as [|n]; [lia|].
  destruct (chan_cases _ _ _ (i_chan _ _ Hi a)) as [[Hk C]|[Hk (os & mm & dist & C)]].
  - assert (step N s r = Some (Ok (start_read N s r (S n) a None rest))) as E by (unfold step; rewrite Ep; destruct Hk as [-> | ->]; reflexivity).
    destruct (inv_Step _ _ _ _ Hok Hi E) as (s1 & E2 & Hi'). injection E2 as <-.
    pose proof (cn_count _ _ C r Hr) as K. cbn in K. rewrite Hnone in K. cbn in K. pose proof (cn_conf _ _ C r Hr) as W. cbn in W. rewrite Hnone in W. cbn in W.
    destruct (start_loop N s r (S n) a None rest Hok Hi' Hso) as (m & s' & n' & R1 & R2 & R3 & R4 & R5 & R6).
    { cbn. change (@zlen cell []) with 0 in K. lia. }
    exists (S m), s', n'. rewrite (run_step _ _ _ _ m E). split; auto. split; auto. split; auto. split; auto. split; auto.
    destruct R6 as [R6|(R6 & R7 & R8 & R9)]; auto. right. split; auto. split; auto. cbn in R8. rewrite R8 in W. cbn in W. rewrite app_nil_r in W. exact W.
  - assert (s_lock s a = None) as Hl by (eapply locks_free; eauto; rewrite Hnone; discriminate).
    destruct (fill_none (view_of s a) Hl) as (Fx & Fk & Fd).
    destruct (s_own _ _ _ _ _ r C Hr Hnone Hl) as (j & l & O1 & _). cbn in O1.
    assert (step N s r = Some (Ok (set_poll (set_split s a l) r (PFill (S n) a j rest)))) as E.
    { unfold step. rewrite Ep. destruct Hk as [k ->]. rewrite Hl, O1. reflexivity. }
    destruct (inv_Step _ _ _ _ Hok Hi E) as (s1 & E2 & Hi1). injection E2 as <-.
    set (s1 := set_poll (set_split s a l) r (PFill (S n) a j rest)) in *.
    assert (solo s1 r) as Hso1 by (intros k' Hk'; cbn; rewrite upd_ne; auto).
    assert (s_poll s1 r = PFill (S n) a j rest) as Ep1 by (cbn; apply upd_eq).
    pose proof (begins_conf N s a r Hok Hi Hin) as Hbeg.
    pose proof (cs_main _ _ _ _ _ C) as M. rewrite Fx in M. cbn in M. pose proof (cs_count _ _ _ _ _ C) as K. rewrite Fx, Fd in K. cbn in K.
    pose proof (cs_wq _ _ _ _ _ C) as Wq. cbn in Wq.
    assert (len (got s r a) <= len dist)%nat as Hgd.
    { pose proof (i_chan _ _ Hi a) as _. destruct (in_dec Nat.eq_dec r os) as [Ho|Ho].
      - apply In_nth_error in Ho. destruct Ho as [i Hio].
        assert (nth_error (map fst (s_split s a)) i = Some (Some r)) as Hn2.
        { pose proof (cs_owners _ _ _ _ _ C) as O. cbn in O. rewrite O. rewrite nth_error_app1 by (rewrite map_length; apply nth_error_Some; congruence).
          rewrite nth_error_map, Hio. reflexivity. }
        destruct (owner_buf _ _ _ Hn2) as [q Hq]. destruct (cs_buf _ _ _ _ _ C i (Some r) q Hq) as (B1 & _). cbn [own_log v_log view_of] in B1.
        unfold extra in B1. rewrite Fk in B1. cbn [Nat.ltb Nat.leb] in B1. rewrite app_nil_r in B1. rewrite <- B1, !app_length. lia.
      - pose proof (cs_new _ _ _ _ _ C r Ho) as En. cbn in En. rewrite En. cbn. lia. }
    assert (len (s_written s a) = len dist + len (q_list (s_main s a)))%nat as Hw by (rewrite <- M, app_length; unfold msgs; rewrite map_length; auto).
    destruct (q_count (s_main s a) =? 0) eqn:Ec.
    + assert (step N s1 r = Some (Ok (set_poll s1 r (PTake (S n) a j rest)))) as E1.
      { unfold step. rewrite Ep1. change (s_main s1 a) with (s_main s a). rewrite Ec. reflexivity. }
      destruct (inv_Step _ _ _ _ Hok Hi1 E1) as (s2 & E2 & Hi2). injection E2 as <-. set (s2 := set_poll s1 r (PTake (S n) a j rest)) in *.
      destruct (take_done N s2 r (S n) a j rest Hok Hi2) as (m & s' & n' & R1 & R2 & R3 & R4 & [F1 F2 F3] & R6).
      { intros k' Hk'. cbn. rewrite !upd_ne; auto. } { cbn. apply upd_eq. }
      exists (S (S m)), s', n'. rewrite (run_step _ _ _ _ (S m) E), (run_step _ _ _ _ m E1). split; auto. split; auto. split; auto. split; auto.
      split; [constructor; auto|]. destruct R6 as [R6|(R6 & R7 & R8)]; auto. right. split; auto. split; auto.
      apply begins_full; auto. apply Z.eqb_eq in Ec. change (@zlen cell []) with 0 in K.
      assert (q_list (s_main s a) = []) as El by (apply zlen_zero; lia).
      change (len (got s r a) + len (q_list (s_main s a)) = len (s_written s a))%nat in R8. rewrite El in R8. cbn in R8. lia.
    + destruct (fifo_take (n_max N) (s_main s a)) as [[h stop] q] eqn:Et.
      set (s2 := set_poll (set_lock (set_main s1 a q) a (Some r)) r (PFilling (S n) a j rest h 0 0)).
      assert (step N s1 r = Some (Ok s2)) as E1.
      { unfold step. rewrite Ep1. change (s_main s1 a) with (s_main s a). rewrite Ec. change (s_lock s1 a) with (s_lock s a). rewrite Hl, Et. reflexivity. }
      destruct (inv_Step _ _ _ _ Hok Hi1 E1) as (s2' & E2 & Hi2). injection E2 as <-. fold s2 in Hi2.
      destruct (fill_loop N r h s2 (S n) a j rest O 0 Hok Hi2) as (m & s3 & R1 & R2 & R3 & R4 & [F1 F2 F3 F4 F5]).
      { intros k' Hk'. cbn. rewrite !upd_ne; auto. } { cbn. apply upd_eq. }
      destruct (take_done N s3 r (S n) a j rest Hok R2 R3 R4) as (m' & s' & n' & Q1 & Q2 & Q3 & Q4 & [G1 G2 G3] & Q6).
      exists (S (S (m + m'))), s', n'. rewrite (run_step _ _ _ _ _ E), (run_step _ _ _ _ _ E1). unfold steps in *. rewrite repeat_app, (run_app _ _ _ _ _ R1).
      split; auto. split; auto. split; auto. split; auto. split; [constructor; [rewrite G1, F1|rewrite G2, F3|rewrite G3, F4]; reflexivity|].
      left. destruct Q6 as [Q6|(Q6 & Q7 & Q8)]; auto. exfalso.
      destruct (take_spec _ _ _ _ _ Et) as (T1 & T2 & T3 & T4). rewrite Wq, app_nil_r in T1.
      assert (h <> []) as Hne.
      { eapply take_nonempty; [apply ok_max; exact Hok|exact Et|]. rewrite Wq, app_nil_r. intros El. apply Z.eqb_neq in Ec. rewrite El in K. apply Ec. rewrite K. reflexivity. }
      assert (got s3 r a = got s r a) as Eg by (unfold got; rewrite F2; reflexivity).
      rewrite Eg, F5, F1 in Q8. cbn in Q8. rewrite upd_eq in Q8. rewrite Hw in Q8. rewrite <- T1, app_length in Q8. destruct h; [congruence|]. cbn in Q8. lia.
Qed.
Lemma poll_done : forall N r rest s n, ok_net N -> inv N s -> solo s r -> s_poll s r = PAt n rest ->
  exists m s' n', run N s (steps r m) = Ok s' /\ inv N s' /\ solo s' r /\ s_poll s' r = PIdle /\ s_written s' = s_written s /\ s_unsent s' = s_unsent s /\
    s_pending s' r = (s_pending s r + n')%nat /\
    ((n' < n)%nat \/ (n' = n /\ s_log s' = s_log s /\ (n = O \/ forall a, In a rest -> got s r a = s_written s a))).
Proof.
  intros N r. induction rest as [|a rest IH]; intros s n Hok Hi Hso Ep.
  - destruct n as [|n].
    + assert (step N s r = Some (Ok (set_poll s r PIdle))) as E by (unfold step; rewrite Ep; reflexivity).
      destruct (inv_Step _ _ _ _ Hok Hi E) as (s' & E2 & Hi'). injection E2 as <-.
      exists 1%nat, (set_poll s r PIdle), O. rewrite (run_step _ _ _ _ 0 E). cbn. rewrite upd_eq.
      split; auto. split; auto. split; [intros k Hk; cbn; rewrite upd_ne; auto|]. repeat (split; [solve [auto]|]). auto 6.
    + assert (step N s r = Some (Ok (set_poll (set_pending s r (s_pending s r + S n)) r PIdle))) as E by (unfold step; rewrite Ep; reflexivity).
      destruct (inv_Step _ _ _ _ Hok Hi E) as (s' & E2 & Hi'). injection E2 as <-.
      exists 1%nat, (set_poll (set_pending s r (s_pending s r + S n)) r PIdle), (S n). rewrite (run_step _ _ _ _ 0 E). cbn. rewrite !upd_eq.
      split; auto. split; auto. split; [intros k Hk; cbn; rewrite upd_ne; auto|]. repeat (split; [solve [auto]|]). right. split; auto. split; auto. right. intros a [].
  - destruct n as [|n].
    + assert (step N s r = Some (Ok (set_poll s r PIdle))) as E by (unfold step; rewrite Ep; reflexivity).
      destruct (inv_Step _ _ _ _ Hok Hi E) as (s' & E2 & Hi'). injection E2 as <-.
      exists 1%nat, (set_poll s r PIdle), O. rewrite (run_step _ _ _ _ 0 E). cbn. rewrite upd_eq.
      split; auto. split; auto. split; [intros k Hk; cbn; rewrite upd_ne; auto|]. repeat (split; [solve [auto]|]). auto 6.
    + destruct (sender_done N s r (S n) a rest Hok Hi Hso Ep) as (m & s1 & n1 & R1 & R2 & R3 & R4 & [F1 F2 F3] & R5); [lia|].
      destruct (IH s1 n1 Hok R2 R3 R4) as (m' & s' & n' & Q1 & Q2 & Q3 & Q4 & Q5 & Q6 & Q7 & Q8).
      exists (m + m')%nat, s', n'. unfold steps in *. rewrite repeat_app, (run_app _ _ _ _ _ R1).
      split; auto. split; auto. split; auto. split; auto. split; [congruence|]. split; [congruence|]. split; [rewrite Q7, F2; auto|].
      destruct R5 as [R5|(-> & R6 & R7)]; [left; destruct Q8 as [Q8|[-> _]]; lia|].
      destruct Q8 as [Q8|(-> & Q8 & Q9)]; auto. right. split; auto. split; [congruence|]. right.
      destruct Q9 as [Q9|Q9]; [discriminate|]. intros b [<-|Hb]; auto. specialize (Q9 b Hb). unfold got in *. rewrite R6, F1 in Q9. exact Q9.
Qed.
(** Every poll reads something *)
Lemma poll_reads : forall N s r n, ok_net N -> inv N s -> solo s r -> s_poll s r = PIdle -> (1 <= n <= s_pending s r)%nat -> Z.of_nat n <= 65535 ->
  exists m s', run N s (Poll r n :: steps r m) = Ok s' /\ inv N s' /\ solo s' r /\ s_poll s' r = PIdle /\ s_written s' = s_written s /\ s_unsent s' = s_unsent s /\
    (s_pending s' r < s_pending s r)%nat.
Proof.
  intros N s r n Hok Hi Hso Ep Hn Hz.
  set (s1 := set_poll (set_pending s r (s_pending s r - n)) r (PAt n (n_senders N r))).
  assert (exec N s (Poll r n) = Some (Ok s1)) as E.
  { unfold exec. rewrite Ep. rewrite (proj2 (Nat.leb_le _ _)), (proj2 (Nat.leb_le _ _)), (proj2 (Z.leb_le _ _)) by lia. reflexivity. }
  destruct (inv_exec _ _ _ _ Hok Hi E) as (s1' & E1 & Hi1). injection E1 as <-. fold s1 in Hi1.
  destruct (poll_done N r (n_senders N r) s1 n Hok Hi1) as (m & s' & n' & R1 & R2 & R3 & R4 & R5 & R6 & R7 & R8).
  { intros k Hk. cbn. rewrite upd_ne; auto. } { cbn. apply upd_eq. }
  exists m, s'. cbn [run]. rewrite E. split; auto. split; auto. split; auto. split; auto. split; auto. split; auto. rewrite R7. cbn. rewrite upd_eq.
  destruct R8 as [R8|(-> & R8 & [->|R9])]; [lia|lia|]. exfalso.
  pose proof (i_sum _ _ Hi r) as S0. assert (forall a, In a (n_senders N r) -> got s r a = s_written s a) as Hg by (intros a Ha; exact (R9 a Ha)).
  rewrite (total_ext _ (fun a => len (got s r a)) (fun a => len (s_written s a))) in S0 by (intros a Ha; rewrite Hg; auto).
  unfold events in S0. lia.
Qed.
Lemma finish : forall N r t s, ok_net N -> inv N s -> solo s r -> s_poll s r = PIdle -> (s_pending s r + 2 * count_occ Nat.eq_dec (s_unsent s) r <= t)%nat ->
  exists ops s', Forall (ops_of r) ops /\ run N s ops = Ok s' /\ inv N s' /\ s_written s' = s_written s /\ events s' r = O.
Proof.
  intros N r. induction t as [|t IH]; intros s Hok Hi Hso Ep Ht.
  - exists [], s. split; [constructor|]. split; auto. split; auto. split; auto. unfold events, amount. rewrite Ep. lia.
  - destruct (s_pending s r) as [|p] eqn:Epe.
    + destruct (count_occ Nat.eq_dec (s_unsent s) r) as [|u] eqn:Eu.
      { exists [], s. split; [constructor|]. split; auto. split; auto. split; auto. unfold events, amount. rewrite Ep, Epe, Eu. reflexivity. }
      assert (In r (s_unsent s)) as Hin by (apply (count_occ_In Nat.eq_dec); lia).
      destruct (exec N s (Tell r)) as [x|] eqn:E.
      2:{ unfold exec in E. rewrite (proj2 (existsb_exists _ _)) in E; [discriminate|]. exists r. rewrite Nat.eqb_refl. auto. }
      destruct (inv_exec _ _ _ _ Hok Hi E) as (s1 & -> & Hi1).
      pose proof (count_drop r (s_unsent s) r Hin) as Hd. rewrite Nat.eqb_refl in Hd.
      assert (s_poll s1 = s_poll s /\ s_pending s1 r = 1%nat /\ s_unsent s1 = drop r (s_unsent s) /\ s_written s1 = s_written s) as (P1 & P2 & P3 & P4).
      { unfold exec in E. destruct (existsb (Nat.eqb r) (s_unsent s)); [|discriminate]. injection E as <-. cbn. rewrite upd_eq, Epe. auto. }
      destruct (IH s1) as (ops & s' & Q1 & Q2 & Q3 & Q4 & Q5); auto.
      * intros k Hk. rewrite P1. auto.
      * congruence.
      * rewrite P2, P3. lia.
      * exists (Tell r :: ops), s'. split; [constructor; auto; reflexivity|]. cbn [run]. rewrite E. split; auto. split; auto. split; [congruence|auto].
    + destruct (poll_reads N s r 1 Hok Hi Hso Ep) as (m & s1 & R1 & R2 & R3 & R4 & R5 & R6 & R7); [lia|lia|].
      destruct (IH s1) as (ops & s' & Q1 & Q2 & Q3 & Q4 & Q5); auto.
      * rewrite R6. lia.
      * exists ((Poll r 1 :: steps r m) ++ ops), s'. split.
        -- apply Forall_app. split; auto. constructor; [reflexivity|]. unfold steps. apply Forall_forall. intros o Ho. apply repeat_spec in Ho. subst. reflexivity.
        -- rewrite (run_app _ _ _ _ _ R1). split; auto. split; auto. split; [congruence|auto].
Qed.
Theorem broker_progress_proof : forall N ops s r n, ok_net N -> run N (start N) ops = Ok s -> (forall k, s_poll s k = PIdle) ->
  (1 <= n <= s_pending s r)%nat -> Z.of_nat n <= 65535 ->
  exists m s', run N s (Poll r n :: repeat (Step r) m) = Ok s' /\ (forall k, s_poll s' k = PIdle) /\ (unread N s' r < unread N s r)%nat.
Proof.
  intros N ops s r n Hok H Hidle Hn Hz. destruct (inv_run N ops (start N) Hok (inv_start N Hok)) as (s0 & H0 & Hi). rewrite H in H0. injection H0 as <-.
  destruct (poll_reads N s r n Hok Hi) as (m & s' & R1 & R2 & R3 & R4 & R5 & R6 & R7); auto; [intros k _; auto|].
  exists m, s'. split; auto.
  assert (forall k, s_poll s' k = PIdle) as Hidle' by (intros k; destruct (Nat.eq_dec k r) as [->|]; auto). split; auto.
  pose proof (i_sum _ _ Hi r) as S1. pose proof (i_sum _ _ R2 r) as S2. unfold unread. rewrite S1, S2. unfold events, amount. rewrite Hidle, Hidle', R6. lia.
Qed.
Theorem broker_finish_proof : forall N ops s r, ok_net N -> run N (start N) ops = Ok s -> (forall k, s_poll s k = PIdle) ->
  exists ops' s', Forall (ops_of r) ops' /\ run N s ops' = Ok s' /\ (forall a, In a (n_senders N r) -> got s' r a = s_written s a).
Proof.
  intros N ops s r Hok H Hidle. destruct (inv_run N ops (start N) Hok (inv_start N Hok)) as (s0 & H0 & Hi). rewrite H in H0. injection H0 as <-.
  destruct (finish N r _ s Hok Hi (fun k _ => Hidle k) (Hidle r) (le_n _)) as (ops' & s' & Q1 & Q2 & Q3 & Q4 & Q5).
  exists ops', s'. split; auto. split; auto. intros a Ha. rewrite <- Q4. apply (broker_complete_proof N (ops ++ ops') s' r a); auto.
  rewrite (run_app _ _ _ _ _ H). exact Q2.
Qed.
