(** Messages do not come back to where they were made. *)
From Coq Require Import ZArith List Bool Lia PeanoNat.
From Verif Require Import Common BrokModel BrokSpec BrokProofs.
Import ListNotations.
Open Scope Z_scope.

Definition cell_ok (a : nat) (c : cell) : Prop :=
  match e_source (snd c) with None => e_origin (snd c) = a | Some o => e_origin (snd c) = o end.
Definition phase_good (N : net) (r : nat) (p : phase) : Prop :=
  match p with
  | PIdle => True
  | PAt _ rest => incl rest (n_senders N r)
  | PRead _ a None rest h _ _ => In a (n_senders N r) /\ incl rest (n_senders N r) /\ Forall (cell_ok a) h
  | _ => False
  end.
Record good (N : net) (s : state) : Prop := mk_good {
  g_list : forall a, Forall (cell_ok a) (q_list (s_main s a));
  g_wq : forall a, q_wq (s_main s a) = [];
  g_phase : forall r, phase_good N r (s_poll s r);
  g_src : forall r e, In e (s_handed s r) -> e_source e = Some (e_origin e);
  g_handed : forall r, map e_msg (s_handed s r) = map (fun x => e_msg (snd x)) (filter (kept N r) (s_log s r)) /\
                       (forall e, In e (s_handed s r) -> n_backstop N r = true -> e_origin e <> r) }.
Lemma good_write : forall N s a e pick, good N s -> cell_ok a (s_next s, e) -> good N (write N s a e pick).
Proof.
  intros N s a e pick [] He. constructor; auto; cbn; intros b; unfold upd; destruct (Nat.eqb_spec b a); subst; auto.
  - cbn. apply Forall_app. split; auto.
  - cbn. auto.
Qed.
Lemma good_hand : forall N s r a c, loopless N -> good N s -> In a (n_senders N r) -> cell_ok a c -> good N (hand_over N s r a (snd c)).
Proof.
  intros N s r a c Hl [] Hin Hc. unfold cell_ok in Hc.
  assert (a <> r) as Har by (intros ->; apply (Hl r); auto).
  assert ((n_backstop N r && match e_source (snd c) with Some o => (o =? r)%nat | None => false end) = negb (kept N r (a, snd c))) as Hst.
  { unfold kept. rewrite negb_involutive. cbn. destruct (n_backstop N r); auto. cbn. destruct (e_source (snd c)) as [o|]; rewrite Hc; auto.
    symmetry. apply Nat.eqb_neq. auto. }
  unfold hand_over. rewrite Hst. destruct (kept N r (a, snd c)) eqn:Ek; cbn [negb].
  - constructor; auto; cbn [s_handed s_log].
    + intros k e He. unfold upd in He. destruct (Nat.eqb_spec k r) as [->|]; [|apply (g_src0 k); auto]. apply in_app_or in He. destruct He as [He|[<-|[]]]; [apply (g_src0 r); auto|].
      cbn. destruct (e_source (snd c)) as [o|]; rewrite Hc; auto.
    + intros k. unfold upd. destruct (Nat.eqb_spec k r) as [->|]; auto. destruct (g_handed0 r) as [H1 H2]. split.
      * rewrite filter_app, !map_app, H1. cbn [filter]. rewrite Ek. reflexivity.
      * intros e He Hb. apply in_app_or in He. destruct He as [He|[<-|[]]]; auto. cbn. unfold kept in Ek. rewrite Hb in Ek. cbn in Ek.
        apply negb_true_iff, Nat.eqb_neq in Ek. exact Ek.
  - constructor; auto; cbn [s_handed s_log]. intros k. unfold upd. destruct (Nat.eqb_spec k r) as [->|]; auto. destruct (g_handed0 r) as [H1 H2]. split; auto.
    rewrite filter_app, map_app, H1. cbn [filter]. rewrite Ek. cbn. rewrite app_nil_r. reflexivity.
Qed.
Lemma good_buf : forall N s r p a q, good N s -> phase_good N r p -> Forall (cell_ok a) (q_list q) -> q_wq q = [] ->
  good N (set_poll (set_main s a q) r p).
Proof.
  intros N s r p a q [] Hp Hq Hw. constructor; auto; cbn; intros b; unfold upd; match goal with |- context [(b =? ?x)%nat] => destruct (Nat.eqb_spec b x) end; subst; auto.
Qed.
Lemma good_poll : forall N s r p, good N s -> phase_good N r p -> good N (set_poll s r p).
Proof. intros N s r p [] Hp. constructor; auto. cbn. intros k. unfold upd. destruct (Nat.eqb_spec k r); subst; auto. Qed.
Lemma good_pending : forall N s r n, good N s -> good N (set_pending s r n).
Proof. intros N s r n []. constructor; auto. Qed.
Lemma Forall_split : forall (A : Type) (P : A -> Prop) n (l : list A), Forall P l -> Forall P (firstn n l) /\ Forall P (skipn n l).
Proof. intros A P n l H. rewrite <- (firstn_skipn n l) in H. apply Forall_app in H. exact H. Qed.
Lemma put_back_cases : forall h stop q q', fifo_put_back h stop q = Some q' -> q_list q' = h ++ q_list q /\ q_wq q' = q_wq q.
Proof.
  intros h stop q q' H. unfold fifo_put_back in H. destruct h as [|c h].
  - destruct stop as [p|]; [|injection H as <-; auto]. destruct (q_list q) as [|[x y] l] eqn:E; [discriminate|]. destruct (x =? p)%nat; [|discriminate].
    injection H as <-. rewrite E. auto.
  - injection H as <-. auto.
Qed.
Lemma good_Step : forall N s r s', loopless N -> (forall a, n_split N a = None) -> good N s -> step N s r = Some (Ok s') -> good N s'.
Proof.
  intros N s r s' Hl Hno Hg H. pose proof (g_phase _ _ Hg r) as Hp. unfold step in H.
  destruct (s_poll s r) as [|n rest|n a j rest|n a j rest h k d|n a j rest|n a j rest h stop d] eqn:Ep; cbn in Hp; try tauto; [discriminate|..].
  - destruct n as [|n]; [injection H as <-; apply good_poll; cbn; auto|]. destruct rest as [|a rest].
    + injection H as <-. apply good_poll; cbn; auto. apply good_pending; auto.
    + rewrite Hno in H. injection H as <-. assert (incl rest (n_senders N r)) as Hr by (intros y Hy; apply Hp; right; auto).
      unfold start_read. destruct (fifo_populated (buffer s a None)); [|apply good_poll; cbn; auto].
      destruct (fifo_take (n_max N) (buffer s a None)) as [[h stop] q] eqn:Et. unfold fifo_take in Et. cbn [buffer] in Et. rewrite (g_wq _ _ Hg), app_nil_r in Et.
      injection Et as <- _ <-. destruct (Forall_split _ _ (n_max N) _ (g_list _ _ Hg a)) as [F1 F2].
      apply good_buf; cbn; auto. split; [apply Hp; left; auto|auto].
  - destruct j as [j|]; [tauto|]. destruct Hp as (Hin & Hrest & Hh). destruct h as [|c h].
    + unfold end_read in H. cbn [buffer] in H. unfold fifo_done in H. destruct (q_count (s_main s a) <? d); [discriminate|]. injection H as <-.
      apply good_buf; cbn; auto; apply Hg.
    + inversion Hh; subst. cbv zeta in H. pose proof (good_hand N s r a c Hl Hg Hin H2) as Hg1. set (s1 := hand_over N s r a (snd c)) in *.
      destruct (pred n).
      * destruct (fifo_put_back h stop (buffer s1 a None)) as [q|] eqn:Eq; [|discriminate].
        assert (Forall (cell_ok a) (q_list q) /\ q_wq q = []) as [Q1 Q2].
        { cbn [buffer] in Eq. pose proof (g_list _ _ Hg1 a). pose proof (g_wq _ _ Hg1 a).
          destruct (put_back_cases _ _ _ _ Eq) as [E1 E2]. split; [|congruence]. rewrite E1. apply Forall_app. auto. }
        unfold end_read, fifo_done in H. destruct (q_count q <? d + 1); [discriminate|]. injection H as <-. apply good_buf; cbn; auto.
      * injection H as <-. apply good_poll; cbn; auto.
Qed.
Lemma good_exec : forall N s o s', loopless N -> (forall a, n_split N a = None) -> good N s -> exec N s o = Some (Ok s') -> good N s'.
Proof.
  intros N s o s' Hl Hno Hg H. destruct o as [a m pick|a i pick|r|r n|r]; unfold exec in H.
  - injection H as <-. apply good_write; auto. reflexivity.
  - destruct (nth_error (s_handed s a) i) as [e|] eqn:E; [|discriminate]. injection H as <-. apply good_write; auto.
    unfold cell_ok. cbn. rewrite (g_src _ _ Hg a e (nth_error_In _ _ E)). reflexivity.
  - destruct (existsb (Nat.eqb r) (s_unsent s)); [|discriminate]. injection H as <-. destruct Hg. constructor; auto.
  - pose proof (g_phase _ _ Hg r) as Hp. destruct (s_poll s r) eqn:Ep; try discriminate. destruct (_ && _ && _) in H; [|discriminate]. injection H as <-.
    apply good_poll; [apply good_pending; auto|]. cbn. intros y; auto.
  - eapply good_Step; eauto.
Qed.
Lemma good_run : forall N ops s s', loopless N -> (forall a, n_split N a = None) -> good N s -> run N s ops = Ok s' -> good N s'.
Proof.
  induction ops as [|o ops IH]; intros s s' Hl Hno Hg H; cbn in H; [congruence|].
  destruct (exec N s o) as [[s1| |]|] eqn:E; try discriminate; [|eapply IH; eauto]. eapply IH; [..|exact H]; auto. eapply good_exec; eauto.
Qed.
Theorem broker_backstop_proof : forall N ops s r, loopless N -> (forall a, n_split N a = None) -> run N (start N) ops = Ok s ->
  map e_msg (s_handed s r) = map (fun x => e_msg (snd x)) (filter (kept N r) (s_log s r)) /\
  (n_backstop N r = true -> forall e, In e (s_handed s r) -> e_origin e <> r).
Proof.
  intros N ops s r Hl Hno H. assert (good N s) as Hg.
  { eapply good_run; [exact Hl|exact Hno| |exact H]. constructor; cbn; auto; try (intros; tauto). }
  destruct (g_handed _ _ Hg r) as [H1 H2]. split; auto.
Qed.

(** ** What an instance does to others *)
Lemma step_others : forall N s r s' k, step N s r = Some (Ok s') -> k <> r ->
  s_poll s' k = s_poll s k /\ s_pending s' k = s_pending s k /\ s_log s' k = s_log s k /\ s_unsent s' = s_unsent s.
Proof.
  intros N s r s' k H Hk. unfold step in H.
  assert (forall n a j rest, s_poll (start_read N s r n a j rest) k = s_poll s k /\ s_pending (start_read N s r n a j rest) k = s_pending s k /\
            s_log (start_read N s r n a j rest) k = s_log s k /\ s_unsent (start_read N s r n a j rest) = s_unsent s) as Hsr.
  { intros n a j rest. unfold start_read. destruct (fifo_populated (buffer s a j)); [|cbn; rewrite upd_ne; auto].
    destruct (fifo_take (n_max N) (buffer s a j)) as [[h stop] q]. destruct (set_buffer_parts s a j q) as (P1 & P2 & P3 & P4 & P5 & P6 & P7 & P8).
    cbn. rewrite P1, P2, P4, P5, upd_ne; auto. }
  assert (forall s0 n a j rest d q, s_poll s0 k = s_poll s k -> s_pending s0 k = s_pending s k -> s_log s0 k = s_log s k -> s_unsent s0 = s_unsent s ->
            end_read s0 r n a j rest d q = Ok s' -> s_poll s' k = s_poll s k /\ s_pending s' k = s_pending s k /\ s_log s' k = s_log s k /\ s_unsent s' = s_unsent s) as Her.
  { intros s0 n a j rest d q E1 E2 E3 E4 E. unfold end_read in E. destruct (fifo_done d q) as [q'|]; [|discriminate]. injection E as <-.
    destruct (set_buffer_parts s0 a j q') as (P1 & P2 & P3 & P4 & P5 & P6 & P7 & P8). cbn. rewrite P1, P2, P4, P5, upd_ne; auto. }
  destruct (s_poll s r) as [|n rest|n a j rest|n a j rest h kk d|n a j rest|n a j rest h stop d]; [discriminate|..].
  - destruct n as [|n]; [injection H as <-; cbn; rewrite upd_ne; auto|]. destruct rest as [|a rest]; [injection H as <-; cbn; rewrite !upd_ne; auto|].
    destruct (n_split N a) as [[|ks]|]; [injection H as <-; auto| |injection H as <-; auto].
    destruct (s_lock s a); [discriminate|]. destruct (own (s_split s a) r) as [[j l]|]; [|discriminate]. injection H as <-. cbn. rewrite upd_ne; auto.
  - destruct (q_count (s_main s a) =? 0); [injection H as <-; cbn; rewrite upd_ne; auto|].
    destruct (s_lock s a); [injection H as <-; cbn; rewrite upd_ne; auto|].
    destruct (fifo_take (n_max N) (s_main s a)) as [[h stop] q]. injection H as <-; cbn; rewrite upd_ne; auto.
  - destruct h as [|c h].
    + destruct (fifo_done d (s_main s a)); [|discriminate]. injection H as <-; cbn; rewrite upd_ne; auto.
    + destruct (kk <? length (s_split s a))%nat; injection H as <-; cbn; rewrite upd_ne; auto.
  - injection H as <-. auto.
  - destruct h as [|c h].
    + apply (Her s n a j rest d (buffer s a j)); auto. congruence.
    + cbv zeta in H. assert (s_log (hand_over N s r a (snd c)) k = s_log s k) as El by (unfold hand_over; cbn; apply upd_ne; auto).
      destruct (pred n) as [|n'].
      * destruct (fifo_put_back h stop (buffer (hand_over N s r a (snd c)) a j)) as [q|]; [|discriminate].
        apply (Her (hand_over N s r a (snd c)) O a j rest (d + 1) q); auto. congruence.
      * injection H as <-. cbn. rewrite !upd_ne; auto.
Qed.
Lemma asleep : forall N r ops s s', Forall no_write ops -> s_poll s r = PIdle -> s_pending s r = O -> ~ In r (s_unsent s) -> run N s ops = Ok s' ->
  s_log s' r = s_log s r.
Proof.
  intros N r. induction ops as [|o ops IH]; intros s s' Hno Hp Hn Hu H; cbn in H; [congruence|]. inversion Hno; subst.
  destruct (exec N s o) as [[s1| |]|] eqn:E; try discriminate; [|eapply IH; eauto].
  assert (s_poll s1 r = PIdle /\ s_pending s1 r = O /\ ~ In r (s_unsent s1) /\ s_log s1 r = s_log s r) as (P1 & P2 & P3 & P4).
  { destruct o as [a m pick|a i pick|k|k n|k]; [destruct H2|destruct H2|..]; unfold exec in E.
    - destruct (existsb (Nat.eqb k) (s_unsent s)) eqn:Ex; [|discriminate]. injection E as <-. cbn.
      assert (k <> r) as Hk. { intros ->. apply existsb_exists in Ex. destruct Ex as (x & Hx & Ex). apply Nat.eqb_eq in Ex. congruence. }
      rewrite upd_ne by auto. repeat split; auto. intros Hin. apply Hu. revert Hin. clear. induction (s_unsent s) as [|x l IH]; cbn; auto.
      destruct (x =? k)%nat; auto. intros [->|H]; auto.
    - destruct (s_poll s k) eqn:Ek; try discriminate. destruct (Nat.eq_dec k r) as [->|Hk].
      + rewrite Hn in E. destruct n; discriminate.
      + destruct ((1 <=? n)%nat && (n <=? s_pending s k)%nat && (Z.of_nat n <=? 65535)); [|discriminate]. injection E as <-. cbn. rewrite !upd_ne by auto. auto.
    - destruct (Nat.eq_dec k r) as [->|Hk]; [unfold step in E; rewrite Hp in E; discriminate|].
      destruct (step_others _ _ _ _ r E) as (Q1 & Q2 & Q3 & Q4); auto. rewrite Q1, Q2, Q3, Q4. auto. }
  rewrite (IH s1 s'); auto.
Qed.
