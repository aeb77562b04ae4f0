(** Several clients: the receiver may come to a halt. *)
From Coq Require Import ZArith List Bool Lia Sorting.Sorted.
From Verif Require Import Common ReadModel AsdModel AsdSpec AsdQueue AsdProofs AsdLoss AsdOnce.
Import ListNotations.
Open Scope Z_scope.

(** Entries of messages which have been delivered *)
Definition graced (q : list held) : Z := zlen (filter (fun e => negb (h_grace e =? 0)) q).
Fixpoint all_graced (qs : list (Z * list held)) : Z := match qs with (_, q) :: r => graced q + all_graced r | [] => 0 end.
Lemma graced_len : forall q, 0 <= graced q <= zlen q.
Proof. unfold graced. induction q as [ | e q IH ]; cbn [filter]; [ cbn; lia | ]. destruct (negb (h_grace e =? 0)); rewrite !zlen_cons; lia. Qed.
Lemma all_graced_len : forall qs, 0 <= all_graced qs <= count_entries qs.
Proof. induction qs as [ | (c, q) qs IH ]; cbn [all_graced count_entries]; [ lia | ]. pose proof (graced_len q). lia. Qed.
Lemma graced_taken : forall i q, graced q <= graced (map (fun y => if h_id y =? i then mk_held (h_id y) (h_msg y) ASD_GRACE else y) q).
Proof.
  unfold graced. induction q as [ | e q IH ]; cbn [map filter]; [ lia | ]. destruct (h_id e =? i).
  - cbn [h_grace]. change (negb (ASD_GRACE =? 0)) with true. cbv iota. rewrite zlen_cons. destruct (negb (h_grace e =? 0)); rewrite ?zlen_cons; lia.
  - destruct (negb (h_grace e =? 0)); rewrite ?zlen_cons; lia.
Qed.
Definition lookup (qs : list (Z * list held)) (c : Z) : list held := match find (fun p => fst p =? c) qs with Some p => snd p | None => [] end.
Lemma all_graced_set : forall qs c q, graced (lookup qs c) <= graced q -> all_graced qs <= all_graced (set_queue qs c q).
Proof.
  induction qs as [ | (d, y) qs IH ]; intros c q H; cbn [set_queue all_graced fst].
  - pose proof (graced_len q). lia.
  - unfold lookup in H. cbn [find fst] in H. destruct (d =? c); cbn [all_graced snd] in *; [ lia | ]. specialize (IH c q H). lia.
Qed.

Definition halted (s : system) : Prop := exists p rest, r_queues (s_receiver s) = p :: rest /\ 4500 <= all_graced rest.
Lemma halted_full : forall s, halted s -> possible (s_receiver s) = false.
Proof.
  intros s ((c, q) & rest & E & H). unfold possible. rewrite E. cbn [count_entries]. pose proof (all_graced_len rest). pose proof (graced_len q). change ASD_RELEASE_QUEUE_MAX with 4500. apply Z.ltb_ge. lia.
Qed.
Lemma maintain_rest : forall qs, maintain_queues qs 0 = (qs, 0).
Proof. induction qs as [ | (c, q) qs IH ]; cbn [maintain_queues]; [ reflexivity | ]. rewrite IH, update_grace_0. reflexivity. Qed.
Lemma step_halted : forall n s o s', wf n s -> (forall c, n c + tally o c < 2^32 - 1) -> no_restart o -> (forall c, inv_of s c) -> halted s -> step s o = Ok s' -> halted s'.
Proof.
  intros n s o s' W B NR I H E. pose proof (halted_full s H) as F.
  destruct o as [ c m | c now room | c k | c | c k accept | | c now | c | ]; cbn [step] in E; [ | | | | | | | destruct NR | destruct NR ].
  - destruct (queue_message (s_client s c) m) as [ (k', [ i | ]) | | ]; try discriminate; injection E as <-; exact H.
  - destruct (send_tasks now room (c_queue (s_client s c))) as [ ((q & ms) & cs) | | ]; try discriminate. injection E as <-. exact H.
  - destruct (nth_error (s_down s c) k) as [ app | ]; [ | injection E as <-; exact H ]. destruct (client_control (s_client s c) app). injection E as <-. exact H.
  - destruct (s_channel s c) as [ | (i, m) rest ]; [ injection E as <-; exact H | ]. rewrite F in E. injection E as <-. exact H.
  - destruct (nth_error (s_up s c) k) as [ app | ] eqn:NE; [ | injection E as <-; exact H ]. apply nth_error_In in NE.
    destruct (i_up _ _ _ _ _ _ _ (I c) app NE) as (i & -> & R & _). 
    assert (BA : zlen (s_accepted s c) < 2^32 - 1).
    { pose proof (wf_pos n s W c). specialize (B c). assert (0 <= tally (ToReceiver c k accept) c) by (cbn; lia). rewrite <- (i_pos _ _ _ _ _ _ _ (I c)). lia. }
    destruct (receiver_rack accept (s_receiver s) c i (wf_held n s W c) ltac:(lia)) as (r' & d & cs & RC & C). rewrite RC in E. injection E as <-.
    destruct C as [ (-> & _) | [ (-> & _) | (_ & e & TK & _) ] ]; [ exact H | exact H | ].
    destruct TK as (_ & J & _ & _ & ->). destruct H as (p & rest & Q & G). unfold halted. cbn [s_receiver r_queues]. rewrite Q. cbn [set_queue].
    unfold queue_of. rewrite Q. cbn [find]. destruct (fst p =? c); [ eauto | ]. eexists _, _. split; [ reflexivity | ].
    assert (X : all_graced rest <= all_graced (set_queue rest c (map (fun x => if h_id x =? h_id e then mk_held (h_id x) (h_msg x) ASD_GRACE else x) (lookup rest c)))) by (apply all_graced_set, graced_taken).
    unfold lookup in X. lia.
  - injection E as <-. destruct H as ((c, q) & rest & Q & G). unfold halted. cbn [s_receiver]. unfold maintain. rewrite Q. cbn [maintain_queues]. rewrite maintain_rest. cbn [r_queues]. eauto.
  - injection E as <-. exact H.
Qed.
Lemma run_halted : forall os n s s', wf n s -> (forall c, n c + queued c os < 2^32 - 1) -> Forall no_restart os -> (forall c, inv_of s c) -> halted s -> run s os = Ok s' -> halted s'.
Proof.
  induction os as [ | o os IH ]; intros n s s' W B NR I H E; cbn [run] in E.
  - injection E as <-. exact H.
  - assert (B1 : forall c, n c + tally o c < 2^32 - 1) by (intros c; specialize (B c); rewrite queued_cons in B; pose proof (queued_nonneg c os); lia).
    destruct (step_wf n s o W B1) as (s1 & E1 & W1). rewrite E1 in E. inversion NR; subst.
    apply (IH _ s1 s' W1); auto.
    + intros c. specialize (B c). rewrite queued_cons in B. lia.
    + exact (step_inv n s o s1 W B1 ltac:(assumption) I E1).
    + exact (step_halted n s o s1 W B1 ltac:(assumption) I H E1).
Qed.
Lemma queued_app : forall c a b, queued c (a ++ b) = queued c a + queued c b.
Proof. induction a as [ | o a IH ]; intros b; cbn [app]; [ cbn [queued]; lia | ]. rewrite !queued_cons, IH. lia. Qed.
Lemma run_app : forall a b s, run s (a ++ b) = match run s a with Ok s' => run s' b | Bug => Bug | Ub => Ub end.
Proof. induction a as [ | o a IH ]; intros b s; cbn [app run]; [ reflexivity | ]. destruct (step s o); [ apply IH | reflexivity | reflexivity ]. Qed.
Lemma queued_len : forall c os, queued c os <= zlen os.
Proof. induction os as [ | o os IH ]; [ cbn; lia | ]. rewrite queued_cons, zlen_cons. destruct o; cbn [tally]; try lia. destruct (_ =? _); lia. Qed.

(** ** A history with two clients *)

(** Client 1 sends a message twice, since the first acknowledgement is late, and is done before the
    second copy has arrived; then client 2 sends one message after the other. *)
Definition prologue : list op := [Queue 1 [7]; Tick 1 10 1; Data 1; Tick 1 4000011 1; ToClient 1 0; ToReceiver 1 0 true; ToClient 1 1; Maintain].
Definition round (k : nat) : list op :=
  [Queue 2 [2]; Tick 2 20 1; Data 2; ToClient 2 (2 * k); ToReceiver 2 k true; ToClient 2 (2 * k + 1); Maintain].
Fixpoint rounds (k : nat) : list op := match k with O => [] | S k' => rounds k' ++ round k' end.
Definition story (k : nat) : list op := prologue ++ rounds k.

Definition first_queue (k : nat) : list held := if 1499 <=? Z.of_nat k then [] else [mk_held 1 [7] (1499 - Z.of_nat k)].
Definition second_queue (k : nat) : list held := map (fun i => mk_held (Z.of_nat i) [2] 1500) (seq 1 k).
Definition second_up (k : nat) : list Z := map (fun i => ctl_join RACK (Z.of_nat i)) (seq 1 k).
Definition second_down (k : nat) : list Z := flat_map (fun i => [ctl_join DACK (Z.of_nat i); ctl_join CACK (Z.of_nat i)]) (seq 1 k).
Record at_round (k : nat) (s : system) : Prop := {
  a_client2 : s_client s 2 = mk_client [] (Z.of_nat k);
  a_channel2 : s_channel s 2 = [];
  a_up2 : s_up s 2 = second_up k;
  a_down2 : s_down s 2 = second_down k;
  a_queues : r_queues (s_receiver s) = [(1, first_queue k); (2, second_queue k)];
  a_started : r_started (s_receiver s) = 0;
  a_client1 : s_client s 1 = mk_client [] 1;
  a_channel1 : s_channel s 1 = [(1, [7])];
  a_up1 : s_up s 1 = [ctl_join RACK 1];
  a_down1 : s_down s 1 = [ctl_join DACK 1; ctl_join CACK 1];
  a_given1 : filter (fun x => fst x =? 1) (s_given s) = [(1, (1, [7]))];
  a_accepted1 : s_accepted s 1 = [[7]] }.

Lemma second_queue_S : forall k, second_queue (S k) = second_queue k ++ [mk_held (Z.of_nat (S k)) [2] 1500].
Proof. intros k. unfold second_queue. rewrite seq_S, map_app. reflexivity. Qed.
Lemma second_up_S : forall k, second_up (S k) = second_up k ++ [ctl_join RACK (Z.of_nat (S k))].
Proof. intros k. unfold second_up. rewrite seq_S, map_app. reflexivity. Qed.
Lemma second_down_S : forall k, second_down (S k) = (second_down k ++ [ctl_join DACK (Z.of_nat (S k))]) ++ [ctl_join CACK (Z.of_nat (S k))].
Proof. intros k. unfold second_down. rewrite seq_S, flat_map_app. cbn [flat_map app]. rewrite <- app_assoc. reflexivity. Qed.
Lemma second_up_len : forall k, length (second_up k) = k. Proof. intros k. unfold second_up. rewrite map_length, seq_length. reflexivity. Qed.
Lemma second_down_len : forall k, length (second_down k) = (2 * k)%nat.
Proof. induction k as [ | k IH ]; [ reflexivity | ]. rewrite second_down_S, !app_length, IH. cbn [length]. lia. Qed.
Lemma second_sorted : forall k, sorted held h_id (second_queue k) /\ forall e, In e (second_queue k) -> h_id e <= Z.of_nat k.
Proof.
  induction k as [ | k (IH1 & IH2) ]; [ split; [ apply sorted_nil | intros ? [] ] | ]. rewrite second_queue_S. split.
  - apply sorted_app. split; [ exact IH1 | split; [ apply sorted_cons; split; [ apply sorted_nil | intros ? [] ] | ] ].
    intros x y X [ <- | [] ]. specialize (IH2 x X). cbn [h_id]. lia.
  - intros e J. apply in_app_or in J. destruct J as [J|[<-|[]]]; [ specialize (IH2 e J); lia | cbn [h_id]; lia ].
Qed.
Lemma nth_last : forall A (l : list A) x n, length l = n -> nth_error (l ++ [x]) n = Some x.
Proof. intros A l x n <-. rewrite nth_error_app2, Nat.sub_diag by lia. reflexivity. Qed.
Lemma first_queue_S : forall k, update_grace (first_queue k) 1 = first_queue (S k).
Proof.
  intros k. unfold first_queue. destruct (Z.leb_spec 1499 (Z.of_nat k)); destruct (Z.leb_spec 1499 (Z.of_nat (S k))); try lia; [ reflexivity | | ]; cbn [update_grace h_grace h_id h_msg].
  - destruct (Z.ltb_spec 0 (1499 - Z.of_nat k)); [ | lia ]. destruct (Z.leb_spec (1499 - Z.of_nat k - 1) 0); [ reflexivity | lia ].
  - destruct (Z.ltb_spec 0 (1499 - Z.of_nat k)); [ | lia ]. destruct (Z.leb_spec (1499 - Z.of_nat k - 1) 0); [ lia | ]. f_equal. f_equal. lia.
Qed.
Lemma second_count : forall k, zlen (second_queue k) = Z.of_nat k.
Proof. intros k. unfold second_queue, zlen. rewrite map_length, seq_length. reflexivity. Qed.
Lemma first_count : forall k, 0 <= zlen (first_queue k) <= 1 /\ (1499 <= Z.of_nat k -> zlen (first_queue k) = 0).
Proof. intros k. unfold first_queue. destruct (Z.leb_spec 1499 (Z.of_nat k)); cbn; lia. Qed.
Lemma last_snoc : forall A (l : list A) x, last_entry A (l ++ [x]) = Some x.
Proof. induction l as [ | y l IH ]; intros x; [ reflexivity | ]. cbn [app last_entry]. destruct (l ++ [x]) eqn:E; [ destruct l; discriminate | ]. rewrite <- E. apply IH. Qed.

Lemma round_step : forall k s, at_round k s -> Z.of_nat k < 4500 -> zlen (first_queue k) + Z.of_nat k < 4500 ->
  exists s', run s (round k) = Ok s' /\ at_round (S k) s' /\ along ticking s (round k).
Proof.
  intros k s H K R. destruct H as [C2 CH2 U2 D2 RQ RS C1 CH1 U1 D1 G1 A1]. destruct s as [cl ch up down acc (qs & st) gv]. cbn [s_client s_channel s_up s_down s_accepted s_receiver s_given r_queues r_started] in *. subst qs st.
  set (n := Z.of_nat (S k)). assert (N : Z.of_nat k + 1 = n) by lia.
  assert (TK : forall cl ch up down acc qs st gv, st <= 1000 -> ticking (mk_system cl ch up down acc (mk_receiver qs st) gv)) by (intros; exact H).
  (* Queue *)
  assert (Q1 : queue_message (mk_client [] (Z.of_nat k)) [2] = Ok (mk_client [mk_sent n [2] 0 0] n, Some n)).
  { unfold queue_message. cbn [c_queue c_pos]. change (ASD_BUFFER_MAX <=? zlen (@nil sent)) with false. cbv iota zeta. rewrite N.
    assert (E : u32 n = n) by (unfold u32; apply Z.mod_small; lia). rewrite E. destruct (Z.eqb_spec n 0); [ lia | ]. reflexivity. }
  (* Data *)
  assert (S2 : sorted held h_id (second_queue k)) by apply second_sorted.
  assert (NI : forall e, In e (second_queue k) -> h_id e < n) by (intros e J; pose proof (proj2 (second_sorted k) e J); lia).
  assert (I1 : q_insert held h_id (second_queue k) (mk_held n [2] 0) = Some (second_queue k ++ [mk_held n [2] 0])).
  { unfold q_insert. cbn [h_id]. destruct (q_find held h_id (second_queue k) n) as [ e | ] eqn:F; [ apply q_find_some in F; destruct F as [F1 F2]; specialize (NI e F1); lia | ].
    unfold insert_ordered. pose proof (last_in held (second_queue k)) as LI. destruct (last_entry held (second_queue k)) as [ l | ]; [ | rewrite LI; reflexivity ].
    cbn [h_id]. destruct (Z.ltb_spec (h_id l) n); [ reflexivity | specialize (NI l LI); lia ]. }
  (* ToReceiver *)
  assert (F1 : forall g, q_find held h_id (second_queue k ++ [mk_held n [2] g]) n = Some (mk_held n [2] g)).
  { intros g. assert (SS : sorted held h_id (second_queue k ++ [mk_held n [2] g])).
    { apply sorted_app. split; [ exact S2 | split; [ apply sorted_cons; split; [ apply sorted_nil | intros ? [] ] | intros x y X [ <- | [] ]; apply NI, X ] ]. }
    destruct (q_find held h_id (second_queue k ++ [mk_held n [2] g]) n) as [ e | ] eqn:F.
    - apply q_find_some in F. destruct F as [F1 F2]. apply in_app_or in F1. destruct F1 as [F1|[<-|[]]]; [ specialize (NI e F1); lia | reflexivity ].
    - exfalso. apply (q_find_none held h_id _ n SS F (mk_held n [2] g)); [ apply in_or_app; right; left; reflexivity | reflexivity ]. }
  assert (CHG : change held h_id (fun e => mk_held (h_id e) (h_msg e) ASD_GRACE) (second_queue k ++ [mk_held n [2] 0]) n = second_queue (S k)).
  { rewrite second_queue_S. fold n. revert NI. generalize (second_queue k). induction l as [ | e l IH ]; intros NI; cbn [app change h_id h_msg].
    - rewrite Z.eqb_refl. reflexivity.
    - pose proof (NI e (or_introl eq_refl)). destruct (Z.eqb_spec (h_id e) n); [ lia | ]. f_equal. apply IH. intros x X. apply NI. right. exact X. }
  eexists. unfold round. cbn [run along step s_client s_channel s_up s_down s_accepted s_receiver s_given]. rewrite C2, Q1. cbn [run along step s_client s_channel s_up s_down s_accepted s_receiver s_given].
  rewrite !set_same. cbn [c_queue c_pos].
  replace (send_tasks 20 1 [mk_sent n [2] 0 0]) with (Ok ([mk_sent n [2] 1 20], [(n, [2])], @nil Z)) by reflexivity.
  cbn [run along step s_client s_channel s_up s_down s_accepted s_receiver s_given]. rewrite !set_same, CH2. cbn [app].
  unfold possible. cbn [r_queues count_entries]. rewrite second_count. change ASD_RELEASE_QUEUE_MAX with 4500.
  destruct (Z.ltb_spec (zlen (first_queue k) + (Z.of_nat k + 0)) 4500) as [_|]; [ | lia ].
  unfold receive_message. destruct (Z.ltb_spec (2^32 - 1) n); [ lia | ]. assert (U : u32 n = n) by (unfold u32; apply Z.mod_small; lia). rewrite U.
  unfold collect, queue_of. cbn [r_queues find fst snd]. change (1 =? 2) with false. change (2 =? 2) with true. cbv iota. cbn [snd]. rewrite I1. cbn [set_queue fst r_started]. change (1 =? 2) with false. change (2 =? 2) with true. cbv iota.
  cbn [run along step s_client s_channel s_up s_down s_accepted s_receiver s_given]. rewrite !set_same, D2.
  rewrite (nth_last _ _ (ctl_join DACK n) (2 * k) (second_down_len k)).
  unfold client_control. rewrite split_dack by lia. change (DACK =? DACK) with true. cbv iota. cbn [c_queue c_pos].
  assert (QC : forall f t, q_change sent t_id f [mk_sent n [2] 1 t] n = [f (mk_sent n [2] 1 t)]).
  { intros f t. unfold q_change, q_find, first_above, last_below. cbn [last_entry t_id find_loop change]. rewrite Z.ltb_irrefl. cbn [orb]. rewrite Z.eqb_refl. reflexivity. }
  rewrite QC. cbn [t_id t_msg t_flags t_time]. change (Z.lor 1 DACK) with 3.
  cbn [run along step s_client s_channel s_up s_down s_accepted s_receiver s_given]. rewrite !set_same, U2, app_nil_r.
  rewrite (nth_last _ _ (ctl_join RACK n) k (second_up_len k)).
  unfold receiver_control. rewrite split_rack by lia. change (RACK =? RACK) with true. cbv iota. unfold queue_of. cbn [r_queues find fst snd]. change (1 =? 2) with false. change (2 =? 2) with true. cbv iota. cbn [snd].
  rewrite F1. unfold deliver. cbn [h_grace]. change (negb (0 =? 0)) with false. cbv iota. cbn [r_queues r_started h_id]. unfold queue_of, q_change. cbn [r_queues find fst snd]. change (1 =? 2) with false. change (2 =? 2) with true. cbv iota. cbn [snd].
  rewrite F1, CHG. cbn [set_queue fst]. change (1 =? 2) with false. change (2 =? 2) with true. cbv iota. cbn [map app].
  cbn [run along step s_client s_channel s_up s_down s_accepted s_receiver s_given]. rewrite !set_same.
  rewrite (nth_last _ (second_down k ++ [ctl_join DACK n]) (ctl_join CACK n) (2 * k + 1)) by (rewrite app_length, second_down_len; cbn; lia).
  rewrite split_cack by lia. change (CACK =? DACK) with false. change (CACK =? CACK) with true. cbv iota. cbn [c_queue c_pos].
  assert (QR : forall f t, q_remove sent t_id [mk_sent n [2] f t] n = []).
  { intros f t. unfold q_remove, first_above, last_below. cbn [last_entry t_id remove_loop]. rewrite Z.ltb_irrefl. cbn [orb]. rewrite Z.eqb_refl. reflexivity. }
  rewrite QR. cbn [run along step s_client s_channel s_up s_down s_accepted s_receiver s_given].
  unfold maintain. cbn [r_queues r_started maintain_queues]. rewrite update_grace_0. change (0 + 1) with 1. rewrite first_queue_S. split; [ reflexivity | ]. split.
  - constructor; cbn [s_client s_channel s_up s_down s_accepted s_receiver s_given r_queues r_started h_msg]; rewrite ?set_same, ?app_nil_r; fold n; repeat (rewrite set_other by discriminate); auto.
    + rewrite second_up_S. reflexivity.
    + rewrite second_down_S. reflexivity.
  - repeat split; apply TK; lia.
Qed.
Lemma along_app : forall P a b s s', run s a = Ok s' -> along P s a -> along P s' b -> along P s (a ++ b).
Proof.
  induction a as [ | o a IH ]; intros b s s' E A B; cbn [run app along] in *.
  - injection E as ->. exact B.
  - destruct A as (A1 & A2). split; [ exact A1 | ]. destruct (step s o) as [ s1 | | ]; [ | exact Logic.I | exact Logic.I ]. exact (IH b s1 s' E A2 B).
Qed.
Lemma story_runs : forall k, Z.of_nat k < 4499 -> exists s, run start (story (S k)) = Ok s /\ at_round (S k) s /\ along ticking start (story (S k)).
Proof.
  induction k as [ | k IH ]; intros K.
  - eexists. split; [ vm_compute; reflexivity | ]. split.
    + constructor; try reflexivity.
    + vm_compute. repeat split; discriminate.
  - destruct (IH ltac:(lia)) as (s & E & A & T). destruct (round_step (S k) s A ltac:(lia)) as (s' & E' & A' & T').
    { pose proof (first_count (S k)) as (F1 & F2). destruct (Z_le_gt_dec 1499 (Z.of_nat (S k))) as [L|L]; [ specialize (F2 L); lia | lia ]. }
    change (story (S (S k))) with (prologue ++ rounds (S k) ++ round (S k)). rewrite app_assoc. fold (story (S k)). rewrite run_app, E. exists s'. split; [ exact E' | split; [ exact A' | ] ].
    exact (along_app ticking (story (S k)) (round (S k)) start s E T T').
Qed.
Lemma story_length : forall k, zlen (story k) = 8 + 7 * Z.of_nat k.
Proof.
  intros k. unfold story. rewrite zlen_app. change (zlen prologue) with 8. assert (H : zlen (rounds k) = 7 * Z.of_nat k); [ | lia ].
  induction k as [ | k IH ]; [ reflexivity | ]. cbn [rounds]. rewrite zlen_app, IH. change (zlen (round k)) with 7. lia.
Qed.
Lemma story_calm : forall k, Forall no_restart (story k).
Proof.
  intros k. unfold story. apply Forall_app. split; [ repeat constructor | ]. induction k as [ | k IH ]; [ constructor | ]. cbn [rounds]. apply Forall_app. split; [ exact IH | repeat constructor ].
Qed.
Lemma story_few : forall k, Z.of_nat k <= 5000 -> few (story k).
Proof. intros k K c. pose proof (queued_len c (story k)). rewrite story_length in H. lia. Qed.

(** The second copy arrives after 1500 messages of client 2 *)
Lemma doubled_lemma : exists os s m, few os /\ Forall no_restart os /\ along ticking start os /\ run start os = Ok s /\ accepted s 1 = [m] /\ delivered s 1 = [m; m].
Proof.
  assert (K : exists k, Z.of_nat k = 1499) by (exists (Z.to_nat 1499); lia). destruct K as (k & K). destruct (story_runs k ltac:(lia)) as (s & E & A & T).
  assert (FQ : first_queue (S k) = []) by (unfold first_queue; destruct (Z.leb_spec 1499 (Z.of_nat (S k))); [ reflexivity | lia ]).
  assert (CO : zlen (second_queue (S k)) = 1500) by (rewrite second_count; lia).
  destruct A as [C2 CH2 U2 D2 RQ RS C1 CH1 U1 D1 G1 A1]. destruct s as [cl ch up down acc (qs & st) gv]. cbn [s_client s_channel s_up s_down s_accepted s_receiver s_given r_queues r_started] in *. subst qs st. rewrite FQ in *.
  set (last := [Data 1; ToClient 1 2; ToReceiver 1 1 true]).
  assert (X : exists s', run (mk_system cl ch up down acc (mk_receiver [(1, []); (2, second_queue (S k))] 0) gv) last = Ok s' /\
    accepted s' 1 = [[7]] /\ delivered s' 1 = [[7]; [7]] /\ along ticking (mk_system cl ch up down acc (mk_receiver [(1, []); (2, second_queue (S k))] 0) gv) last).
  { assert (TK : forall cl ch up down acc qs st gv, st <= 1000 -> ticking (mk_system cl ch up down acc (mk_receiver qs st) gv)) by (intros; exact H).
    assert (P : possible (mk_receiver [(1, []); (2, second_queue (S k))] 0) = true).
    { unfold possible. cbn [r_queues count_entries]. rewrite CO. reflexivity. }
    eexists. unfold last. cbn [run along step s_client s_channel s_up s_down s_accepted s_receiver s_given]. rewrite CH1, P.
    change (receive_message (mk_receiver [(1, []); (2, second_queue (S k))] 0) 1 1 [7]) with (Ok (mk_receiver [(1, [mk_held 1 [7] 0]); (2, second_queue (S k))] 0, [ctl_join DACK 1])).
    cbn [run along step s_client s_channel s_up s_down s_accepted s_receiver s_given]. rewrite !set_same, D1.
    change (nth_error ([ctl_join DACK 1; ctl_join CACK 1] ++ [ctl_join DACK 1]) 2) with (Some (ctl_join DACK 1)). rewrite C1.
    change (client_control (mk_client [] 1) (ctl_join DACK 1)) with (mk_client [] 1, [ctl_join RACK 1]).
    cbn [run along step s_client s_channel s_up s_down s_accepted s_receiver s_given]. rewrite !set_same, U1.
    change (nth_error ([ctl_join RACK 1] ++ [ctl_join RACK 1]) 1) with (Some (ctl_join RACK 1)).
    change (receiver_control true (mk_receiver [(1, [mk_held 1 [7] 0]); (2, second_queue (S k))] 0) 1 (ctl_join RACK 1)) with
      (mk_receiver [(1, [mk_held 1 [7] 1500]); (2, second_queue (S k))] 1, [(1, [7] : message)], [ctl_join CACK 1]).
    cbn [run along step s_client s_channel s_up s_down s_accepted s_receiver s_given]. split; [ reflexivity | ].
    unfold accepted, delivered. cbn [s_accepted s_given]. rewrite A1. split; [ reflexivity | ]. split.
    - cbn [map app filter fst]. change (1 =? 1) with true. cbv iota. rewrite G1. reflexivity.
    - repeat split; apply TK; cbn [r_started]; lia. }
  destruct X as (s' & E' & A' & D' & T'). exists (story (S k) ++ last), s', [7].
  split; [ intros c; rewrite queued_app; pose proof (queued_len c (story (S k))) as L1; rewrite story_length in L1; assert (L2 : queued c last = 0) by reflexivity; lia | ].
  split; [ apply Forall_app; split; [ apply story_calm | repeat constructor ] | ]. split; [ eapply along_app; eauto | ]. split; [ rewrite run_app, E; exact E' | auto ].
Qed.
Lemma all_second_graced : forall k, graced (second_queue k) = Z.of_nat k.
Proof.
  intros k. rewrite <- second_count. unfold graced. f_equal. unfold second_queue. induction (seq 1 k) as [ | i l IH ]; [ reflexivity | ]. cbn [map filter h_grace]. change (negb (1500 =? 0)) with true. cbv iota. f_equal. exact IH.
Qed.
(** After 4500 messages of client 2 the receiver accepts nothing more *)
Lemma halted_lemma : exists os s, few os /\ Forall no_restart os /\ along ticking start os /\ run start os = Ok s /\ s_channel s 1 = [(1, [7])] /\
  forall os' s', few (os ++ os') -> Forall no_restart os' -> run s os' = Ok s' -> forall c, step s' (Data c) = Ok s'.
Proof.
  assert (K : exists k, Z.of_nat k = 4498) by (exists (Z.to_nat 4498); lia). destruct K as (k & K).
  destruct (story_runs k ltac:(lia)) as (s0 & E0 & A0 & T0). destruct (round_step (S k) s0 A0 ltac:(lia)) as (s & E1 & A & T1).
  { pose proof (first_count (S k)) as (_ & F2). specialize (F2 ltac:(lia)). lia. }
  assert (E : run start (story (S (S k))) = Ok s) by (change (story (S (S k))) with (prologue ++ rounds (S k) ++ round (S k)); rewrite app_assoc; fold (story (S k)); rewrite run_app, E0; exact E1).
  assert (T : along ticking start (story (S (S k)))) by (change (story (S (S k))) with (prologue ++ rounds (S k) ++ round (S k)); rewrite app_assoc; fold (story (S k)); eapply along_app; eauto).
  exists (story (S (S k))), s. assert (FW : few (story (S (S k)))) by (apply story_few; lia).
  split; [ exact FW | ]. split; [ apply story_calm | ]. split; [ exact T | ]. split; [ exact E | ]. split; [ apply A | ].
  intros os' s' FW' NR' E' c.
  assert (H : halted s).
  { exists (1, first_queue (S (S k))), [(2, second_queue (S (S k)))]. split; [ apply A | ]. cbn [all_graced]. rewrite all_second_graced. lia. }
  destruct (run_wf (story (S (S k))) (fun _ => 0) start wf_start (fun c => FW c)) as (s1 & E2 & W). rewrite E in E2. injection E2 as <-.
  pose proof (run_inv (story (S (S k))) (fun _ => 0) start s wf_start (fun c => FW c) (story_calm _) inv_start E) as I.
  assert (H' : halted s').
  { eapply (run_halted os' _ s s' W); auto. intros x. specialize (FW' x). rewrite queued_app in FW'. lia. }
  cbn [step]. destruct (s_channel s' c) as [ | (i, m) r ]; [ reflexivity | ]. rewrite (halted_full s' H'). reflexivity.
Qed.
