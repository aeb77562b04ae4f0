(** A session with the highest number of subscriptions; filters made of letters. *)
From Coq Require Import ZArith List Bool Lia.
From Verif Require Import Common Utf8Model Utf8Spec TopicModel TopicSpec TopicProofs MqttBrokerModel MqttBrokerSpec MqttBrokerProofs MqttBrokerSubProofs MqttBrokerRunProofs.
From Verif Require MqttSpec MqttSendProofs.
Import ListNotations.
Open Scope Z_scope.

(** ** Plain filters and topics *)
Definition plainb (f : list Z) : bool := forallb (fun c => (1 <=? c) && (c <? 128) && negb (c =? 47) && negb (c =? 35) && negb (c =? 43)) f.
Lemma plain_filter : forall f, plainb f = true -> f <> [] -> zlen f <= 65535 -> filter_ok f.
Proof.
  intros f H N Z. assert (S : MqttSpec.string_legal f).
  { apply MqttSendProofs.ascii_legal; auto. unfold plainb in H. rewrite forallb_forall in *. intros c I. apply H in I. lia. }
  destruct S as (S1 & S2 & S3 & S4). unfold plainb in H. rewrite forallb_forall in H. unfold filter_ok. repeat (split; [auto; fail|]).
  assert (A : ~ In 47 f /\ ~ In 35 f /\ ~ In 43 f) by (repeat split; intros I; apply H in I; discriminate).
  repeat match goal with |- _ /\ _ => split; auto end. exists [f]. split; [split; [discriminate|]|].
  - repeat constructor; tauto.
  - split; [reflexivity|]. constructor; [split; tauto|constructor].
Qed.
Lemma plain_topic : forall f, plainb f = true -> f <> [] -> zlen f <= 65535 -> topic_ok f.
Proof.
  intros f H N Z. destruct (plain_filter f H N Z) as (A & B & C & D & _). repeat (split; auto); unfold plainb in H; rewrite forallb_forall in H; intros I; apply H in I; discriminate.
Qed.

(** ** Words *)
Fixpoint words (n : nat) : list (list Z) :=
  match n with
  | O => [[]]
  | S n => map (cons 97) (words n) ++ map (cons 98) (words n)
  end.
Lemma words_len : forall n, zlen (words n) = 2 ^ Z.of_nat n.
Proof.
  induction n as [|n IH]; [reflexivity|]. cbn [words]. rewrite zlen_app, !zlen_map, IH. rewrite Nat2Z.inj_succ, Z.pow_succ_r by lia. lia.
Qed.
Lemma words_in : forall n w, In w (words n) -> length w = n /\ plainb w = true.
Proof.
  induction n as [|n IH]; intros w; cbn [words].
  - intros [<-|[]]. auto.
  - rewrite in_app_iff, !in_map_iff. intros [(x & <- & I)|(x & <- & I)]; apply IH in I as [<- P]; cbn [length]; unfold plainb in *; cbn [forallb]; rewrite P; auto.
Qed.
Lemma NoDup_map_cons : forall (c : Z) l, NoDup l -> NoDup (map (cons c) l).
Proof.
  intros c l N. induction N as [|x l I N IH]; cbn [map]; constructor; auto. intros J. apply in_map_iff in J as (y & [= ->] & J). auto.
Qed.
Lemma words_nodup : forall n, NoDup (words n).
Proof.
  induction n as [|n IH]; [repeat constructor; auto|]. cbn [words].
  assert (G : forall a b : list (list Z), NoDup a -> NoDup b -> (forall x, In x a -> ~ In x b) -> NoDup (a ++ b)).
  { induction a as [|x a IHa]; intros b Na Nb D; auto. apply NoDup_cons_iff in Na as [Nx Na]. cbn [app]. constructor.
    - rewrite in_app_iff. intros [I|I]; auto. apply (D x); auto. left. auto.
    - apply IHa; auto. intros y Iy. apply D. right. auto. }
  apply G; auto using NoDup_map_cons. intros x I J. apply in_map_iff in I as (y & <- & I). apply in_map_iff in J as (z & J & _). discriminate.
Qed.

(** The packet asking for all words. *)
Definition word_subs (n : nat) : list sub := map (fun w => mkSub w 0 0 0 1) (words n).
Lemma word_subs_filters : forall n, map s_filter (word_subs n) = words n.
Proof. intros. unfold word_subs. rewrite map_map. apply map_id. Qed.
Lemma word_subs_ok : forall n, (0 < n < 100)%nat -> Forall sub_ok (word_subs n).
Proof.
  intros n N. apply Forall_forall. intros s I. unfold word_subs in I. apply in_map_iff in I as (w & <- & I). apply words_in in I as [L P].
  split; [|cbn; lia]. cbn [s_filter]. apply plain_filter; auto.
  - intros ->. cbn in L. lia.
  - unfold zlen. lia.
Qed.

Lemma fold_word : forall l f m, NoDup (map s_filter l) -> In f (map s_filter l) -> Forall (fun s => s_qos s = 1) l ->
  fold_left (req_step f) (map (fun s => Sub (s_filter s) (s_qos s)) l) m = Some 1.
Proof.
  intros l f m N I F. apply in_map_iff in I as (s & <- & I). apply in_split in I as (a & b & ->).
  rewrite map_app in *. cbn [map] in *. rewrite fold_left_app. cbn [fold_left req_step]. rewrite str_same_refl.
  rewrite Forall_app, Forall_cons_iff in F. destruct F as (_ & -> & _). apply NoDup_remove_2 in N. rewrite in_app_iff in N.
  assert (Nb : ~ In (s_filter s) (map s_filter b)) by tauto. clear - Nb. induction b as [|x b IH]; cbn [map fold_left]; auto.
  cbn [map In] in Nb. rewrite req_step_other by (cbn [about]; tauto). apply IH. tauto.
Qed.

(** After 65536 subscriptions there is no place for one more. *)
Lemma full_session_n : forall n, (0 < n <= 16)%nat -> exists t, append_unique [] (word_subs n) = Done (t, word_subs n) /\
  good_subs t /\ zlen t = 2 ^ Z.of_nat n /\ (forall f, In f (map s_filter t) -> In f (words n)).
Proof.
  intros n Hn.
  assert (Z : zlen (word_subs n) = 2 ^ Z.of_nat n) by (unfold word_subs; rewrite zlen_map, words_len; reflexivity).
  assert (Z6 : 2 ^ Z.of_nat n <= 65536) by (change 65536 with (2 ^ 16); apply Z.pow_le_mono_r; lia).
  assert (FE : filter (fun s => s_qos s <=? 2) (word_subs n) = word_subs n).
  { unfold word_subs. generalize (words n). induction l as [|w l IH]; auto. cbn [map filter s_qos]. change (1 <=? 2) with true. rewrite IH. reflexivity. }
  assert (FN : filter (fun s => (s_qos s <=? 2) && negb (inb (s_filter s) [])) (word_subs n) = word_subs n).
  { unfold word_subs. generalize (words n). induction l as [|w l IH]; auto. cbn [map filter s_qos]. change ((1 <=? 2) && negb (inb _ [])) with true. rewrite IH. reflexivity. }
  assert (Q1 : Forall (fun s => s_qos s = 1) (word_subs n)).
  { unfold word_subs. generalize (words n). induction l; cbn [map]; constructor; auto. }
  assert (ND : NoDup (map s_filter (word_subs n))) by (rewrite word_subs_filters; apply words_nodup).
  destruct (append_unique_spec (word_subs n) []) as (t & news & E & G & L & LK & NN & _).
  - split; constructor.
  - apply word_subs_ok. lia.
  - rewrite Z, zlen_nil. lia.
  - rewrite NN in E by auto. exists t. rewrite FN in E. split; auto. split; auto.
    rewrite FE in LK. split.
    + rewrite zlen_nil, Z in L. assert (I : incl (words n) (map s_filter t)).
      { intros f I. destruct (in_dec (list_eq_dec Z.eq_dec) f (map s_filter t)) as [J|J]; auto. apply slookup_none in J. rewrite LK in J.
        rewrite fold_word in J; auto; [discriminate|]. rewrite word_subs_filters. auto. }
      apply NoDup_incl_length in I; [|apply words_nodup]. rewrite map_length in I.
      pose proof (words_len n) as W. unfold zlen in *. lia.
    + intros f I. destruct (in_dec (list_eq_dec Z.eq_dec) f (words n)) as [J|J]; auto. exfalso.
      assert (X : slookup t f = None).
      { rewrite LK. rewrite <- word_subs_filters in J. clear - J. revert J. generalize (word_subs n). induction l as [|x l IH]; intros J; auto.
        cbn [map fold_left In] in *. rewrite req_step_other by (cbn [about]; tauto). apply IH. tauto. }
      apply slookup_none in X. tauto.
Qed.

Definition one_more : list Z := [99].
Lemma full_refused : forall t, good_subs t -> zlen t = 65536 -> ~ In one_more (map s_filter t) ->
  append_unique t [mkSub one_more 0 0 0 1] = Done (t, [mkSub one_more 0 0 0 1]).
Proof.
  intros t G Z N. cbn [append_unique s_qos]. change (2 <? 1) with false. cbv iota.
  replace (sub_new (mkSub one_more 0 0 0 1)) with (Done (mkSub one_more 0 0 0 1)) by (symmetry; vm_compute; reflexivity). cbn [obind].
  unfold add_unique. destruct t as [|x t]; [discriminate|]. set (l := x :: t) in *.
  destruct (replace_first l (mkSub one_more 0 0 0 1)) as [l' r] eqn:E. rewrite replace_first_none in E by exact N. injection E as <- <-.
  replace (subs_max <=? zlen l) with true by (unfold subs_max; lia). reflexivity.
Qed.

Lemma subscribe_one : forall s req t news now, append_unique (ss_subs s) req = Done (t, news) -> req <> [] ->
  bstep (mkB [s] []) (ESubscribe (ss_id s) req now) = Done (mkB [set_subs s t] [], mkA false (Some (map s_qos req)) []).
Proof.
  intros s req t news now E N. cbn [bstep]. unfold subscribe. cbn [b_sess get_session]. rewrite str_same_refl. destruct req as [|r0 req]; [congruence|].
  rewrite E. cbn [obind b_retain iterate_retain].
  replace (match news with [] => Done ([], []) | _ :: _ => Done ([], []) end) with (Done (@nil pub, @nil pub)) by (destruct news; reflexivity).
  cbn [obind fst snd with_session]. rewrite str_same_refl, app_nil_r. destruct s; reflexivity.
Qed.

Definition full_es (n : nat) : list bevent :=
  [EConnect [1] true 0 0 None 5; ESubscribe [1] (word_subs n) 6; ESubscribe [1] [mkSub one_more 0 0 0 1] 7].
Lemma full_n : forall n, n = 16%nat ->
  Forall event_ok (full_es n) /\
  exists b h s, brun start (full_es n) = Done (b, h) /\ In s (b_sess b) /\
    subscribed (requests (ss_id s) h) one_more 1 /\ ~ In one_more (map s_filter (ss_subs s)).
Proof.
  intros n Hn. destruct (full_session_n n ltac:(lia)) as (t & E & G & Z & I).
  assert (Z6 : zlen t = 65536) by (rewrite Z, Hn; reflexivity).
  assert (N : ~ In one_more (map s_filter t)). { intros J. apply I in J. apply words_in in J as [J _]. cbn in J. lia. }
  assert (W : word_subs n <> []).
  { intros X. assert (Y : zlen (word_subs n) = 2 ^ Z.of_nat n) by (unfold word_subs; rewrite zlen_map, words_len; reflexivity).
    rewrite X, Hn in Y. discriminate. }
  unfold full_es. split.
  { apply Forall_cons; [exact Logic.I|]. apply Forall_cons.
    - split; auto. split; [apply word_subs_ok; lia|]. rewrite word_subs_filters. apply words_nodup.
    - apply Forall_cons; [|constructor]. split; [discriminate|]. split.
      + apply Forall_cons; [|constructor]. split; [apply plain_filter; [reflexivity|discriminate|vm_compute; discriminate]|cbn; lia].
      + repeat constructor; auto. }
  clear Hn Z I.
  set (s1 := mkSess [1] [] [] [] [] [] None 0 5 0 0).
  assert (B1 : bstep start (EConnect [1] true 0 0 None 5) = Done (mkB [s1] [], mkA false None [])) by reflexivity.
  pose proof (subscribe_one s1 (word_subs n) t _ 6 E W) as B2.
  pose proof (subscribe_one (set_subs s1 t) [mkSub one_more 0 0 0 1] t _ 7 (full_refused t G Z6 N) ltac:(discriminate)) as B3.
  cbn [brun]. rewrite B1. cbn [obind fst snd]. change [1] with (ss_id s1) at 1. rewrite B2. cbn [obind fst snd].
  change [1] with (ss_id (set_subs s1 t)) at 1. rewrite B3. cbn [obind fst snd].
  eexists _, _, _. split; [reflexivity|]. split; [left; reflexivity|]. split; [|exact N].
  match goal with |- subscribed (requests _ [?a; ?b; ?c]) _ _ => change [a; b; c] with ([a; b] ++ [c]) end. rewrite requests_app. eexists _, []. split; [reflexivity|constructor].
Qed.
