(** The message database. *)
From Coq Require Import ZArith List Bool Lia Permutation.
From Verif Require Import Common Utf8Model MsgModel MsgProofs MsgdbModel MsgdbSpec MsgdbFsProofs MsgdbProofs MsgdbMapProofs MsgdbIterProofs MsgdbIdxProofs.
Import ListNotations.
Open Scope Z_scope.

(** Digests and messages for the examples *)
Definition h0 (t : list Z) : list Z := map (fun x => x mod 256) (firstn 32 (t ++ repeat 0 32)).
Definition mk (type ts : Z) (topic data : list Z) : rrr_msg_msg :=
  mk_mm (mk_msg 0 (30 + zlen topic + zlen data) T_MESSAGE 0 0) ts (16 + type) 0 (zlen topic) (topic ++ data).
Definition put0 := mk 4.
Definition get0 (t : list Z) := mk 3 7 t [].
Definition del0 (t : list Z) := mk 5 7 t [].
Definition db0 : path := [[100; 98]].
Lemma h0_ok : forall ts, Forall (fun t => exists x, t = [x] /\ byte x) ts -> digest_ok h0 ts.
Proof.
  intros ts HT. split.
  - intros t. unfold h0. split.
    + apply Forall_forall. intros x X. apply in_map_iff in X as (y & <- & _). unfold byte. pose proof (Z.mod_pos_bound y 256). lia.
    + unfold zlen. rewrite map_length, firstn_length, app_length, repeat_length. lia.
  - intros t u A B E. rewrite Forall_forall in HT. destruct (HT t A) as (x & -> & X), (HT u B) as (y & -> & Y). unfold h0 in E. cbn in E. injection E as E. unfold byte in *.
    rewrite !Z.mod_small in E by lia. congruence.
Qed.
Lemma mk_ok : forall type ts t data, (type = 3 \/ type = 4 \/ type = 5) -> 0 <= ts < 2 ^ 64 -> bytes data -> zlen data < 100 -> In t [[97]; [98]; [99]] -> request_ok (mk type ts t data).
Proof.
  intros type ts t data HT HTS HB HL HI. pose proof (zlen_nonneg _ data).
  assert (E : zlen t = 1 /\ utf8_validate t = Some 0 /\ bytes t /\ ~ In 0 t) by (destruct HI as [<-|[<-|[<-|[]]]]; (split; [reflexivity|split; [reflexivity|split; [repeat constructor; unfold byte; lia|cbn; lia]]])).
  destruct E as (E1 & E2 & E3 & E4).
  assert (TP : MSG_TOPIC (mk type ts t data) = t) by (unfold MSG_TOPIC; cbn [mk mm_data mm_topic_length]; apply sub_here; auto).
  unfold request_ok, mm_ok. rewrite TP. cbn [mk mm_head msg_type msg_size msg_value mm_timestamp mm_type_and_class mm_version mm_topic_length mm_data].
  assert (BA : bytes (t ++ data)) by (apply bytes_app; auto). rewrite zlen_app, E1. unfold byte.
  assert (CL : MSG_CLASS_OK (mk type ts t data) = true /\ MSG_TYPE_OK (mk type ts t data) = true) by (unfold MSG_CLASS_OK, MSG_CLASS, MSG_TYPE_OK, MSG_TYPE; cbn [mk mm_type_and_class]; destruct HT as [->|[->| ->]]; split; reflexivity).
  destruct CL. repeat match goal with |- _ /\ _ => split end; auto; try lia; reflexivity.
Qed.
Ltac req := apply mk_ok; [auto|lia|repeat constructor; unfold byte; lia|reflexivity|cbn; auto].

(** ** C95: answers *)

(** Every answer of the database is that of a map from topics to messages: over any number of
    runs in the same directory, each with its own number of directory levels, each ended or
    killed at any system call.  The steps of [ran] say what may be lost by a kill. *)
Theorem msgdb_history : forall H dir home rs f, fresh f dir -> digest_ok H (topics rs) -> runs_ok rs ->
  exists d, history empty rs (run_all H dir home rs f) d.
Proof. exact history_ok. Qed.
(** A database moved from two levels to none, killed in the second PUT, and moved to one level *)
Definition ex_runs (life : option (nat * nat)) : list a_run :=
  [(2%nat, None, [put0 5 [97] [1; 2]; put0 6 [98] [3]; del0 [98]; get0 [97]; get0 [98]]);
   (0%nat, life, [put0 8 [98] [4; 5]; put0 9 [97] [6]; get0 [98]]); (1%nat, None, [get0 [97]; get0 [98]])].
Definition msg0 (ts : Z) (t data : list Z) : Z * list reply := (0, [RMsg (msg_msg_to_network (mk 1 ts t data))]).
Definition acked : Z * list reply := (0, [RAck]).
Definition nacked : Z * list reply := (0, [RNack]).
Example msgdb_history_ex :
  (fresh [] db0 /\ digest_ok h0 (topics (ex_runs (Some (10%nat, 20%nat)))) /\ runs_ok (ex_runs (Some (10%nat, 20%nat)))) /\
  run_all h0 db0 [] (ex_runs None) [] =
    [[acked; acked; acked; msg0 5 [97] [1; 2]; nacked]; [acked; acked; msg0 8 [98] [4; 5]]; [msg0 9 [97] [6]; msg0 8 [98] [4; 5]]] /\
  run_all h0 db0 [] (ex_runs (Some (8%nat, 0%nat))) [] =
    [[acked; acked; acked; msg0 5 [97] [1; 2]; nacked]; [acked]; [msg0 5 [97] [1; 2]; msg0 8 [98] [4; 5]]].
Proof.
  split; [|split; vm_compute; reflexivity]. split.
  - split; [constructor|]. split; [intros q Q; destruct q; [congruence|reflexivity]|]. right. split; reflexivity.
  - split; [apply h0_ok; repeat (constructor; [eexists; split; [reflexivity|unfold byte; lia]|]); constructor|].
    repeat (apply Forall_cons; [split; [cbn; lia|cbn [snd]; repeat (apply Forall_cons; [req|]); apply Forall_nil]|]). apply Forall_nil.
Qed.
Print Assumptions msgdb_history.

(** FINDING: with a directory given relative to where the server is started, every request goes
    one directory further down, and nothing which was put can be got. *)
Theorem msgdb_relative_refuted : exists s, server_start (mk_cfg false db0 0) [] [] None = Done 0 s /\
  fst (serve h0 (mk_cfg false db0 0) [put0 5 [97] [1; 2]; get0 [97]] s) = [acked; nacked].
Proof. eexists. split; [reflexivity|]. vm_compute. reflexivity. Qed.
Print Assumptions msgdb_relative_refuted.

(** FINDING: a message whose topic has the octet NUL is received (the topic is valid UTF-8) and
    put with success, but can never be got: its length is compared with that of the C string. *)
Theorem msgdb_nul_refuted : mm_ok (put0 5 [97; 0; 98] [1]) /\
  run_all h0 db0 [] [(0%nat, None, [put0 5 [97; 0; 98] [1]; mk 3 7 [97; 0; 98] []])] [] = [[acked; nacked]].
Proof.
  split; [|vm_compute; reflexivity]. unfold mm_ok. cbn. unfold byte, T_MESSAGE. repeat match goal with |- _ /\ _ => split end; try reflexivity; try lia; try (unfold MSG_CLASS_OK; reflexivity).
  repeat constructor; unfold byte; lia.
Qed.
Print Assumptions msgdb_nul_refuted.

(** ** C96: crashes *)

(** A server which is killed at any system call of any request: the others topics have what they
    had, that of the request has what it had, what it should get, or nothing. *)
Theorem msgdb_crash : forall H dir home rs levels life m f, fresh f dir -> digest_ok H (topics rs ++ [MSG_TOPIC m]) -> runs_ok rs ->
  (levels <= 4)%nat -> request_ok m ->
  exists d, history empty rs (run_all H dir home rs f) d /\
  exists d', (forall t, d' t = d t \/ t = MSG_TOPIC m /\ (d' t = None \/ d' t = Some m)) /\
  forall rs2, runs_ok rs2 -> incl (topics rs2) (topics rs ++ [MSG_TOPIC m]) ->
    exists d2, history d' rs2 (run_all H dir home rs2 (snd (run H (mk_cfg true dir levels) home life [m] (runs_fs H dir home rs f)))) d2.
Proof.
  intros H dir home rs levels life m f F D R HL HM. set (T := topics rs ++ [MSG_TOPIC m]) in *. destruct (fresh_good dir H T f F) as [G RP].
  destruct (all_runs_ok dir H T D rs home empty f R ltac:(apply incl_appl, incl_refl) G RP) as (d & HI & G1 & R1). exists d. split; auto.
  pose proof (run_ok dir H T D levels life [m] home d (runs_fs H dir home rs f) HL ltac:(repeat constructor; auto; apply HM)
    ltac:(constructor; [apply in_or_app; right; left; reflexivity|constructor]) G1 R1) as X.
  destruct (run H (mk_cfg true dir levels) home life [m] (runs_fs H dir home rs f)) as [a g]. destruct X as (G2 & (d' & RN & R2) & _).
  exists d'. split; [|intros rs2 HR2 HI2; destruct (all_runs_ok dir H T D rs2 home d' g HR2 HI2 G2 R2) as (d2 & Z & _); eauto].
  assert (AS : forall v t, v = None \/ v = Some m -> assign d (MSG_TOPIC m) v t = d t \/ t = MSG_TOPIC m /\ (assign d (MSG_TOPIC m) v t = None \/ assign d (MSG_TOPIC m) v t = Some m)).
  { intros v t V. unfold assign. destruct (list_eq_dec Z.eq_dec (MSG_TOPIC m) t) as [<-|]; auto. }
  intros t. inversion RN as [|d0 m0 ms a0 d1 RN2| |]; subst; auto.
  inversion RN2; subst. unfold effect. destruct (mm_topic_length m =? 0); auto. destruct (MSG_TYPE m =? 4); auto. destruct (MSG_TYPE m =? 5); auto.
Qed.
Example msgdb_crash_ex : map (fun n => nth 1 (run_all h0 db0 [] [(0%nat, None, [put0 8 [98] [4; 5]]); (1%nat, Some (n, 0%nat), [put0 9 [98] [6]]); (2%nat, None, [get0 [98]])] []) []) [0; 3; 6; 7; 20]%nat
  = [[]; []; []; [acked]; [acked]] /\
  map (fun n => nth 2 (run_all h0 db0 [] [(0%nat, None, [put0 8 [98] [4; 5]]); (1%nat, Some (n, 0%nat), [put0 9 [98] [6]]); (2%nat, None, [get0 [98]])] []) []) [0; 3; 6; 7; 20]%nat
  = [[msg0 8 [98] [4; 5]]; [msg0 8 [98] [4; 5]]; [nacked]; [msg0 9 [98] [6]]; [msg0 9 [98] [6]]].
Proof. split; vm_compute; reflexivity. Qed.
Print Assumptions msgdb_crash.

(** FINDING: PUT is not atomic. The file is truncated and then written: when the server is killed
    in between, the message the topic had is lost, and there is none. *)
Theorem msgdb_put_atomic_refuted : exists levels life,
  run_all h0 db0 [] [(levels, None, [put0 5 [97] [1; 2]; get0 [97]]); (levels, Some life, [put0 9 [97] [6]]); (levels, None, [get0 [97]])] [] =
  [[acked; msg0 5 [97] [1; 2]]; []; [nacked]].
Proof. exists 0%nat, (3%nat, 20%nat). vm_compute. reflexivity. Qed.
Print Assumptions msgdb_put_atomic_refuted.

(** ** C97: iterations *)

(** Partial: for an iteration which has the time to look at all files in one slice (see
    [msgdb_index_once_refuted] and [msgdb_index_ends_refuted] for others), without requests in
    between. Tidying removes the messages older than said, and no others. *)
Theorem msgdb_tidy_partial : forall H dir home T rs f, fresh f dir -> digest_ok H T -> runs_ok rs -> incl (topics rs) T ->
  exists d, history empty rs (run_all H dir home rs f) d /\
  forall levels life ms e s0 s age now budget, (levels <= 4)%nat -> Forall request_ok ms -> incl (map MSG_TOPIC ms) T ->
    server_start (mk_cfg true dir levels) home (runs_fs H dir home rs f) life = Done e s0 -> serve_to H (mk_cfg true dir levels) ms s0 = Some s ->
    (looks (s_fs s) dir (dir_index levels) <= budget)%nat ->
    match slice (mk_cfg true dir levels) Tidy age now (dir_index levels) budget s with
    | Done r s' => r = (0, [], [RAck]) /\
        forall ms2, Forall request_ok ms2 -> incl (map MSG_TOPIC ms2) T ->
          exists d2, ran (tidied now age (fold_left effect ms d)) ms2 (fst (serve H (mk_cfg true dir levels) ms2 s')) d2 /\
            (s_life s' = None -> length (fst (serve H (mk_cfg true dir levels) ms2 s')) = length ms2)
    | Killed g => exists d', part_tidied now age (fold_left effect ms d) d' /\
        forall rs2, runs_ok rs2 -> incl (topics rs2) T -> exists d2, history d' rs2 (run_all H dir home rs2 g) d2
    end.
Proof.
  intros H dir home T rs f F D R IN. destruct (iteration_history H dir home T rs f F D R IN) as (d & HI & X). exists d. split; auto.
  intros levels life ms e s0 s age now budget HL HM HT E0 E1 LK. specialize (X levels life ms e s0 s Tidy age now budget HL HM HT E0 E1 LK).
  destruct (slice (mk_cfg true dir levels) Tidy age now (dir_index levels) budget s) as [r s'|g].
  - destruct X as (out & -> & P & Y). apply Permutation_sym, Permutation_nil in P. subst out. split; auto.
  - destruct X as (d' & GO & Y). exists d'. split; auto. intros t. destruct (GO t) as [Z|(Z1 & _ & Z2)]; auto.
Qed.
(** Sends the messages older than said, each once, in some order. *)
Theorem msgdb_index_partial : forall H dir home T rs f, fresh f dir -> digest_ok H T -> runs_ok rs -> incl (topics rs) T ->
  exists d, history empty rs (run_all H dir home rs f) d /\
  forall levels life ms e s0 s age now budget, (levels <= 4)%nat -> Forall request_ok ms -> incl (map MSG_TOPIC ms) T ->
    server_start (mk_cfg true dir levels) home (runs_fs H dir home rs f) life = Done e s0 -> serve_to H (mk_cfg true dir levels) ms s0 = Some s ->
    (looks (s_fs s) dir (dir_index levels) <= budget)%nat ->
    match slice (mk_cfg true dir levels) Idx age now (dir_index levels) budget s with
    | Done r s' => exists out, r = (0, [], out ++ [RAck]) /\ Permutation out (index now age (fold_left effect ms d) (nodup (list_eq_dec Z.eq_dec) T)) /\
        forall ms2, Forall request_ok ms2 -> incl (map MSG_TOPIC ms2) T ->
          exists d2, ran (fold_left effect ms d) ms2 (fst (serve H (mk_cfg true dir levels) ms2 s')) d2 /\
            (s_life s' = None -> length (fst (serve H (mk_cfg true dir levels) ms2 s')) = length ms2)
    | Killed g => exists d', (forall t, d' t = fold_left effect ms d t) /\
        forall rs2, runs_ok rs2 -> incl (topics rs2) T -> exists d2, history d' rs2 (run_all H dir home rs2 g) d2
    end.
Proof.
  intros H dir home T rs f F D R IN. destruct (iteration_history H dir home T rs f F D R IN) as (d & HI & X). exists d. split; auto.
  intros levels life ms e s0 s age now budget HL HM HT E0 E1 LK. specialize (X levels life ms e s0 s Idx age now budget HL HM HT E0 E1 LK).
  destruct (slice (mk_cfg true dir levels) Idx age now (dir_index levels) budget s) as [r s'|g]; auto.
  destruct X as (d' & GO & Y). exists d'. split; auto. intros t. destruct (GO t) as [Z|(_ & Z & _)]; auto. discriminate.
Qed.
(** Four messages, one of them torn by a kill, in directories of one level; two are older than
    4 seconds. *)
Definition ex_old : list a_run := [(0%nat, None, [put0 1000000 [97] [1]; put0 2000000 [98] [2]]); (1%nat, Some (4%nat, 3%nat), [put0 3000000 [99] [3]])].
Definition ex_server : option st :=
  match server_start (mk_cfg true db0 1) [] (runs_fs h0 db0 [] ex_old []) None with
  | Done _ s => serve_to h0 (mk_cfg true db0 1) [put0 9000000 [98] [2]; put0 4000000 [100] [4]] s
  | Killed _ => None
  end.
Example msgdb_iteration_ex : exists s, ex_server = Some s /\ looks (s_fs s) db0 (dir_index 1) = 51%nat /\
  match slice (mk_cfg true db0 1) Idx 4 9000000 (dir_index 1) 51 s with
  | Done r s' => r = (0, [], snd (msg0 1000000 [97] [1]) ++ snd (msg0 4000000 [100] [4]) ++ [RAck]) /\
     match slice (mk_cfg true db0 1) Tidy 4 9000000 (dir_index 1) 51 s' with
     | Done r s2 => r = (0, [], [RAck]) /\ fst (serve h0 (mk_cfg true db0 1) [get0 [97]; get0 [98]; get0 [99]; get0 [100]] s2) = [nacked; msg0 9000000 [98] [2]; nacked; nacked]
     | Killed _ => False
     end
  | Killed _ => False
  end.
Proof. eexists. split; [vm_compute; reflexivity|]. vm_compute. repeat split. Qed.
Print Assumptions msgdb_tidy_partial.
Print Assumptions msgdb_index_partial.

(** FINDING: a directory for whose files the time of a slice (150 ms) is not enough is started
    over in the next slice: messages are sent more than once. *)
Theorem msgdb_index_once_refuted : exists e s0 s1 s2, server_start (mk_cfg true db0 0) [] [] None = Done e s0 /\
  serve_to h0 (mk_cfg true db0 0) [put0 1 [97] [1]; put0 2 [98] [2]] s0 = Some s1 /\
  iterate (mk_cfg true db0 0) Idx 1 [(9000000, 4%nat); (9000000, 100%nat)] (dir_index 0) s1 =
    Done (Some 0, snd (msg0 1 [97] [1]) ++ snd (msg0 2 [98] [2]) ++ snd (msg0 1 [97] [1]) ++ snd (msg0 2 [98] [2]) ++ [RAck]) s2.
Proof. do 4 eexists. split; [reflexivity|]. split; [vm_compute; reflexivity|]. vm_compute. reflexivity. Qed.
Print Assumptions msgdb_index_once_refuted.
(** FINDING: when every slice is too short, the iteration never ends, and the messages are sent
    again and again. *)
Theorem msgdb_index_ends_refuted : exists e s0 s1, server_start (mk_cfg true db0 0) [] [] None = Done e s0 /\
  serve_to h0 (mk_cfg true db0 0) [put0 1 [97] [1]; put0 2 [98] [2]] s0 = Some s1 /\
  forall n, exists s2, iterate (mk_cfg true db0 0) Idx 1 (repeat (9000000, 4%nat) n) (dir_index 0) s1 =
    Done (None, concat (repeat (snd (msg0 1 [97] [1]) ++ snd (msg0 2 [98] [2])) n)) s2.
Proof.
  set (both := snd (msg0 1 [97] [1]) ++ snd (msg0 2 [98] [2])).
  assert (X : forall s s', slice (mk_cfg true db0 0) Idx 1 9000000 (dir_index 0) 4 s = Done (INCOMPLETE, dir_index 0, both) s' ->
    slice (mk_cfg true db0 0) Idx 1 9000000 (dir_index 0) 4 s' = Done (INCOMPLETE, dir_index 0, both) s' ->
    forall n, exists s2, iterate (mk_cfg true db0 0) Idx 1 (repeat (9000000, 4%nat) n) (dir_index 0) s = Done (None, concat (repeat both n)) s2).
  { intros s s' E1 E2 n. revert s E1. induction n as [|n IH]; intros s E1; [eexists; reflexivity|].
    destruct (IH s' E2) as (s2 & E). exists s2. cbn [repeat iterate concat]. unfold bind at 1. rewrite E1. cbn [fst snd]. change (INCOMPLETE =? INCOMPLETE) with true. cbv iota.
    unfold bind. rewrite E. reflexivity. }
  do 3 eexists. split; [reflexivity|]. split; [vm_compute; reflexivity|].
  eapply X.
  - vm_compute. reflexivity.
  - vm_compute. reflexivity.
Qed.
Print Assumptions msgdb_index_ends_refuted.
