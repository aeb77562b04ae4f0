(** C31, C32: message slots and reference counts of message holders. *)
From Coq Require Import ZArith List Bool Lia.
From Verif Require Import Common SlotModel SlotSpec SlotProofs HolderModel HolderSpec HolderProofs.
Import ListNotations.
Open Scope Z_scope.

Definition start (n : nat) : slot := reader_count_set slot_new n.
Definition ok : answer := mk_answer 0 false.
Definition ex_ops : list op :=
  [OpWrite 10 true; OpWrite 11 true; OpRead 1 true ok; OpRead 1 true ok; OpWrite 11 true;
   OpRead 2 true (mk_answer 0 true); OpRead 2 true (mk_answer 1 false); OpRead 2 true ok;
   OpWrite 12 false; OpWrite 11 true; OpRead 2 true ok].

(** C31. With [n] readers registered, after any history of writes and reads: the messages
    a reader is done with are the messages stored, in order and once each, except that it
    may not be done yet with the last one, which is then still in the slot. *)
Theorem slot_each_once_in_order : forall n ops s ev, (0 < n)%nat -> Forall reader_ok ops -> SlotModel.run (start n) ops = Ok (s, ev) ->
  forall r, seen r ev ->
    wrote ev = done_by r ev \/ exists m, wrote ev = done_by r ev ++ [m] /\ sl_entry s = Some m.
Proof.
  intros n ops s ev Hn F R r S.
  destruct (run_inv n Hn ops _ _ _ _ (inv_init n Hn) F R) as (rs & L & N & Z0 & RR & FF & W & D & E & K & O & Sn & SW & SD & G). cbn [app] in *.
  destruct (in_dec Z.eq_dec r rs) as [ I | I ]; [ | destruct (proj2 (O r I) S) ].
  apply In_nth with (d := 0) in I as (i & Hi & <-). rewrite W, (D i Hi). unfold part, held.
  destruct (sl_entry s) as [ m | ]; [ | left; reflexivity ]. destruct (nth i (sl_has_read s) false); [ left; reflexivity | ].
  right. exists m. rewrite app_nil_r. auto.
Qed.
Print Assumptions slot_each_once_in_order.
Example slot_each_once_in_order_ex :
  Forall reader_ok ex_ops /\
  match SlotModel.run (start 2) ex_ops with
  | Ok (s, ev) => wrote ev = [10; 11] /\ done_by 1 ev = [10] /\ done_by 2 ev = [10; 11] /\ sl_entry s = Some 11 /\ seen 1 ev
  | _ => False end.
Proof.
  split; [ repeat constructor; discriminate | ]. vm_compute. repeat split. exists 10. vm_compute. auto.
Qed.

(** C31. Whatever is given to a reader is the message it is to have next: all the earlier
    ones it is done with, and nothing is given again after it is done. *)
Theorem slot_gives_next : forall n ops s ev before r m after, (0 < n)%nat -> Forall reader_ok ops -> SlotModel.run (start n) ops = Ok (s, ev) ->
  ev = before ++ Given r m :: after -> wrote before = done_by r before ++ [m].
Proof.
  intros n ops s ev before r m after Hn F R E.
  destruct (run_inv n Hn ops _ _ _ _ (inv_init n Hn) F R) as (rs & H). apply (proj2 (proj2 (proj2 (proj2 (proj2 (proj2 (proj2 (proj2 (proj2 (proj2 (proj2 (proj2 (proj2 H))))))))))))) in E.
  exact E.
Qed.
Print Assumptions slot_gives_next.
Example slot_gives_next_ex : exists s before after,
  SlotModel.run (start 2) ex_ops = Ok (s, before ++ Given 2 11 :: after) /\ done_by 2 before = [10] /\ wrote before = [10; 11].
Proof. eexists _, (firstn 9 (match SlotModel.run (start 2) ex_ops with Ok (_, e) => e | _ => [] end)), _. split; [ vm_compute; reflexivity | vm_compute; auto ]. Qed.

(** C31. A message is stored, replacing an earlier one, only after [n] readers are done
    with all messages stored before; and it is removed only then. *)
Theorem slot_no_overwrite : forall n ops s ev before m after, (0 < n)%nat -> Forall reader_ok ops -> SlotModel.run (start n) ops = Ok (s, ev) ->
  ev = before ++ Wrote m :: after \/ ev = before ++ Deleted m :: after ->
  wrote before = [] \/ exists rs, length rs = n /\ NoDup rs /\ forall r, In r rs -> done_by r before = wrote before.
Proof.
  intros n ops s ev before m after Hn F R E.
  destruct (run_inv n Hn ops _ _ _ _ (inv_init n Hn) F R) as (rs & H).
  assert (G : good n ev) by apply H. clear H. destruct E as [ E | E ]; apply G in E; cbn [event_ok] in E.
  - destruct E as [ E | (rs' & E1 & E2 & E3) ]; [ auto | ]. right. exists rs'. split; [ exact E1 | ]. split; [ exact E2 | ]. apply E3.
  - right. apply E.
Qed.
Print Assumptions slot_no_overwrite.
Example slot_no_overwrite_ex : exists s before after,
  SlotModel.run (start 2) ex_ops = Ok (s, before ++ Wrote 11 :: after) /\ wrote before = [10] /\ done_by 1 before = [10] /\ done_by 2 before = [10].
Proof. eexists _, (firstn 8 (match SlotModel.run (start 2) ex_ops with Ok (_, e) => e | _ => [] end)), _. split; [ vm_compute; reflexivity | vm_compute; auto ]. Qed.

(** C31. A reader which asks is given the message in the slot unless it is done with it. *)
Theorem slot_read_serves : forall n ops s ev self m a s' e, (0 < n)%nat -> Forall reader_ok ops -> SlotModel.run (start n) ops = Ok (s, ev) ->
  self <> 0 -> sl_entry s = Some m -> done_by self ev <> wrote ev ->
  SlotModel.step s (OpRead self true a) = Ok (s', e) -> In (Given self m) e.
Proof.
  intros n ops s ev self m a s' e Hn F R. 
  pose proof (run_inv n Hn ops _ _ _ _ (inv_init n Hn) F R) as I. cbn [app] in I. eapply read_gives; eauto.
Qed.
Print Assumptions slot_read_serves.
Example slot_read_serves_ex :
  match SlotModel.run (start 2) ex_ops with
  | Ok (s, ev) => sl_entry s = Some 11 /\ done_by 1 ev <> wrote ev /\ done_by 3 ev <> wrote ev /\
      match SlotModel.step s (OpRead 1 true ok) with Ok (_, e) => e = [Given 1 11; Done 1 11; Deleted 11] | _ => False end
  | _ => False end.
Proof. vm_compute. repeat split; discriminate. Qed.

(** C31. A writer which finds the slot empty stores its message. *)
Theorem slot_write_stores : forall s m, sl_entry s = None -> exists s', SlotModel.step s (OpWrite m true) = Ok (s', [Wrote m]) /\ sl_entry s' = Some m.
Proof. intros s m H. cbn [SlotModel.step]. unfold slot_write. rewrite H. eexists. split; reflexivity. Qed.
Print Assumptions slot_write_stores.
Example slot_write_stores_ex : sl_entry (start 3) = None.
Proof. reflexivity. Qed.

(** C31. The process is not aborted as long as there are no more readers than announced. *)
Theorem slot_never_aborts : forall n ops readers, (0 < n)%nat -> (length readers <= n)%nat -> ~ In 0 readers ->
  Forall (fun o => match o with OpRead self _ _ => In self readers | _ => True end) ops ->
  exists s ev, SlotModel.run (start n) ops = Ok (s, ev).
Proof.
  intros n ops readers Hn L Z0 F. apply (run_ok n Hn readers ops (start n) [] L Z0 (inv_init n Hn)); [ | exact F ].
  intros r Hr. left. apply repeat_spec in Hr. exact Hr.
Qed.
Print Assumptions slot_never_aborts.
(** With more readers it is. *)
Example slot_too_many_readers : SlotModel.run (start 1) [OpWrite 10 true; OpRead 1 true (mk_answer 0 true); OpRead 2 true ok] = Bug.
Proof. reflexivity. Qed.
Example slot_never_aborts_ex : Forall (fun o => match o with OpRead self _ _ => In self [1; 2] | _ => True end) ex_ops.
Proof. unfold ex_ops. repeat apply Forall_cons; try apply Forall_nil; cbn; auto. Qed.

(** C31. The statistics tell how many messages were stored and removed (64 bit). *)
Theorem slot_statistics : forall n ops s ev, Forall reader_ok ops -> SlotModel.run (start n) ops = Ok (s, ev) ->
  get_stats s = (u64 (zlen (deleted ev)), u64 (zlen (wrote ev))) /\ wrote ev = deleted ev ++ held s.
Proof.
  intros [ | n ] ops s ev F R.
  - destruct (run_inv0 ops (start 0) []) as (s' & ev' & R' & H).
    { unfold inv0, start, held. cbn. auto. }
    rewrite R in R'. injection R' as <- <-. cbn [app] in H. destruct H as (_ & W & D & SW & SD).
    unfold get_stats. rewrite SW, SD. split; [ reflexivity | congruence ].
  - assert (Hn : (0 < S n)%nat) by lia.
    destruct (run_inv (S n) Hn ops _ _ _ _ (inv_init (S n) Hn) F R) as (rs & L & N & Z0 & RR & FF & W & D & E & K & O & Sn & SW & SD & G). cbn [app] in *.
    unfold get_stats. rewrite SW, SD. auto.
Qed.
Print Assumptions slot_statistics.
Example slot_statistics_ex :
  match SlotModel.run (start 2) ex_ops with Ok (s, ev) => get_stats s = (1, 2) | _ => False end.
Proof. reflexivity. Qed.

(** C31. Without a reader count every message goes to exactly one reader. *)
Theorem slot_without_count : forall ops s ev, SlotModel.run slot_new ops = Ok (s, ev) ->
  wrote ev = done_any ev ++ held s.
Proof.
  intros ops s ev R. destruct (run_inv0 ops slot_new []) as (s' & ev' & R' & H).
  { unfold inv0, held. cbn. auto. }
  rewrite R in R'. injection R' as <- <-. apply H.
Qed.
Print Assumptions slot_without_count.
Example slot_without_count_ex :
  match SlotModel.run slot_new [OpWrite 5 true; OpRead 1 true ok; OpRead 2 true ok; OpWrite 6 true; OpWrite 7 true; OpRead 2 true ok; OpWrite 8 true] with
  | Ok (s, ev) => done_by 1 ev = [5] /\ done_by 2 ev = [6] /\ wrote ev = [5; 6; 8] /\ held s = [8] | _ => False end.
Proof. vm_compute. auto. Qed.

(** C31. The count reported for a slot is zero if it is empty, and otherwise one for the
    message and one for each of the [n] readers which is not done with it. *)
Theorem slot_count_exact : forall n ops s ev, (0 < n)%nat -> Forall reader_ok ops -> SlotModel.run (start n) ops = Ok (s, ev) ->
  (wrote ev = deleted ev -> slot_count s = 0) /\
  (forall m, wrote ev = deleted ev ++ [m] ->
     exists finished, NoDup finished /\ (forall r, In r finished <-> done_by r ev = wrote ev) /\
       slot_count s = 1 + Z.of_nat n - zlen finished).
Proof.
  intros n ops s ev Hn F R. eapply count_inv; [ exact Hn | ]. exact (run_inv n Hn ops _ _ _ _ (inv_init n Hn) F R).
Qed.
Print Assumptions slot_count_exact.
Example slot_count_exact_ex :
  match SlotModel.run (start 3) (OpWrite 10 true :: [OpRead 2 true ok]) with
  | Ok (s, ev) => wrote ev = deleted ev ++ [10] /\ done_by 2 ev = wrote ev /\ slot_count s = 3 | _ => False end.
Proof. vm_compute. auto. Qed.

(** C31. Setting the reader count loses nothing: a message in the slot stays there, is
    counted once for each reader and is given to any reader which asks. *)
Theorem slot_count_set_keeps : forall ops s ev n self a, SlotModel.run slot_new ops = Ok (s, ev) -> (0 < n)%nat -> self <> 0 ->
  held (reader_count_set s n) = held s /\ get_stats (reader_count_set s n) = get_stats s /\
  forall m, held s = [m] -> slot_count (reader_count_set s n) = 1 + Z.of_nat n /\
    exists s' e, SlotModel.step (reader_count_set s n) (OpRead self true a) = Ok (s', e) /\ In (Given self m) e.
Proof. intros ops s ev n self a _ Hn H0. apply count_set_keeps; assumption. Qed.
Print Assumptions slot_count_set_keeps.
Example slot_count_set_keeps_ex :
  match SlotModel.run slot_new [OpWrite 5 true; OpRead 1 true ok; OpWrite 6 true] with
  | Ok (s, ev) => held s = [6] /\ slot_count (reader_count_set s 4) = 5 | _ => False end.
Proof. vm_compute. auto. Qed.

(** C32. For every number of readers and threads and every schedule which follows the
    rules in HolderSpec.v: no thread touches a message holder which is freed. *)
Theorem slot_no_use_after_free_partial : forall readers threads ls,
  disciplined_run (initial readers threads) ls -> HolderModel.run (initial readers threads) ls <> Uaf.
Proof.
  intros readers threads ls D H. destruct (run_safe ls _ (init_inv readers threads) D) as [ J | (m & J & _) ]; congruence.
Qed.
Print Assumptions slot_no_use_after_free_partial.
Definition ex_sched : list (nat * label) :=
  [(0, LMake); (0, LLock 0); (1, LNew); (1, LCommit true); (0, LIncref 0); (2, LRead 7 true ok); (0, LIncref 0); (2, LRead 7 false ok);
   (0, LIncref2); (0, LUnlock 0); (2, LRead 7 false ok); (0, LRelease 0); (2, LCollect 2); (2, LColl); (2, LShift)]%nat.
Example slot_no_use_after_free_ex :
  disciplined_run (initial 1 3) ex_sched /\
  match HolderModel.run (initial 1 3) ex_sched with
  | Ok m => m_heap m 0 = None /\ m_heap m 1 = None /\ m_heap m 2 = Some (mk_holder 1 None 0) /\ sl_entry (m_slot m) = Some 2
  | _ => False end.
Proof.
  split; [ | vm_compute; auto ]. unfold ex_sched.
  repeat match goal with
  | |- disciplined_run _ [] => exact I
  | |- disciplined_run ?m (_ :: _) =>
      split; [ first [ exact I | eexists; split; vm_compute; reflexivity | intros ? E; vm_compute in E; injection E as <-; vm_compute; lia ] | ]
  | |- forall m', _ = Ok m' -> _ => intros ? E; vm_compute in E; injection E as <-
  end.
Qed.

(** C32. What is referred to by the slot or owned by a thread is not freed, and what
    nobody refers to is freed: nothing leaks. *)
Theorem slot_references_exact : forall readers threads ls m e,
  disciplined_run (initial readers threads) ls -> HolderModel.run (initial readers threads) ls = Ok m ->
  ((sl_entry (m_slot m) = Some e \/ exists th, In th (m_threads m) /\ In e (t_owned th)) -> exists h, m_heap m e = Some h /\ 1 <= h_refs h) /\
  (~ referred e m -> m_heap m e = None).
Proof.
  intros readers threads ls m e D H. destruct (run_safe ls _ (init_inv readers threads) D) as [ J | (m' & J & I) ]; [ congruence | ].
  assert (m' = m) by congruence. subst m'. split; [ apply referred_alive; exact I | apply not_referred; exact I ].
Qed.
Print Assumptions slot_references_exact.
Example slot_references_exact_ex :
  match HolderModel.run (initial 1 3) ex_sched with
  | Ok m => sl_entry (m_slot m) = Some 2 /\ map t_owned (m_threads m) = [[]; []; []] | _ => False end.
Proof. vm_compute. auto. Qed.

(** C32 findings.  The function which adds a reference does so after the slot is unlocked:
    if the caller does not hold the lock of the holder, a reader can free the holder
    first. *)
Theorem slot_write_incref_refuted : exists ls,
  Forall (fun x => match snd x with LColl => False | _ => True end) ls /\ HolderModel.run (initial 1 2) ls = Uaf.
Proof. exists [(0, LMake); (0, LIncref 0); (1, LRead 7 false ok); (0, LIncref2)]%nat. split; [ repeat constructor | reflexivity ]. Qed.
Print Assumptions slot_write_incref_refuted.

(** And writing a collection of two holders reads the link of the first one after it was
    given to the slot, where a reader can have freed it. *)
Theorem slot_write_collection_refuted : exists ls,
  Forall (fun x => match snd x with LIncref _ => False | _ => True end) ls /\ HolderModel.run (initial 1 2) ls = Uaf.
Proof.
  exists [(0, LMake); (0, LMake); (0, LCollect 0); (0, LCollect 1); (0, LColl); (1, LRead 7 false ok); (0, LShift)]%nat.
  split; [ repeat constructor | reflexivity ].
Qed.
Print Assumptions slot_write_collection_refuted.
