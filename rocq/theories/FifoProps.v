(** What users rely on about FIFO buffers (C24, C25, C26). *)
From Coq Require Import ZArith List Bool Lia.
From Verif Require Import Common FifoModel FifoSpec FifoProofs.
Import ListNotations.
Open Scope Z_scope.

(** C24: for every history of uses and all callbacks, the linked entries behave as
    the list: same answers, same callbacks in the same order, same references
    taken and dropped, the same stops on misuse, never a touch of freed memory;
    afterwards following the pointers gives the list and the count is its length. *)
Theorem fifo_history_exact : forall S (us : list (use S)) fuel st,
  (all_writes us < fuel)%nat -> Z.of_nat (all_writes us) + 1 < 4294967296 -> replaces_ok us st [] ->
  match l_run us st [] with
  | Ok (st', l', os) => exists b', use_run fuel us st (fifo_init (fun _ => None) 1) = Ok (st', b', os) /\ contains fuel b' l'
  | Bug => use_run fuel us st (fifo_init (fun _ => None) 1) = Bug
  | Ub => False
  | Loop => use_run fuel us st (fifo_init (fun _ => None) 1) = Loop
  end.
Proof. exact history_ok. Qed.
Print Assumptions fifo_history_exact.

(** What can be seen of a run: state, answers with events, items and count. *)
Definition observe {S} (r : res (S * fifo * list (Z * list event))) : option (S * list (Z * list event) * option (list item) * Z) :=
  match r with
  | Ok (st, b, os) => Some (st, os, walk 20 (f_heap b) (f_first b), f_count b)
  | _ => None
  end.
Definition start : fifo := fifo_init (fun _ => None) 1.
Definition buffer_of {S} (r : res (S * fifo * list (Z * list event))) : fifo := match r with Ok (_, b, _) => b | _ => start end.

(** Two writes of two entries each (the second one ordered), a search taking out the
    entry with data 11, and draining with STOP at the first entry. *)
Definition demo : list (use Z) :=
  [ UWrite [mkW 1024 10 1 5; mkW 0 11 2 6];
    UWrite [mkW 5120 12 3 4; mkW 4096 13 4 9];
    USearch (fun s d _ => (s + 1, if d =? 11 then 48 else 0));
    UDrain (fun s d _ => (s, 8)) ].
Example fifo_history_case :
  (all_writes demo < 20)%nat /\ replaces_ok demo 0 [] /\
  observe (use_run 20 demo 0 start) =
    Some (4, [ (0, [Incref 10; Incref 11]); (0, [Incref 12; Incref 13]);
               (0, [Called 12 3; Called 10 1; Called 11 2; Decref 11; Called 13 4]);
               (0, [Called 12 3]) ],
          Some [mkI 10 1 5; mkI 13 4 9], 2).
Proof.
  split; [ cbn; lia | ]. split.
  - apply replaces_ok_none. intros u Hu. cbn in Hu. decompose [or] Hu; subst; try contradiction; exact I.
  - vm_compute. reflexivity.
Qed.

(** C24: entries appended leave in the order they came, each exactly once: whatever
    was taken out of the buffer followed by what is left is what was put in. *)
Theorem fifo_exactly_once : forall S (us : list (use S)) fuel st st' b' os,
  (all_writes us < fuel)%nat -> Z.of_nat (all_writes us) + 1 < 4294967296 ->
  (forall u, In u us -> write_or_drain u) ->
  use_run fuel us st (fifo_init (fun _ => None) 1) = Ok (st', b', os) ->
  exists left, contains fuel b' left /\
    map fst (handed (events os)) ++ map i_data left = referenced (events os).
Proof.
  intros S us fuel st st' b' os Hf HZ HU H.
  assert (HG : replaces_ok us st []) by (apply replaces_ok_none; intros u Hu; specialize (HU u Hu); destruct u; auto).
  pose proof (history_ok S us fuel st Hf HZ HG) as X.
  destruct (l_run us st []) as [[[st2 l2] os2] | | | ] eqn:E; try congruence; try contradiction.
  destruct X as (b2 & E2 & HC). rewrite E2 in H.
  assert (b2 = b' /\ os2 = os) as [-> ->] by (split; congruence).
  exists l2. split; auto. exact (flow_run S us st [] st2 l2 os HU E).
Qed.
Print Assumptions fifo_exactly_once.

Definition flow : list (use Z) :=
  [ UWrite [mkW 1024 10 1 0; mkW 0 11 2 0]; UDrain (fun s _ _ => (s, 8)); UWrite [mkW 0 12 2 0];
    UDrain (fun s d _ => (s, if d =? 12 then 8 else 0)); UWrite [mkW 0 13 2 0] ].
Example fifo_exactly_once_case :
  (forall u, In u flow -> write_or_drain u) /\
  observe (use_run 10 flow 0 start) =
    Some (0, [ (0, [Incref 10; Incref 11]); (0, [Called 10 1]); (0, [Incref 12]); (0, [Called 11 2; Called 12 2]); (0, [Incref 13]) ],
          Some [mkI 13 2 0], 1).
Proof.
  split; [ | vm_compute; reflexivity ].
  intros u Hu. cbn in Hu. decompose [or] Hu; subst; try contradiction; try exact I;
    intros w g Hw; cbn in Hw; decompose [or] Hw; subst; try contradiction; discriminate.
Qed.

(** C24: merging puts the entries of the source after those of the target and
    empties the source, or refuses if the count would not fit. *)
Theorem fifo_merge_concat : forall t s l1 l2, rep t l1 -> rep s l2 -> (forall a, f_heap t a = None \/ f_heap s a = None) ->
  zlen l1 < 4294967296 -> zlen l2 < 4294967296 ->
  if 4294967296 <=? zlen l1 + zlen l2
  then fifo_merge t s = Ok (1, t, s)
  else exists t' s', fifo_merge t s = Ok (0, t', s') /\ rep t' (l1 ++ l2) /\ rep s' [].
Proof. exact fifo_merge_ok. Qed.
Print Assumptions fifo_merge_concat.

(** [rep] is what a buffer with exactly these items fulfils: the pointers give the
    items, and every further history starting from it behaves as on the list. *)
Theorem fifo_rep_sound : forall b l, rep b l ->
  (forall fuel, (length l < fuel)%nat -> contains fuel b l) /\
  (forall S (us : list (use S)) fuel st,
    (length l + all_writes us < fuel)%nat -> zlen l + Z.of_nat (all_writes us) + 1 < 4294967296 -> replaces_ok us st l ->
    match l_run us st l with
    | Ok (st', l', os) => exists b', use_run fuel us st b = Ok (st', b', os) /\ rep b' l' /\ (length l' <= length l + all_writes us)%nat
    | Bug => use_run fuel us st b = Bug
    | Ub => False
    | Loop => use_run fuel us st b = Loop
    end).
Proof.
  intros b l H. split; [ intros; apply rep_contains; auto | intros; apply use_run_ok; auto ].
Qed.
Print Assumptions fifo_rep_sound.

Definition built (base : Z) (d : list Z) : fifo :=
  buffer_of (use_run 10 [UWrite (map (fun x => mkW 1024 x 1 0) d ++ [mkW 2048 0 0 0])] 0 (fifo_init (fun _ => None) base)).
Example fifo_merge_case :
  observe (bind (fifo_merge (built 1 [10; 11]) (built 100 [20; 21; 22])) (fun '(ret, t, s) => Ok (f_count s, t, [(ret, [])]))) =
    Some (0, [(0, [])], Some [mkI 10 1 0; mkI 11 1 0; mkI 20 1 0; mkI 21 1 0; mkI 22 1 0], 5) /\
  forallb (fun a => match f_heap (built 1 [10; 11]) a, f_heap (built 100 [20; 21; 22]) a with Some _, Some _ => false | _, _ => true end)
          (map Z.of_nat (seq 0 110)) = true.
Proof. split; vm_compute; reflexivity. Qed.

(** C24: a search shows the items of an initial part of the buffer, each once and
    in order; what it takes out is from that part, and the rest is as before. *)
Theorem fifo_search_in_order : forall S (cb : S -> Z -> Z -> S * Z) st b l fuel st' ret b' ev,
  rep b l -> (length l < fuel)%nat -> zlen l < 4294967296 ->
  fifo_search fuel cb st b = Ok (st', ret, b', ev) ->
  exists visited rest kept, l = visited ++ rest /\ handed ev = shown visited /\ thinned visited kept /\ rep b' (kept ++ rest).
Proof.
  intros S cb st b l fuel st' ret b' ev HR Hf HZ H.
  pose proof (fifo_search_ok S cb st b l fuel HR Hf HZ) as X.
  destruct (l_search cb st l) as [[[[s r] l2] e2] | | | ] eqn:E; try congruence; try contradiction.
  destruct X as (b2 & E2 & HB). rewrite E2 in H. assert (b2 = b' /\ e2 = ev) as [-> ->] by (split; congruence).
  apply l_search_shape in E as (p & q & k & -> & H1 & -> & H2). exists p, q, k. auto.
Qed.
Print Assumptions fifo_search_in_order.

Example fifo_search_in_order_case :
  observe (bind (fifo_search 10 (fun s d _ => (s + 1, if d =? 11 then 16 else if d =? 12 then 8 else 0)) 0 (built 1 [10; 11; 12; 13]))
                (fun '(st, ret, b, ev) => Ok (st, b, [(ret, ev)]))) =
  Some (3, [(0, [Called 10 1; Called 11 1; Called 12 1])], Some [mkI 10 1 0; mkI 12 1 0; mkI 13 1 0], 3).
Proof. vm_compute. reflexivity. Qed.

(** C25: as long as entries are written with an order, the buffer is sorted by it
    after every history. *)
Theorem fifo_stays_sorted : forall S (us : list (use S)) fuel st st' b' os,
  (all_writes us < fuel)%nat -> Z.of_nat (all_writes us) + 1 < 4294967296 ->
  (forall u, In u us -> keeps_order u) ->
  use_run fuel us st (fifo_init (fun _ => None) 1) = Ok (st', b', os) ->
  exists l, contains fuel b' l /\ sorted l.
Proof.
  intros S us fuel st st' b' os Hf HZ HU H.
  assert (HG : replaces_ok us st []) by (apply replaces_ok_none; intros u Hu; specialize (HU u Hu); destruct u; auto).
  pose proof (history_ok S us fuel st Hf HZ HG) as X.
  destruct (l_run us st []) as [[[st2 l2] os2] | | | ] eqn:E; try congruence; try contradiction.
  destruct X as (b2 & E2 & HC). rewrite E2 in H.
  assert (b2 = b') as -> by congruence.
  exists l2. split; auto. exact (sorted_run S us st [] st2 l2 os2 HU sorted_nil E).
Qed.
Print Assumptions fifo_stays_sorted.

Definition ordered : list (use Z) :=
  [ UWrite [mkW 5120 10 1 7; mkW 5120 11 1 3; mkW 4096 12 1 5]; UDrain (fun s _ _ => (s, 8)); UWrite [mkW 4096 13 1 6] ].
Example fifo_stays_sorted_case :
  (forall u, In u ordered -> keeps_order u) /\
  option_map (fun '(_, _, l, n) => (l, n)) (observe (use_run 10 ordered 0 start)) = Some (Some [mkI 12 1 5; mkI 13 1 6; mkI 10 1 7], 3).
Proof.
  split; [ | vm_compute; reflexivity ].
  intros u Hu. cbn in Hu. decompose [or] Hu; subst; try contradiction; try exact I;
    intros w Hw; cbn in Hw; decompose [or] Hw; subst; try contradiction; split; discriminate.
Qed.

(** C25: the place of an ordered write in a sorted buffer: after everything with a
    smaller order, before everything else - entries of equal order come out in the
    reverse of the sequence they were written in. *)
Theorem fifo_ordered_place : forall fuel b l w,
  rep b l -> sorted l -> (length l + 1 < fuel)%nat -> zlen l + 1 < 4294967296 -> w_ret w = 4096 -> w_data w <> 0 ->
  exists before after b', l = before ++ after /\
    (forall y, In y before -> i_order y < w_order w) /\ (forall y, In y after -> w_order w <= i_order y) /\
    fifo_write fuel [w] b = Ok (0, b', [Incref (w_data w)]) /\
    rep b' (before ++ mkI (w_data w) (w_size w) (w_order w) :: after).
Proof.
  intros fuel b l w HR HS Hf HZ Hw Hd.
  pose proof (fifo_write_ok [w] fuel b l HR Hf HZ) as X. cbn [l_write] in X. rewrite Hw in X.
  change (write_verdict 4096) with (WOrdered false) in X. cbn beta iota zeta in X.
  destruct (Z.eqb_spec (w_data w) 0); [ contradiction | ]. destruct X as (b' & E & HB).
  destruct (place_ordered_split (mkI (w_data w) (w_size w) (w_order w)) l HS) as (p & q & -> & HP & H1 & H2).
  exists p, q, b'. rewrite HP in HB. auto.
Qed.
Print Assumptions fifo_ordered_place.

Example fifo_ordered_place_case :
  option_map (fun '(_, _, l, n) => (l, n)) (observe (use_run 10 [UWrite [mkW 5120 10 1 3; mkW 5120 11 1 5; mkW 4096 12 1 3]] 0 start)) =
  Some (Some [mkI 12 1 3; mkI 10 1 3; mkI 11 1 5], 3).
Proof. vm_compute. reflexivity. Qed.

(** C26, full statement: for every buffer and all callbacks a search-and-replace
    does what [l_search_and_replace] says.  Proved if no entry is removed after one
    was replaced with none kept in between; otherwise it is false, see below. *)
Theorem fifo_replace_exact_partial : forall S (cb : S -> Z -> Z -> Z -> S * wanswer) st again script fuel b l,
  rep b l -> (length l + length script < fuel)%nat -> zlen l + zlen script + 1 < 4294967296 ->
  no_give_after_replace (answers cb st l) ->
  match l_search_and_replace cb st again script l with
  | Ok (ret, l', ev) => exists b', fifo_search_and_replace fuel cb st again script b = Ok (ret, b', ev) /\ rep b' l'
  | Bug => fifo_search_and_replace fuel cb st again script b = Bug
  | Ub => False
  | Loop => fifo_search_and_replace fuel cb st again script b = Loop
  end.
Proof. exact search_and_replace_ok. Qed.
Print Assumptions fifo_replace_exact_partial.

(** Replace the entry with data 12 by 30, remove 11, write another one afterwards. *)
Definition demo_cb (s d z o : Z) : Z * wanswer :=
  (s, if d =? 11 then mkW 48 0 0 0 else if d =? 12 then mkW 96 30 9 7 else mkW 0 d z o).
Example fifo_replace_exact_case :
  no_give_after_replace (answers demo_cb 0 [mkI 10 1 0; mkI 11 1 0; mkI 12 1 0; mkI 13 1 0]) /\
  observe (bind (fifo_search_and_replace 10 demo_cb 0 true [mkW 0 40 2 0] (built 1 [10; 11; 12; 13])) (fun '(ret, b, ev) => Ok (0, b, [(ret, ev)]))) =
    Some (0, [(0, [Called 10 1; Called 11 1; Decref 11; Called 12 1; Decref 12; Incref 30; Called 13 1; Incref 40])],
          Some [mkI 10 1 0; mkI 30 9 7; mkI 13 1 0; mkI 40 2 0], 4).
Proof.
  split; [ | vm_compute; reflexivity ].
  change (answers demo_cb 0 [mkI 10 1 0; mkI 11 1 0; mkI 12 1 0; mkI 13 1 0]) with [0; 48; 96; 0].
  intros before a between c after E HA HC.
  destruct before as [|x1 [|x2 [|x3 [|x4 before]]]]; cbn [app] in E; injection E; intros; subst; try discriminate HA.
  - destruct between as [|y between]; cbn [app] in *; [ injection H as <- <-; discriminate HC | ].
    destruct between; discriminate.
  - destruct before; discriminate.
Qed.

(** A buffer with three entries, built by writing them. *)
Definition three : fifo := buffer_of (use_run 10 [UWrite [mkW 1024 10 1 0; mkW 1024 11 1 0; mkW 0 12 1 0]] 0 start).
Lemma three_rep : rep three [mkI 10 1 0; mkI 11 1 0; mkI 12 1 0].
Proof.
  pose proof (use_run_ok Z [UWrite [mkW 1024 10 1 0; mkW 1024 11 1 0; mkW 0 12 1 0]] 10 0 start [] rep_init) as X.
  specialize (X ltac:(cbn; lia) ltac:(cbn; lia) ltac:(cbn; auto)). unfold three.
  remember (use_run 10 [UWrite [mkW 1024 10 1 0; mkW 1024 11 1 0; mkW 0 12 1 0]] 0 start) as r.
  change (exists b', r = Ok (0, b', [(0, [Incref 10; Incref 11; Incref 12])]) /\ rep b' [mkI 10 1 0; mkI 11 1 0; mkI 12 1 0] /\ (3 <= 3)%nat) in X.
  destruct X as (b & E & HR & _). rewrite E. exact HR.
Qed.

Lemma outcome_exists : forall (r : res (Z * fifo * list event)) (P : fifo -> Prop),
  match r with Ok (x, b, _) => x = 0 /\ P b | _ => False end -> exists b ev, r = Ok (0, b, ev) /\ P b.
Proof. intros [[[x b] ev] | | | ] P H; try contradiction. destruct H as [-> H]. eauto. Qed.

(** Finding: replacing an entry and removing the next one leaves a pointer to the
    freed entry in the buffer; the next read uses it. *)
Theorem fifo_replace_dangling_refuted : exists (cb : Z -> Z -> Z -> Z -> Z * wanswer) b,
  rep b [mkI 10 1 0; mkI 11 1 0; mkI 12 1 0] /\
  exists b' ev, fifo_search_and_replace 10 cb 0 false [] b = Ok (0, b', ev) /\
  fifo_read 10 (fun s _ _ => (s, 0)) 0 b' = Ub.
Proof.
  exists (fun s d z o => (s, if d =? 10 then mkW 96 30 1 0 else if d =? 11 then mkW 48 0 0 0 else mkW 0 d z o)), three.
  split; [ exact three_rep | ]. apply outcome_exists. vm_compute. split; reflexivity.
Qed.
Print Assumptions fifo_replace_dangling_refuted.

(** Finding: keeping the first, replacing the second and removing the third entry
    loses the second one as well, while it is still counted. *)
Theorem fifo_replace_loses_refuted : exists (cb : Z -> Z -> Z -> Z -> Z * wanswer) b,
  rep b [mkI 10 1 0; mkI 11 1 0; mkI 12 1 0] /\
  exists b' ev, fifo_search_and_replace 10 cb 0 false [] b = Ok (0, b', ev) /\
  (walk 10 (f_heap b') (f_first b') = Some [mkI 10 1 0] /\ f_count b' = 2).
Proof.
  exists (fun s d z o => (s, if d =? 11 then mkW 96 30 1 0 else if d =? 12 then mkW 48 0 0 0 else mkW 0 d z o)), three.
  split; [ exact three_rep | ].
  apply (outcome_exists _ (fun b' => walk 10 (f_heap b') (f_first b') = Some [mkI 10 1 0] /\ f_count b' = 2)).
  vm_compute. repeat split; reflexivity.
Qed.
Print Assumptions fifo_replace_loses_refuted.
