(** The properties of queues of data for sockets. *)
From Coq Require Import ZArith List Bool Lia Permutation.
From Verif Require Import Common ChkTypes ChkModel ChkSpec ChkProofs ChkOrder.
Import ListNotations.
Open Scope Z_scope.

(** C111, C112. Whatever the system takes at a time, no octet of any data is lost, repeated or out of
    order within the data, and data is given free once, while sending only when all of it has been
    written. *)
Theorem chunk_octets : forall os q xs, run queue_new os = (q, xs) -> Forall2 fine os xs ->
  (forall k data private, nth_error (pushed os) k = Some (data, private) ->
     exists rest, octets_of k (sending xs) ++ rest = data /\ (In k (gone (sending xs)) -> rest = [])) /\
  NoDup (gone (sending xs) ++ gone (clearing xs)) /\
  zlen (gone (sending xs)) + zlen (gone (clearing xs)) + count q = zlen (pushed os).
Proof.
  intros os q xs E F. pose proof (run_inv os [] [] [] queue_new q xs inv_new E F) as I. cbn [app] in I. split; [ | split ].
  - intros k data private H. assert (K : In k (gone (sending xs) ++ gone (clearing xs) ++ nos (all q))).
    { eapply Permutation_in; [ symmetry; apply (i_perm _ _ _ _ I) | ]. apply in_seq. split; [ lia | ]. apply nth_error_Some. congruence. }
    assert (G : In k (gone (sending xs)) -> octets_of k (sending xs) = data). { intros G. destruct (i_gone _ _ _ _ I k G) as (p & H'). congruence. }
    assert (W : exists rest, octets_of k (sending xs) ++ rest = data).
    { apply in_app_or in K. destruct K as [ K | K ]; [ exists []; rewrite app_nil_r; auto | ]. apply in_app_or in K. destruct K as [ K | K ].
      - destruct (i_drop _ _ _ _ I k K) as (d & p & rest & H1 & H2). exists rest. congruence.
      - apply in_map_iff in K. destruct K as (c & <- & J). destruct (i_wait _ _ _ _ I c J) as (H1 & H2). exists (rem c). rewrite H2. unfold rem. rewrite firstn_skipn. congruence. }
    destruct W as (rest & W). exists rest. split; [ exact W | ]. intros X. rewrite (G X) in W. pose proof (f_equal (@length Z) W) as L. rewrite app_length in L. destruct rest; [ reflexivity | cbn [length] in L; lia ].
  - pose proof (inv_nodup _ _ _ _ I) as ND. rewrite app_assoc in ND. now apply nodup_app_parts in ND.
  - pose proof (Permutation_length (i_perm _ _ _ _ I)) as L. rewrite !app_length, seq_length in L. unfold nos in L. rewrite map_length in L. unfold all in L. rewrite app_length in L. unfold count, zlen. lia.
Qed.
Print Assumptions chunk_octets.

Example chunk_octets_ex :
  let os := [Push false [1; 2; 3; 4] 100; Push true [9; 9] 200; Send [Takes 2; Takes 3; Again; Again]; Push false [5] 300; Send [Interrupted; Takes 1]; Clear] in
  exists q, run queue_new os = (q, [Pushed 1; Pushed 2; Sent 4 [Wrote 1 [9; 9]; Success 200; Freed 1 200; Wrote 0 [1; 2; 3]]; Pushed 2;
    Sent 4 [Wrote 0 [4]; Success 100; Freed 0 100]; Cleared [Freed 2 300]]) /\
  Forall2 fine os [Pushed 1; Pushed 2; Sent 4 [Wrote 1 [9; 9]; Success 200; Freed 1 200; Wrote 0 [1; 2; 3]]; Pushed 2; Sent 4 [Wrote 0 [4]; Success 100; Freed 0 100]; Cleared [Freed 2 300]].
Proof. eexists. split; [ vm_compute; reflexivity | repeat constructor; right; reflexivity ]. Qed.

(** C111. A queue without urgent data, as socket clients use it: the other side gets the data in the
    order it was put in the queue, the first [m] whole and then a part of the next; for those, and no
    others, there were success callbacks, in order, and they were given free. *)
Theorem chunk_order : forall os q xs, run queue_new os = (q, xs) -> Forall (fun o => normal_push o || is_send o = true) os -> Forall no_error xs ->
  exists m n, (m <= length (pushed os))%nat /\
    stream (sending xs) = concat (map fst (firstn m (pushed os))) ++ firstn n (nth m (map fst (pushed os)) []) /\
    successes (sending xs) = map snd (firstn m (pushed os)) /\ gone_private (sending xs) = map snd (firstn m (pushed os)) /\
    count q = Z.of_nat (length (pushed os) - m).
Proof.
  intros os q xs E N F. destruct (run_send os [] [] [] queue_new q xs 0 inv_new inv2_new eq_refl N E F) as (m & J & SG). cbn [app] in *.
  destruct (head_firstn _ _ _ (j_al _ _ _ _ J)) as (n & H). exists m, n. split; [ apply (j_m _ _ _ _ J) | ]. rewrite <- H. split; [ apply (j_stream _ _ _ _ J) | ]. rewrite SG. split; [ apply (j_gone _ _ _ _ J) | ]. split; [ apply (j_gone _ _ _ _ J) | apply (inv2_count _ _ _ _ J) ].
Qed.
Print Assumptions chunk_order.

Example chunk_order_ex :
  let os := [Push false [1; 2; 3; 4] 100; Push false [5; 6] 200; Send [Takes 2; Again; Takes 2; Takes 1]; Push false [7] 300; Send [Takes 9; Takes 9]] in
  exists q, run queue_new os = (q, [Pushed 1; Pushed 2; Sent 4 [Wrote 0 [1; 2]; Wrote 0 [3; 4]; Success 100; Freed 0 100; Wrote 1 [5]]; Pushed 2;
    Sent 0 [Wrote 1 [6]; Success 200; Freed 1 200; Wrote 2 [7]; Success 300; Freed 2 300]]) /\ count q = 0.
Proof. eexists. split; vm_compute; reflexivity. Qed.

(** C112. A queue of a network connection.  What is missing: it is assumed that nothing is urgent,
    and that the system takes no more octets at a time once it has taken a part of some data
    ([orderly]); the next two theorems show that both are needed. *)
Theorem chunk_callback_partial : forall os q xs, run queue_new os = (q, xs) -> Forall (fun o => normal_push o || is_write o = true) os -> Forall nonempty os -> Forall orderly xs ->
  exists m n, (m <= length (pushed os))%nat /\
    stream (sending xs) = concat (map fst (firstn m (pushed os))) ++ firstn n (nth m (map fst (pushed os)) []) /\
    gone_private (sending xs) = map snd (firstn m (pushed os)) /\ count q = Z.of_nat (length (pushed os) - m).
Proof.
  intros os q xs E N NE F. destruct (run_write os [] [] [] queue_new q xs 0 inv_new inv2_new (Forall_nil _) N NE E F) as (m & J). cbn [app] in *.
  destruct (head_firstn _ _ _ (j_al _ _ _ _ J)) as (n & H). exists m, n. split; [ apply (j_m _ _ _ _ J) | ]. rewrite <- H. split; [ apply (j_stream _ _ _ _ J) | ]. split; [ apply (j_gone _ _ _ _ J) | apply (inv2_count _ _ _ _ J) ].
Qed.
Print Assumptions chunk_callback_partial.

Example chunk_callback_ex :
  let os := [Push false [1; 2; 3; 4] 100; Push false [5; 6] 200; Write [(4, 0); (1, 4); (0, 4)]; Write [(9, 0)]] in
  exists q, run queue_new os = (q, [Pushed 1; Pushed 2; Sent 0 [Wrote 0 [1; 2; 3; 4]; Freed 0 100; Wrote 1 [5]]; Sent 0 [Wrote 1 [6]; Freed 1 200]]) /\
    orderly (Sent 0 [Wrote 0 [1; 2; 3; 4]; Freed 0 100; Wrote 1 [5]]).
Proof.
  eexists. split; [ vm_compute; reflexivity | ]. intros before k octets after E NG.
  destruct before as [ | e0 [ | e1 [ | e2 before ] ] ]; cbn [app] in E; try discriminate E.
  - injection E as <- <- <-. exfalso. apply NG. now left.
  - injection E as _ _ <- <- <-. reflexivity.
  - injection E as _ _ _ E. destruct before; discriminate E.
Qed.

(** FINDING: when a part of some data has been sent on a network connection and there is room for
    more just after, the next data is sent before the rest of it. *)
Theorem chunk_callback_refuted : exists os q xs, run queue_new os = (q, xs) /\ Forall (fun o => normal_push o || is_write o = true) os /\ Forall nonempty os /\
  pushed os = [([1; 2; 3; 4], 100); ([5; 6], 200)] /\ stream (sending xs) = [1; 2; 5; 6; 3; 4].
Proof.
  exists [Push false [1; 2; 3; 4] 100; Push false [5; 6] 200; Write [(2, 4); (2, 0)]; Write [(2, 0)]]. eexists. eexists. split; [ vm_compute; reflexivity | ].
  repeat apply conj; try (vm_compute; reflexivity); repeat constructor; discriminate.
Qed.
Print Assumptions chunk_callback_refuted.

(** FINDING: urgent data on a network connection (answers of MQTT) is sent in the middle of other
    data a part of which has been sent. *)
Theorem chunk_urgent_refuted : exists os q xs, run queue_new os = (q, xs) /\ Forall (fun o => is_push o || is_write o = true) os /\ Forall orderly xs /\
  pushed os = [([1; 2; 3; 4], 100); ([9; 9], 200)] /\ stream (sending xs) = [1; 2; 9; 9; 3; 4].
Proof.
  exists [Push false [1; 2; 3; 4] 100; Write [(2, 4)]; Push true [9; 9] 200; Write [(2, 0); (2, 0)]]. eexists. eexists. split; [ vm_compute; reflexivity | ].
  split; [ repeat constructor | ]. split; [ | split; vm_compute; reflexivity ]. constructor; [ exact I | ]. constructor; [ | constructor; [ exact I | constructor; [ | constructor ] ] ].
  - intros before k octets after E NG. destruct before as [ | e0 before ]; cbn [app] in E; [ injection E as <- <- <-; reflexivity | destruct before; discriminate E ].
  - intros before k octets after E NG. destruct before as [ | e0 [ | e1 [ | e2 [ | e3 before ] ] ] ]; cbn [app] in E; try discriminate E.
    + injection E as <- <- <-. exfalso. apply NG. now left.
    + injection E as _ _ <- <- <-. exfalso. apply NG. now left.
    + injection E as _ _ _ _ E. destruct before; discriminate E.
Qed.
Print Assumptions chunk_urgent_refuted.

(** FINDING: an error while urgent data is sent on a network connection is forgotten when there is
    other data. *)
Theorem chunk_error_lost_refuted : exists q, run queue_new [Push true [9; 9] 200; Push false [1] 100; Write [(0, 2); (1, 0)]] = (q, [Pushed 1; Pushed 2; Sent 0 [Wrote 1 [1]; Freed 1 100]]).
Proof. eexists. vm_compute. reflexivity. Qed.
Print Assumptions chunk_error_lost_refuted.
