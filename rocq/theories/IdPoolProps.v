(** Properties C19 and C20: MQTT packet identifiers. *)
From Coq Require Import ZArith List Bool Lia.
From Verif Require Import Common IdPoolModel IdPoolSpec IdPoolProofs.
Import ListNotations.
Open Scope Z_scope.

(** C19, C20. Every history of acquiring and releasing from an empty pool is
    correct at each step in the sense of [id_correct]: identifiers returned are
    non-zero, 16 bit and not in use; 0 ("none") is returned only when all 65535
    are in use; a release succeeds exactly for an identifier in use. *)
Theorem id_pool_correct : forall ops, Forall op_valid ops -> id_history pool_init [] ops.
Proof. intros ops H. apply history_ok; auto using abs_init. Qed.
Print Assumptions id_pool_correct.

(** The results of a history. *)
Fixpoint id_results (p : id_pool) (ops : list id_op) : list id_out :=
  match ops with
  | [] => []
  | o :: r => let '(p', out) := id_step p o in out :: id_results p' r
  end.
Example id_pool_ex :
  id_results pool_init [Get; Get; Release 1; Get; Release 2; Get; Release 7]
  = [Got 1; Got 2; Released; Got 3; Released; Got 4; Bug].
Proof. vm_compute. reflexivity. Qed.

(** C19. Stated on traces: between two returns of the same identifier it was
    released. *)
Theorem id_not_reused_before_release : forall ops1 ops2 id,
  Forall op_valid ops1 -> Forall op_valid ops2 -> id <> 0 ->
  forall p1 p2, fold_left (fun p o => fst (id_step p o)) ops1 pool_init = p1 ->
  snd (id_step p1 Get) = Got id ->
  fold_left (fun p o => fst (id_step p o)) ops2 (fst (id_step p1 Get)) = p2 ->
  snd (id_step p2 Get) = Got id ->
  In (Release id) ops2.
Proof.
  assert (RUN : forall ops p used, abs p used -> Forall op_valid ops ->
    exists used', abs (fold_left (fun p o => fst (id_step p o)) ops p) used' /\
      forall i, In i used -> ~ In (Release i) ops -> In i used').
  { induction ops as [|o ops IH]; intros p used HA HO; [ exists used; auto | ].
    inversion HO; subst. cbn [fold_left]. pose proof (abs_step p used o HA H1) as HS.
    destruct (id_step p o) as [p' out]. destruct HS as (u1 & HC & HA'). cbn [fst].
    destruct (IH p' u1 HA' H2) as (u2 & HA2 & HK). exists u2. split; [ auto | ].
    intros i Hi HN. apply HK; [ | intros HI; apply HN; right; auto ].
    inversion HC; subst; auto; [ right; auto | ].
    apply in_in_remove; auto. intros ->. apply HN. left. auto. }
  intros ops1 ops2 id HO1 HO2 Hnz p1 p2 E1 G1 E2 G2.
  destruct (RUN ops1 pool_init [] abs_init HO1) as (u1 & HA1 & _). rewrite E1 in HA1.
  pose proof (abs_step p1 u1 Get HA1 I) as HS. destruct (id_step p1 Get) as [q1 o1]. cbn [fst snd] in *. subst o1.
  destruct HS as (u2 & HC & HA2).
  assert (HI : In id u2) by (inversion HC; subst; [ left; auto | congruence ]).
  destruct (RUN ops2 q1 u2 HA2 HO2) as (u3 & HA3 & HK). rewrite E2 in HA3.
  pose proof (abs_step p2 u3 Get HA3 I) as HS. destruct (id_step p2 Get) as [q2 o2]. cbn [snd] in G2. subst o2.
  destruct HS as (u4 & HC2 & _).
  assert (HNI : ~ In id u3) by (inversion HC2; subst; [ auto | congruence ]).
  destruct (in_dec (fun a b : id_op => ltac:(decide equality; apply Z.eq_dec)) (Release id) ops2) as [|N]; [ auto | ].
  exfalso. apply HNI. apply HK; auto.
Qed.
Print Assumptions id_not_reused_before_release.

(** C20. Releasing an identifier makes the next acquire succeed, in every state
    reachable by a history. *)
Theorem id_available_after_release : forall ops id, Forall op_valid ops -> valid_id id ->
  forall p, fold_left (fun p o => fst (id_step p o)) ops pool_init = p ->
  forall p', id_step p (Release id) = (p', Released) ->
  exists id', valid_id id' /\ snd (id_step p' Get) = Got id'.
Proof.
  intros ops id HO Hid p E p' ER.
  assert (RUN : forall ops p used, abs p used -> Forall op_valid ops ->
    exists used', abs (fold_left (fun p o => fst (id_step p o)) ops p) used').
  { clear. induction ops as [|o ops IH]; intros p used HA HO; [ exists used; auto | ].
    inversion HO; subst. cbn [fold_left]. pose proof (abs_step p used o HA H1) as HS.
    destruct (id_step p o) as [p' out]. destruct HS as (u1 & HC & HA'). cbn [fst]. eauto. }
  destruct (RUN ops pool_init [] abs_init HO) as (u & HA). rewrite E in HA.
  pose proof (abs_step p u (Release id) HA Hid) as HS. rewrite ER in HS. destruct HS as (u' & HC & HA').
  inversion HC; subst. 
  pose proof (abs_step p' _ Get HA' I) as HS. destruct (id_step p' Get) as [p2 out]. destruct HS as (u2 & HC2 & _).
  inversion HC2; subst; cbn [snd]; [ eauto | ].
  exfalso. specialize (H id Hid). apply in_remove in H as [_ H]. congruence.
Qed.
Print Assumptions id_available_after_release.

Example id_available_ex :
  let p := fold_left (fun p o => fst (id_step p o)) [Get; Get; Get] pool_init in
  snd (id_step p (Release 2)) = Released /\ snd (id_step (fst (id_step p (Release 2))) Get) = Got 4.
Proof. vm_compute. auto. Qed.
