(** Proofs about the histories of the Modbus client. *)
From Coq Require Import ZArith List Bool Lia.
From Verif Require Import Common BusTypes BusSpec.
Import ListNotations.
Open Scope Z_scope.

Record sane (h : history) : Prop := mk_sane {
  s_sent : (h_sent h <= length (h_asked h))%nat;
  s_old : forall k, (k + 32 < length (h_asked h))%nat -> h_done h k = true;
  s_done : forall k, h_done h k = true -> (k < h_sent h)%nat }.
Lemma sane_new : sane history_new.
Proof. constructor; cbn; [ lia | intros; lia | discriminate ]. Qed.
Lemma sane_finished h k : sane h -> outstanding h k -> sane (finished h k).
Proof.
  intros S (KS & _). constructor; cbn [finished h_asked h_sent h_done].
  - apply S.
  - intros i L. destruct (Nat.eqb i k); [ reflexivity | now apply (s_old _ S) ].
  - intros i D. destruct (Nat.eqb_spec i k) as [ E | ]; [ rewrite E; exact KS | now apply (s_done _ S) ].
Qed.
Lemma sane_step h o x h' : step h o x h' -> sane h -> sane h'.
Proof.
  intros T S. destruct T; try exact S; try (now apply sane_finished).
  - constructor; cbn [h_asked h_sent h_done].
    + rewrite app_length. pose proof (s_sent _ S). cbn. lia.
    + rewrite app_length. cbn [length]. intros k K. destruct (Nat.eq_dec (k + 32) (length (h_asked h))) as [ E | E ]; [ auto | ]. apply (s_old _ S). lia.
    + apply (s_done _ S).
  - constructor; cbn [h_asked h_sent h_done].
    + assert (L : (h_sent h < length (h_asked h))%nat) by (apply nth_error_Some; unfold asked in H; congruence). lia.
    + apply (s_old _ S).
    + intros k D. apply (s_done _ S) in D. lia.
Qed.
Lemma sane_steps h os xs h' : steps h os xs h' -> sane h -> sane h'.
Proof. induction 1; [ auto | ]. eauto using sane_step. Qed.

Lemma ids_unique h i j : sane h -> outstanding h i -> outstanding h j -> id_of i = id_of j -> i = j.
Proof.
  intros S (IS & ID) (JS & JD) E. pose proof (s_sent _ S).
  assert (W : forall k, h_done h k = false -> (length (h_asked h) <= k + 32)%nat).
  { intros k D. destruct (Nat.lt_ge_cases (k + 32) (length (h_asked h))) as [ L | L ]; [ apply (s_old _ S) in L; congruence | exact L ]. }
  pose proof (W i ID). pose proof (W j JD). unfold id_of in E. lia.
Qed.

(** Requests stay what they are. *)
Lemma asked_step h o x h' : step h o x h' -> h_asked h' = h_asked h ++ taken1 o x.
Proof.
  intros T. destruct T; cbn [h_asked finished taken1]; rewrite ?app_nil_r; try reflexivity.
  destruct H1 as [ -> | (-> & _) ]; now rewrite app_nil_r.
Qed.
Lemma asked_steps h os xs h' : steps h os xs h' -> h_asked h' = h_asked h ++ taken os xs.
Proof.
  induction 1 as [ h | h o x h1 os xs h2 T _ IH ]; cbn [taken]; [ now rewrite app_nil_r | ]. rewrite IH, (asked_step _ _ _ _ T), app_assoc. reflexivity.
Qed.

Definition frames (h : history) (a n : nat) : list (list Z) := map (fun k => frame (id_of k) (pdu_of (request_of h k))) (seq a n).
Lemma sent_step h o x h' : step h o x h' -> (h_sent h <= h_sent h')%nat /\ sent1 x = frames h (h_sent h) (h_sent h' - h_sent h).
Proof.
  intros T. destruct T; cbn [h_sent finished sent1]; try (rewrite Nat.sub_diag; split; [ lia | reflexivity ]).
  replace (S (h_sent h) - h_sent h)%nat with 1%nat by lia. split; [ lia | ]. unfold frames. cbn [seq map]. unfold request_of. unfold asked in H. rewrite (nth_error_nth _ _ _ H). reflexivity.
Qed.
Lemma frames_more h h' t a n : h_asked h' = h_asked h ++ t -> (a + n <= length (h_asked h))%nat -> frames h' a n = frames h a n.
Proof.
  intros E L. unfold frames. apply map_ext_in. intros k K. apply in_seq in K. unfold request_of. rewrite E, app_nth1 by lia. reflexivity.
Qed.
Lemma sent_steps h os xs h' : steps h os xs h' -> sane h -> (h_sent h <= h_sent h')%nat /\ sent xs = frames h' (h_sent h) (h_sent h' - h_sent h).
Proof.
  induction 1 as [ h | h o x h1 os xs h2 T TS IH ]; intros S.
  - rewrite Nat.sub_diag. split; [ lia | reflexivity ].
  - pose proof (sane_step _ _ _ _ T S) as S1. destruct (IH S1) as (L & E). destruct (sent_step _ _ _ _ T) as (L1 & E1). split; [ lia | ].
    unfold sent. cbn [flat_map]. fold (sent xs). rewrite E, E1. replace (h_sent h2 - h_sent h)%nat with ((h_sent h1 - h_sent h) + (h_sent h2 - h_sent h1))%nat by lia.
    unfold frames at 3. rewrite seq_app, map_app. replace (h_sent h + (h_sent h1 - h_sent h))%nat with (h_sent h1) by lia. f_equal.
    fold (frames h2 (h_sent h) (h_sent h1 - h_sent h)). 
    rewrite (frames_more h1 h2 _ _ _ (asked_steps _ _ _ _ TS)) by (pose proof (s_sent _ S1); lia).
    symmetry. unfold frames. apply map_ext_in. intros k K. apply in_seq in K. unfold request_of.
    destruct T; cbn [h_sent h_asked finished] in *; try reflexivity; try lia.
Qed.

(** Requests are answered once. *)
Lemma answered_step h o x h' : step h o x h' ->
  answered1 x = [] /\ (forall k, h_done h k = true -> h_done h' k = true) \/
  exists k r data, answered1 x = [data] /\ outstanding h k /\ asked h k r data /\ h' = finished h k.
Proof.
  assert (GB : forall d, flat_map (fun c => match c with Answered _ _ _ data => [data] | Destroy _ => [] end) (given_back d) = []) by (intros d; unfold given_back; destruct (d =? 0); reflexivity).
  intros T. destruct T; try (left; split; [ reflexivity | now auto ]).
  - right. exists k, r, data. cbn [answered1 flat_map app]. rewrite GB. auto.
  - right. exists k, r, data. cbn [answered1 flat_map app]. rewrite GB. auto.
  - left. split; [ destruct H6 as [ -> | -> ]; cbn [answered1]; [ reflexivity | apply GB ] | ]. intros i D. cbn [finished h_done]. destruct (Nat.eqb i k); auto.
Qed.
Lemma answered_steps h os xs h' : steps h os xs h' ->
  exists ks, NoDup ks /\ Forall (fun k => h_done h k = false /\ (k < h_sent h')%nat) ks /\ Forall2 (fun k data => exists r, asked h' k r data) ks (answered xs) /\ (h_sent h <= h_sent h')%nat.
Proof.
  induction 1 as [ h | h o x h1 os xs h2 T TS (ks & ND & F & F2 & L) ].
  { exists []. repeat apply conj; constructor. }
  destruct (sent_step _ _ _ _ T) as (L1 & _). unfold answered. cbn [flat_map]. fold (answered xs).
  destruct (answered_step _ _ _ _ T) as [ (-> & M) | (k & r & data & -> & O & A & EF) ].
  - exists ks. split; [ exact ND | ]. split; [ | split; [ exact F2 | lia ] ]. eapply Forall_impl; [ | exact F ]. cbn. intros k (D & K). split; [ | exact K ]. destruct (h_done h k) eqn:E; [ apply M in E; congruence | reflexivity ].
  - exists (k :: ks). rewrite EF in F, TS, L. cbn [finished h_sent h_done] in *. split; [ constructor; [ | exact ND ] | ].
    + intros X. rewrite Forall_forall in F. destruct (F k X) as (D & _). rewrite Nat.eqb_refl in D. discriminate.
    + split; [ constructor | split; [ constructor | lia ] ].
      * destruct O as (KS & KD). split; [ exact KD | lia ].
      * eapply Forall_impl; [ | exact F ]. cbn. intros i (D & K). split; [ destruct (Nat.eqb i k); [ discriminate | exact D ] | exact K ].
      * exists r. unfold asked. rewrite (asked_steps _ _ _ _ TS). cbn [finished h_asked]. rewrite nth_error_app1; [ exact A | ]. apply nth_error_Some. unfold asked in A. congruence.
      * exact F2.
Qed.

(** What is received determines the unit, and the unit the answer. *)
Lemma framed_same octets id pdu id' pdu' : framed octets id pdu -> framed octets id' pdu' -> id = id' /\ pdu = pdu'.
Proof.
  intros (a & b & p1 & p0 & e & f & u & rest & -> & -> & L) (a' & b' & p1' & p0' & e' & f' & u' & rest' & E & -> & L').
  injection E as <- <- _ _ <- <- _ E. split; [ reflexivity | ]. assert (Q : zlen pdu = zlen pdu') by lia. unfold zlen in Q.
  apply (f_equal (firstn (length pdu))) in E. rewrite firstn_app, firstn_all, Nat.sub_diag in E. cbn [firstn] in E. rewrite app_nil_r in E.
  replace (length pdu) with (length pdu') in E by lia. rewrite firstn_app, firstn_all, Nat.sub_diag in E. cbn [firstn] in E. now rewrite app_nil_r in E.
Qed.
Lemma framed_finished octets id pdu : framed octets id pdu -> ~ unfinished octets.
Proof.
  intros (a & b & p1 & p0 & e & f & u & rest & -> & _ & L) [ X | (a' & b' & p1' & p0' & e' & f' & u' & rest' & E & X) ].
  - unfold zlen in X. rewrite !app_length in X. cbn [length] in X. lia.
  - injection E as <- <- <- <- <- <- <- <-. unfold zlen in *. rewrite app_length in X. lia.
Qed.
Lemma response_same r pdu a a' : response r pdu a -> response r pdu a' -> a = a'.
Proof.
  intros H H'. inversion H; subst; inversion H'; subst; try reflexivity; try (destruct r; cbn in *; congruence || lia).
Qed.
Lemma response_short r a : ~ response r [code_of r + 128] a.
Proof. intros H. inversion H. Qed.
Lemma response_nonempty r a : ~ response r [] a.
Proof. intros H. inversion H. Qed.
Lemma step_answer h octets before ret x h' k r data pdu a : sane h -> step h (Receive octets before ret) x h' -> outstanding h k -> asked h k r data -> framed octets (id_of k) pdu -> response r pdu a -> zlen pdu <= 252 ->
  x = Received ret (if ret =? 0 then 7 + zlen pdu else zlen octets) (Answered (code_of r) (id_of k) a data :: given_back data).
Proof.
  intros S T O A F R LP.
  assert (SAME : forall k' r' d' pdu', framed octets (id_of k') pdu' -> outstanding h k' -> asked h k' r' d' -> k' = k /\ r' = r /\ d' = data /\ pdu' = pdu).
  { intros k' r' d' pdu' F' O' A'. destruct (framed_same _ _ _ _ _ F F') as (EI & EP). assert (k = k') as <- by (apply (ids_unique h); assumption).
    unfold asked in *. rewrite A in A'. injection A' as -> ->. auto. }
  inversion T as [ | | | | ? ? ? UN | ? ? ? k' r' d' pdu' a' F' O' A' R' | ? ? ? k' r' d' e F' O' A' EE | ? ? ? k' r' d' pdu' calls F' O' A' NR | ? ? ? id pdu' F' NO | ? ? ? BAD NU ]; subst.
  - exfalso. exact (framed_finished _ _ _ F UN).
  - destruct (SAME _ _ _ _ F' O' A') as (-> & -> & -> & ->). rewrite (response_same _ _ _ _ R R'). reflexivity.
  - destruct (SAME _ _ _ _ F' O' A') as (_ & E & _ & EP). subst. exfalso. exact (response_short _ _ R).
  - destruct (SAME _ _ _ _ F' O' A') as (-> & -> & -> & ->). exfalso. exact (NR a R).
  - destruct (framed_same _ _ _ _ _ F F') as (EI & _). exfalso. exact (NO k O EI).
  - exfalso. destruct (BAD _ _ F) as [ -> | X ]; [ exact (response_nonempty _ _ R) | lia ].
Qed.
