(** Proofs about the Modbus client: histories. *)
From Coq Require Import ZArith List Bool Lia.
From Verif Require Import Common BusTypes BusModel BusSpec BusProofs.
Import ListNotations.
Open Scope Z_scope.

(** * Places and numbers of requests *)
Lemma mod_other k n : (k < n)%nat -> (n < k + 32)%nat -> (k mod 32)%nat <> (n mod 32)%nat.
Proof. intros A B. pose proof (Nat.div_mod k 32 ltac:(lia)). pose proof (Nat.div_mod n 32 ltac:(lia)). lia. Qed.
Lemma mod_near a b n : (a < n)%nat -> (n <= a + 32)%nat -> (b < n)%nat -> (n <= b + 32)%nat -> a <> b -> (a mod 32)%nat <> (b mod 32)%nat.
Proof. intros. destruct (Nat.lt_ge_cases a b); [ apply mod_other; lia | ]. assert (X : (b mod 32)%nat <> (a mod 32)%nat) by (apply mod_other; lia). congruence. Qed.
Lemma mod_back k : ((k + 32) mod 32 = k mod 32)%nat.
Proof. replace (k + 32)%nat with (k + 1 * 32)%nat by lia. apply Nat.mod_add. lia. Qed.
Lemma place_number n i : (i < 32)%nat -> (n <= i)%nat \/ exists k, (k < n)%nat /\ (n <= k + 32)%nat /\ (k mod 32)%nat = i.
Proof.
  intros H. destruct (Nat.lt_ge_cases i n) as [ L | L ]; [ right | left; lia ]. exists (i + 32 * ((n - 1 - i) / 32))%nat.
  pose proof (Nat.div_mod (n - 1 - i) 32 ltac:(lia)) as DM. pose proof (Nat.mod_upper_bound (n - 1 - i) 32 ltac:(lia)). split; [ lia | ]. split; [ lia | ].
  rewrite Nat.mul_comm, Nat.mod_add by lia. apply Nat.mod_small. lia.
Qed.
Lemma wrap_mod n : wrap_pos (n mod 32) = (S n mod 32)%nat.
Proof.
  unfold wrap_pos, bus_max. pose proof (Nat.mod_upper_bound n 32 ltac:(lia)) as U. pose proof (Nat.div_mod n 32 ltac:(lia)) as D.
  destruct (Nat.eqb_spec (S (n mod 32)) 32) as [ E | E ].
  - replace (S n) with (0 + (S (n / 32)) * 32)%nat by lia. rewrite Nat.mod_add by lia. reflexivity.
  - replace (S n) with (S (n mod 32) + (n / 32) * 32)%nat by lia. rewrite Nat.mod_add by lia. symmetry. apply Nat.mod_small. lia.
Qed.
Lemma id_next n : u16 (id_of n + 1) = id_of (S n).
Proof. unfold u16, id_of. rewrite Nat2Z.inj_succ. unfold Z.succ. rewrite Z.add_mod_idemp_l by lia. reflexivity. Qed.
Lemma id_range k : 0 <= id_of k < 65536.
Proof. unfold id_of. apply Z.mod_pos_bound. lia. Qed.

Definition slot_ok (h : history) (k : nat) (o : option trans) : Prop :=
  match nth_error (h_asked h) k with
  | None => False
  | Some (r, p) => if h_done h k then o = None else exists tm, o = Some (mk_trans (id_of k) (pdu_of r) tm p) /\ (if (k <? h_sent h)%nat then 0 < tm else tm = 0)
  end.
Record inv (c : client) (h : history) : Prop := mk_inv {
  i_ok : Forall (fun x => request_ok (fst x)) (h_asked h);
  i_id : cl_id c = id_of (length (h_asked h));
  i_write : cl_write c = (length (h_asked h) mod 32)%nat;
  i_transmit : cl_transmit c = (h_sent h mod 32)%nat;
  i_len : length (cl_slots c) = 32%nat;
  i_sent : (h_sent h <= length (h_asked h))%nat;
  i_slot : forall k, (k < length (h_asked h))%nat -> (length (h_asked h) <= k + 32)%nat -> slot_ok h k (nth (k mod 32) (cl_slots c) None);
  i_free : forall j, (length (h_asked h) <= j < 32)%nat -> nth j (cl_slots c) None = None;
  i_old : forall k, (k + 32 < length (h_asked h))%nat -> h_done h k = true;
  i_done : forall k, h_done h k = true -> (k < h_sent h)%nat }.

Lemma inv_new : inv client_new history_new.
Proof.
  constructor; cbn; try reflexivity; try lia; try constructor; try discriminate.
  intros j _. do 32 (destruct j as [ | j ]; [ reflexivity | ]). destruct j; reflexivity.
Qed.

(** The place where the next request goes. *)
Lemma slot_next c h : inv c h ->
  (nth (cl_write c) (cl_slots c) None = None /\ forall k, (k + 32)%nat = length (h_asked h) -> h_done h k = true) \/
  (exists k t, (k + 32)%nat = length (h_asked h) /\ h_done h k = false /\ nth (cl_write c) (cl_slots c) None = Some t /\ (if (k <? h_sent h)%nat then 0 < tr_time t else tr_time t = 0)).
Proof.
  intros I. rewrite (i_write _ _ I). set (n := length (h_asked h)) in *. destruct (Nat.lt_ge_cases n 32) as [ L | L ].
  - left. rewrite Nat.mod_small by lia. split; [ apply (i_free _ _ I); fold n; lia | intros; lia ].
  - set (k := (n - 32)%nat). assert (EK : (k + 32)%nat = n) by (unfold k; lia). rewrite <- EK, mod_back.
    pose proof (i_slot _ _ I k ltac:(fold n; lia) ltac:(fold n; lia)) as S. unfold slot_ok in S. destruct (nth_error (h_asked h) k) as [ (r & p) | ]; [ | contradiction ].
    destruct (h_done h k) eqn:D.
    + left. split; [ exact S | ]. intros k' E. now replace k' with k by lia.
    + right. destruct S as (tm & S & T). exists k, (mk_trans (id_of k) (pdu_of r) tm p). auto.
Qed.

Lemma ask_ok c h r data now : inv c h -> request_ok r ->
  exists c' x h', bus_step c (Ask r data now) = Some (c', x) /\ step h (Ask r data now) x h' /\ inv c' h'.
Proof.
  intros I R. cbn [bus_step]. rewrite request_octets_ok by exact R. unfold req_push.
  set (n := length (h_asked h)). pose proof (Nat.mod_upper_bound n 32 ltac:(lia)) as UB. pose proof (i_sent _ _ I) as SN. fold n in SN.
  destruct (slot_next c h I) as [ (N & D) | (k & t & EK & D & N & T) ]; rewrite N.
  - eexists. eexists. eexists. split; [ reflexivity | ]. split; [ now constructor | ].
    assert (LA : length (h_asked h ++ [(r, data)]) = S n) by (rewrite app_length; cbn; unfold n; lia).
    constructor; cbn [h_asked h_sent h_done cl_id cl_write cl_transmit cl_slots]; rewrite ?LA.
    + apply Forall_app. split; [ apply (i_ok _ _ I) | ]. constructor; [ exact R | constructor ].
    + rewrite (i_id _ _ I). apply id_next.
    + rewrite (i_write _ _ I). apply wrap_mod.
    + apply (i_transmit _ _ I).
    + rewrite set_slot_length. apply (i_len _ _ I).
    + lia.
    + intros k K1 K2. rewrite (i_write _ _ I). fold n. destruct (Nat.eq_dec k n) as [ -> | NE ].
      * rewrite nth_set_same by (rewrite (i_len _ _ I); exact UB). unfold slot_ok. cbn [h_asked h_sent h_done]. rewrite nth_error_app2 by (fold n; lia). fold n. rewrite Nat.sub_diag. cbn [nth_error].
        destruct (h_done h n) eqn:DN; [ apply (i_done _ _ I) in DN; lia | ]. exists 0. rewrite (i_id _ _ I). fold n. split; [ reflexivity | ].
        destruct (Nat.ltb_spec n (h_sent h)); [ lia | reflexivity ].
      * rewrite nth_set_other by (apply mod_other; lia). pose proof (i_slot _ _ I k ltac:(fold n; lia) ltac:(fold n; lia)) as S. unfold slot_ok in *. cbn [h_asked h_sent h_done]. rewrite nth_error_app1 by (fold n; lia). exact S.
    + intros j J. rewrite (i_write _ _ I). fold n. rewrite nth_set_other; [ apply (i_free _ _ I); fold n; lia | ]. rewrite Nat.mod_small by lia. lia.
    + intros k K. destruct (Nat.eq_dec (k + 32) n) as [ E | E ]; [ now apply D | apply (i_old _ _ I); fold n; lia ].
    + apply (i_done _ _ I).
  - eexists. eexists. exists h. split; [ reflexivity | ]. split; [ | exact I ]. apply (S_full h r data now k); [ exact EK | exact D | ].
    destruct ((0 <? tr_time t) && (tr_time t <? u64 (now - bus_timeout))) eqn:E; [ right | now left ]. split; [ reflexivity | ].
    destruct (Nat.ltb_spec k (h_sent h)); [ assumption | ]. lia.
Qed.

Lemma sent_bound c h : inv c h -> (length (h_asked h) <= h_sent h + 32)%nat.
Proof.
  intros I. destruct (Nat.lt_ge_cases (h_sent h + 32) (length (h_asked h))) as [ L | L ]; [ | exact L ]. pose proof (i_old _ _ I _ L) as D. apply (i_done _ _ I) in D. lia.
Qed.

Lemma send_ok c h now : inv c h -> 0 < now ->
  exists c' x h', bus_step c (Send now) = Some (c', x) /\ step h (Send now) x h' /\ inv c' h'.
Proof.
  intros I NW. cbn [bus_step]. unfold client_write. set (n := length (h_asked h)). set (m := h_sent h). pose proof (sent_bound c h I) as SB. pose proof (i_sent _ _ I) as SN. fold n m in SB, SN.
  rewrite (i_transmit _ _ I). fold m. pose proof (Nat.mod_upper_bound m 32 ltac:(lia)) as UB.
  destruct (Nat.eq_dec m n) as [ E | NE ].
  - (* nothing to send *)
    assert (H : match nth (m mod 32) (cl_slots c) None with None => True | Some t => 0 < tr_time t end).
    { destruct (slot_next c h I) as [ (N & _) | (k & t & EK & D & N & T) ]; rewrite (i_write _ _ I) in N; fold n in N; rewrite <- E in N; rewrite N; [ exact Logic.I | ].
      destruct (Nat.ltb_spec k (h_sent h)); [ exact T | fold m in H; lia ]. }
    exists c, (Sent 8 []), h. split; [ | split; [ now constructor | exact I ] ].
    destruct (nth (m mod 32) (cl_slots c) None) as [ t | ]; [ | reflexivity ]. replace (tr_time t =? 0) with false by lia. rewrite orb_true_r. reflexivity.
  - pose proof (i_slot _ _ I m ltac:(fold n; lia) ltac:(fold n; lia)) as SL. unfold slot_ok in SL. destruct (nth_error (h_asked h) m) as [ (r & p) | ] eqn:A; [ | contradiction ].
    assert (D : h_done h m = false) by (destruct (h_done h m) eqn:D; [ apply (i_done _ _ I) in D; fold m in D; lia | reflexivity ]). rewrite D in SL. destruct SL as (tm & SL & T).
    fold m in T. rewrite Nat.ltb_irrefl in T. subst tm. rewrite SL. cbn [tr_req tr_time tr_id tr_data].
    assert (RO : request_ok r) by (pose proof (i_ok _ _ I) as F; rewrite Forall_forall in F; apply (F (r, p)); eapply nth_error_In; exact A).
    pose proof (pdu_len r RO) as PL. replace (zlen (pdu_of r) =? 0) with false by lia. cbn [orb negb Z.eqb].
    replace ((zlen (pdu_of r) + 1 <=? 65535) && (1 <? zlen (pdu_of r) + 1)) with true by lia. cbn [negb].
    eexists. eexists. eexists. split; [ reflexivity | ]. split.
    { rewrite !put16_word by (first [ apply id_range | lia ]). change (word16 0) with [0; 0]. apply (S_send h now r p). exact A. }
    constructor; cbn [h_asked h_sent h_done cl_id cl_write cl_transmit cl_slots]; fold n m.
    + apply (i_ok _ _ I).
    + apply (i_id _ _ I).
    + apply (i_write _ _ I).
    + apply wrap_mod.
    + rewrite set_slot_length. apply (i_len _ _ I).
    + lia.
    + intros k K1 K2. unfold slot_ok. cbn [h_asked h_sent h_done]. destruct (Nat.eq_dec k m) as [ -> | KM ].
      * rewrite nth_set_same by (rewrite (i_len _ _ I); exact UB). rewrite A, D. exists now. split; [ reflexivity | ]. now replace (m <? S m)%nat with true by (symmetry; apply Nat.ltb_lt; lia).
      * rewrite nth_set_other by (apply (mod_near k m n); lia). pose proof (i_slot _ _ I k K1 K2) as SK. unfold slot_ok in SK. fold m in SK. destruct (nth_error (h_asked h) k) as [ (r' & p') | ]; [ | exact SK ].
        destruct (h_done h k); [ exact SK | ]. destruct SK as (tm & SK & TK). exists tm. split; [ exact SK | ].
        destruct (Nat.ltb_spec k m), (Nat.ltb_spec k (S m)); try lia; assumption.
    + intros j J. rewrite nth_set_other; [ apply (i_free _ _ I); fold n; lia | ]. rewrite Nat.mod_small by lia. lia.
    + apply (i_old _ _ I).
    + intros k K. apply (i_done _ _ I) in K. fold m in K. lia.
Qed.

Lemma finish_inv c h k : inv c h -> outstanding h k -> inv (mk_client (cl_id c) (set_slot (cl_slots c) (k mod 32) None) (cl_write c) (cl_transmit c)) (finished h k).
Proof.
  intros I (KS & KD). pose proof (i_sent _ _ I) as SN. set (n := length (h_asked h)) in *. pose proof (Nat.mod_upper_bound k 32 ltac:(lia)) as UB.
  assert (KN : (n <= k + 32)%nat). { destruct (Nat.lt_ge_cases (k + 32) n) as [ L | L ]; [ | exact L ]. apply (i_old _ _ I) in L. congruence. }
  constructor; cbn [finished h_asked h_sent h_done cl_id cl_write cl_transmit cl_slots]; fold n; try apply I.
  - rewrite set_slot_length. apply (i_len _ _ I).
  - intros i K1 K2. unfold slot_ok. cbn [finished h_asked h_sent h_done]. pose proof (i_slot _ _ I i K1 K2) as SI. unfold slot_ok in SI. destruct (Nat.eq_dec i k) as [ -> | NE ].
    + rewrite Nat.eqb_refl. destruct (nth_error (h_asked h) k) as [ (r & p) | ]; [ | contradiction ]. apply nth_set_same. rewrite (i_len _ _ I). exact UB.
    + rewrite nth_set_other by (apply (mod_near i k n); lia). apply Nat.eqb_neq in NE. rewrite NE. exact SI.
  - intros j J. destruct (Nat.eq_dec j (k mod 32)) as [ E | E ]; [ rewrite E; apply nth_set_same; rewrite (i_len _ _ I); exact UB | ]. rewrite nth_set_other by exact E. apply (i_free _ _ I). exact J.
  - intros i H. destruct (Nat.eqb i k); [ reflexivity | ]. now apply (i_old _ _ I).
  - intros i H. destruct (Nat.eqb_spec i k) as [ EI | ]; [ rewrite EI; exact KS | now apply (i_done _ _ I) ].
Qed.

Lemma find_ok c h id : inv c h ->
  match find_and_consume c id with
  | None => forall k, outstanding h k -> id_of k <> id
  | Some (t, c') => exists k r tm p, outstanding h k /\ id_of k = id /\ asked h k r p /\ request_ok r /\ t = mk_trans (id_of k) (pdu_of r) tm p /\ inv c' (finished h k)
  end.
Proof.
  intros I. unfold find_and_consume. destruct (find_slot (cl_slots c) id 0) as [ (j & t) | ] eqn:F.
  - apply find_some in F. destruct F as (J & N & T & E). rewrite Nat.sub_0_r in N. rewrite (i_len _ _ I) in J.
    destruct (place_number (length (h_asked h)) j ltac:(lia)) as [ L | (k & K1 & K2 & KJ) ]; [ rewrite (i_free _ _ I) in N by lia; discriminate | ].
    pose proof (i_slot _ _ I k K1 K2) as S. rewrite KJ, N in S. unfold slot_ok in S. destruct (nth_error (h_asked h) k) as [ (r & p) | ] eqn:A; [ | contradiction ].
    destruct (h_done h k) eqn:D; [ discriminate | ]. destruct S as (tm & S & TS). injection S as ->. cbn [tr_time tr_id] in *.
    destruct (Nat.ltb_spec k (h_sent h)) as [ KS | KS ]; [ | lia ]. assert (O : outstanding h k) by (split; assumption).
    exists k, r, tm, p. split; [ exact O | ]. split; [ exact E | ]. split; [ exact A | ]. split; [ pose proof (i_ok _ _ I) as FA; rewrite Forall_forall in FA; apply (FA (r, p)); eapply nth_error_In; exact A | ].
    split; [ reflexivity | ]. rewrite <- KJ. now apply finish_inv.
  - intros k (KS & KD) E. pose proof (i_sent _ _ I) as SN. assert (KN : (length (h_asked h) <= k + 32)%nat) by (destruct (Nat.lt_ge_cases (k + 32) (length (h_asked h))) as [ L | L ]; [ apply (i_old _ _ I) in L; congruence | exact L ]).
    pose proof (i_slot _ _ I k ltac:(lia) KN) as S. unfold slot_ok in S. destruct (nth_error (h_asked h) k) as [ (r & p) | ]; [ | contradiction ]. rewrite KD in S. destruct S as (tm & S & T).
    destruct (Nat.ltb_spec k (h_sent h)); [ | lia ]. pose proof (find_none _ _ _ F _ _ S) as X. cbn [tr_time tr_id] in X. lia.
Qed.

(** * Frames *)
Lemma seven (l : list Z) : 7 <= zlen l -> exists a b c d e f g r, l = [a; b; c; d; e; f; g] ++ r.
Proof.
  intros H. destruct l as [ | a [ | b [ | c [ | d [ | e [ | f [ | g r ] ] ] ] ] ] ]; unfold zlen in H; cbn [length] in H; try lia. exists a, b, c, d, e, f, g, r. reflexivity.
Qed.
Lemma framed_iff a b c d e f g r id pdu : framed ([a; b; c; d; e; f; g] ++ r) id pdu <-> id = 256 * a + b /\ 256 * e + f = 1 + zlen pdu /\ exists rest, r = pdu ++ rest.
Proof.
  split.
  - intros (id1 & id0 & p1 & p0 & l1 & l0 & u & rest & E & I & L). injection E as -> -> -> -> -> -> -> ->. split; [ exact I | ]. split; [ exact L | ]. exists rest. reflexivity.
  - intros (-> & L & rest & ->). exists a, b, c, d, e, f, g, rest. auto.
Qed.
Lemma prefix_firstn (pdu rest : list Z) n : zlen pdu = n -> firstn (Z.to_nat n) (pdu ++ rest) = pdu.
Proof. intros <-. unfold zlen. rewrite Nat2Z.id, firstn_app, firstn_all, Nat.sub_diag. cbn. apply app_nil_r. Qed.

Lemma receive_ok c h octets before ret : inv c h -> bytes octets -> bytes before -> length before = 252%nat ->
  exists c' x h', bus_step c (Receive octets before ret) = Some (c', x) /\ step h (Receive octets before ret) x h' /\ inv c' h'.
Proof.
  intros I BO BB LB. cbn [bus_step]. unfold client_read. cbv zeta. destruct (zlen octets <? 7) eqn:L7.
  { exists c, (Received 4 (zlen octets) []), h. split; [ reflexivity | ]. split; [ apply S_unfinished; left; lia | exact I ]. }
  destruct (seven octets ltac:(lia)) as (a & b & p1 & p0 & e & f & u & r & ->). set (octets := [a; b; p1; p0; e; f; u] ++ r) in *.
  assert (ZO : zlen octets = 7 + zlen r) by (unfold octets; rewrite zlen_app; reflexivity). pose proof (zlen_nonneg _ r) as ZR.
  change (be16 (at_ octets 0) (at_ octets 1)) with (256 * a + b). change (be16 (at_ octets 4) (at_ octets 5)) with (256 * e + f). change (skipn 7 octets) with r.
  set (len := 256 * e + f). apply Forall_app in BO. destruct BO as (BH & BR).
  assert (NU : len <= 1 + zlen r -> ~ unfinished octets).
  { intros LL [ X | (a' & b' & p1' & p0' & e' & f' & u' & r' & E & X) ]; [ lia | ]. unfold octets in E. injection E as -> -> -> -> -> -> -> ->. fold len in X. lia. }
  destruct (len <? 1) eqn:LEN1.
  { exists c, (Received 2 (zlen octets) []), h. split; [ reflexivity | ]. split; [ | exact I ]. apply S_bad; [ | apply NU; lia ]. intros id pdu F. apply framed_iff in F. destruct F as (_ & F & _). fold len in F. pose proof (zlen_nonneg _ pdu). lia. }
  destruct (zlen octets <? 6 + len) eqn:INC.
  { exists c, (Received 4 (zlen octets) []), h. split; [ reflexivity | ]. split; [ | exact I ]. apply S_unfinished. right. exists a, b, p1, p0, e, f, u, r. split; [ reflexivity | ]. fold len. lia. }
  assert (FR : forall id pdu, framed octets id pdu -> zlen pdu = len - 1). { intros id pdu F. apply framed_iff in F. destruct F as (_ & F & _). fold len in F. lia. }
  destruct (6 + len - 7 <? 1) eqn:P1.
  { exists c, (Received 2 (zlen octets) []), h. split; [ reflexivity | ]. split; [ | exact I ]. apply S_bad; [ | apply NU; lia ]. intros id pdu F. apply FR in F. left. destruct pdu; [ reflexivity | ]. rewrite zlen_cons in F. pose proof (zlen_nonneg _ pdu). lia. }
  destruct (252 <? 6 + len - 7) eqn:P252.
  { exists c, (Received 2 (zlen octets) []), h. split; [ reflexivity | ]. split; [ | exact I ]. apply S_bad; [ | apply NU; lia ]. intros id pdu F. apply FR in F. right. lia. }
  set (pdu := firstn (Z.to_nat (6 + len - 7)) r). assert (ZP : zlen pdu = len - 1) by (unfold pdu, zlen in *; rewrite firstn_length; lia).
  assert (F : framed octets (256 * a + b) pdu). { apply framed_iff. split; [ reflexivity | ]. split; [ fold len; lia | ]. exists (skipn (Z.to_nat (6 + len - 7)) r). symmetry. apply firstn_skipn. }
  assert (BP : bytes pdu) by (unfold bytes in *; rewrite Forall_forall in *; intros x X; apply BR; unfold pdu in X; rewrite <- (firstn_skipn (Z.to_nat (6 + len - 7)) r); apply in_or_app; now left).
  unfold receive. pose proof (find_ok c h (256 * a + b) I) as FO. destruct (find_and_consume c (256 * a + b)) as [ (t & c') | ].
  2:{ exists c, (Received 2 (zlen octets) []), h. split; [ reflexivity | ]. split; [ | exact I ]. now apply (S_unknown h octets before ret (256 * a + b) pdu). }
  destruct FO as (k & rq & tm & p & O & EI & A & RO & -> & I'). rewrite <- EI in F.
  replace (6 + len) with (7 + zlen pdu) by lia. destruct (answer_told rq (id_of k) tm p pdu before ret RO BP BB LB ltac:(lia)) as (r' & calls & -> & T).
  eexists. eexists. exists (finished h k). split; [ reflexivity | ]. split; [ | exact I' ]. replace (7 + (7 + zlen pdu - 7)) with (7 + zlen pdu) by lia. unfold BUS_OK.
  destruct T as [ (an & R & -> & ->) | [ (E & -> & ->) | (NR & NS & -> & CS) ] ].
  - now apply (S_answer h octets before ret k rq p pdu an).
  - rewrite E in *. change (7 + zlen [code_of rq + 128]) with 8. now apply (S_short h octets before ret k rq p).
  - cbn [Z.eqb]. apply (S_wrong h octets before ret k rq p pdu calls); try assumption; [ intros X; rewrite X, zlen_nil in ZP; lia | lia ].
Qed.

Lemma run_ok os : forall c h, inv c h -> Forall op_ok os -> exists c' xs h', bus_run c os = Some (c', xs) /\ steps h os xs h' /\ inv c' h'.
Proof.
  induction os as [ | o os IH ]; intros c h I OK; cbn [bus_run].
  { exists c, [], h. split; [ reflexivity | ]. split; [ constructor | exact I ]. }
  inversion OK as [ | ? ? OK1 OK2 ]. subst.
  assert (S : exists c' x h', bus_step c o = Some (c', x) /\ step h o x h' /\ inv c' h').
  { destruct o as [ r data now | now | octets before ret ]; cbn [op_ok] in OK1.
    - apply ask_ok; tauto.
    - apply send_ok; [ exact I | lia ].
    - apply receive_ok; tauto. }
  destruct S as (c1 & x & h1 & -> & S1 & I1). destruct (IH c1 h1 I1 OK2) as (c2 & xs & h2 & -> & S2 & I2).
  exists c2, (x :: xs), h2. split; [ reflexivity | ]. split; [ now apply (Steps_cons h o x h1) | exact I2 ].
Qed.
