(** Proofs about the Modbus client. *)
From Coq Require Import ZArith List Bool Lia.
From Verif Require Import Common BusTypes BusModel BusSpec.
Import ListNotations.
Open Scope Z_scope.

(** * Places *)
Lemma set_slot_length l j x : length (set_slot l j x) = length l.
Proof. revert j. induction l as [ | y l IH ]; intros [ | j ]; cbn; auto. Qed.
Lemma nth_set_same l j x : (j < length l)%nat -> nth j (set_slot l j x) None = x.
Proof. revert j. induction l as [ | y l IH ]; intros [ | j ] H; cbn in *; try lia; [ reflexivity | ]. apply IH. lia. Qed.
Lemma nth_set_other l i j x : i <> j -> nth i (set_slot l j x) None = nth i l None.
Proof. revert i j. induction l as [ | y l IH ]; intros [ | i ] [ | j ] H; cbn; try reflexivity; try lia. apply IH. lia. Qed.

Lemma find_some l id : forall j i t, find_slot l id j = Some (i, t) -> (j <= i < j + length l)%nat /\ nth (i - j) l None = Some t /\ tr_time t <> 0 /\ tr_id t = id.
Proof.
  induction l as [ | o l IH ]; intros j i t; cbn [find_slot]; [ discriminate | ].
  assert (NEXT : find_slot l id (S j) = Some (i, t) -> (j <= i < j + length (o :: l))%nat /\ nth (i - j) (o :: l) None = Some t /\ tr_time t <> 0 /\ tr_id t = id).
  { intros H. apply IH in H. destruct H as (A & B & C). cbn [length]. split; [ lia | ]. replace (i - j)%nat with (S (i - S j)) by lia. cbn [nth]. auto. }
  destruct o as [ t' | ]; [ | exact NEXT ]. destruct (tr_time t' =? 0) eqn:E; [ exact NEXT | ]. destruct (id =? tr_id t') eqn:E2; [ | exact NEXT ].
  intros H. injection H as <- <-. rewrite Nat.sub_diag. cbn [nth length]. split; [ lia | ]. split; [ reflexivity | ]. split; lia.
Qed.
Lemma find_none l id : forall j, find_slot l id j = None -> forall i t, nth i l None = Some t -> tr_time t = 0 \/ tr_id t <> id.
Proof.
  induction l as [ | o l IH ]; intros j H i t N; [ destruct i; discriminate | ]. cbn [find_slot] in H.
  destruct i as [ | i ]; cbn [nth] in N.
  - subst o. destruct (tr_time t =? 0) eqn:E; [ lia | ]. destruct (id =? tr_id t) eqn:E2; [ discriminate | lia ].
  - destruct o as [ t' | ]; [ | now apply (IH (S j)) with (i := i) ]. destruct (tr_time t' =? 0); [ now apply (IH (S j)) with (i := i) | ]. destruct (id =? tr_id t'); [ discriminate | now apply (IH (S j)) with (i := i) ].
Qed.

(** * Requests *)
Lemma put16_word v : 0 <= v < 65536 -> put16 v = word16 v.
Proof. intros H. unfold put16, word16. f_equal. apply Z.mod_small. lia. Qed.
Lemma request_octets_ok r : request_ok r -> request_octets r = Some (pdu_of r).
Proof.
  destruct r as [ a n | a n | a n | a n | a cs | a n cs ]; cbn [request_ok request_octets pdu_of]; intros H;
    try (replace ((1 <=? n) && (n <=? _)) with true by lia; unfold read_req; rewrite !put16_word by lia; reflexivity).
  - unfold write_single_req. rewrite put16_word by lia. rewrite firstn_all2; [ reflexivity | ]. unfold zlen in H. lia.
  - replace ((1 <=? n) && (n <=? 123)) with true by lia. unfold write_multiple_req. cbv zeta. rewrite !put16_word by lia. replace (u8 (n * 2)) with (2 * n) by (unfold u8; rewrite Z.mod_small; lia).
    rewrite firstn_all2; [ reflexivity | ]. unfold zlen in H. lia.
Qed.
Lemma pdu_len r : request_ok r -> 1 <= zlen (pdu_of r) <= 252.
Proof.
  destruct r as [ a n | a n | a n | a n | a cs | a n cs ]; cbn [request_ok pdu_of]; intros H; unfold word16; cbn [app]; rewrite ?zlen_cons; unfold zlen in *; cbn [length]; lia.
Qed.
Lemma pdu_code r : at_ (pdu_of r) 0 = code_of r.
Proof. destruct r; reflexivity. Qed.
Lemma code_range r : 1 <= code_of r <= 16.
Proof. destruct r; cbn; lia. Qed.

(** * Answers *)
Lemma response_head r c rest a : response r (c :: rest) a -> c = code_of r \/ c = code_of r + 128.
Proof. intros H. inversion H; subst; auto. Qed.
Lemma memory_0 c rest before : at_ (res_memory (c :: rest) before) 0 = c.
Proof. reflexivity. Qed.
Lemma byte_nth l i : bytes l -> 0 <= nth i l 0 < 256.
Proof. intros B. destruct (Nat.lt_ge_cases i (length l)) as [ H | H ]; [ | rewrite nth_overflow by lia; lia ]. unfold bytes in B. rewrite Forall_forall in B. pose proof (B _ (nth_In l 0 H)) as X. unfold byte in X. lia. Qed.

Definition told (r : request) (id data : Z) (pdu before : list Z) (ret r' : Z) (calls : list call) : Prop :=
  (exists a, response r pdu a /\ r' = ret /\ calls = Answered (code_of r) id a data :: given_back data) \/
  (pdu = [code_of r + 128] /\ r' = ret /\ calls = Answered (code_of r) id (Failed (nth 1 before 0)) data :: given_back data) \/
  ((forall a, ~ response r pdu a) /\ pdu <> [code_of r + 128] /\ r' = 2 /\ (calls = [] \/ calls = given_back data)).

Ltac soft := split; [ assumption | split; [ reflexivity | now auto ] ].

Lemma values_told r code n reg id tm data rest before ret :
  bytes rest -> bytes before -> zlen rest <= 251 -> code = code_of r -> values_size r = Some (u16 (if reg : bool then be16 (at_ (pdu_of r) 3) (at_ (pdu_of r) 4) * 2 else (be16 (at_ (pdu_of r) 3) (at_ (pdu_of r) 4) + 7) / 8)) ->
  values_size r = Some n -> 1 <= n ->
  let t := mk_trans id (pdu_of r) tm data in
  let res := receive_values code reg t (res_memory (code :: rest) before) (1 + zlen rest) ret in
  told r id data (code :: rest) before ret (fst res) (snd res ++ reset t).
Proof.
  intros BR BB LR CO VS VN N1. cbv zeta. unfold receive_values. cbv zeta. cbn [tr_req tr_id tr_data].
  rewrite VN in VS. injection VS as VS. rewrite <- VS. clear VS.
  assert (RS : reset (mk_trans id (pdu_of r) tm data) = given_back data) by reflexivity. rewrite RS.
  pose proof (code_range r) as CR.
  assert (NOT : forall a, response r (code :: rest) a -> exists vs, rest = n :: vs /\ zlen vs = n /\ a = Values vs).
  { intros a H. inversion H as [ e HC HA | m vs VM ZV HC HA | a1 a0 c1 c0 C6 HC HA | a1 a0 n1 n0 C16 HC HA ]; subst.
    - lia.
    - assert (NV : n = zlen vs) by congruence. exists vs. rewrite NV. split; [ reflexivity | split; [ reflexivity | congruence ] ].
    - destruct r; cbn in *; congruence.
    - destruct r; cbn in *; congruence. }
  assert (SHORT : code :: rest <> [code_of r + 128]) by (intros X; injection X as X _; lia).
  destruct rest as [ | b vs ].
  - change (zlen []) with 0. assert (M1 : at_ (res_memory [code] before) 1 = nth 1 before 0) by (destruct before; reflexivity). rewrite M1.
    pose proof (byte_nth before 1 BB) as B1. set (b := nth 1 before 0) in *. replace (b =? 1 + 0 - 2) with false by lia. cbn [negb].
    right. right. destruct (b =? 0); cbn [fst snd app]; (split; [ intros a H; apply NOT in H; destruct H as (? & ? & _); discriminate | soft ]).
  - assert (M1 : at_ (res_memory (code :: b :: vs) before) 1 = b) by reflexivity. rewrite M1. rewrite zlen_cons.
    destruct (b =? 0) eqn:B0; [ | destruct (b =? 1 + (1 + zlen vs) - 2) eqn:BL; cbn [negb]; [ destruct (b =? n) eqn:BN; cbn [negb] | ] ].
    + right. right. split; [ | soft ]. intros a H. apply NOT in H. destruct H as (vs' & E & _). injection E as E _. lia.
    + left. exists (Values vs). cbn [fst snd app]. assert (n = b) as -> by lia. rewrite CO in *. split; [ constructor; [ exact VN | lia ] | ]. split; [ reflexivity | ].
      f_equal. f_equal. f_equal. unfold res_memory. cbn [app skipn]. replace (Z.to_nat b) with (length vs) by (unfold zlen in BL; lia).
      rewrite firstn_app, firstn_all, Nat.sub_diag. cbn [firstn]. apply app_nil_r.
    + right. right. split; [ | soft ]. intros a H. apply NOT in H. destruct H as (vs' & E & _). injection E as E _. lia.
    + right. right. split; [ | soft ]. intros a H. apply NOT in H. destruct H as (vs' & E & ZV & _). injection E as E ->. lia.
Qed.

Lemma amount_of a n : 0 <= n < 65536 -> 0 <= a < 65536 -> be16 (at_ ([0] ++ word16 a ++ word16 n) 3) (at_ ([0] ++ word16 a ++ word16 n) 4) = n.
Proof. intros H _. unfold at_, word16, be16. cbn [app nth]. lia. Qed.

Lemma answer_told r id tm data pdu before ret :
  request_ok r -> bytes pdu -> bytes before -> length before = 252%nat -> 1 <= zlen pdu <= 252 ->
  exists r' calls, answer_to (mk_trans id (pdu_of r) tm data) (res_memory pdu before) (7 + zlen pdu) ret = Some (r', calls) /\ told r id data pdu before ret r' calls.
Proof.
  intros OK BP BB LB LP. destruct pdu as [ | c rest ]; [ rewrite zlen_nil in LP; lia | ]. unfold answer_to. rewrite memory_0. cbv zeta. cbn [tr_req tr_id tr_data]. rewrite pdu_code. unfold too_big.
  inversion BP as [ | ? ? BC BR ]. subst. pose proof (code_range r) as CR. rewrite zlen_cons in *. pose proof (zlen_nonneg _ rest) as ZR.
  destruct (128 <? c) eqn:C128.
  { destruct (7 + 1 + 1 <? 7 + (1 + zlen rest)) eqn:BIG.
    { exists 2, []. split; [ reflexivity | ]. right. right. assert (L2 : 2 <= zlen rest) by lia. split; [ | split; [ intros X; injection X as _ ->; rewrite zlen_nil in L2; lia | auto ] ].
      intros a H. inversion H; subst; unfold zlen in *; cbn [length] in *; lia. }
    destruct (c - 128 =? code_of r) eqn:CC; cbn [negb].
    - eexists. eexists. split; [ reflexivity | ]. assert (c = code_of r + 128) as -> by lia. replace (code_of r + 128 - 128) with (code_of r) by lia.
      destruct rest as [ | e rest ].
      + right. left. split; [ reflexivity | ]. split; [ reflexivity | ]. f_equal. f_equal. f_equal. unfold res_memory. cbn [app length at_ nth]. destruct before as [ | x before ]; [ discriminate | ]. reflexivity.
      + rewrite zlen_cons in *. destruct rest as [ | x rest ]; [ | rewrite zlen_cons in *; pose proof (zlen_nonneg _ rest); lia ]. left. exists (Failed e). split; [ constructor | ]. split; reflexivity.
    - exists 2, []. split; [ reflexivity | ]. right. right. split; [ intros a H; apply response_head in H; lia | ]. split; [ intros X; injection X as X _; lia | auto ]. }
  destruct (c =? code_of r) eqn:CC; cbn [negb].
  2:{ exists 2, []. split; [ reflexivity | ]. right. right. split; [ intros a H; apply response_head in H; lia | ]. split; [ intros X; injection X as X _; lia | auto ]. }
  assert (c = code_of r) as -> by lia. clear CC C128.
  replace (65534 <? 7 + (1 + zlen rest) - 7) with false by lia. replace (u16 (7 + (1 + zlen rest) - 7)) with (1 + zlen rest) by (unfold u16; rewrite Z.mod_small; lia).
  replace (7 + 251 + 1 <? 7 + (1 + zlen rest)) with false by lia.
  assert (FIVE : forall a, code_of r = 6 \/ code_of r = 16 -> response r (code_of r :: rest) a -> zlen rest = 4).
  { intros a C6 H. inversion H as [ e HC HA | m vs VM ZV HC HA | a1 a0 c1 c0 C6' HC HA | a1 a0 n1 n0 C16 HC HA ]; subst; try reflexivity; [ lia | ]. destruct r; cbn in *; discriminate || lia. }
  assert (SHORT : code_of r :: rest <> [code_of r + 128]) by (intros X; injection X as X _; lia).
  assert (FOUR : zlen rest = 4 -> exists x1 x2 x3 x4, rest = [x1; x2; x3; x4]).
  { clear. intros H. destruct rest as [ | x1 [ | x2 [ | x3 [ | x4 [ | x5 rest ] ] ] ] ]; unfold zlen in H; cbn [length] in H; try lia. eauto. }
  assert (AM : forall n, 0 <= n < 65536 -> 256 * (n / 256) + n mod 256 = n) by (intros; lia).
  destruct r as [ a n | a n | a n | a n | a cs | a n cs ]; cbn [code_of] in *; cbn [Z.eqb Pos.eqb]; cbn [request_ok] in OK.
  - eexists. eexists. split; [ reflexivity | ]. apply (values_told (Read_coils a n) 1 ((n + 7) / 8) false); try assumption; try reflexivity; try lia.
    cbn [values_size pdu_of]. unfold word16, at_, be16. cbn [app nth]. rewrite AM by lia. f_equal. unfold u16. rewrite Z.mod_small; lia.
  - eexists. eexists. split; [ reflexivity | ]. apply (values_told (Read_discrete_inputs a n) 2 ((n + 7) / 8) false); try assumption; try reflexivity; try lia.
    cbn [values_size pdu_of]. unfold word16, at_, be16. cbn [app nth]. rewrite AM by lia. f_equal. unfold u16. rewrite Z.mod_small; lia.
  - eexists. eexists. split; [ reflexivity | ]. apply (values_told (Read_holding_registers a n) 3 (2 * n) true); try assumption; try reflexivity; try lia.
    cbn [values_size pdu_of]. unfold word16, at_, be16. cbn [app nth]. rewrite AM by lia. f_equal. unfold u16. rewrite Z.mod_small; lia.
  - eexists. eexists. split; [ reflexivity | ]. apply (values_told (Read_input_registers a n) 4 (2 * n) true); try assumption; try reflexivity; try lia.
    cbn [values_size pdu_of]. unfold word16, at_, be16. cbn [app nth]. rewrite AM by lia. f_equal. unfold u16. rewrite Z.mod_small; lia.
  - destruct (7 + 4 + 1 <? 7 + (1 + zlen rest)) eqn:BIG.
    { exists 2, []. split; [ reflexivity | ]. right. right. split; [ intros x H; apply FIVE in H; [ lia | auto ] | soft ]. }
    eexists. eexists. split; [ reflexivity | ]. unfold receive_value. destruct (1 + zlen rest =? 5) eqn:E5; cbn [negb fst snd app].
    + destruct FOUR as (x1 & x2 & x3 & x4 & ->); [ lia | ]. left. exists (Written (256 * x1 + x2) [x3; x4]). split; [ now constructor | ]. split; reflexivity.
    + right. right. split; [ intros x H; apply FIVE in H; [ lia | auto ] | soft ].
  - destruct (7 + 4 + 1 <? 7 + (1 + zlen rest)) eqn:BIG.
    { exists 2, []. split; [ reflexivity | ]. right. right. split; [ intros x H; apply FIVE in H; [ lia | auto ] | soft ]. }
    eexists. eexists. split; [ reflexivity | ]. unfold receive_quantity. destruct (1 + zlen rest =? 5) eqn:E5; cbn [negb fst snd app].
    + destruct FOUR as (x1 & x2 & x3 & x4 & ->); [ lia | ]. left. exists (Written_many (256 * x1 + x2) (256 * x3 + x4)). split; [ now constructor | ]. split; reflexivity.
    + right. right. split; [ intros x H; apply FIVE in H; [ lia | auto ] | soft ].
Qed.
