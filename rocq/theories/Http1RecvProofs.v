(** Lemmas about the receiving of HTTP/1 messages: first line, header and verdict. *)
From Coq Require Import Strings.String.
From Coq Require Import ZArith List Bool Lia.
From Verif Require Import Common MsgModel ReadModel Base64Model Dec HttpUtilModel HttpUtilSpec HttpUtilProofs HttpUriProofs Http1Model Http1Spec Http1Proofs Http1HeadProofs.
Import ListNotations.
Open Scope Z_scope.

(** ** The first line *)

Definition ver (v : list Z) : version := if same_text v (str_bytes "HTTP/1.1") then V11 else V10.

Lemma search_pos needle l : forall n p q k, (len l <= n)%nat -> search needle p l = Some (q, k) -> p <= q.
Proof.
  intros n. revert l. induction n as [|n IH]; intros l p q k L E.
  - destruct l; [ discriminate E | cbn [len] in L; lia ].
  - destruct l as [|c r]; [ discriminate E | ]. cbn [len] in L. rewrite search_eq in E.
    destruct (common_prefix (c :: r) needle =? 0); [ apply IH in E; lia | ].
    destruct ((common_prefix (c :: r) needle =? zlen needle) || (common_prefix (c :: r) needle =? zlen (c :: r))); [ injection E; lia | ].
    destruct r as [|d r]; [ discriminate E | ]. cbn [len] in L. apply IH in E; lia.
Qed.
Lemma version_ok v t : In v versions -> http_version (v ++ t) = Some (ver v, 8).
Proof.
  intros I0. unfold http_version, strcasestr.
  assert (G : forall w, In w versions -> zlen (v ++ t) <? zlen w = false).
  { intros w Iw. rewrite (zlen_app _ v t). pose proof (zlen_nonneg _ t). assert (zlen v = 8) as -> by (destruct I0 as [<-|[<-|[]]]; reflexivity).
    assert (zlen w = 8) as -> by (destruct Iw as [<-|[<-|[]]]; reflexivity). lia. }
  rewrite (G _ (or_introl eq_refl)), (G _ (or_intror (or_introl eq_refl))). pose proof (zlen_nonneg _ t) as Nt.
  destruct I0 as [<-|[<-|[]]].
  - destruct t; reflexivity.
  - change (str_bytes "HTTP/1.0" ++ t) with (72 :: [84; 84; 80; 47; 49; 46; 48] ++ t).
    assert (E1 : search (str_bytes "HTTP/1.0") 0 (72 :: [84; 84; 80; 47; 49; 46; 48] ++ t) = Some (0, 8)) by (destruct t; reflexivity).
    assert (E2 : forall k, search (str_bytes "HTTP/1.1") 0 (72 :: [84; 84; 80; 47; 49; 46; 48] ++ t) <> Some (0, k)).
    { intros k. rewrite search_eq. assert (C : common_prefix (72 :: [84; 84; 80; 47; 49; 46; 48] ++ t) (str_bytes "HTTP/1.1") = 7) by (destruct t; reflexivity).
      rewrite C. change (7 =? 0) with false. change (zlen (str_bytes "HTTP/1.1")) with 8. change (7 =? 8) with false. cbn [orb].
      rewrite zlen_cons, (zlen_app _ [84; 84; 80; 47; 49; 46; 48] t). change (zlen [84; 84; 80; 47; 49; 46; 48]) with 7.
      replace (7 =? 1 + (7 + zlen t)) with false by lia. cbv beta iota. cbn [app]. intros E. apply (search_pos _ _ _ _ _ _ (le_n _)) in E. lia. }
    rewrite E1. destruct (search (str_bytes "HTTP/1.1") 0 (72 :: [84; 84; 80; 47; 49; 46; 48] ++ t)) as [[q k]|]; [ | reflexivity ].
    destruct q; [ exfalso; exact (E2 k eq_refl) | reflexivity | reflexivity ].
Qed.
Lemma versions_len v : In v versions -> zlen v = 8 /\ no_cr v /\ Forall (fun c => ~ blank c) v.
Proof.
  intros [<-|[<-|[]]]; (split; [ reflexivity | split ]); vm_compute; repeat (constructor; [ lia | ]); constructor.
Qed.
Lemma methods_facts m : In m methods -> 0 < zlen m <= 7 /\ no_cr m /\ Forall (fun c => ~ blank c) m /\ exists x, method_of m = Some x.
Proof.
  intros H.
  assert (K : (0 <? zlen m) && (zlen m <=? 7) && forallb (fun c => negb (c =? 13) && negb (is_lwsp c)) m && match method_of m with Some _ => true | None => false end = true).
  { revert m H. apply forallb_forall. reflexivity. }
  apply andb_true_iff in K. destruct K as [K K3]. apply andb_true_iff in K. destruct K as [K1 K2]. split; [ lia | ].
  assert (F : Forall (fun c => c <> 13 /\ ~ blank c) m).
  { apply Forall_forall. intros c Hc. rewrite forallb_forall in K2. specialize (K2 c Hc). cbn beta in K2. apply andb_true_iff in K2. destruct K2 as [A B]. split; [ lia | ].
    intros C. apply lwsp_iff in C. rewrite C in B. discriminate B. }
  split; [ eapply Forall_impl; [ | exact F ]; cbn; tauto | ]. split; [ eapply Forall_impl; [ | exact F ]; cbn; tauto | ].
  destruct (method_of m) as [x|]; [ exists x; reflexivity | discriminate K3 ].
Qed.
Lemma request_text m u v : request_line m u v = (m ++ [32] ++ u ++ [32] ++ v) ++ CRLF.
Proof. unfold request_line. rewrite <- !app_assoc. reflexivity. Qed.
Lemma request_no_cr m u v : In m methods -> uri_text u -> In v versions -> no_cr (m ++ [32] ++ u ++ [32] ++ v).
Proof.
  intros M [_ U] V. destruct (methods_facts m M) as (_ & A & _). destruct (versions_len v V) as (_ & B & _). unfold no_cr in *.
  repeat (apply Forall_app; split); auto.
  - constructor; [ lia | constructor ].
  - eapply Forall_impl; [ | exact U ]. cbn. tauto.
  - constructor; [ lia | constructor ].
Qed.
Lemma request_first m u v r : In m methods -> uri_text u -> zlen u < 2^32 -> In v versions ->
  parse_request (request_line m u v ++ r) = (ROk, zlen (request_line m u v), Some (m, u, ver v)).
Proof.
  intros M U Z0 V. pose proof (request_no_cr m u v M U V) as N. destruct U as [Nu U].
  destruct (methods_facts m M) as (Lm & _ & Bm & _). destruct (versions_len v V) as (Lv & _ & Bv).
  assert (Lu : 0 < zlen u) by (destruct u as [|x u']; [ congruence | rewrite zlen_cons; pose proof (zlen_nonneg _ u'); lia ]).
  unfold parse_request. set (l := request_line m u v ++ r).
  assert (E0 : l = (m ++ [32] ++ u ++ [32] ++ v) ++ 13 :: 10 :: r) by (subst l; rewrite request_text, <- app_assoc; reflexivity).
  assert (E1 : l = m ++ 32 :: (u ++ [32] ++ v ++ 13 :: 10 :: r)) by (rewrite E0, <- !app_assoc; reflexivity).
  assert (E2 : l = (m ++ [32]) ++ (u ++ 32 :: (v ++ 13 :: 10 :: r))) by (rewrite E0, <- !app_assoc; reflexivity).
  assert (E3 : l = (m ++ [32] ++ u ++ [32]) ++ (v ++ 13 :: 10 :: r)) by (rewrite E0, <- !app_assoc; reflexivity).
  assert (E4 : l = (m ++ [32] ++ u) ++ [32] ++ (v ++ 13 :: 10 :: r)) by (rewrite E0, <- !app_assoc; reflexivity).
  assert (Lt : zlen (m ++ [32] ++ u ++ [32] ++ v) = zlen m + zlen u + 10) by (rewrite !zlen_app, Lv; change (zlen [32]) with 1; lia).
  assert (F1 : find_crlf l = Some (zlen m + zlen u + 10)) by (rewrite E0, (crlf_found _ r N), Lt; reflexivity).
  rewrite F1. replace (zlen m + zlen u + 10 =? 0) with false by lia.
  assert (F2 : find_whsp l = Some (zlen m)).
  { rewrite E1. apply whsp_found; [ exact Bm | left; reflexivity | destruct u; [ congruence | discriminate ] ]. }
  rewrite F2. replace ((10 <? zlen m) || (zlen m =? 0)) with false by lia.
  assert (D1 : drop (zlen m) l = [32] ++ (u ++ [32] ++ v ++ 13 :: 10 :: r)) by (rewrite E1; apply drop_app).
  assert (C1 : count_whsp (drop (zlen m) l) = 1).
  { rewrite D1, count_whsp_app; [ reflexivity | constructor; [ left; reflexivity | constructor ] | ]. destruct u as [|x u']; [ congruence | ]. cbn [app]. apply Forall_inv in U. tauto. }
  rewrite C1. cbv zeta.
  assert (D2 : drop (zlen m + 1) l = u ++ 32 :: (v ++ 13 :: 10 :: r)) by (rewrite E2; apply drop_at; rewrite (zlen_app _ m); reflexivity).
  assert (F3 : find_whsp (drop (zlen m + 1) l) = Some (zlen u)).
  { rewrite D2. apply whsp_found; [ eapply Forall_impl; [ | exact U ]; cbn; tauto | left; reflexivity | destruct v; discriminate ]. }
  rewrite F3. replace (2 ^ 32 - 1 <? zlen u) with false by lia.
  assert (C2 : count_whsp (drop (zlen m + 1 + zlen u) l) = 1).
  { rewrite E4, drop_at by (rewrite !zlen_app; change (zlen [32]) with 1; lia).
    rewrite count_whsp_app; [ reflexivity | constructor; [ left; reflexivity | constructor ] | ]. destruct v as [|x v']; [ discriminate Lv | ]. cbn [app]. apply Forall_inv in Bv. exact Bv. }
  rewrite C2.
  assert (D3 : take (zlen m + zlen u + 10 - (zlen m + 1 + zlen u + 1)) (drop (zlen m + 1 + zlen u + 1) l) = v).
  { rewrite E3, drop_at by (rewrite !zlen_app; change (zlen [32]) with 1; lia). apply take_at. lia. }
  rewrite D3. pose proof (version_ok v [] V) as Hv. rewrite app_nil_r in Hv. rewrite Hv.
  replace (zlen m + 1 + zlen u + 1 + 8 =? zlen m + zlen u + 10) with true by lia. cbn [negb].
  assert (T1 : take (zlen m) l = m) by (rewrite E1; apply take_app). rewrite T1, D2, take_app.
  rewrite request_text, (zlen_app _ _ CRLF), Lt. reflexivity.
Qed.
Lemma request_short m u v q : In m methods -> uri_text u -> In v versions -> prefix_of q (request_line m u v) -> zlen q < zlen (request_line m u v) ->
  parse_request q = (RIncomplete, 0, None).
Proof.
  intros M U V P L. unfold parse_request. rewrite request_text in P, L. rewrite (zlen_app _ _ CRLF) in L. change (zlen CRLF) with 2 in L.
  rewrite (crlf_short _ q (request_no_cr m u v M U V) P L). reflexivity.
Qed.

Lemma status_text v c ph : status_line v c ph = (v ++ [32] ++ c ++ [32] ++ ph) ++ CRLF.
Proof. unfold status_line. rewrite <- !app_assoc. reflexivity. Qed.
Lemma digits_no_cr c : Forall digit c -> no_cr c.
Proof. intros H. eapply Forall_impl; [ | exact H ]. unfold digit. cbn. lia. Qed.
Lemma status_no_cr v c ph : In v versions -> status_code c -> no_cr ph -> no_cr (v ++ [32] ++ c ++ [32] ++ ph).
Proof.
  intros V [_ D] P. destruct (versions_len v V) as (_ & B & _). apply digits_no_cr in D. unfold no_cr in *.
  repeat (apply Forall_app; split); auto; constructor; try lia; constructor.
Qed.
Lemma code_small c : status_code c -> 0 <= decimal c <= 999 /\ strtoull_raw 10 c = Some (decimal c, 3) /\ forall t, strtoull_raw 10 (c ++ 32 :: t) = Some (decimal c, 3).
Proof.
  intros [L D]. destruct c as [|x [|y [|z [|w c]]]]; try (cbn in L; discriminate L).
  2: { rewrite !zlen_cons in L. pose proof (zlen_nonneg _ c). lia. }
  clear L. inversion D as [|? ? Dx D1]; subst. inversion D1 as [|? ? Dy D2]; subst. inversion D2 as [|? ? Dz D3]; subst. clear D1 D2 D3. 
  assert (B : 0 <= decimal [x; y; z] <= 999) by (unfold decimal; cbn [fold_left]; unfold digit in *; lia).
  assert (G : forall t, (match t with c :: _ => ~ digit c | [] => True end) -> strtoull_raw 10 ([x; y; z] ++ t) = Some (decimal [x; y; z], 3)).
  { intros t T. unfold strtoull_raw. rewrite (digits_ok [x; y; z] t D T). change (zlen [x; y; z]) with 3. cbv zeta. cbn [Z.eqb Z.ltb Z.compare orb Pos.compare Pos.compare_cont].
    unfold strtoull. rewrite decimal_same by exact D. fold (decimal [x; y; z]). f_equal. f_equal. lia. }
  split; [ exact B | split ]; [ apply (G []); exact I | ]. intros t. apply (G (32 :: t)). unfold digit. lia.
Qed.
Lemma count_while_le (p : Z -> bool) a c b : p c = false -> count_while p (a ++ c :: b) <= zlen a.
Proof.
  intros H. induction a as [|x a IH]; cbn [app count_while]; [ rewrite H; reflexivity | ]. rewrite zlen_cons. destruct (p x); [ lia | pose proof (zlen_nonneg _ a); lia ].
Qed.
Lemma status_first v c ph r : In v versions -> status_code c -> no_cr ph ->
  parse_response_code (status_line v c ph ++ r) = Ok (ROk, zlen (status_line v c ph), Some (ver v, decimal c)).
Proof.
  intros V C P. pose proof (status_no_cr v c ph V C P) as N. destruct (versions_len v V) as (Lv & _ & Bv). destruct (code_small c C) as (Bc & _ & Sc). destruct C as [Lc Dc].
  unfold parse_response_code. set (l := status_line v c ph ++ r). pose proof (zlen_nonneg _ ph) as Np.
  assert (E0 : l = (v ++ [32] ++ c ++ [32] ++ ph) ++ 13 :: 10 :: r) by (subst l; rewrite status_text, <- app_assoc; reflexivity).
  assert (E1 : l = v ++ [32] ++ (c ++ [32] ++ ph ++ 13 :: 10 :: r)) by (rewrite E0, <- !app_assoc; reflexivity).
  assert (E2 : l = (v ++ [32]) ++ (c ++ [32] ++ ph) ++ 13 :: 10 :: r) by (rewrite E0, <- !app_assoc; reflexivity).
  assert (E3 : l = (v ++ [32] ++ c) ++ (32 :: ph) ++ 13 :: 10 :: r) by (rewrite E0, <- !app_assoc; reflexivity).
  assert (Lt : zlen (v ++ [32] ++ c ++ [32] ++ ph) = 13 + zlen ph) by (rewrite !zlen_app, Lv, Lc; change (zlen [32]) with 1; lia).
  assert (F1 : find_crlf l = Some (13 + zlen ph)) by (rewrite E0, (crlf_found _ r N), Lt; reflexivity).
  rewrite F1. replace (13 + zlen ph =? 0) with false by lia. replace (13 + zlen ph <? 12) with false by lia.
  assert (T1 : take (13 + zlen ph) l = v ++ [32] ++ c ++ [32] ++ ph) by (rewrite E0; apply take_at; lia).
  rewrite T1, (version_ok v _ V). cbv zeta.
  assert (C1 : count_whsp (drop 8 l) = 1).
  { rewrite E1, drop_at by lia. rewrite count_whsp_app; [ reflexivity | constructor; [ left; reflexivity | constructor ] | ].
    destruct c as [|x c']; [ discriminate Lc | ]. cbn [app]. apply Forall_inv in Dc. unfold digit in Dc. unfold blank. lia. }
  rewrite C1. change (8 + 1) with 9.
  assert (D2 : take (13 + zlen ph - 9) (drop 9 l) = c ++ 32 :: ph).
  { rewrite E2, drop_at by (rewrite zlen_app, Lv; reflexivity). apply take_at. rewrite ?zlen_app, ?zlen_cons, Lc, ?zlen_nil. lia. }
  rewrite D2, Sc. replace (999 <? decimal c) with false by lia. change (9 + 3) with 12.
  assert (C2 : count_whsp (drop 12 l) <= 1 + zlen ph).
  { rewrite E3, drop_at by (rewrite !zlen_app, Lv, Lc; reflexivity). rewrite <- (zlen_cons _ 32 ph). apply count_while_le. reflexivity. }
  replace (13 + zlen ph <? 12 + count_whsp (drop 12 l)) with false by lia. rewrite status_text, (zlen_app _ _ CRLF), Lt. reflexivity.
Qed.
Lemma status_short v c ph q : In v versions -> status_code c -> no_cr ph -> prefix_of q (status_line v c ph) -> zlen q < zlen (status_line v c ph) ->
  parse_response_code q = Ok (RIncomplete, 0, None).
Proof.
  intros V C N P L. unfold parse_response_code. rewrite status_text in P, L. rewrite (zlen_app _ _ CRLF) in L. change (zlen CRLF) with 2 in L.
  rewrite (crlf_short _ q (status_no_cr v c ph V C N) P L). reflexivity.
Qed.
