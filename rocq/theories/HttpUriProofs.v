(** Proofs about quoted header values and URIs. *)
From Coq Require Import Strings.String.
From Coq Require Import ZArith List Bool Lia.
From Verif Require Import Common MsgModel ReadModel HttpUtilModel HttpUtilSpec HttpUtilProofs.
Import ListNotations.
Open Scope Z_scope.

(** ** Quoted header values *)
Definition good (c : Z) : Prop := 32 <= c <= 126 \/ c = 9 \/ c = 13.
Lemma good_quotable c : good c -> quotable c = true.
Proof. unfold good, quotable, is_printable, is_lwsp. intros H. apply orb_true_iff. destruct H as [ H | H ]; [ right; lia | left ]. apply orb_true_iff. right. lia. Qed.
Lemma quotable_good c : quotable c = true -> good c.
Proof.
  unfold quotable, good, is_lwsp, is_printable. rewrite !orb_true_iff, alnum_iff. unfold letter, digit, is_nonspecial, is_special. rewrite !one_of_iff. cbn [In]. lia.
Qed.
Definition quotable_iff c : quotable c = true <-> good c := conj (quotable_good c) (good_quotable c).
Lemma token_or c : good c -> needs_quote c = false -> ~ In c (str_bytes "/=?{}") -> token_char c.
Proof.
  unfold needs_quote, token_char, good. intros G N NI. destruct (is_alnum c) eqn:A; [ apply alnum_iff in A; tauto | ]. destruct (is_nonspecial c) eqn:B; [ apply one_of_iff in B; right; right; exact B | ].
  exfalso. cbn [orb negb andb] in N. unfold is_special, is_lwsp in N. unfold is_alnum in A.
  assert (NS : ~ In c [40; 41; 60; 62; 64; 44; 59; 58; 92; 34; 46; 91; 93]) by (intros H; apply one_of_iff in H; rewrite H in N; discriminate).
  assert (NN : ~ In c [33; 35; 36; 37; 38; 39; 42; 43; 45; 46; 94; 95; 96; 124; 126]) by (intros H; apply one_of_iff in H; unfold is_nonspecial in B; congruence).
  destruct (one_of _ c) in N; [ discriminate | ]. cbn [orb] in N. cbn in NI, NS, NN. lia.
Qed.
Lemma quoted_body s : quoted (concat (map (quote_char 34 34) s)) s.
Proof.
  induction s as [ | c s IH ]; [ constructor | ]. cbn [map concat]. unfold quote_char. destruct ((c =? 34) || (c =? 34) || (c =? 13) || (c =? 92)) eqn:Q; cbn [app]; constructor; auto; lia.
Qed.
Lemma quote_len ds de s : zlen s <= zlen (concat (map (quote_char ds de) s)) <= 2 * zlen s.
Proof. induction s as [ | c s IH ]; [ cbn; lia | ]. cbn [map concat]. rewrite zlen_app, zlen_cons. assert (H : 1 <= zlen (quote_char ds de c) <= 2) by (unfold quote_char; destruct (_ || _ || _ || _); rewrite ?zlen_cons, zlen_nil; lia). lia. Qed.
Lemma forallb_Forall {A} (f : A -> bool) (P : A -> Prop) l : (forall x, f x = true <-> P x) -> forallb f l = true <-> Forall P l.
Proof. intros E. rewrite forallb_forall, Forall_forall. split; intros H x I; apply E; auto. Qed.
Lemma quote_ok s : s <> [] -> Forall good s -> zlen s < 2^31 - 1 ->
  exists t, header_value_quote s 34 34 = Ok (Some t) /\
    (existsb needs_quote s = true /\ t = [34] ++ concat (map (quote_char 34 34) s) ++ [34] \/ existsb needs_quote s = false /\ t = s).
Proof.
  intros N G L. pose proof (zlen_nonneg _ s) as Z0. assert (Z1 : zlen s <> 0) by (intros E; apply zlen_0 in E; congruence). unfold header_value_quote. replace (zlen s =? 0) with false by lia.
  replace (u32 (zlen s * 2 + 2 + 1)) with (zlen s * 2 + 3) by (unfold u32; rewrite Z.mod_small; lia). cbv zeta. replace (forallb quotable s) with true by (symmetry; apply (forallb_Forall quotable good); [ apply quotable_iff | exact G ]). cbn [negb].
  pose proof (quote_len 34 34 s) as QL. destruct (existsb needs_quote s).
  - set (t := [34] ++ concat (map (quote_char 34 34) s) ++ [34]). assert (TL : zlen t <= 2 * zlen s + 2) by (unfold t; rewrite !zlen_app; change (zlen [34]) with 1; lia).
    replace (zlen s * 2 + 3 + 1 <? zlen t) with false by lia. replace (zlen s * 2 + 3 <? zlen t) with false by lia. exists t. auto.
  - replace (zlen s * 2 + 3 + 1 <? zlen s) with false by lia. exists s. auto.
Qed.
Lemma needs_none s : existsb needs_quote s = false -> Forall (fun c => needs_quote c = false) s.
Proof. intros H. apply Forall_forall. intros c I. destruct (needs_quote c) eqn:Q; [ | reflexivity ]. assert (existsb needs_quote s = true) by (apply existsb_exists; eauto). congruence. Qed.
Lemma quote_standard_ok s : s <> [] -> Forall good s -> Forall (fun c => ~ In c (str_bytes "/=?{}")) s -> zlen s < 2^31 - 1 -> exists t, header_value_quote s 34 34 = Ok (Some t) /\ header_value t s.
Proof.
  intros N G P L. destruct (quote_ok s N G L) as (t & E & [ (_ & ->) | (Q & ->) ]); eexists; (split; [ exact E | ]).
  - right. exists (concat (map (quote_char 34 34) s)). split; [ reflexivity | apply quoted_body ].
  - left. split; [ reflexivity | ]. apply needs_none in Q. rewrite Forall_forall in *. intros c I. apply token_or; auto.
Qed.
Lemma unquote_plain s : Forall (fun c => c <> 34 /\ c <> 40) s -> unquote_loop (len s) s = s.
Proof. induction 1 as [ | c s (H1 & H2) _ IH ]; [ reflexivity | ]. cbn [len unquote_loop]. replace ((c =? 34) || (c =? 40)) with false by lia. now rewrite IH. Qed.
Lemma unquote_body s : Forall (fun c => c <> 92 /\ c <> 13) s -> unquote_inner 34 (concat (map (quote_char 34 34) s) ++ [34]) = (s, []).
Proof.
  induction 1 as [ | c s (H1 & H2) _ IH ]; [ reflexivity | ]. cbn [map concat]. unfold quote_char at 1. destruct (c =? 34) eqn:Q.
  - cbn [orb app]. cbn [unquote_inner]. change (92 =? 92) with true. cbv iota. rewrite Q. now rewrite IH.
  - replace (c =? 13) with false by lia. replace (c =? 92) with false by lia. cbn [orb app unquote_inner]. replace (c =? 92) with false by lia. rewrite Q. now rewrite IH.
Qed.
Lemma quote_unquote s : s <> [] -> Forall good s -> Forall (fun c => c <> 92 /\ c <> 13) s -> zlen s < 2^31 - 1 -> exists t, header_value_quote s 34 34 = Ok (Some t) /\ unquote t = s.
Proof.
  intros N G P L. destruct (quote_ok s N G L) as (t & E & [ (_ & ->) | (Q & ->) ]); eexists; (split; [ exact E | ]).
  - unfold unquote. cbn [app len unquote_loop]. change (34 =? 34) with true. cbn [orb]. cbv iota. rewrite (unquote_body s P). rewrite app_length. cbn [len]. rewrite Nat.add_comm. cbn. apply app_nil_r.
  - apply unquote_plain. apply needs_none in Q. rewrite Forall_forall in *. intros c I. specialize (Q c I). split; intros ->; discriminate.
Qed.
Lemma quote_overflow s ds de : Forall good s -> 2^31 - 1 <= zlen s < 2^32 - 4 -> header_value_quote s ds de = Ub.
Proof.
  intros G L. unfold header_value_quote. replace (zlen s =? 0) with false by lia. replace (u32 (zlen s * 2 + 2 + 1)) with (zlen s * 2 + 3 - 2^32) by (unfold u32; change (2^31) with 2147483648 in *; change (2^32) with 4294967296 in *; lia).
  cbv zeta. replace (forallb quotable s) with true by (symmetry; apply (forallb_Forall quotable good); [ apply quotable_iff | exact G ]). cbn [negb]. pose proof (quote_len ds de s) as QL.
  destruct (existsb needs_quote s); [ | replace (zlen s * 2 + 3 - 2 ^ 32 + 1 <? zlen s) with true by lia; reflexivity ].
  set (t := [ds] ++ concat (map (quote_char ds de) s) ++ [de]). assert (TL : zlen s + 2 <= zlen t) by (unfold t; rewrite !zlen_app; change (zlen [ds]) with 1; change (zlen [de]) with 1; lia).
  replace (zlen s * 2 + 3 - 2 ^ 32 + 1 <? zlen t) with true by lia. reflexivity.
Qed.

(** ** Searching *)
Lemma lower_colon c : lower c = lower 58 -> c = 58.
Proof. unfold lower. change ((65 <=? 58) && (58 <=? 90)) with false. cbv iota. destruct ((65 <=? c) && (c <=? 90)) eqn:Q; lia. Qed.
Lemma lower_slash c : lower c = lower 47 -> c = 47.
Proof. unfold lower. change ((65 <=? 47) && (47 <=? 90)) with false. cbv iota. destruct ((65 <=? c) && (c <=? 90)) eqn:Q; lia. Qed.
Definition sep : list Z := str_bytes "://".
Lemma search_found w r p : ~ In 58 w -> search sep p (w ++ sep ++ r) = Some (p + zlen w, 3).
Proof.
  revert p. induction w as [ | c w IH ]; intros p N.
  - rewrite zlen_nil, Z.add_0_r. destruct r; reflexivity.
  - cbn [app search]. cbv zeta. replace (common_prefix (c :: w ++ sep ++ r) sep) with 0.
    + change (0 =? 0) with true. cbv iota. rewrite IH by (cbn in N; tauto). rewrite zlen_cons. now replace (p + 1 + zlen w) with (p + (1 + zlen w)) by lia.
    + change sep with (58 :: [47; 47]) at 2. cbn [common_prefix]. replace (lower c =? lower 58) with false; [ reflexivity | ]. symmetry. apply Z.eqb_neq. intros E. apply lower_colon in E. apply N. now left.
Qed.
Lemma search_after needle l p q k : search needle p l = Some (q, k) -> p <= q.
Proof.
  assert (G : forall n l p, (len l <= n)%nat -> search needle p l = Some (q, k) -> p <= q).
  { clear. induction n as [ | n IH ]; intros l p H; [ destruct l; [ discriminate | cbn in H; lia ] | ]. destruct l as [ | c r ]; [ discriminate | ]. cbn [search].
    destruct (_ =? 0); [ intros E; apply IH in E; [ lia | cbn in H; lia ] | ]. destruct (_ || _); [ intros [= <- _]; lia | ]. destruct r as [ | d r ]; [ discriminate | ]. intros E. apply IH in E; [ lia | cbn in H; lia ]. }
  apply (G (len l)). lia.
Qed.
(** A text which starts with something else than a slash has no empty protocol *)
Lemma not_first c r : c <> 47 -> match strcasestr (c :: r) (str_bytes "//") with Some (p, _) => p =? 0 | None => false end = false.
Proof.
  intros N. unfold strcasestr. destruct (_ <? _); [ reflexivity | ]. destruct (search _ 0 (c :: r)) as [ (p & k) | ] eqn:E; [ | reflexivity ]. cbn [search] in E. change (str_bytes "//") with [47; 47] in E. cbn [common_prefix] in E.
  replace (lower c =? lower 47) with false in E by (symmetry; apply Z.eqb_neq; intros Q; apply lower_slash in Q; lia). change (0 =? 0) with true in E. cbv iota in E. apply search_after in E. lia.
Qed.
Lemma search_eq needle p c r : search needle p (c :: r) =
  if common_prefix (c :: r) needle =? 0 then search needle (p + 1) r
  else if (common_prefix (c :: r) needle =? zlen needle) || (common_prefix (c :: r) needle =? zlen (c :: r)) then Some (p, common_prefix (c :: r) needle)
  else match r with _ :: r' => search needle (p + 2) r' | [] => None end.
Proof. reflexivity. Qed.
Definition ends (l e : list Z) : Prop := exists a, l = a ++ e.
Lemma search_none l p : ~ contains sep l -> ~ ends l [58] -> ~ ends l [58; 47] -> search sep p l = None.
Proof.
  assert (G : forall n l p, (len l <= n)%nat -> ~ contains sep l -> ~ ends l [58] -> ~ ends l [58; 47] -> search sep p l = None).
  { clear. induction n as [ | n IH ]; intros l p H N1 N2 N3; [ destruct l; [ reflexivity | cbn in H; lia ] | ]. destruct l as [ | c r ]; [ reflexivity | ].
    assert (M1 : ~ contains sep r) by (intros (a & b & E); apply N1; exists (c :: a), b; now rewrite E).
    assert (M2 : ~ ends r [58]) by (intros (a & E); apply N2; exists (c :: a); now rewrite E). assert (M3 : ~ ends r [58; 47]) by (intros (a & E); apply N3; exists (c :: a); now rewrite E).
    destruct (lower c =? lower 58) eqn:Q1.
    2: { assert (K : common_prefix (c :: r) sep = 0) by (change sep with [58; 47; 47]; cbn [common_prefix]; now rewrite Q1). rewrite search_eq, K. change (0 =? 0) with true. cbv iota. apply IH; auto; cbn in H; lia. }
    apply Z.eqb_eq, lower_colon in Q1. subst c. destruct r as [ | d r ]; [ exfalso; apply N2; now exists [] | ].
    assert (O1 : ~ contains sep r) by (intros (a & b & E); apply M1; exists (d :: a), b; now rewrite E).
    assert (O2 : ~ ends r [58]) by (intros (a & E); apply M2; exists (d :: a); now rewrite E). assert (O3 : ~ ends r [58; 47]) by (intros (a & E); apply M3; exists (d :: a); now rewrite E).
    destruct (lower d =? lower 47) eqn:Q2.
    - apply Z.eqb_eq, lower_slash in Q2. subst d. destruct r as [ | e r ]; [ exfalso; apply N3; now exists [] | ]. destruct (lower e =? lower 47) eqn:Q3.
      + apply Z.eqb_eq, lower_slash in Q3. subst e. exfalso. apply N1. now exists [], r.
      + assert (K : common_prefix (58 :: 47 :: e :: r) sep = 2) by (change sep with [58; 47; 47]; cbn [common_prefix]; rewrite Q3; reflexivity). rewrite search_eq, K. change (2 =? 0) with false. change (2 =? zlen sep) with false. cbn [orb]. cbv iota.
        rewrite !zlen_cons. pose proof (zlen_nonneg _ r). replace (2 =? 1 + (1 + (1 + zlen r))) with false by lia. apply (IH (e :: r)); auto. cbn [len] in H |- *. lia.
    - assert (K : common_prefix (58 :: d :: r) sep = 1) by (change sep with [58; 47; 47]; cbn [common_prefix]; rewrite Q2; reflexivity). rewrite search_eq, K. change (1 =? 0) with false. change (1 =? zlen sep) with false. cbn [orb]. cbv iota.
      rewrite !zlen_cons. pose proof (zlen_nonneg _ r). replace (1 =? 1 + (1 + zlen r)) with false by lia. apply IH; auto. cbn [len] in H. lia. }
  apply (G (len l)). lia.
Qed.
Lemma no_slash l p : ~ In 47 l -> search (str_bytes "//") p l = None.
Proof.
  revert p. induction l as [ | c l IH ]; intros p N; [ reflexivity | ]. cbn [search]. change (str_bytes "//") with [47; 47] at 1. cbn [common_prefix].
  replace (lower c =? lower 47) with false by (symmetry; apply Z.eqb_neq; intros Q; apply lower_slash in Q; apply N; now left). change (0 =? 0) with true. cbv iota. apply IH. cbn in N. tauto.
Qed.

(** ** Protocols *)
Definition small_letter (c : Z) : Prop := 97 <= c <= 122.
Lemma prefix_spelled w t r v : spelled w t -> Forall small_letter w -> common_prefix (t ++ r) (w ++ v) = zlen w + common_prefix r v.
Proof.
  induction 1 as [ | a b w t H _ IH ]; intros F; [ reflexivity | ]. inversion F as [ | ? ? F1 F2 ]; subst. unfold small_letter in F1. cbn [app common_prefix].
  replace (lower b =? lower a) with true; [ rewrite IH by exact F2; rewrite zlen_cons; lia | ]. symmetry. apply Z.eqb_eq. unfold lower. destruct ((65 <=? b) && (b <=? 90)) eqn:Q1, ((65 <=? a) && (a <=? 90)) eqn:Q2; lia.
Qed.
Lemma spelled_letter w t : spelled w t -> Forall small_letter w -> Forall letter t.
Proof. induction 1 as [ | a b w t H _ IH ]; intros F; inversion F as [ | ? ? F1 F2 ]; subst; constructor; auto. unfold small_letter, letter in *. lia. Qed.
Lemma letters_str w : Forall small_letter w -> ~ In 58 w /\ ~ In 47 w.
Proof. rewrite Forall_forall. intros H. split; intros I; apply H in I; unfold small_letter in I; lia. Qed.
Ltac sml := repeat (apply Forall_cons; [ unfold small_letter; lia | ]); apply Forall_nil.
Lemma protocol_ok w t r : spelled w t -> w = str_bytes "http" \/ w = str_bytes "https" \/ w = str_bytes "ws" -> protocol (t ++ sep ++ r) = Some (Some w, r).
Proof.
  intros S W. assert (SM : Forall small_letter w) by (destruct W as [ -> | [ -> | -> ] ]; cbn; sml). pose proof (spelled_letter w t S SM) as LT.
  assert (NC : ~ In 58 t) by (rewrite Forall_forall in LT; intros I; apply LT in I; unfold letter in I; lia).
  assert (WL : 0 < zlen w) by (destruct W as [ -> | [ -> | -> ] ]; reflexivity). assert (TL : zlen t = zlen w) by (clear - S; induction S; [ reflexivity | rewrite !zlen_cons; lia ]).
  unfold protocol. assert (NF : match strcasestr (t ++ sep ++ r) (str_bytes "//") with Some (p, _) => p =? 0 | None => false end = false).
  { destruct t as [ | c t ]; [ rewrite zlen_nil in TL; lia | ]. inversion LT; subst. cbn [app]. apply not_first. unfold letter in *. lia. }
  rewrite NF. unfold strcasestr. fold sep. pose proof (zlen_nonneg _ r). replace (zlen (t ++ sep ++ r) <? zlen sep) with false by (rewrite !zlen_app; change (zlen sep) with 3; lia). rewrite search_found by exact NC.
  replace (0 + zlen t <=? 0) with false by lia. replace (skipn (Z.to_nat (0 + zlen t + 3)) (t ++ sep ++ r)) with r.
  2: { rewrite app_assoc. symmetry. replace (Z.to_nat (0 + zlen t + 3)) with (len (t ++ sep)) by (rewrite app_length; change (len sep) with 3%nat; unfold zlen; lia). rewrite skipn_app, Nat.sub_diag, skipn_all. reflexivity. }
  unfold starts_with. destruct W as [ -> | [ -> | -> ] ].
  - assert (P1 : common_prefix (t ++ sep ++ r) (str_bytes "http" ++ [115]) = 4) by (rewrite (prefix_spelled _ _ _ _ S SM); reflexivity). change (str_bytes "http" ++ [115]) with (str_bytes "https") in P1.
    assert (P2 : common_prefix (t ++ sep ++ r) (str_bytes "http" ++ []) = 4) by (rewrite (prefix_spelled _ _ _ _ S SM); reflexivity). change (str_bytes "http" ++ []) with (str_bytes "http") in P2. rewrite P1, P2. reflexivity.
  - assert (P1 : common_prefix (t ++ sep ++ r) (str_bytes "https" ++ []) = 5) by (rewrite (prefix_spelled _ _ _ _ S SM); reflexivity). change (str_bytes "https" ++ []) with (str_bytes "https") in P1. rewrite P1. reflexivity.
  - assert (ST : exists a b, t = a :: b /\ (a = 119 \/ a = 87)) by (inversion S as [ | x y ? ? HY ]; subst; do 2 eexists; split; [ reflexivity | lia ]). destruct ST as (a & b & -> & A). cbn [app].
    assert (Z0 : forall v, common_prefix (a :: b ++ sep ++ r) (104 :: v) = 0) by (intros v; cbn [common_prefix]; destruct A as [ -> | -> ]; reflexivity).
    change (str_bytes "https") with (104 :: str_bytes "ttps"). change (str_bytes "http") with (104 :: str_bytes "ttp"). rewrite !Z0. change (0 =? zlen (104 :: str_bytes "ttps")) with false. change (0 =? zlen (104 :: str_bytes "ttp")) with false. cbv iota.
    change (a :: b ++ sep ++ r) with ((a :: b) ++ sep ++ r). assert (P1 : common_prefix ((a :: b) ++ sep ++ r) (str_bytes "ws" ++ []) = 2) by (rewrite (prefix_spelled _ _ _ _ S SM); reflexivity). change (str_bytes "ws" ++ []) with (str_bytes "ws") in P1. rewrite P1. reflexivity.
Qed.

(** ** Hosts and ports *)
Definition stops (slash : bool) (rest : list Z) : Prop := match rest with [] => True | c :: _ => slash = true /\ c = 47 \/ c = 58 end.
Lemma host_loop_ok slash h rest n : Forall host_char h -> (match h with 45 :: _ => 0 < n | _ => True end) -> 0 <= n -> stops slash rest -> host_loop slash n (h ++ rest) = Some (h, rest).
Proof.
  intros F. revert n. induction F as [ | c h HC _ IH ]; intros n HN N0 ST.
  - cbn [app]. destruct rest as [ | c r ]; [ reflexivity | ]. cbn [host_loop stops] in *. assert (C : c = 47 \/ c = 58) by tauto. replace (is_alnum c || (c =? 46)) with false by (unfold is_alnum; lia). replace (c =? 45) with false by lia.
    replace (slash && (c =? 47) || (c =? 58)) with true by (destruct ST as [ (-> & ->) | -> ]; [ reflexivity | now rewrite orb_true_r ]). reflexivity.
  - cbn [app host_loop]. assert (IH' : host_loop slash (n + 1) (h ++ rest) = Some (h, rest)).
    { apply IH; [ | lia | exact ST ]. destruct h as [ | x h ]; [ exact I | ]. destruct (Z.eq_dec x 45) as [ EQ | NE ]; [ subst; lia | ]. destruct x as [ | p | p ]; auto. do 6 (destruct p as [ p | p | ]; auto). lia. }
    destruct (is_alnum c || (c =? 46)) eqn:A; [ now rewrite IH' | ]. assert (c = 45).
    { unfold host_char in HC. rewrite <- alnum_iff in HC || idtac. apply orb_false_iff in A as (A1 & A2). destruct HC as [ HC | [ HC | [ HC | HC ] ] ]; [ exfalso | exfalso | lia | exact HC ]; (assert (is_alnum c = true) by (apply alnum_iff; tauto); congruence). }
    subst c. change (45 =? 45) with true. cbv iota. replace (n =? 0) with false by lia. now rewrite IH'.
Qed.
Lemma host_loop_host slash h rest : host h -> stops slash rest -> host_loop slash 0 (h ++ rest) = Some (h, rest).
Proof.
  intros (c & r & -> & F & N) ST. apply host_loop_ok; [ exact F | | lia | exact ST ]. destruct c as [ | p | p ]; auto. do 6 (destruct p as [ p | p | ]; auto). lia.
Qed.
Lemma digits_ok ds rest : Forall digit ds -> (match rest with c :: _ => ~ digit c | [] => True end) -> digits 10 (ds ++ rest) = ds.
Proof.
  induction 1 as [ | c ds D _ IH ]; intros R.
  - destruct rest as [ | c r ]; [ reflexivity | ]. cbn [app digits]. unfold is_digit. change (10 =? 10) with true. cbv iota. unfold digit in R. replace ((48 <=? c) && (c <=? 57)) with false by lia. reflexivity.
  - cbn [app digits]. unfold is_digit. change (10 =? 10) with true. cbv iota. unfold digit in D. replace ((48 <=? c) && (c <=? 57)) with true by lia. now rewrite IH.
Qed.
Lemma decimal_same ds : Forall digit ds -> forall a, fold_left (fun a c => a * 10 + digit_value c) ds a = fold_left (fun a c => 10 * a + (c - 48)) ds a.
Proof. induction 1 as [ | c ds D _ IH ]; intros a; [ reflexivity | ]. cbn [fold_left]. rewrite IH. unfold digit in D. unfold digit_value. replace (c <=? 57) with true by lia. f_equal. lia. Qed.
Lemma decimal_nonneg ds : Forall digit ds -> forall a, 0 <= a -> 0 <= fold_left (fun a c => 10 * a + (c - 48)) ds a.
Proof. induction 1 as [ | c ds D _ IH ]; intros a A; [ exact A | ]. cbn [fold_left]. apply IH. unfold digit in D. lia. Qed.
Definition port (ds : list Z) : Prop := Forall digit ds /\ 0 < zlen ds <= 63 /\ 1 <= decimal ds <= 65535.
Lemma port_ok ds rest : port ds -> (match rest with c :: _ => ~ digit c | [] => True end) -> strtoull_raw 10 (ds ++ rest) = Some (decimal ds, zlen ds).
Proof.
  intros (F & L & V) R. unfold strtoull_raw. rewrite (digits_ok ds rest F R). cbv zeta. replace ((zlen ds =? 0) || (63 <? zlen ds)) with false by lia. unfold strtoull. rewrite (decimal_same ds F). fold (decimal ds). rewrite Z.min_r by lia. reflexivity.
Qed.
Definition port_text (p : option (list Z)) : list Z := match p with Some ds => 58 :: ds | None => [] end.
Lemma path_starts e : path e -> match e with c :: _ => ~ digit c | [] => True end.
Proof. intros [ -> | (r & -> & _) ]; [ exact I | unfold digit; lia ]. Qed.
Lemma zlen_pos {A} (c : A) l : zlen (c :: l) <> 0.
Proof. rewrite zlen_cons. pose proof (zlen_nonneg _ l). lia. Qed.
Lemma skip_len {A} (a b : list A) : skipn (Z.to_nat (zlen a)) (a ++ b) = b.
Proof. unfold zlen. rewrite Nat2Z.id, skipn_app, skipn_all, Nat.sub_diag. reflexivity. Qed.
Lemma hostname_ok after w h p e : host h -> (match p with Some ds => port ds | None => True end) -> path e ->
  (p = None -> e = [] -> exists c a, after = c :: a /\ c <> 58) ->
  hostname_and_port after true false (mk_uri w None 0 None) (h ++ port_text p ++ e) =
    Ok (Some (mk_uri w (Some h) (match p with Some ds => decimal ds | None => 0 end) None, e)).
Proof.
  intros H P E A. unfold hostname_and_port. assert (HH := H). destruct HH as (c & r & EH & _ & _). replace (zlen (h ++ port_text p ++ e) =? 0) with false by (rewrite EH; cbn [app]; symmetry; apply Z.eqb_neq, zlen_pos).
  rewrite (host_loop_host true h (port_text p ++ e) H).
  2: { destruct p as [ ds | ]; [ cbn; tauto | ]. cbn [port_text app]. destruct E as [ -> | (r' & -> & _) ]; cbn; tauto. }
  cbn [u_protocol u_host u_port u_endpoint]. assert (HM : match h with [] => None | _ => Some h end = Some h) by (rewrite EH; reflexivity).
  destruct p as [ ds | ].
  - cbn [port_text app]. change (58 =? 58) with true. cbv iota. rewrite (port_ok ds e P (path_starts e E)). destruct P as (_ & _ & PV). replace ((decimal ds <? 1) || (65535 <? decimal ds)) with false by lia. rewrite skip_len, HM. reflexivity.
  - cbn [port_text app]. destruct E as [ -> | (r' & -> & _) ].
    + destruct (A eq_refl eq_refl) as (x & a & -> & NX). replace (x =? 58) with false by lia. rewrite HM. reflexivity.
    + change (47 =? 58) with false. cbv iota. rewrite HM. reflexivity.
Qed.

(** ** Characters *)
Lemma path_octet c : path_char c -> uri_octet c = true /\ endpoint_octet c = true.
Proof.
  unfold path_char, uri_octet, endpoint_octet. intros H. destruct (is_alnum c) eqn:A; [ auto | ]. assert (I : In c (str_bytes "-._~!$&'*+,;=:@%/?#")) by (destruct H as [ H | [ H | H ] ]; [ exfalso | exfalso | exact H ]; (assert (is_alnum c = true) by (apply alnum_iff; tauto); congruence)).
  clear H A. cbn [str_bytes] in I. cbn in I. repeat (destruct I as [ <- | I ]; [ split; reflexivity | ]). destruct I.
Qed.
Lemma letter_octet c : letter c -> uri_octet c = true.
Proof. intros H. unfold uri_octet. replace (is_alnum c) with true; [ reflexivity | ]. symmetry. apply alnum_iff. auto. Qed.
Lemma digit_octet c : digit c -> uri_octet c = true.
Proof. intros H. unfold uri_octet. replace (is_alnum c) with true; [ reflexivity | ]. symmetry. apply alnum_iff. auto. Qed.
Lemma host_octet c : host_char c -> uri_octet c = true.
Proof. intros [ H | [ H | [ -> | -> ] ] ]; [ now apply letter_octet | now apply digit_octet | reflexivity | reflexivity ]. Qed.
Lemma fa {A} (f : A -> bool) (P : A -> Prop) l : (forall x, P x -> f x = true) -> Forall P l -> forallb f l = true.
Proof. intros H F. apply forallb_forall. rewrite Forall_forall in F. auto. Qed.
Lemma path_octets e : path e -> forallb uri_octet e = true /\ forallb endpoint_octet e = true.
Proof. intros [ -> | (r & -> & F) ]; [ auto | ]. cbn [forallb]. split; (apply andb_true_iff; split; [ reflexivity | ]); eapply fa; try exact F; intros x X; now apply path_octet. Qed.

Definition default_of (w : list Z) : Z := match w with [104; 116; 116; 112; 115] => 443 | _ => 80 end.
Lemma uri_ok after w t h p e : w = str_bytes "http" \/ w = str_bytes "https" \/ w = str_bytes "ws" -> spelled w t -> host h -> (match p with Some ds => port ds | None => True end) -> path e ->
  zlen (t ++ sep ++ h ++ port_text p ++ e) < 2^32 -> (p = None -> e = [] -> exists c a, after = c :: a /\ c <> 58) ->
  uri_parse after (t ++ sep ++ h ++ port_text p ++ e) = Ok (Some (mk_uri (Some w) (Some h) (match p with Some ds => decimal ds | None => default_of w end) (Some e))).
Proof.
  intros W S H P E L A. assert (SM : Forall small_letter w) by (destruct W as [ -> | [ -> | -> ] ]; cbn; sml). pose proof (spelled_letter w t S SM) as LT.
  unfold uri_parse, parse_final. assert (NZ : zlen (t ++ sep ++ h ++ port_text p ++ e) <> 0) by (pose proof (zlen_nonneg _ t); pose proof (zlen_nonneg _ (h ++ port_text p ++ e)); rewrite zlen_app, (zlen_app _ sep); change (zlen sep) with 3; lia).
  replace (zlen (t ++ sep ++ h ++ port_text p ++ e) =? 0) with false by lia.
  assert (V : forallb uri_octet (t ++ sep ++ h ++ port_text p ++ e) = true).
  { rewrite !forallb_app, !andb_true_iff. destruct H as (c & r & -> & FH & _). repeat split.
    - eapply fa; [ apply letter_octet | exact LT ].
    - eapply fa; [ apply host_octet | exact FH ].
    - destruct p as [ ds | ]; [ | reflexivity ]. cbn [port_text forallb]. destruct P as (PF & _). apply andb_true_iff. split; [ reflexivity | ]. eapply fa; [ apply digit_octet | exact PF ].
    - now apply path_octets. }
  rewrite V. cbn [negb]. unfold uri_parse_callback. replace (2^32 - 1 <? zlen (t ++ sep ++ h ++ port_text p ++ e)) with false by lia. rewrite (protocol_ok w t _ S W). cbv zeta.
  rewrite (hostname_ok after (Some w) h p e H P E A). destruct (path_octets e E) as (_ & ->). cbn [u_protocol u_host u_port]. unfold default_port. cbn [u_protocol u_host u_port u_endpoint].
  destruct p as [ ds | ].
  - destruct P as (_ & _ & PV). replace (decimal ds =? 0) with false by lia. reflexivity.
  - destruct W as [ -> | [ -> | -> ] ]; reflexivity.
Qed.
Lemma relative_ok after l : l <> [] -> Forall path_char l -> zlen l < 2^32 -> ~ contains sep l -> ~ ends l [58] -> ~ ends l [58; 47] -> (forall r, l <> 47 :: 47 :: r) ->
  uri_parse after l = Ok (Some (mk_uri None None 0 (Some l))).
Proof.
  intros N F L N1 N2 N3 N4. unfold uri_parse, parse_final. pose proof (zlen_nonneg _ l). assert (zlen l <> 0) by (intros E; apply zlen_0 in E; congruence). replace (zlen l =? 0) with false by lia.
  replace (forallb uri_octet l) with true by (symmetry; eapply fa; [ | exact F ]; intros c C; now apply path_octet). cbn [negb]. unfold uri_parse_callback. replace (2^32 - 1 <? zlen l) with false by lia.
  unfold protocol. assert (NF : match strcasestr l (str_bytes "//") with Some (p, _) => p =? 0 | None => false end = false).
  { destruct l as [ | c r ]; [ congruence | ]. destruct (Z.eq_dec c 47) as [ EQ | NE ]; [ | now apply not_first ]. subst c. unfold strcasestr. destruct (_ <? _) eqn:Q; [ reflexivity | ]. destruct r as [ | d r ]; [ discriminate | ]. destruct (lower d =? lower 47) eqn:Q2; [ apply Z.eqb_eq, lower_slash in Q2; subst; specialize (N4 r); congruence | ].
    assert (K : common_prefix (47 :: d :: r) (str_bytes "//") = 1) by (change (str_bytes "//") with [47; 47]; cbn [common_prefix]; rewrite Q2; reflexivity). rewrite search_eq, K. change (1 =? 0) with false. change (1 =? zlen (str_bytes "//")) with false. cbn [orb]. cbv iota.
    rewrite !zlen_cons. pose proof (zlen_nonneg _ r). replace (1 =? 1 + (1 + zlen r)) with false by lia.
    destruct (search (str_bytes "//") (0 + 2) r) as [ (p & k) | ] eqn:E; [ apply search_after in E; apply Z.eqb_neq; lia | reflexivity ]. }
  rewrite NF. unfold strcasestr. fold sep. rewrite search_none by assumption. replace (if zlen l <? zlen sep then None else None) with (@None (Z * Z)) by (destruct (_ <? _); reflexivity).
  replace (forallb endpoint_octet l) with true by (symmetry; eapply fa; [ | exact F ]; intros c C; now apply path_octet). reflexivity.
Qed.
Lemma hostname_total c a slash force u l : c <> 58 -> exists r, hostname_and_port (c :: a) slash force u l = Ok r.
Proof.
  intros N. unfold hostname_and_port. destruct (_ =? 0); [ eauto | ]. destruct (host_loop slash 0 l) as [ (h & [ | x r ]) | ]; [ | | eauto ].
  - replace (c =? 58) with false by lia. destruct force; eauto.
  - destruct (x =? 58); [ | destruct force; eauto ]. destruct (strtoull_raw 10 r) as [ (p & n) | ]; [ | eauto ]. destruct (_ || _); eauto.
Qed.
Lemma uri_total c a l : l <> [] -> c <> 58 -> (exists r, uri_parse (c :: a) l = Ok r) /\ (exists r, uri_host_parse (c :: a) l = Ok r).
Proof.
  intros NL N. pose proof (zlen_nonneg _ l). assert (zlen l <> 0) by (intros E; apply zlen_0 in E; congruence). unfold uri_parse, uri_host_parse, parse_final. replace (zlen l =? 0) with false by lia. destruct (forallb uri_octet l); cbn [negb]; [ | eauto ]. split.
  - unfold uri_parse_callback. destruct (_ <? _); [ eauto | ]. destruct (protocol l) as [ (proto & rest) | ]; [ | eauto ]. cbv zeta. destruct proto as [ w | ].
    + destruct (hostname_total c a true false (mk_uri (Some w) None 0 None) rest N) as (r & ->). destruct r as [ (u & e) | ]; [ | eauto ]. destruct (forallb endpoint_octet e); eauto.
    + destruct (forallb endpoint_octet rest); eauto.
  - unfold uri_host_parse_callback. destruct (_ <? _); [ eauto | ]. destruct (strcasestr l (str_bytes "://")), (strcasestr l (str_bytes "//")); eauto.
    destruct (hostname_total c a false true no_uri l N) as (r & ->). destruct r as [ (u & e) | ]; [ | eauto ]. destruct (u_port u =? 0); [ eauto | ]. destruct (zlen e =? 0); eauto.
Qed.
Lemma host_port_ok after h ds : h = [] \/ host h -> port ds -> zlen (h ++ 58 :: ds) < 2^32 ->
  uri_host_parse after (h ++ 58 :: ds) = Ok (Some (mk_uri None (match h with [] => None | _ => Some h end) (decimal ds) None)).
Proof.
  intros H P L. unfold uri_host_parse, parse_final. assert (PP := P). destruct PP as (PF & PL & PV). assert (NZ : zlen (h ++ 58 :: ds) <> 0) by (pose proof (zlen_nonneg _ h); rewrite zlen_app, zlen_cons; lia).
  replace (zlen (h ++ 58 :: ds) =? 0) with false by lia. assert (FH : Forall host_char h) by (destruct H as [ -> | (c & r & -> & F & _) ]; [ constructor | exact F ]).
  replace (forallb uri_octet (h ++ 58 :: ds)) with true.
  2: { symmetry. rewrite forallb_app. cbn [forallb]. apply andb_true_iff. split; [ eapply fa; [ apply host_octet | exact FH ] | ]. apply andb_true_iff. split; [ reflexivity | ]. eapply fa; [ apply digit_octet | exact PF ]. }
  cbn [negb]. unfold uri_host_parse_callback. replace (2^32 - 1 <? zlen (h ++ 58 :: ds)) with false by lia.
  assert (NS : ~ In 47 (h ++ 58 :: ds)).
  { rewrite in_app_iff. cbn [In]. rewrite Forall_forall in FH, PF. intros [ I | [ I | I ] ]; [ apply FH in I; unfold host_char, letter, digit in I; lia | lia | apply PF in I; unfold digit in I; lia ]. }
  assert (E1 : strcasestr (h ++ 58 :: ds) (str_bytes "://") = None).
  { unfold strcasestr. destruct (_ <? _); [ reflexivity | ]. apply search_none.
    - intros (a & b & E). apply NS. rewrite E, !in_app_iff. right. left. cbn. tauto.
    - intros (a & E). destruct ds as [ | d ds ] using rev_ind; [ rewrite zlen_nil in PL; lia | ]. change (58 :: ds ++ [d]) with ((58 :: ds) ++ [d]) in E. rewrite app_assoc in E. apply app_inj_tail in E as (_ & ->). apply Forall_app in PF as (_ & PF). inversion PF; subst. unfold digit in *. lia.
    - intros (a & E). apply NS. rewrite E, in_app_iff. right. cbn. tauto. }
  rewrite E1. unfold strcasestr. rewrite no_slash by exact NS. replace (if zlen (h ++ 58 :: ds) <? zlen (str_bytes "//") then None else None) with (@None (Z * Z)) by (destruct (_ <? _); reflexivity).
  unfold hostname_and_port. replace (zlen (h ++ 58 :: ds) =? 0) with false by lia.
  assert (HL : host_loop false 0 (h ++ 58 :: ds) = Some (h, 58 :: ds)) by (destruct H as [ -> | H ]; [ reflexivity | apply host_loop_host; [ exact H | cbn; tauto ] ]). rewrite HL.
  change (58 =? 58) with true. cbv iota. rewrite <- (app_nil_r ds) at 1. rewrite (port_ok ds [] P I). replace ((decimal ds <? 1) || (65535 <? decimal ds)) with false by lia. cbn [u_protocol u_host u_port u_endpoint no_uri].
  replace (decimal ds =? 0) with false by lia. rewrite <- (app_nil_r ds) at 2. rewrite skip_len. change (zlen (@nil Z) =? 0) with true. cbv iota. unfold default_port. cbn [u_protocol]. reflexivity.
Qed.
Lemma last_any (l : list Z) a b : l <> [] -> last l a = last l b.
Proof. induction l as [ | c l IH ]; [ congruence | ]. intros _. destruct l as [ | d l ]; [ reflexivity | ]. change (last (d :: l) a = last (d :: l) b). apply IH. discriminate. Qed.
Lemma prepend_ok before u prefix e : prefix <> [] -> u_endpoint u = Some e ->
  endpoint_prepend before u prefix = Ok (mk_uri (u_protocol u) (u_host u) (u_port u) (Some
    match prefix, e with
    | _, 47 :: r => if last prefix 0 =? 47 then prefix ++ r else prefix ++ e
    | _, _ => if last prefix 0 =? 47 then prefix ++ e else prefix ++ str_bytes "/" ++ e
    end)).
Proof.
  intros N E. unfold endpoint_prepend. rewrite E. cbv zeta. rewrite (last_any prefix before 0 N). destruct e as [ | c r ].
  - destruct (last prefix 0 =? 47); destruct prefix; congruence || reflexivity.
  - destruct (Z.eq_dec c 47) as [ EQ | NE ].
    + subst c. change (47 =? 47) with true. cbv iota. destruct (last prefix 0 =? 47) eqn:Q; [ | destruct prefix; [ congruence | reflexivity ] ]. destruct prefix as [ | x p ]; [ congruence | ].
      apply Z.eqb_eq in Q. pose proof (app_removelast_last 0 N) as X. rewrite Q in X.
      assert (Y : removelast (x :: p) ++ 47 :: r = (x :: p) ++ r) by (transitivity ((removelast (x :: p) ++ [47]) ++ r); [ now rewrite <- app_assoc | now rewrite <- X ]). now rewrite Y.
    + replace (c =? 47) with false by lia. assert (G : forall (X Y : list Z), match c :: r with 47 :: _ => X | _ => Y end = Y).
      { intros X Y. destruct c as [ | p | p ]; auto. do 6 (destruct p as [ p | p | ]; auto). lia. }
      destruct (last prefix 0 =? 47); destruct prefix as [ | x p ]; try congruence; do 3 f_equal; (destruct c as [ | q | q ]; auto; do 6 (destruct q as [ q | q | ]; auto); lia).
Qed.
Lemma query_loop_total fuel : forall s l, exists r, query_loop fuel s l = Ok r.
Proof.
  induction fuel as [ | fuel IH ]; intros s l; [ destruct l; cbn [query_loop]; eauto | ]. destruct l as [ | c r ]; [ cbn [query_loop]; eauto | ]. cbn [query_loop]. cbv zeta.
  destruct (c =? 43); [ destruct r; [ eauto | destruct (is_space c); eauto ] | ].
  destruct (c =? 37). { destruct r as [ | a [ | b r' ] ]; [ eauto | eauto | ]. pose proof (strtoull_two a b) as T. destruct (strtoull_raw 16 [a; b]) as [ (n0 & k) | ]; [ | eauto ]. replace (255 <? n0) with false by lia. destruct (_ || _); eauto. }
  destruct (c =? 61); [ destruct (q_value s); [ eauto | destruct r; [ eauto | destruct (is_space c); eauto ] ] | ].
  destruct (c =? 38); (destruct r; [ eauto | destruct (is_space c); eauto ]).
Qed.
Lemma query_total t : exists r, query_parse t = Ok r.
Proof. unfold query_parse. cbv zeta. destruct (_ <? _); [ eauto | apply query_loop_total ]. Qed.

(** *** Hosts, protocols, comments *)
Lemma host_loop_legal slash l : forall n h t, 0 <= n -> host_loop slash n l = Some (h, t) -> Forall host_char h /\ (n = 0 -> match h with c :: _ => c <> 45 | [] => True end).
Proof.
  induction l as [ | c l IH ]; intros n h t N; cbn [host_loop].
  - intros [= <- <-]. split; [ constructor | auto ].
  - destruct (is_alnum c || (c =? 46)) eqn:A.
    + destruct (host_loop slash (n + 1) l) as [ [ h' t' ] | ] eqn:E; [ | discriminate ]. intros [= <- <-]. destruct (IH (n + 1) h' t' ltac:(lia) E) as (F & _).
      split.
      * constructor; [ | exact F ]. unfold host_char. apply orb_true_iff in A as [ A | A ]; [ apply alnum_iff in A; tauto | right; right; left; lia ].
      * intros _. intros ->. discriminate.
    + destruct (Z.eqb_spec c 45) as [ -> | NC ].
      * destruct (Z.eqb_spec n 0); [ discriminate | ]. destruct (host_loop slash (n + 1) l) as [ [ h' t' ] | ] eqn:E; [ | discriminate ]. intros [= <- <-]. destruct (IH (n + 1) h' t' ltac:(lia) E) as (F & _).
        split; [ constructor; [ unfold host_char; tauto | exact F ] | lia ].
      * destruct ((slash && (c =? 47)) || (c =? 58)); [ | discriminate ]. intros [= <- <-]. split; [ constructor | auto ].
Qed.
Lemma hostname_host after slash force u l u' r : hostname_and_port after slash force u l = Ok (Some (u', r)) -> u_host u = None ->
  u_protocol u' = u_protocol u /\ (forall h, u_host u' = Some h -> host h).
Proof.
  unfold hostname_and_port. destruct (zlen l =? 0); [ discriminate | ]. destruct (host_loop slash 0 l) as [ [ h t ] | ] eqn:E; [ | discriminate ]. intros H HN.
  destruct (host_loop_legal slash l 0 h t ltac:(lia) E) as (F & N). specialize (N eq_refl).
  assert (G : forall x, (match h with [] => u_host u | _ :: _ => Some h end) = Some x -> host x).
  { intros x X. destruct h as [ | c h ]; [ congruence | ]. injection X as <-. exists c, h. auto. }
  assert (K : u_protocol u' = u_protocol u /\ u_host u' = match h with [] => u_host u | _ :: _ => Some h end).
  { destruct t as [ | c t ].
    - destruct after as [ | d after ]; [ discriminate | ]. destruct (d =? 58); [ discriminate | ]. destruct force; [ discriminate | ]. injection H as <- <-. auto.
    - destruct (c =? 58).
      + destruct (strtoull_raw 10 t) as [ [ port n ] | ]; [ | discriminate ]. destruct ((port <? 1) || (65535 <? port)); [ discriminate | ]. injection H as <- <-. auto.
      + destruct force; [ discriminate | ]. injection H as <- <-. auto. }
  destruct K as (K1 & K2). split; [ exact K1 | ]. intros x X. apply G. congruence.
Qed.
Lemma protocol_cases l p r : protocol l = Some (Some p, r) -> p = str_bytes "https" \/ p = str_bytes "http" \/ p = str_bytes "ws" \/ p = str_bytes "wss".
Proof.
  unfold protocol. cbv zeta. destruct (match strcasestr l (str_bytes "//") with Some (p, _) => p =? 0 | None => false end); [ discriminate | ].
  destruct (strcasestr l (str_bytes "://")) as [ [ q n ] | ]; [ | discriminate ]. destruct (q <=? 0); [ discriminate | ].
  repeat match goal with |- context [starts_with ?a ?b] => destruct (starts_with a b) end; intros H; try discriminate; injection H as <- _; auto.
Qed.
Lemma default_port_same u : u_protocol (default_port u) = u_protocol u /\ u_host (default_port u) = u_host u.
Proof. unfold default_port. destruct (u_protocol u) as [ p | ] eqn:E; [ | auto ]. repeat match goal with |- context [if ?b then _ else _] => destruct b end; cbn [u_protocol u_host]; auto. Qed.
Lemma uri_parse_facts after l u : uri_parse after l = Ok (Some u) -> (forall h, u_host u = Some h -> host h) /\
  (u_protocol u = None \/ exists p, u_protocol u = Some p /\ (p = str_bytes "https" \/ p = str_bytes "http" \/ p = str_bytes "ws" \/ p = str_bytes "wss")).
Proof.
  unfold uri_parse, parse_final. destruct (zlen l =? 0); [ discriminate | ]. destruct (negb (forallb uri_octet l)); [ discriminate | ].
  destruct (uri_parse_callback after l) as [ [ v | ] | | ] eqn:E; try discriminate. intros H. assert (U : u = default_port v) by congruence. destruct (default_port_same v) as (D1 & D2). rewrite U, D1, D2. clear U H D1 D2.
  unfold uri_parse_callback in E. destruct (2^32 - 1 <? zlen l); [ discriminate | ]. destruct (protocol l) as [ [ [ p | ] rest ] | ] eqn:P; [ | | discriminate ].
  - cbv zeta in E. destruct (hostname_and_port after true false (mk_uri (Some p) None 0 None) rest) as [ [ [ w e ] | ] | | ] eqn:HP; try discriminate.
    destruct (forallb endpoint_octet e); [ | discriminate ]. injection E as <-. cbn [u_protocol u_host]. destruct (hostname_host _ _ _ _ _ _ _ HP eq_refl) as (A & B). split; [ exact B | ].
    right. exists p. split; [ exact A | ]. eapply protocol_cases. exact P.
  - cbv zeta in E. destruct (forallb endpoint_octet rest); [ | discriminate ]. injection E as <-. cbn [u_protocol u_host]. split; [ discriminate | now left ].
Qed.
Lemma unquote_inner_plain e b rest : e <> 92 -> ~ In e b -> ~ In 92 b -> unquote_inner e (b ++ e :: rest) = (b, rest).
Proof.
  intros E N1 N2. induction b as [ | c b IH ]; cbn [app unquote_inner].
  - replace (e =? 92) with false by lia. now rewrite Z.eqb_refl.
  - cbn [In] in *. replace (c =? 92) with false by lia. replace (c =? e) with false by lia. rewrite IH by tauto. reflexivity.
Qed.
Lemma unquote_comment_ok b : ~ In 41 b -> ~ In 92 b -> unquote ([40] ++ b ++ [41]) = b.
Proof.
  intros N1 N2. unfold unquote. cbn [app length unquote_loop]. change ((40 =? 34) || (40 =? 40)) with true. change (40 =? 34) with false. cbv iota.
  rewrite unquote_inner_plain; [ | lia | exact N1 | exact N2 ]. destruct (Datatypes.length (b ++ [41])); cbn [unquote_loop]; now rewrite app_nil_r.
Qed.
