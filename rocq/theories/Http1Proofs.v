(** Lemmas about the receiving of HTTP/1 messages: lines, header fields. *)
From Coq Require Import Strings.String.
From Coq Require Import ZArith List Bool Lia.
From Verif Require Import Common MsgModel ReadModel Base64Model Dec HttpUtilModel HttpUtilSpec HttpUtilProofs HttpUriProofs Http1Model Http1Spec.
Import ListNotations.
Open Scope Z_scope.
Notation len := Datatypes.length.

(** ** Lists *)

Lemma take_app a b : take (zlen a) (a ++ b) = a.
Proof. unfold take, zlen. rewrite Nat2Z.id, firstn_app, firstn_all, Nat.sub_diag. cbn. apply app_nil_r. Qed.
Lemma drop_app a b : drop (zlen a) (a ++ b) = b.
Proof. apply skip_len. Qed.
Lemma take_all a : take (zlen a) a = a.
Proof. unfold take, zlen. rewrite Nat2Z.id. apply firstn_all. Qed.
Lemma drop_all a : drop (zlen a) a = [].
Proof. unfold drop, zlen. rewrite Nat2Z.id. apply skipn_all. Qed.
Lemma drop_0 l : drop 0 l = l. Proof. reflexivity. Qed.
Lemma drop_drop n k l : 0 <= n -> 0 <= k -> drop n (drop k l) = drop (k + n) l.
Proof.
  intros H1 H2. unfold drop. replace (Z.to_nat (k + n)) with (Z.to_nat k + Z.to_nat n)%nat by lia.
  generalize (Z.to_nat k) (Z.to_nat n). intros a b. revert l. induction a as [|a IH]; intros l; [ reflexivity | ].
  destruct l; cbn [skipn Nat.add]; [ now rewrite skipn_nil | apply IH ].
Qed.
Lemma drop_at n a b : n = zlen a -> drop n (a ++ b) = b.
Proof. intros ->. apply drop_app. Qed.
Lemma take_at n a b : n = zlen a -> take n (a ++ b) = a.
Proof. intros ->. apply take_app. Qed.
Lemma zlen_drop n l : 0 <= n <= zlen l -> zlen (drop n l) = zlen l - n.
Proof. unfold drop, zlen. intros H. rewrite skipn_length. lia. Qed.
Lemma zlen_take n l : 0 <= n <= zlen l -> zlen (take n l) = n.
Proof. unfold take, zlen. intros H. rewrite firstn_length. lia. Qed.
Lemma prefix_cut q a b : prefix_of q (a ++ b) -> zlen a <= zlen q -> exists r, q = a ++ r /\ prefix_of r b.
Proof.
  revert q. induction a as [|x a IH]; intros q [r H] L; [ exists q; split; [ reflexivity | exists r; exact H ] | ].
  destruct q as [|y q]; [ rewrite zlen_cons in L; pose proof (zlen_nonneg _ a); change (zlen (@nil Z)) with 0 in L; lia | ].
  injection H as -> H. rewrite !zlen_cons in L. destruct (IH q) as (r' & -> & P); [ exists r; exact H | lia | ].
  exists r'. split; [ reflexivity | exact P ].
Qed.
Lemma prefix_short q a b : prefix_of q (a ++ b) -> zlen q <= zlen a -> prefix_of q a.
Proof.
  revert a. induction q as [|x q IH]; intros a [r H] L; [ exists a; reflexivity | ].
  destruct a as [|y a]; [ rewrite zlen_cons in L; pose proof (zlen_nonneg _ q); change (zlen (@nil Z)) with 0 in L; lia | ].
  injection H as -> H. rewrite !zlen_cons in L. destruct (IH a) as [r' ->]; [ exists r; exact H | lia | exists r'; reflexivity ].
Qed.
Lemma prefix_len q a : prefix_of q a -> zlen q <= zlen a.
Proof. intros [r ->]. rewrite (zlen_app _ q r). pose proof (zlen_nonneg _ r). lia. Qed.
Lemma prefix_Forall (P : Z -> Prop) q a : prefix_of q a -> Forall P a -> Forall P q.
Proof. intros [r ->] H. apply Forall_app in H. apply H. Qed.
Lemma prefix_eq q a : prefix_of q a -> zlen a <= zlen q -> q = a.
Proof.
  intros [r ->] H. rewrite (zlen_app _ q r) in H. destruct r as [|c r]; [ now rewrite app_nil_r | ].
  rewrite zlen_cons in H. pose proof (zlen_nonneg _ r). lia.
Qed.

(** ** Finding things *)

Definition no_cr (l : list Z) : Prop := Forall (fun c => c <> 13) l.
Lemma crlf_eq a r : find_crlf (a :: r) = match r with b :: _ => if (a =? 13) && (b =? 10) then Some 0 else option_map (Z.add 1) (find_crlf r) | [] => None end.
Proof. reflexivity. Qed.
Lemma crlf_found a b : no_cr a -> find_crlf (a ++ 13 :: 10 :: b) = Some (zlen a).
Proof.
  intros H. induction H as [|c a Hc H IH]; [ reflexivity | ]. rewrite zlen_cons.
  change ((c :: a) ++ 13 :: 10 :: b) with (c :: (a ++ 13 :: 10 :: b)). rewrite crlf_eq.
  destruct (a ++ 13 :: 10 :: b) as [|d r] eqn:E; [ destruct a; discriminate E | ].
  replace (c =? 13) with false by lia. cbn [andb]. rewrite IH. reflexivity.
Qed.
Lemma crlf_none a : no_cr a -> find_crlf a = None.
Proof.
  intros H. induction H as [|c a Hc H IH]; [ reflexivity | ]. rewrite crlf_eq. destruct a as [|d r]; [ reflexivity | ].
  replace (c =? 13) with false by lia. cbn [andb]. rewrite IH. reflexivity.
Qed.
Lemma crlf_none_cr a : no_cr a -> find_crlf (a ++ [13]) = None.
Proof.
  intros H. induction H as [|c a Hc H IH]; [ reflexivity | ]. change ((c :: a) ++ [13]) with (c :: (a ++ [13])). rewrite crlf_eq.
  destruct (a ++ [13]) as [|d r] eqn:E; [ destruct a; discriminate E | ].
  replace (c =? 13) with false by lia. cbn [andb]. rewrite IH. reflexivity.
Qed.
Lemma crlf_short a q : no_cr a -> prefix_of q (a ++ CRLF) -> zlen q < zlen a + 2 -> find_crlf q = None.
Proof.
  intros N P L. destruct (Z.le_gt_cases (zlen q) (zlen a)) as [H|H].
  - apply crlf_none. exact (prefix_Forall _ _ _ (prefix_short _ _ _ P H) N).
  - destruct (prefix_cut _ _ _ P) as (r & -> & Pr); [ lia | ]. rewrite (zlen_app _ a r) in *.
    destruct Pr as [r' E]. destruct r as [|x [|y r]].
    + change (zlen (@nil Z)) with 0 in H. lia.
    + injection E as E _. rewrite <- E. apply crlf_none_cr, N.
    + rewrite !zlen_cons in L. pose proof (zlen_nonneg _ r). lia.
Qed.
Lemma lwsp_iff c : is_lwsp c = true <-> blank c.
Proof. unfold is_lwsp, blank. rewrite orb_true_iff, !Z.eqb_eq. tauto. Qed.
Lemma lwsp_not c : ~ blank c -> is_lwsp c = false.
Proof. intros H. destruct (is_lwsp c) eqn:E; [ apply lwsp_iff in E; tauto | reflexivity ]. Qed.
Lemma whsp_found a c b : Forall (fun c => ~ blank c) a -> blank c -> b <> [] -> find_whsp (a ++ c :: b) = Some (zlen a).
Proof.
  intros H C B. induction H as [|x a Hx H IH].
  - cbn [app find_whsp]. destruct b; [ congruence | ]. apply lwsp_iff in C. rewrite C. reflexivity.
  - change ((x :: a) ++ c :: b) with (x :: (a ++ c :: b)). cbn [find_whsp]. rewrite IH.
    destruct (a ++ c :: b) eqn:E; [ destruct a; discriminate E | ]. rewrite (lwsp_not _ Hx), zlen_cons. reflexivity.
Qed.
Lemma count_while_app (p : Z -> bool) a b : Forall (fun c => p c = true) a -> (match b with c :: _ => p c = false | [] => True end) -> count_while p (a ++ b) = zlen a.
Proof.
  intros H B. induction H as [|c a Hc H IH].
  - cbn [app]. destruct b as [|c b]; cbn [count_while]; [ reflexivity | rewrite B; reflexivity ].
  - cbn [app count_while]. rewrite Hc, IH, zlen_cons. reflexivity.
Qed.
Lemma count_whsp_app a b : Forall blank a -> (match b with c :: _ => ~ blank c | [] => True end) -> count_whsp (a ++ b) = zlen a.
Proof.
  intros H B. apply count_while_app; [ eapply Forall_impl; [ | exact H ]; intros c; apply lwsp_iff | destruct b; [ exact I | apply lwsp_not, B ] ].
Qed.
Lemma find_at_none (p : Z -> bool) a : Forall (fun c => p c = false) a -> find_at p a = None.
Proof. intros H. induction H as [|c a Hc H IH]; [ reflexivity | ]. cbn [find_at]. rewrite Hc, IH. reflexivity. Qed.
Lemma find_at_app (p : Z -> bool) a c b : Forall (fun c => p c = false) a -> p c = true -> find_at p (a ++ c :: b) = Some (zlen a).
Proof.
  intros H C. induction H as [|x a Hx H IH]; cbn [app find_at]; [ rewrite C; reflexivity | ].
  rewrite Hx, IH, zlen_cons. reflexivity.
Qed.

(** ** Comparing *)

Lemma same_text_iff a b : same_text a b = true <-> a = b.
Proof.
  unfold same_text. rewrite andb_true_iff, Z.eqb_eq. split.
  - intros [L F]. revert b L F. induction a as [|x a IH]; intros [|y b] L F.
    + reflexivity.
    + rewrite zlen_cons in L. change (zlen (@nil Z)) with 0 in L. pose proof (zlen_nonneg _ b). lia.
    + rewrite zlen_cons in L. change (zlen (@nil Z)) with 0 in L. pose proof (zlen_nonneg _ a). lia.
    + cbn [combine forallb fst snd] in F. apply andb_true_iff in F. destruct F as [F1 F2]. apply Z.eqb_eq in F1. subst y. f_equal.
      apply IH; [ rewrite !zlen_cons in L; lia | exact F2 ].
  - intros ->. split; [ reflexivity | ]. induction b as [|x b IH]; [ reflexivity | ]. cbn [combine forallb fst snd]. rewrite Z.eqb_refl. exact IH.
Qed.
Lemma same_text_not a b : a <> b -> same_text a b = false.
Proof. intros H. destruct (same_text a b) eqn:E; [ apply same_text_iff in E; congruence | reflexivity ]. Qed.
Lemma lower_small c : lower c = small c. Proof. reflexivity. Qed.
Lemma lower_idem c : lower (lower c) = lower c.
Proof. unfold lower. destruct ((65 <=? c) && (c <=? 90)) eqn:E; [ | now rewrite E ]. replace ((65 <=? c + 32) && (c + 32 <=? 90)) with false by lia. reflexivity. Qed.
Lemma map_lower_idem l : map lower (map lower l) = map lower l.
Proof. rewrite map_map. apply map_ext. exact lower_idem. Qed.

Lemma common_prefix_same a b : zlen a = zlen b -> (common_prefix a b = zlen b <-> map lower a = map lower b).
Proof.
  revert b. induction a as [|x a IH]; intros [|y b] L.
  - split; reflexivity.
  - rewrite zlen_cons in L. change (zlen (@nil Z)) with 0 in L. pose proof (zlen_nonneg _ b). lia.
  - rewrite zlen_cons in L. change (zlen (@nil Z)) with 0 in L. pose proof (zlen_nonneg _ a). lia.
  - rewrite !zlen_cons in *. assert (L' : zlen a = zlen b) by lia. specialize (IH b L'). cbn [common_prefix map].
    destruct (Z.eqb_spec (lower x) (lower y)) as [E|E].
    + rewrite E. split; intros H; [ f_equal; apply IH; lia | injection H as H; apply IH in H; lia ].
    + split; intros H; [ pose proof (zlen_nonneg _ b); lia | injection H as H1 H2; congruence ].
Qed.
Lemma common_prefix_nonneg a b : 0 <= common_prefix a b <= zlen b.
Proof.
  revert b. induction a as [|x a IH]; intros [|y b]; cbn [common_prefix]; rewrite ?zlen_cons; change (zlen (@nil Z)) with 0; try (pose proof (zlen_nonneg _ b)); try lia.
  destruct (lower x =? lower y); [ specialize (IH b); lia | lia ].
Qed.
Lemma common_prefix_len a b : common_prefix a b <= zlen a.
Proof.
  revert b. induction a as [|x a IH]; intros [|y b]; cbn [common_prefix]; rewrite ?zlen_cons; change (zlen (@nil Z)) with 0; try (pose proof (zlen_nonneg _ a)); try lia.
  destruct (lower x =? lower y); [ specialize (IH b); lia | lia ].
Qed.
Lemma definition_match name n : n <> [] ->
  (match strcasestr name n with Some (0, _) => zlen name =? zlen n | _ => false end) = same_text (map lower name) (map lower n).
Proof.
  intros Hn. destruct (same_text (map lower name) (map lower n)) eqn:E.
  - apply same_text_iff in E. assert (L : zlen name = zlen n) by (rewrite <- (zlen_map _ _ lower name), <- (zlen_map _ _ lower n), E; reflexivity).
    unfold strcasestr. replace (zlen name <? zlen n) with false by lia.
    destruct name as [|c r]; [ destruct n; [ congruence | rewrite zlen_cons in L; change (zlen (@nil Z)) with 0 in L; pose proof (zlen_nonneg _ n); lia ] | ].
    rewrite search_eq. apply (common_prefix_same _ _ L) in E. rewrite E. cbv zeta.
    assert (zlen n <> 0) by (destruct n; [ congruence | apply zlen_pos ]). replace (zlen n =? 0) with false by lia. rewrite Z.eqb_refl. cbn [orb]. lia.
  - destruct (strcasestr name n) as [[p k]|] eqn:S; [ | reflexivity ]. destruct p; try reflexivity.
    destruct (Z.eqb_spec (zlen name) (zlen n)) as [L|]; [ exfalso | reflexivity ].
    assert (N : map lower name <> map lower n) by (intros H; apply same_text_iff in H; congruence).
    unfold strcasestr in S. replace (zlen name <? zlen n) with false in S by lia.
    destruct name as [|c r]; [ discriminate S | ]. rewrite search_eq in S. cbv zeta in S.
    assert (C : common_prefix (c :: r) n <> zlen n) by (intros H; apply common_prefix_same in H; auto).
    pose proof (common_prefix_len (c :: r) n). pose proof (common_prefix_nonneg (c :: r) n).
    destruct (common_prefix (c :: r) n =? 0) eqn:K.
    + apply search_after in S. lia.
    + replace (common_prefix (c :: r) n =? zlen n) with false in S by lia. replace (common_prefix (c :: r) n =? zlen (c :: r)) with false in S by lia.
      cbn [orb] in S. destruct r as [|d r]; [ discriminate S | apply search_after in S; lia ].
Qed.
Fixpoint lookup (ds : list (list Z * (flags * parser))) (name : list Z) : option (flags * parser) :=
  match ds with [] => None | (n, d) :: r => if same_text name n then Some d else lookup r name end.
Lemma definition_in_lookup ds name : Forall (fun d => fst d <> [] /\ map lower (fst d) = fst d) ds -> definition_in ds name = lookup ds (map lower name).
Proof.
  intros H. induction H as [|[n d] ds [Hn Hl] H IH]; [ reflexivity | ]. cbn [definition_in lookup fst] in *.
  pose proof (definition_match name n Hn) as M. rewrite Hl in M. rewrite <- M. rewrite IH.
  destruct (strcasestr name n) as [[p k]|]; [ | reflexivity ]. destruct p; try reflexivity.
Qed.
Lemma definition_lookup name : definition_get name = lookup definitions (map lower name).
Proof.
  apply definition_in_lookup. apply forallb_Forall with (f := fun d => negb (zlen (fst d) =? 0) && same_text (map lower (fst d)) (fst d)).
  - intros [n d]. cbn [fst]. rewrite andb_true_iff, negb_true_iff, Z.eqb_neq, same_text_iff. split; intros [H1 H2]; split; auto.
    + intros ->. apply H1. reflexivity.
    + destruct n; [ congruence | apply zlen_pos ].
  - vm_compute. reflexivity.
Qed.

(** ** Numbers *)

Lemma decimal_snoc ds c : decimal (ds ++ [c]) = 10 * decimal ds + (c - 48).
Proof. unfold decimal. rewrite fold_left_app. reflexivity. Qed.
Lemma decimal_lead c ds : digit c -> c <> 48 -> Forall digit ds -> 1 <= decimal (c :: ds).
Proof.
  intros D N H. revert H. apply rev_ind with (l := ds); [ intros _; unfold decimal; cbn; unfold digit in D; lia | ].
  intros x l IH H. apply Forall_app in H. destruct H as [H1 H2]. inversion H2; subst. specialize (IH H1).
  change (c :: l ++ [x]) with ((c :: l) ++ [x]). rewrite decimal_snoc. unfold digit in *. lia.
Qed.
Lemma dec_digits_canonical fuel : forall ds acc, number ds -> (len ds <= fuel)%nat -> dec_digits fuel (decimal ds) acc = ds ++ acc.
Proof.
  induction fuel as [|fuel IH]; intros ds acc (N & D & Z0 & B) L; [ destruct ds; [ congruence | cbn in L; lia ] | ].
  destruct (rev ds) as [|c r] eqn:R; [ apply (f_equal (@rev Z)) in R; rewrite rev_involutive in R; cbn [rev] in R; congruence | ].
  apply (f_equal (@rev Z)) in R. rewrite rev_involutive in R. cbn [rev] in R. subst ds. set (t := rev r) in *. clearbody t.
  apply Forall_app in D. destruct D as [D1 D2]. apply Forall_inv in D2. rewrite decimal_snoc in *. unfold digit in D2.
  cbn [dec_digits]. destruct t as [|x t].
  - change (decimal []) with 0. replace ((10 * 0 + (c - 48)) / 10 =? 0) with true by lia. cbn [app]. f_equal. lia.
  - assert (X : x <> 48) by (destruct Z0 as [E|E]; [ discriminate E || (destruct t; discriminate E) | exact E ]).
    pose proof (decimal_lead x t (Forall_inv D1) X (Forall_inv_tail D1)).
    replace ((10 * decimal (x :: t) + (c - 48)) / 10) with (decimal (x :: t)) by lia.
    replace ((10 * decimal (x :: t) + (c - 48)) mod 10) with (c - 48) by lia. replace (decimal (x :: t) =? 0) with false by lia.
    rewrite IH.
    + rewrite <- app_assoc. cbn [app]. replace (48 + (c - 48)) with c by lia. reflexivity.
    + repeat split; try assumption; try congruence; [ right; exact X | lia ].
    + rewrite app_length in L. cbn [Datatypes.length] in *. lia.
Qed.
Lemma decimal_big ds c : digit c -> c <> 48 -> Forall digit ds -> 10 ^ zlen ds <= decimal (c :: ds).
Proof.
  intros D N H. revert H. apply rev_ind with (l := ds).
  - intros _. change (10 ^ zlen []) with 1. unfold decimal. cbn. unfold digit in D. lia.
  - intros x l IH H. apply Forall_app in H. destruct H as [H1 H2]. inversion H2; subst. specialize (IH H1).
    change (c :: l ++ [x]) with ((c :: l) ++ [x]). rewrite decimal_snoc, (zlen_app _ l [x]). change (zlen [x]) with 1.
    rewrite Z.pow_add_r by (try apply zlen_nonneg; lia). change (10 ^ 1) with 10. unfold digit in *. lia.
Qed.
Lemma number_len ds : number ds -> zlen ds <= 20.
Proof.
  intros (N & D & Z0 & B). destruct ds as [|c ds]; [ congruence | ]. rewrite zlen_cons. destruct Z0 as [E|E].
  - injection E as -> ->. change (zlen (@nil Z)) with 0. lia.
  - pose proof (decimal_big ds c (Forall_inv D) E (Forall_inv_tail D)). destruct (Z.le_gt_cases (zlen ds) 19); [ lia | exfalso ].
    pose proof (Z.pow_le_mono_r 10 20 (zlen ds)). change (10 ^ 20) with 100000000000000000000 in *. change (2^64) with 18446744073709551616 in B. lia.
Qed.
Lemma dec_str_number ds : number ds -> dec_str (decimal ds) = ds.
Proof.
  intros H. unfold dec_str. rewrite dec_digits_canonical; [ apply app_nil_r | exact H | ]. pose proof (number_len ds H). unfold zlen in *. lia.
Qed.
Lemma strtoull_number ds : number ds -> strtoull_raw 10 ds = Some (decimal ds, zlen ds).
Proof.
  intros H. pose proof (number_len ds H). destruct H as (N & D & Z0 & B). unfold strtoull_raw.
  pose proof (digits_ok ds [] D I) as E. rewrite app_nil_r in E. rewrite E. assert (zlen ds <> 0) by (destruct ds; [ congruence | apply zlen_pos ]).
  replace ((zlen ds =? 0) || (63 <? zlen ds)) with false by lia. unfold strtoull. rewrite decimal_same by exact D. fold (decimal ds). f_equal. f_equal. lia.
Qed.

(** ** Definitions of fields *)

Lemma lookup_in ds nm d : lookup ds nm = Some d -> In (nm, d) ds.
Proof.
  induction ds as [|[n x] ds IH]; cbn [lookup]; [ discriminate | ]. destruct (same_text nm n) eqn:E.
  - intros H. injection H as ->. apply same_text_iff in E. subst. left. reflexivity.
  - intros H. right. apply IH, H.
Qed.
Lemma lookup_all (P : list Z -> flags * parser -> bool) nm d : forallb (fun e => P (fst e) (snd e)) definitions = true -> lookup definitions nm = Some d -> P nm d = true.
Proof. intros H L. apply lookup_in in L. rewrite forallb_forall in H. apply (H _ L). Qed.

Lemma token_facts c : token_char c -> c <> 58 /\ c <> 13 /\ c <> 10 /\ ~ blank c /\ c <> 44 /\ c <> 59 /\ c <> 61.
Proof.
  unfold token_char, letter, digit, blank. change (str_bytes "!#$%&'*+-.^_`|~") with [33; 35; 36; 37; 38; 39; 42; 43; 45; 46; 94; 95; 96; 124; 126].
  cbn [In]. intros H. repeat split; try lia.
Qed.
Lemma lower_58 c : lower c = 58 -> c = 58.
Proof. unfold lower. destruct ((65 <=? c) && (c <=? 90)) eqn:E; lia. Qed.

(** Whether the entry of the table is one for which fields are stored as they are *)
Definition kind_ok (p : parser) : bool := match p with PBase64 | PAltSvc => false | _ => true end.
Definition is_name (s : string) (n : list Z) : bool := same_text n (str_bytes s).
Definition entry_ok (n : list Z) (d : flags * parser) : bool :=
  (match n with 58 :: _ => true | _ => false end) ||
  existsb (fun s => is_name s n) ["link"; "alt-svc"; "sec-websocket-key"; "sec-websocket-accept"]%string ||
  (negb (f_angled (fst d)) && kind_ok (snd d) &&
   ((f_nopairs (fst d) && negb (f_multi (fst d))) || negb (existsb (fun s => is_name s n) whole_fields)) &&
   (match snd d with
    | PUnsigned => is_name "content-length" n
    | PContentType => is_name "content-type" n
    | _ => negb (f_trim (fst d))
    end)).
Lemma entries_ok : forallb (fun e => entry_ok (fst e) (snd e)) definitions = true.
Proof. vm_compute. reflexivity. Qed.

(** What the definition of a simple field is like *)
Definition def_fine (f : sfield) (d : option (flags * parser)) : Prop :=
  f_angled (flags_of d) = false /\
  ((f_nopairs (flags_of d) = true /\ f_multi (flags_of d) = false) \/ plain_text (sf_value f)) /\
  match d with
  | None => True
  | Some (fl, p) =>
      match p with
      | PUnsigned => named "content-length" f
      | PContentType => named "content-type" f
      | PBase64 | PAltSvc => False
      | _ => f_trim fl = false
      end
  end.
Lemma name_is s n : is_name s n = true -> n = str_bytes s. Proof. apply same_text_iff. Qed.
Lemma simple_def f : simple_field f -> def_fine f (definition_get (sf_name f)).
Proof.
  intros (N & T & B & V & W & _ & _ & X1 & X2 & X3 & X4). rewrite definition_lookup.
  destruct (lookup definitions (map lower (sf_name f))) as [[fl p]|] eqn:E.
  2: { unfold def_fine. split; [ reflexivity | split; [ | exact I ] ]. right. destruct W as [W|[_ (s & Hs & Hn)]]; [ exact W | exfalso ].
       assert (G : forall s, In s whole_fields -> lookup definitions (str_bytes s) <> None).
       { intros t Ht. cbn [In whole_fields] in Ht. repeat (destruct Ht as [<-|Ht]; [ vm_compute; discriminate | ]). destruct Ht. }
       unfold named in Hn. change (map small (sf_name f)) with (map lower (sf_name f)) in Hn. rewrite Hn in E. exact (G s Hs E). }
  pose proof (lookup_all entry_ok _ _ entries_ok E) as K. unfold entry_ok in K. cbn [fst snd] in K.
  apply orb_true_iff in K. destruct K as [K|K].
  - exfalso. apply orb_true_iff in K. destruct K as [K|K].
    + destruct (sf_name f) as [|c r]; [ congruence | ]. cbn [map] in K. apply Forall_inv, token_facts in T.
      assert (C : lower c = 58) by (destruct (lower c) as [|q|q]; try discriminate K; do 6 (destruct q as [q|q|]; try discriminate K); reflexivity).
      apply lower_58 in C. lia.
    + cbn [existsb] in K. repeat rewrite orb_true_iff in K.
      destruct K as [K|[K|[K|[K|K]]]]; [ apply X1 | apply X2 | apply X3 | apply X4 | discriminate K ]; apply name_is in K; exact K.
  - apply andb_true_iff in K. destruct K as [K K4]. apply andb_true_iff in K. destruct K as [K K3]. apply andb_true_iff in K. destruct K as [K1 K2].
    unfold def_fine. cbn [flags_of]. apply negb_true_iff in K1. split; [ exact K1 | split ].
    + apply orb_true_iff in K3. destruct K3 as [K3|K3].
      * left. apply andb_true_iff in K3. destruct K3 as [A C]. apply negb_true_iff in C. auto.
      * right. destruct W as [W|[_ (s & Hs & Hn)]]; [ exact W | exfalso ]. apply negb_true_iff in K3.
        assert (existsb (fun s => is_name s (map lower (sf_name f))) whole_fields = true); [ | congruence ].
        apply existsb_exists. exists s. split; [ exact Hs | ]. apply same_text_iff. exact Hn.
    + destruct p; cbn [kind_ok] in K2; try discriminate K2; try (apply negb_true_iff in K4; exact K4); apply name_is in K4; exact K4.
Qed.

(** ** A field *)

Definition parsed_field (f : sfield) : hfield :=
  let h := set_fields (new_field (sf_name f)) [(sf_value f, [])] in
  match definition_get (sf_name f) with
  | None | Some (_, PNone) => h
  | Some (_, PUnsigned) => set_unsigned h (decimal (sf_value f))
  | _ => set_value h (sf_value f)
  end.
Definition stored (f : sfield) : hfield := set_full (parsed_field f) (sf_value f).

Lemma trim_right_id (p : Z -> bool) v e : v <> [] -> p (last v 0) = false -> Forall (fun c => p c = true) e -> trim_right p (v ++ e) = v.
Proof.
  intros N L E. destruct (exists_last N) as (w & c & ->). rewrite last_last in L. unfold trim_right.
  rewrite rev_app_distr. rewrite rev_app_distr. cbn [rev app].
  rewrite count_while_app; [ | apply Forall_rev, E | exact L ]. rewrite drop_app.
  change (c :: rev w) with ([c] ++ rev w). rewrite rev_app_distr, rev_involutive. reflexivity.
Qed.
Lemma trim_id v : value_text v -> trim v = v.
Proof.
  intros (N & _ & _ & L). unfold trim. rewrite <- (app_nil_r v) at 1. apply trim_right_id; [ exact N | | constructor ].
  unfold blank in L. lia.
Qed.
Lemma value_ne v : value_text v -> zlen v <> 0.
Proof. intros (N & _). destruct v; [ congruence | apply zlen_pos ]. Qed.
Lemma same_case_iff a b : same_case a b = true <-> map lower a = map lower b.
Proof. apply same_text_iff. Qed.
Lemma parse_value_simple f : simple_field f -> parse_value (set_fields (new_field (sf_name f)) [(sf_value f, [])]) = Ok (Some (parsed_field f)).
Proof.
  intros S0. pose proof (simple_def f S0) as (_ & _ & D). destruct S0 as (N & T & B & V & W & CL & CT & _).
  unfold parse_value, parsed_field, new_field, set_fields. cbn [h_def h_name h_fields h_value h_unsigned h_binary h_full].
  pose proof (value_ne _ V) as NV. pose proof (trim_id _ V) as TR.
  destruct (definition_get (sf_name f)) as [[fl p]|] eqn:E; [ | reflexivity ]. destruct p; try contradiction; try reflexivity.
  - specialize (CL D). unfold parse_unsigned, single_value. cbn [h_fields].
    replace (if f_trim fl then trim (sf_value f) else sf_value f) with (sf_value f) by (destruct (f_trim fl); congruence).
    rewrite (strtoull_number _ CL), (dec_str_number _ CL), Z.eqb_refl. reflexivity.
  - unfold parse_string, single_value. cbn [h_fields]. rewrite D. replace (zlen (sf_value f) =? 0) with false by lia. reflexivity.
  - unfold parse_first, trim_name. cbn [h_fields]. rewrite D. replace (zlen (sf_value f) =? 0) with false by lia. reflexivity.
  - specialize (CT D). unfold parse_content_type, parse_first, trim_name. cbn [h_fields].
    replace (if f_trim fl then trim (sf_value f) else sf_value f) with (sf_value f) by (destruct (f_trim fl); congruence).
    replace (zlen (sf_value f) =? 0) with false by lia. cbn [set_value set_fields h_fields unquote_fields existsb].
    destruct CT as [C1 C2].
    replace (same_case (sf_value f) (str_bytes "charset")) with false by (symmetry; apply same_text_not; exact C1).
    replace (same_case (sf_value f) (str_bytes "boundary")) with false by (symmetry; apply same_text_not; exact C2).
    reflexivity.
  - unfold parse_disposition, parse_first, trim_name. cbn [h_fields]. rewrite D. replace (zlen (sf_value f) =? 0) with false by lia.
    cbn [set_value set_fields h_fields fst unquote_fields].
    destruct (existsb (same_case (sf_value f)) [str_bytes "form-data"; str_bytes "attachment"; str_bytes "inline"]); reflexivity.
Qed.
