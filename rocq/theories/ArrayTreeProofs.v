(** Proofs about ArrayTreeModel.v; statements for users are in ArrayTreeProps.v. *)
From Coq Require Import ZArith List Bool Lia.
From Verif Require Import Common TypeModel TypeSpec TypeProofs TypeProps CondModel ArrayTreeModel ArrayTreeSpec.
Import ListNotations.
Open Scope Z_scope.

Lemma bytes_firstn n l : bytes l -> bytes (firstn n l).
Proof. unfold bytes. intros H. rewrite Forall_forall in *. intros x Hx. apply H. rewrite <- (firstn_skipn n l). apply in_or_app. auto. Qed.
Lemma bytes_skipn n l : bytes l -> bytes (skipn n l).
Proof. unfold bytes. intros H. rewrite Forall_forall in *. intros x Hx. apply H. rewrite <- (firstn_skipn n l). apply in_or_app. auto. Qed.
Lemma bytes_rev l : bytes l -> bytes (rev l).
Proof. unfold bytes. apply Forall_rev. Qed.
Lemma bytes_app a b : bytes (a ++ b) <-> bytes a /\ bytes b.
Proof. unfold bytes. apply Forall_app. Qed.

Ltac tylia := cbn [In] in *; unfold TYPE_LE, TYPE_BE, TYPE_H, TYPE_BLOB, TYPE_USTR, TYPE_ISTR, TYPE_SEP, TYPE_MSG, TYPE_FIXP, TYPE_STR, TYPE_NSEP, TYPE_STX, TYPE_ERR, TYPE_VAIN, TYPE_HDLC in *; lia.

(** ** Single values *)

(** What is known of the number of a value *)
Definition numeric (w : value) : Prop := to_64 w = ROk (number w) /\ 0 <= number w < 2^64.

Lemma numeric_octets w : In (v_type w) [TYPE_BLOB; TYPE_SEP; TYPE_STX; TYPE_STR; TYPE_NSEP] -> bytes (v_data w) -> numeric w.
Proof.
  intros Hin HB. unfold numeric, to_64, number.
  assert (E : blob_to_64 (v_data w) = be_dec (skipn (length (v_data w) - 8) (v_data w))).
  { unfold blob_to_64. cbv zeta. pose proof (zlen_nonneg _ (v_data w)). destruct (Z.min (zlen (v_data w)) 8 =? 0) eqn:EE.
    - assert (v_data w = []) as -> by (destruct (v_data w); [reflexivity|rewrite zlen_cons in *; pose proof (zlen_nonneg _ l); lia]). reflexivity.
    - f_equal. f_equal. unfold zlen in *. lia. }
  assert (G : 0 <= be_dec (skipn (length (v_data w) - 8) (v_data w)) < 2^64).
  { pose proof (be_dec_bound (skipn (length (v_data w) - 8) (v_data w)) (bytes_skipn _ _ HB)) as H.
    split; [apply H|]. eapply Z.lt_le_trans; [apply H|]. change (2^64) with (256^8). apply Z.pow_le_mono_r; [lia|].
    unfold zlen. rewrite skipn_length. lia. }
  cbn [In] in Hin. destruct Hin as [E1|[E1|[E1|[E1|[E1|[]]]]]]; rewrite <- E1; cbn; rewrite E; auto.
Qed.
Lemma numeric_int w : v_type w = TYPE_H -> 8 <= zlen (v_data w) -> bytes (v_data w) -> numeric w.
Proof.
  intros Ht HL HB. unfold numeric, to_64, number. rewrite Ht. cbn.
  replace (zlen (v_data w) <? 8) with false by lia. split; [reflexivity|].
  pose proof (be_dec_bound (rev (firstn 8 (v_data w))) (bytes_rev _ (bytes_firstn _ _ HB))) as H.
  split; [apply H|]. eapply Z.lt_le_trans; [apply H|]. change 18446744073709551616 with (256^8). apply Z.pow_le_mono_r; [lia|].
  unfold zlen. rewrite rev_length, firstn_length. lia.
Qed.
Lemma memory_bytes xs : bytes (int64_memory xs).
Proof.
  unfold bytes, int64_memory. rewrite Forall_forall. intros x Hx. apply in_flat_map in Hx. destruct Hx as (y & _ & Hx).
  apply in_rev in Hx. pose proof (be_enc_bytes 8 (y mod 2^64)) as H. unfold bytes in H. rewrite Forall_forall in H. apply H. exact Hx.
Qed.
Lemma memory_first x xs : be_dec (rev (firstn 8 (int64_memory (x :: xs)))) = x mod 2^64.
Proof.
  unfold int64_memory. cbn [flat_map]. rewrite firstn_app.
  assert (L : length (rev (be_enc 8 (x mod 2^64))) = 8%nat) by (pose proof (le_enc_len 8 (x mod 2^64)) as LL; unfold le_enc, zlen in LL; lia).
  rewrite L. cbn [Nat.sub]. rewrite firstn_O, app_nil_r. rewrite <- L at 1. rewrite firstn_all, rev_involutive.
  apply be_dec_enc. change (256 ^ Z.of_nat 8) with (2^64). apply Z.mod_pos_bound. lia.
Qed.
Lemma group_short big sgn g : bytes g -> 1 <= zlen g <= 2 -> group_value big sgn g mod 2^64 < 2^16 \/ 2^32 <= group_value big sgn g mod 2^64.
Proof.
  intros HB HL. unfold group_value.
  assert (B : 0 <= be_dec (if big then g else rev g) < 256 ^ zlen g).
  { destruct big; [apply be_dec_bound; exact HB|]. pose proof (be_dec_bound (rev g) (bytes_rev _ HB)) as H. rewrite zlen_rev in H. exact H. }
  set (x := be_dec (if big then g else rev g)) in *.
  assert (E : zlen g = 1 \/ zlen g = 2) by lia. destruct E as [E|E]; rewrite E in *; cbn in B |- *; destruct sgn; cbn [andb];
  try destruct (_ <=? x) eqn:C; lia.
Qed.

Lemma type_cases v : In (v_type v) [TYPE_BE; TYPE_H; TYPE_LE; TYPE_BLOB; TYPE_SEP; TYPE_STX; TYPE_USTR; TYPE_ISTR; TYPE_STR; TYPE_NSEP; TYPE_ERR; TYPE_VAIN; TYPE_HDLC] ->
  In (v_type v) [TYPE_BE; TYPE_H; TYPE_LE] \/ In (v_type v) [TYPE_BLOB; TYPE_SEP; TYPE_STX] \/ In (v_type v) [TYPE_USTR; TYPE_ISTR] \/
  v_type v = TYPE_STR \/ v_type v = TYPE_NSEP \/ v_type v = TYPE_ERR \/ v_type v = TYPE_VAIN \/ v_type v = TYPE_HDLC.
Proof. intros H. tylia. Qed.

Lemma import_made after v buf w n : sane v -> v_type v <> TYPE_FIXP -> v_data v = [] -> (v_type v = TYPE_VAIN -> v_import_length v = 0) -> bytes buf -> zlen buf < 2^32 ->
  do_import after v buf = ROk (w, n) ->
  v_tag w = v_tag v /\ numeric w /\ (v_type w = TYPE_VAIN -> v_type v = TYPE_VAIN) /\ 0 <= n <= zlen buf /\
  (In (v_type v) [TYPE_BE; TYPE_H; TYPE_LE] -> v_import_length v <= 2 -> number w < 2^16 \/ 2^32 <= number w) /\
  (~ In (v_type v) [TYPE_USTR; TYPE_ISTR; TYPE_HDLC] -> v_import_length w * v_elements w = n).
Proof.
  intros HS HX HD HV HB HL H.
  assert (HN : n <= zlen buf /\ (v_type v <> TYPE_VAIN -> 0 < n)) by (pose proof (import_safe after v buf HS HL) as HH; rewrite H in HH; exact HH).
  destruct HS as (HI & HO & HT & HIN).
  assert (HIN' : In (v_type v) [TYPE_BE; TYPE_H; TYPE_LE; TYPE_BLOB; TYPE_SEP; TYPE_STX; TYPE_USTR; TYPE_ISTR; TYPE_STR; TYPE_NSEP; TYPE_ERR; TYPE_VAIN; TYPE_HDLC]).
  { clear - HIN HX. tylia. }
  destruct (type_cases v HIN') as [Hin|[Hin|[Hin|[Ht|[Ht|[Ht|[Ht|Ht]]]]]]].
  - (* integers *)
    destruct (HI Hin) as (H1 & H2 & H3).
    set (sgn := is_signed (v_flags v)) in *. set (big := v_type v =? TYPE_BE) in *.
    assert (Hin' : In (v_type v) [TYPE_BE; TYPE_LE; TYPE_H]) by (clear - Hin; tylia).
    assert (HLEN : v_elements v * v_import_length v <= zlen buf).
    { destruct (Z_lt_le_dec (zlen buf) (v_elements v * v_import_length v)) as [G|G]; [|exact G].
      rewrite (int_import_incomplete after v buf Hin' H1 H2 H3 G) in H. discriminate. }
    destruct (split_groups (Z.to_nat (v_elements v)) (v_import_length v) buf) as (gs & rest & -> & HG & HF); [lia|lia|exact HB|].
    assert (HE : v_elements v = zlen gs) by (unfold zlen; lia).
    pose proof (int_import_exact after v gs rest Hin' H1 HF HE ltac:(lia)) as E. cbv zeta in E. rewrite E in H. clear E.
    injection H as <- <-.
    destruct gs as [|g gs]; [change (zlen (@nil (list Z))) with 0 in HE; lia|].
    assert (HC : zlen (concat (g :: gs)) = zlen (g :: gs) * v_import_length v).
    { clear - HF. induction HF as [|x l [_ Hx] HF IH]; [reflexivity|]. cbn [concat]. rewrite zlen_app, zlen_cons, IH. lia. }
    assert (NU : numeric (set_type_data v TYPE_H (int64_memory (map (group_value big sgn) (g :: gs))))).
    { apply numeric_int; [reflexivity| |apply memory_bytes]. cbn [set_type_data v_data]. rewrite memory_len. unfold zlen. rewrite map_length. cbn [length]. lia. }
    split; [reflexivity|]. split; [exact NU|]. split; [discriminate|]. split; [rewrite HC in *; lia|]. split.
    + intros _ Hshort. unfold number. cbn [set_type_data v_type v_data]. change (TYPE_H =? TYPE_VAIN) with false. change (TYPE_H =? TYPE_HDLC) with false.
      change ((TYPE_H =? TYPE_BE) || (TYPE_H =? TYPE_H) || (TYPE_H =? TYPE_LE)) with true. cbv iota. cbn [map]. rewrite memory_first.
      inversion HF as [|? ? [G1 G2] G3]. apply group_short; [exact G1|lia].
    + intros _. cbn [set_type_data v_import_length v_elements]. rewrite HC, <- HE. lia.
  - (* octets *)
    assert (E : n = v_import_length v * v_elements v /\ exists d, w = set_data v d /\ bytes d).
    { assert (G : forall x y z, In (v_type v) [TYPE_BLOB; TYPE_SEP; TYPE_STX] -> do_import after v buf = ROk (x, y) -> z = u32 (v_import_length v * v_elements v) ->
        y = z /\ exists d, x = set_data v d /\ bytes d).
      { intros x y z Hin2 HH ->. cbn [In] in Hin2. unfold do_import in HH.
        destruct Hin2 as [E1|[E1|[E1|[]]]]; rewrite <- E1 in HH; cbn in HH; [unfold import_blob in HH|unfold import_sep_stx in HH|unfold import_sep_stx in HH];
        cbv zeta in HH; destruct (_ <? _) in HH; try discriminate; try (destruct (forallb _ _) in HH; [|discriminate]);
        injection HH as <- <-; (split; [reflexivity|]); eexists; (split; [reflexivity|]); unfold MsgModel.sub_mem; apply bytes_firstn, bytes_skipn; exact HB. }
      destruct (G w n _ Hin H eq_refl) as (-> & HH). split; [|exact HH]. unfold u32. apply Z.mod_small. specialize (HO Hin). lia. }
    destruct E as (-> & d & -> & HBd). specialize (HO Hin).
    split; [reflexivity|]. split; [apply numeric_octets; [cbn [set_data v_type]; clear - Hin; tylia|exact HBd]|].
    split; [cbn [set_data v_type]; auto|]. split; [lia|]. split; [intros HH; exfalso; clear - Hin HH; tylia|reflexivity].
  - (* decimal *)
    assert (E : exists sgn, do_import after v = import_num_str sgn v).
    { unfold do_import. cbn [In] in Hin. destruct Hin as [<-|[<-|[]]]; [exists false|exists true]; reflexivity. }
    destruct E as (sgn & E). rewrite E in H. unfold import_num_str in H.
    destruct (negb (v_elements v =? 1)); [discriminate|]. destruct (negb (v_import_length v =? 0)); [discriminate|].
    destruct (import_numeric_str_raw sgn buf) as [[x m]| | |] eqn:EN; try discriminate. cbn [rbind] in H. injection H as <- <-.
    pose proof (numeric_sound _ _ _ _ EN) as (bl & tx & c & re & y & _ & _ & _ & _ & _ & EY & _).
    assert (HLE : le_enc 8 x = int64_memory [x]).
    { unfold int64_memory. cbn [flat_map]. rewrite app_nil_r. unfold le_enc. f_equal. f_equal. rewrite EY. unfold u64. rewrite Z.mod_mod; lia. }
    split; [reflexivity|]. split; [|split; [discriminate|split; [split; [|apply HN]|split]]].
    + apply numeric_int; [reflexivity| |]; cbn [set_flags set_type_data v_data]; rewrite HLE; [rewrite memory_len; cbn; lia|apply memory_bytes].
    + assert (v_type v <> TYPE_VAIN) by (clear - Hin; tylia). destruct HN as [_ HN]. specialize (HN H). lia.
    + intros HH. exfalso. clear - Hin HH. tylia.
    + intros HH. exfalso. clear - Hin HH. tylia.
  - (* str *)
    destruct (HT ltac:(cbn [In]; auto 10)) as (H1 & H0).
    assert (E : do_import after v = import_str v) by (unfold do_import; rewrite Ht; reflexivity). rewrite E in H.
    destruct (import_str_sound v buf w n H1 H0 HL H) as (tx & dt & re & EB & EQ & -> & ->).
    assert (HBt : bytes tx).
    { rewrite EB in HB. unfold bytes in *. inversion HB as [|? ? _ HB']. apply Forall_app in HB'. apply HB'. }
    assert (HBd : bytes dt).
    { clear - EQ HBt. unfold bytes in *. induction EQ as [| |]; [constructor| |].
      - inversion HBt; subst. constructor; auto.
      - inversion HBt as [|? ? ? B2]; subst. inversion B2; subst. constructor; auto. }
    split; [reflexivity|]. split; [apply numeric_octets; [cbn [set_data set_import_length v_type]; rewrite Ht; cbn [In]; auto 10|exact HBd]|].
    split; [cbn [set_data set_import_length v_type]; auto|]. split; [pose proof (zlen_nonneg _ tx); lia|].
    split; [rewrite Ht; intros HH; exfalso; clear - HH; tylia|]. intros _. cbn [set_data set_import_length v_import_length v_elements]. rewrite H1. lia.
  - (* nsep *)
    destruct (HT ltac:(cbn [In]; auto 10)) as (H1 & H0).
    assert (E : do_import after v = import_nsep v) by (unfold do_import; rewrite Ht; reflexivity). rewrite E in H.
    apply (import_nsep_iff v buf w n H1 H0 HL) in H. destruct H as (tx & c & re & EB & Hne & _ & _ & -> & ->).
    assert (HBt : bytes tx) by (rewrite EB in HB; apply bytes_app in HB; apply HB).
    split; [reflexivity|]. split; [apply numeric_octets; [cbn [set_data set_import_length v_type]; rewrite Ht; cbn [In]; auto 10|exact HBt]|].
    split; [cbn [set_data set_import_length v_type]; auto|]. split; [pose proof (zlen_nonneg _ tx); lia|].
    split; [rewrite Ht; intros HH; exfalso; clear - HH; tylia|]. intros _. cbn [set_data set_import_length v_import_length v_elements]. rewrite H1. lia.
  - (* err *) unfold do_import in H. rewrite Ht in H. discriminate.
  - (* vain *)
    unfold do_import in H. rewrite Ht in H. cbn in H. injection H as <- <-.
    split; [reflexivity|]. split; [unfold numeric, to_64, number; rewrite Ht; cbn; split; [reflexivity|lia]|]. split; [auto|]. split; [pose proof (zlen_nonneg _ buf); lia|].
    split; [rewrite Ht; intros HH; exfalso; clear - HH; tylia|].
    intros _. rewrite (HV Ht). lia.
  - (* hdlc *)
    assert (E : do_import after v = import_hdlc v) by (unfold do_import; rewrite Ht; reflexivity). rewrite E in H. unfold import_hdlc in H.
    destruct (HdlcModel.hdlc_parse HdlcModel.hdlc_init buf) as [[r s] rest]. destruct r; try discriminate.
    destruct (zlen (HdlcModel.h_result s) =? 0); [discriminate|]. injection H as <- <-.
    split; [reflexivity|]. split; [unfold numeric, to_64, number; cbn; split; [reflexivity|lia]|]. split; [discriminate|].
    split; [split; [|apply HN]; assert (v_type v <> TYPE_VAIN) by (rewrite Ht; discriminate); destruct HN as [_ HN]; specialize (HN H); lia|].
    split; [rewrite Ht; intros HH; exfalso; clear - HH; tylia|].
    intros HH. exfalso. apply HH. rewrite Ht. cbn [In]. auto.
Qed.

(** ** Tags *)
Lemma begins_iff tag : forall name, begins tag name = true <-> exists s, name = tag ++ s.
Proof.
  induction tag as [|a tag IH]; intros name; cbn [begins]; [split; [exists name; reflexivity|reflexivity]|].
  destruct name as [|b name]; [split; [discriminate|intros (s & E); discriminate]|]. split.
  - intros H. apply andb_true_iff in H. destruct H as [H1 H2]. apply IH in H2. destruct H2 as (s & ->). exists s. cbn [app]. f_equal. lia.
  - intros (s & E). cbn [app] in E. injection E as <- ->. rewrite Z.eqb_refl. cbn [andb]. apply IH. exists s. reflexivity.
Qed.
Lemma find_last {A} (f : A -> bool) l x : find f (l ++ [x]) = match find f l with Some y => Some y | None => if f x then Some x else None end.
Proof. induction l as [|a l IH]; cbn [app find]; [destruct (f x); reflexivity|]. destruct (f a); [reflexivity|exact IH]. Qed.
Lemma find_lookup name vs : (forall v, In v vs -> matches name v = tagged name v) -> find_tag vs name = lookup vs name.
Proof.
  unfold find_tag. induction vs as [|v vs IH]; intros H; [reflexivity|]. cbn [rev lookup]. rewrite find_last, IH by (intros; apply H; right; assumption).
  rewrite (H v) by (left; reflexivity). reflexivity.
Qed.
Lemma lookup_in name vs v : lookup vs name = Some v -> In v vs /\ v_tag v = name.
Proof.
  induction vs as [|a vs IH]; cbn [lookup]; [discriminate|]. destruct (lookup vs name) as [w|].
  - intros E. injection E as ->. destruct (IH eq_refl). split; [right; assumption|assumption].
  - unfold tagged. intros H. destruct (v_tag a) eqn:ET; [discriminate|]. destruct (list_eq_dec Z.eq_dec (z :: l) name) as [EE|]; [|discriminate].
    injection H as <-. split; [left; reflexivity|congruence].
Qed.

(** ** Conditions depend on the names in them only *)
Lemma evaluate_value_ext cb cb' v : (forall r, v = 123 :: r -> cb (removelast r) = cb' (removelast r)) -> evaluate_value cb v = evaluate_value cb' v.
Proof.
  intros H. destruct v as [|c r]; [reflexivity|]. destruct (Z.eq_dec c 123) as [->|Hc]; [cbn [evaluate_value]; rewrite (H r eq_refl); reflexivity|].
  unfold evaluate_value. clear H. repeat (match goal with |- match ?x with _ => _ end = _ => destruct x end; try reflexivity). all: congruence.
Qed.
Lemma evaluate_loop_ext cb cb' cs : (forall r, In (CVal (123 :: r)) cs -> cb (removelast r) = cb' (removelast r)) ->
  forall rs last, evaluate_loop cb cs rs last = evaluate_loop cb' cs rs last.
Proof.
  induction cs as [|[o|v] cs IH]; intros H rs last; [reflexivity| |]; cbn [evaluate_loop].
  - destruct (evaluate_op o rs) as [[rs' [x s]]| | |]; try reflexivity. apply IH. intros r Hr. apply H. right. exact Hr.
  - rewrite (evaluate_value_ext cb cb' v) by (intros r ->; apply H; left; reflexivity).
    destruct (evaluate_value cb' v); try reflexivity. apply IH. intros r Hr. apply H. right. exact Hr.
Qed.

Scheme tree_mut := Induction for tree Sort Prop
with branches_mut := Induction for branches Sort Prop.
Combined Scheme tree_branches_ind from tree_mut, branches_mut.

(** The only code of a condition which fails *)
Lemma evaluate_code cb c e : (forall n, fst (fst (cb n)) = 0 \/ fst (fst (cb n)) = 2) -> evaluate cb c = EErr e -> e = 2.
Proof.
  intros HCB. unfold evaluate. generalize (@nil (option result)) 0. induction c as [|[o|v] c IH]; intros rs last; cbn [evaluate_loop]; [discriminate| |].
  - assert (A : forall a b e', apply_op o a b = EErr e' -> e' = 2).
    { assert (Q1 : forall r s e', of_ores r s = EErr e' -> e' = 2) by (intros [] ? ?; cbn [of_ores]; intros E; try discriminate; injection E as <-; reflexivity).
      intros a [bx bs] e'. unfold apply_op. destruct (bs || _); [|apply Q1]. destruct a as [a|].
      - destruct (ensure_signed a); [|intros E; injection E as <-; reflexivity]. destruct (ensure_signed (bx, bs)); [destruct (evaluate_signed _ _ _); cbn [of_ores]; intros E; try discriminate; injection E as <-; reflexivity|intros E; injection E as <-; reflexivity].
      - destruct (ensure_signed (bx, bs)); [destruct (evaluate_signed _ _ _); cbn [of_ores]; intros E; try discriminate; injection E as <-; reflexivity|intros E; injection E as <-; reflexivity]. }
    destruct (evaluate_op o rs) as [[rs' [x s]]|e'| |] eqn:EO; try discriminate; [apply IH|]. intros E. injection E as <-.
    unfold evaluate_op in EO. destruct (find_evaluated rs) as [[[n b] rest]|]; [|discriminate].
    destruct (prio o =? PRIO_SINGULAR).
    + destruct (apply_op o None b) eqn:EA; try discriminate. injection EO as <-. exact (A _ _ _ EA).
    + destruct (find_evaluated rest) as [[[m a] rest']|].
      * destruct (apply_op o (Some a) b) eqn:EA; try discriminate. injection EO as <-. exact (A _ _ _ EA).
      * destruct (apply_op o None b) eqn:EA; try discriminate. injection EO as <-. exact (A _ _ _ EA).
  - destruct (evaluate_value cb v) as [x|e'| |] eqn:EV; try discriminate; [apply IH|]. intros E. injection E as <-.
    assert (S : COND_SOFT = 2) by reflexivity.
    unfold evaluate_value in EV.
    repeat (match goal with H : match ?x with _ => _ end = EErr _ |- _ => destruct x eqn:? end); try discriminate; try (injection EV as <-; exact S);
    match goal with H : cb ?n = _ |- _ => specialize (HCB n); rewrite H in HCB; cbn [fst] in HCB; injection EV as <-; lia end.
Qed.

Lemma it_end after buf s : iterate after buf TEnd s = ROk s. Proof. reflexivity. Qed.
Lemma it_rewind after buf k rest s : iterate after buf (TRewind k rest) s = rbind (rewind k s) (iterate after buf rest). Proof. reflexivity. Qed.
Lemma it_values after buf ds rest s : iterate after buf (TValues ds rest) s = rbind (import_values after buf ds s) (iterate after buf rest). Proof. reflexivity. Qed.
Lemma it_if after buf c t m rest s : iterate after buf (TIf c t m rest) s =
  rbind (rbind (condition c (fst s)) (fun b => if b then iterate after buf t s else iterate_branches after buf m s)) (iterate after buf rest).
Proof. reflexivity. Qed.
Lemma br_end after buf s : iterate_branches after buf BEnd s = ROk s. Proof. reflexivity. Qed.
Lemma br_elsif after buf c t m s : iterate_branches after buf (BElsif c t m) s =
  rbind (condition c (fst s)) (fun b => if b then iterate after buf t s else iterate_branches after buf m s).
Proof. reflexivity. Qed.
Lemma br_else after buf t s : iterate_branches after buf (BElse t) s = iterate after buf t s. Proof. reflexivity. Qed.

Section Import.
Variables (after buf : list Z) (D : list vdef) (C : list (list carrier)).
Hypothesis HB : bytes buf.
Hypothesis HL : zlen buf < 2^32.
Hypothesis HP : Forall (plain_def D) D.
Hypothesis HN : distinct_names D C.

Definition made (wo : value * list Z) : Prop := exists d, In d D /\ v_tag (fst wo) = v_tag (d_value d) /\ numeric (fst wo) /\
  (short_int d -> number (fst wo) < 2^16 \/ 2^32 <= number (fst wo)) /\
  (~ In (v_type (d_value d)) [TYPE_USTR; TYPE_ISTR; TYPE_HDLC] -> v_import_length (fst wo) * v_elements (fst wo) = zlen (snd wo)).
Definition rel (s : state) (h : history) (i : list Z) : Prop :=
  fst s = values h /\ snd s = zlen (octets h) /\ buf = octets h ++ i /\ Forall made h.

Lemma made_in h v : Forall made h -> In v (values h) -> exists o, made (v, o).
Proof.
  intros HF Hin. unfold values in Hin. apply in_map_iff in Hin. destruct Hin as ([w o] & E & Hin). cbn [fst] in E. subst w.
  exists o. rewrite Forall_forall in HF. apply HF. exact Hin.
Qed.
Lemma find_is_lookup h name : Forall made h -> uses D C name -> find_tag (values h) name = lookup (values h) name.
Proof.
  intros HF HU. apply find_lookup. intros v Hv. destruct (made_in h v HF Hv) as (o & d & Hd & HT & _). cbn [fst] in HT.
  unfold matches, tagged. destruct (v_tag v) as [|c t] eqn:ET; [reflexivity|]. rewrite <- ET in *.
  destruct (list_eq_dec Z.eq_dec (v_tag v) name) as [E|E].
  - apply begins_iff. exists []. rewrite app_nil_r. congruence.
  - destruct (begins (v_tag v) name) eqn:EB; [|reflexivity]. exfalso. apply begins_iff in EB. destruct EB as (s & ES).
    assert (s = []). { apply (HN name d s HU Hd); [rewrite <- HT; congruence|rewrite <- HT; exact ES]. }
    subst s. rewrite app_nil_r in ES. congruence.
Qed.
Lemma lookup_numeric h name v : Forall made h -> lookup (values h) name = Some v -> numeric v.
Proof. intros HF H. apply lookup_in in H. destruct H as [H _]. destruct (made_in h v HF H) as (o & d & _ & _ & HH & _). exact HH. Qed.

Lemma resolve_ok h ref old : Forall made h -> (forall name, ref = Some name -> uses D C name) ->
  (forall n, resolve_ref (values h) ref old = ROk n <-> size_of (values h) ref old n) /\
  resolve_ref (values h) ref old <> RBug /\ resolve_ref (values h) ref old <> RUb /\
  (forall c, resolve_ref (values h) ref old = RErr c -> c = 2).
Proof.
  intros HF HU. destruct ref as [name|]; cbn [resolve_ref size_of].
  2:{ split; [|split; [discriminate|split; discriminate]]. intros n. split; [intros E; injection E; auto|intros ->; reflexivity]. }
  rewrite (find_is_lookup h name HF (HU name eq_refl)). destruct (lookup (values h) name) as [v|] eqn:EL.
  2:{ split; [|split; [discriminate|split; [discriminate|]]]. - intros n. split; [discriminate|intros (v & E & _); discriminate].
      - intros c E. injection E as <-. reflexivity. }
  destruct (lookup_numeric h name v HF EL) as (E64 & HR). rewrite E64. cbn [rbind]. unfold LENGTH_MAX.
  destruct (Z.ltb_spec (2^32 - 1) (number v)) as [G|G]; [|destruct (Z.eqb_spec (number v) 0) as [G0|G0]].
  - split; [|split; [discriminate|split; [discriminate|intros c E; injection E as <-; reflexivity]]].
    intros n. split; [discriminate|intros (w & E & -> & ?)]. injection E as <-. lia.
  - split; [|split; [discriminate|split; [discriminate|intros c E; injection E as <-; reflexivity]]].
    intros n. split; [discriminate|intros (w & E & -> & ?)]. injection E as <-. lia.
  - split; [|split; [discriminate|split; discriminate]]. intros n. split.
    + intros E. injection E as <-. exists v. split; [reflexivity|]. split; [reflexivity|lia].
    + intros (w & E & -> & ?). injection E as <-. reflexivity.
Qed.

Lemma max_cases t : type_max_length t = 0 /\ ~ In t [TYPE_BE; TYPE_H; TYPE_LE; TYPE_BLOB; TYPE_SEP; TYPE_STX] \/
  type_max_length t = 8 /\ In t [TYPE_BE; TYPE_H; TYPE_LE] \/ type_max_length t = 1024 /\ In t [TYPE_BLOB] \/ type_max_length t = 64 /\ In t [TYPE_SEP; TYPE_STX].
Proof.
  unfold type_max_length. destruct ((t =? TYPE_LE) || (t =? TYPE_BE) || (t =? TYPE_H)) eqn:E1; [right; left; split; [reflexivity|tylia]|].
  destruct (t =? TYPE_BLOB) eqn:E2; [right; right; left; split; [reflexivity|tylia]|].
  destruct ((t =? TYPE_SEP) || (t =? TYPE_STX)) eqn:E3; [right; right; right; split; [reflexivity|tylia]|]. left. split; [reflexivity|tylia].
Qed.

Lemma sizes_sane h d len count : Forall made h -> In d D ->
  size_of (values h) (d_length_ref d) (v_import_length (d_value d)) len ->
  size_of (values h) (d_count_ref d) (v_elements (d_value d)) count -> 0 < count ->
  (type_max_length (v_type (d_value d)) = 0 -> len = 0) -> (type_max_length (v_type (d_value d)) <> 0 -> 0 < len <= type_max_length (v_type (d_value d))) ->
  let v := set_elements (set_import_length (d_value d) len) count in
  sane v /\ v_type v <> TYPE_FIXP /\ v_data v = [] /\ (v_type v = TYPE_VAIN -> v_import_length v = 0) /\ 0 <= len /\ 0 <= count /\ ~ In (v_type v) [TYPE_MSG; TYPE_FIXP].
Proof.
  intros HF Hd HLen HCount Hc H0 H1. assert (PD : plain_def D d) by (rewrite Forall_forall in HP; apply HP; exact Hd).
  destruct PD as (P1 & P2 & P3 & P4 & P5).
  assert (SZ : type_max_length (v_type (d_value d)) = 0 /\ count = 1 /\ len = 0 \/ type_max_length (v_type (d_value d)) <> 0 /\ 0 < len <= type_max_length (v_type (d_value d)) /\ 0 < count < 2^22).
  { destruct (Z.eq_dec (type_max_length (v_type (d_value d))) 0) as [E|E].
    - left. destruct (P3 E) as (Q1 & Q2 & Q3 & Q4). rewrite Q4 in HCount. cbn [size_of] in HCount. split; [exact E|]. split; [lia|auto].
    - right. split; [exact E|]. split; [auto|]. destruct (P4 E) as (Q1 & Q2). destruct (d_count_ref d) as [name|] eqn:EC; cbn [size_of] in HCount; [|lia].
      destruct HCount as (w & HW & -> & HR). destruct (lookup_in _ _ _ HW) as (W1 & W2).
      destruct (made_in h w HF W1) as (o & e & E1 & E2 & _ & E3 & _). cbn [fst] in E2, E3.
      specialize (E3 (P5 name eq_refl e E1 ltac:(congruence))). lia. }
  cbv zeta. cbn [set_elements set_import_length v_type v_data v_import_length v_elements].
  assert (TF : v_type (d_value d) <> TYPE_FIXP /\ ~ In (v_type (d_value d)) [TYPE_MSG; TYPE_FIXP]) by (clear - P2; split; tylia).
  split; [|split; [apply TF|split; [exact P1|split; [|split; [|split; [lia|apply TF]]]]]].
  - unfold sane. cbv zeta. cbn [set_elements set_import_length v_type v_data v_import_length v_elements].
    destruct (max_cases (v_type (d_value d))) as [[M1 M2]|[[M1 M2]|[[M1 M2]|[M1 M2]]]].
    + assert (len = 0 /\ count = 1) by (clear - SZ M1; lia). split; [intros HH; exfalso; clear - HH M2; tylia|]. split; [intros HH; exfalso; clear - HH M2; tylia|].
      split; [intros _; lia|]. clear - P2. tylia.
    + assert (0 < len <= 8 /\ 0 < count < 2^22) by (clear - SZ M1; lia). split; [intros _; lia|]. split; [intros HH; exfalso; clear - HH M2; tylia|].
      split; [intros HH; exfalso; clear - HH M2; tylia|]. clear - P2. tylia.
    + assert (0 < len <= 1024 /\ 0 < count < 2^22) by (clear - SZ M1; lia). split; [intros HH; exfalso; clear - HH M2; tylia|]. split; [intros _; nia|].
      split; [intros HH; exfalso; clear - HH M2; tylia|]. clear - P2. tylia.
    + assert (0 < len <= 64 /\ 0 < count < 2^22) by (clear - SZ M1; lia). split; [intros HH; exfalso; clear - HH M2; tylia|]. split; [intros _; nia|].
      split; [intros HH; exfalso; clear - HH M2; tylia|]. clear - P2. tylia.
  - intros HV. rewrite HV in *. change (type_max_length TYPE_VAIN) with 0 in SZ. lia.
  - pose proof (max_cases (v_type (d_value d))). lia.
Qed.

Lemma rel_rest s h i : rel s h i -> skipn (Z.to_nat (snd s)) buf = i.
Proof.
  intros (_ & HS & HE & _). rewrite HE, HS. rewrite skipn_app. rewrite (skipn_all2 (octets h)) by (unfold zlen; lia).
  replace (Z.to_nat (zlen (octets h)) - length (octets h))%nat with 0%nat by (unfold zlen; lia). reflexivity.
Qed.
Lemma octets_app h g : octets (h ++ g) = octets h ++ octets g.
Proof. unfold octets. rewrite map_app. apply concat_app. Qed.
Lemma octets_one w o : octets [(w, o)] = o.
Proof. unfold octets. cbn. apply app_nil_r. Qed.

Lemma import_value_spec d s h i : rel s h i -> In d D ->
  match import_value after buf d s with
  | ROk s' => exists w o j, i = o ++ j /\ field after (values h) d i w o /\ rel s' (h ++ [(w, o)]) j
  | RErr c => c = 1 \/ c = 2 \/ c = 4
  | RBug | RUb => False
  end /\
  (forall w o, field after (values h) d i w o -> import_value after buf d s = ROk (fst s ++ [w], snd s + zlen o)).
Proof.
  intros HR Hd. pose proof (rel_rest s h i HR) as ES. destruct s as [vs pos]. destruct HR as (H1 & H2 & H3 & H4). cbn [fst snd] in *. subst vs.
  pose proof (resolve_ok h (d_length_ref d) (v_import_length (d_value d)) H4 ltac:(intros name E; left; exists d; auto)) as (RL1 & RL2 & RL3 & RL4).
  pose proof (resolve_ok h (d_count_ref d) (v_elements (d_value d)) H4 ltac:(intros name E; left; exists d; auto)) as (RC1 & RC2 & RC3 & RC4).
  assert (HBi : bytes i) by (rewrite H3 in HB; apply bytes_app in HB; apply HB).
  assert (HLi : zlen i < 2^32) by (rewrite H3, zlen_app in HL; pose proof (zlen_nonneg _ (octets h)); lia).
  unfold import_value. rewrite ES.
  destruct (resolve_ref (values h) (d_length_ref d) (v_import_length (d_value d))) as [len|cl| |] eqn:EL; try congruence.
  2:{ split; [cbn [rbind]; right; left; apply RL4; reflexivity|]. intros w o (len & count & rest & F1 & _). apply RL1 in F1. discriminate. }
  destruct (resolve_ref (values h) (d_count_ref d) (v_elements (d_value d))) as [count|cl| |] eqn:EC; try congruence.
  2:{ split; [cbn [rbind]; right; left; apply RC4; reflexivity|]. intros w o (len' & count & rest & _ & F1 & _). apply RC1 in F1. discriminate. }
  cbn [rbind]. cbv zeta. cbn [set_elements set_import_length v_type].
  assert (SL : size_of (values h) (d_length_ref d) (v_import_length (d_value d)) len) by (apply RL1; reflexivity).
  assert (SC : size_of (values h) (d_count_ref d) (v_elements (d_value d)) count) by (apply RC1; reflexivity).
  assert (UL : forall n, size_of (values h) (d_length_ref d) (v_import_length (d_value d)) n -> n = len) by (intros n Hn; apply RL1 in Hn; congruence).
  assert (UC : forall n, size_of (values h) (d_count_ref d) (v_elements (d_value d)) n -> n = count) by (intros n Hn; apply RC1 in Hn; congruence).
  assert (PD : plain_def D d) by (rewrite Forall_forall in HP; apply HP; exact Hd).
  assert (NL : 0 <= len).
  { destruct PD as (_ & _ & P3 & P4 & _). destruct (d_length_ref d) as [name|]; cbn [size_of] in SL.
    - destruct SL as (v & _ & -> & ?). lia.
    - rewrite SL. destruct (Z.eq_dec (type_max_length (v_type (d_value d))) 0) as [E|E]; [specialize (P3 E)|specialize (P4 E)]; lia. }
  assert (NC : 0 <= count).
  { destruct PD as (_ & _ & P3 & P4 & _). destruct (d_count_ref d) as [name|]; cbn [size_of] in SC.
    - destruct SC as (v & _ & -> & ?). lia.
    - rewrite SC. destruct (Z.eq_dec (type_max_length (v_type (d_value d))) 0) as [E|E]; [specialize (P3 E)|specialize (P4 E)]; lia. }
  destruct ((len =? 0) && negb (type_max_length (v_type (d_value d)) =? 0)) eqn:E1.
  { split; [right; left; reflexivity|]. intros w o (n & m & rest & F1 & F2 & F3 & F4 & F5 & F6 & F7). apply UL in F1. lia. }
  destruct (count =? 0) eqn:E2.
  { split; [right; left; reflexivity|]. intros w o (n & m & rest & F1 & F2 & F3 & F4 & F5 & F6 & F7). apply UC in F2. lia. }
  destruct (type_max_length (v_type (d_value d)) <? len) eqn:E3.
  { split; [right; left; reflexivity|]. intros w o (n & m & rest & F1 & F2 & F3 & F4 & F5 & F6 & F7). apply UL in F1.
    destruct (Z.eq_dec (type_max_length (v_type (d_value d))) 0) as [E|E]; [specialize (F5 E)|specialize (F6 E)]; lia. }
  assert (K0 : type_max_length (v_type (d_value d)) = 0 -> len = 0) by lia.
  assert (K1 : type_max_length (v_type (d_value d)) <> 0 -> 0 < len <= type_max_length (v_type (d_value d))) by lia.
  destruct (sizes_sane h d len count H4 Hd SL SC ltac:(lia) K0 K1) as (S1 & S2 & S3 & S4 & S5 & S6 & S7).
  set (v := set_elements (set_import_length (d_value d) len) count) in *.
  pose proof (import_safe after v i S1 HLi) as SAFE.
  destruct (do_import after v i) as [[w n]|c| |] eqn:EI.
  - destruct (import_made after v i w n S1 S2 S3 S4 HBi HLi EI) as (M1 & M2 & M3 & M4 & M5 & M6).
    assert (EB : (n =? 0) && negb (v_type w =? TYPE_VAIN) = false).
    { destruct (Z.eqb_spec n 0) as [En|]; [|reflexivity]. cbn [andb]. destruct (Z.eqb_spec (v_type v) TYPE_VAIN) as [Ev|Ev].
      - unfold do_import in EI. rewrite Ev in EI. cbn in EI. injection EI as <- _. rewrite Ev. reflexivity.
      - destruct SAFE as [_ SAFE]. specialize (SAFE Ev). lia. }
    rewrite EB. split.
    + exists w, (firstn (Z.to_nat n) i), (skipn (Z.to_nat n) i). assert (EO : zlen (firstn (Z.to_nat n) i) = n) by (unfold zlen in *; rewrite firstn_length; lia).
      split; [symmetry; apply firstn_skipn|]. split.
      * exists len, count, (skipn (Z.to_nat n) i). split; [exact SL|]. split; [exact SC|]. split; [symmetry; apply firstn_skipn|].
        split; [lia|]. split; [exact K0|]. split; [exact K1|]. fold v. rewrite EO. exact EI.
      * split; [unfold values; cbn [fst]; rewrite map_app; reflexivity|]. cbn [snd].
        rewrite octets_app, octets_one. split; [rewrite zlen_app, EO; lia|]. split; [rewrite <- app_assoc, firstn_skipn; exact H3|].
        apply Forall_app. split; [exact H4|]. constructor; [|constructor]. exists d. cbn [fst snd]. split; [exact Hd|]. split; [exact M1|]. split; [exact M2|].
        split.
        -- intros (Q1 & Q2 & Q3). apply M5; [exact Q1|]. rewrite Q2 in SL. cbn [size_of] in SL. unfold v. cbn [set_elements set_import_length v_import_length]. lia.
        -- intros HH. rewrite EO. apply M6. exact HH.
    + intros w' o (n' & m & rest & F1 & F2 & F3 & F4 & F5 & F6 & F7). apply UL in F1. apply UC in F2. subst n' m. fold v in F7. rewrite F7 in EI. injection EI as <- <-. reflexivity.
  - split.
    + destruct (Z.eqb_spec c TREE_INCOMPLETE) as [->|]; [cbn; auto|]. destruct (Z.eqb_spec c TREE_SOFT) as [->|]; cbn; auto.
    + intros w' o (n' & m & rest & F1 & F2 & F3 & F4 & F5 & F6 & F7). apply UL in F1. apply UC in F2. subst n' m. fold v in F7. congruence.
  - contradiction.
  - contradiction.
Qed.

(** ** REWIND *)
Definition measured (wo : value * list Z) : Prop := v_import_length (fst wo) * v_elements (fst wo) = zlen (snd wo).
Lemma rewind_back keep gone : forall total, Forall measured gone -> 0 <= total -> total + zlen (octets gone) < 2^32 ->
  rewind_loop (length gone) (rev (values (keep ++ gone))) (zlen (octets (keep ++ gone))) total = ROk (rev (values keep), zlen (octets keep)).
Proof.
  induction gone as [|[w o] gone IH] using rev_ind; intros total HF H0 HT; [cbn [length rewind_loop]; rewrite app_nil_r; reflexivity|].
  apply Forall_app in HF. destruct HF as [HF HW]. inversion HW as [|? ? HM _]. unfold measured in HM. cbn [fst snd] in HM.
  rewrite app_length. cbn [length]. rewrite Nat.add_1_r. rewrite app_assoc. unfold values. rewrite (map_app _ (keep ++ gone)), rev_app_distr. cbn [map rev app fst rewind_loop].
  rewrite octets_app, octets_one in HT. rewrite zlen_app in HT. rewrite octets_app, octets_one, zlen_app. rewrite HM.
  pose proof (zlen_nonneg _ o). pose proof (zlen_nonneg _ (octets gone)). pose proof (zlen_nonneg _ (octets (keep ++ gone))). unfold LENGTH_MAX. cbv zeta.
  replace (2^32 - 1 <? zlen o) with false by lia. replace (2^32 - 1 <? total + zlen o) with false by lia.
  replace (zlen (octets (keep ++ gone)) + zlen o - zlen o <? 0) with false by lia.
  replace (zlen (octets (keep ++ gone)) + zlen o - zlen o) with (zlen (octets (keep ++ gone))) by lia.
  apply IH; [exact HF|lia|lia].
Qed.
Lemma rewind_spec k s h i : rel s h i -> 0 <= k -> (0 < k -> Forall measured h) ->
  match rewind k s with
  | ROk s' => exists keep gone, h = keep ++ gone /\ zlen gone = k /\ rel s' keep (octets gone ++ i)
  | RErr c => c = 2 /\ zlen h < k
  | RBug | RUb => False
  end /\
  (forall keep gone, h = keep ++ gone -> zlen gone = k -> rewind k s = ROk (values keep, zlen (octets keep))).
Proof.
  intros HR Hk HM. destruct s as [vs pos]. destruct HR as (H1 & H2 & H3 & H4). cbn [fst snd] in *. subst vs pos. unfold rewind.
  destruct (Z.leb_spec k 0) as [K|K].
  { assert (k = 0) as -> by lia. split.
    - exists h, []. rewrite app_nil_r. split; [reflexivity|]. split; [reflexivity|]. split; [reflexivity|]. split; [reflexivity|]. split; [exact H3|exact H4].
    - intros keep gone -> HG. assert (gone = []) as -> by (destruct gone; [reflexivity|rewrite zlen_cons in HG; pose proof (zlen_nonneg _ gone); lia]). rewrite app_nil_r. reflexivity. }
  specialize (HM K). assert (EZ : zlen (values h) = zlen h) by (unfold zlen, values; rewrite map_length; reflexivity). rewrite EZ.
  destruct (Z.ltb_spec (zlen h) k) as [G|G].
  { split; [split; [reflexivity|exact G]|]. intros keep gone -> HG. rewrite zlen_app in G. pose proof (zlen_nonneg _ keep). lia. }
  assert (BACK : forall keep gone, h = keep ++ gone -> zlen gone = k -> rewind_loop (Z.to_nat k) (rev (values h)) (zlen (octets h)) 0 = ROk (rev (values keep), zlen (octets keep))).
  { intros keep gone -> HG. replace (Z.to_nat k) with (length gone) by (unfold zlen in HG; lia). apply rewind_back; [apply Forall_app in HM; apply HM|lia|].
    rewrite H3, zlen_app, octets_app, zlen_app in HL. pose proof (zlen_nonneg _ i). pose proof (zlen_nonneg _ (octets keep)). lia. }
  split.
  - set (m := (length h - Z.to_nat k)%nat). pose proof (firstn_skipn m h) as EH. assert (HG : zlen (skipn m h) = k) by (unfold zlen, m in *; rewrite skipn_length; lia).
    rewrite (BACK (firstn m h) (skipn m h) (eq_sym EH) HG). cbn [rbind]. rewrite rev_involutive. exists (firstn m h), (skipn m h). split; [symmetry; exact EH|]. split; [exact HG|].
    split; [reflexivity|]. split; [reflexivity|]. split; [rewrite app_assoc, <- octets_app, EH; exact H3|]. rewrite <- EH in H4. apply Forall_app in H4. apply H4.
  - intros keep gone EH HG. rewrite (BACK keep gone EH HG). cbn [rbind]. rewrite rev_involutive. reflexivity.
Qed.

(** ** Conditions *)
Hypothesis HC : defined_conds C.
Lemma condition_spec h c : Forall made h -> In c C ->
  match condition c (values h) with
  | ROk true => is_true (values h) c
  | ROk false => is_false (values h) c
  | RErr e => e = 2
  | RBug | RUb => False
  end /\ (is_true (values h) c -> condition c (values h) = ROk true) /\ (is_false (values h) c -> condition c (values h) = ROk false).
Proof.
  intros HF Hc. unfold condition.
  assert (E64 : forallb has_64 (values h) = true).
  { apply forallb_forall. intros v Hv. destruct (made_in h v HF Hv) as (o & d & _ & _ & (E & _) & _). cbn [fst] in E. unfold has_64. rewrite E. reflexivity. }
  rewrite E64. cbn [negb].
  assert (EE : evaluate (name_value (values h)) c = evaluate (environment (values h)) c).
  { unfold evaluate. apply evaluate_loop_ext. intros r Hr. unfold name_value, environment.
    rewrite (find_is_lookup h (removelast r) HF) by (right; exists c, r; auto).
    destruct (lookup (values h) (removelast r)) as [v|] eqn:EL; [|reflexivity]. destruct (lookup_numeric h _ v HF EL) as (E & _). rewrite E. reflexivity. }
  rewrite EE. unfold is_true, is_false. destruct (HC c (environment (values h)) Hc) as (N1 & N2).
  destruct (evaluate (environment (values h)) c) as [x|e| |] eqn:EV; try congruence.
  - destruct (Z.eqb_spec x 0) as [->|Hx]; cbn [negb].
    + split; [reflexivity|]. split; [intros (y & E & Hy); congruence|reflexivity].
    + split; [exists x; auto|]. split; [reflexivity|intros E; congruence].
  - split; [apply (evaluate_code (environment (values h)) c e); [|exact EV]; intros n; unfold environment; destruct (lookup (values h) n); cbn; auto|]. split; [intros (y & E & _); discriminate|discriminate].
Qed.

(** ** Definitions *)
Variable K : list Z.
Hypothesis HK : rewindable D K.
Lemma made_measured h : Forall made h -> Exists (fun k => 0 < k) K -> Forall measured h.
Proof.
  intros HF HE. apply (Forall_impl _ (P := made)); [|exact HF]. intros wo (d & Hd & _ & _ & _ & HM). unfold measured. apply HM. apply HK; assumption.
Qed.
Lemma code_ok c : c = 2 -> c = 1 \/ c = 2 \/ c = 4.
Proof. auto. Qed.

Lemma iterate_spec :
  (forall t s h i, rel s h i -> incl (defs t) D -> incl (conds t) C -> incl (rewinds t) K ->
    match iterate after buf t s with
    | ROk s' => exists h' i', follows after t h i h' i' /\ rel s' h' i'
    | RErr c => c = 1 \/ c = 2 \/ c = 4
    | RBug | RUb => False
    end) /\
  (forall b s h i, rel s h i -> incl (defs_b b) D -> incl (conds_b b) C -> incl (rewinds_b b) K ->
    match iterate_branches after buf b s with
    | ROk s' => exists u h' i', chooses (values h) b u /\ follows after u h i h' i' /\ rel s' h' i'
    | RErr c => c = 1 \/ c = 2 \/ c = 4
    | RBug | RUb => False
    end).
Proof.
  apply tree_branches_ind.
  - intros s h i HR _ _ _. rewrite ?it_end, ?it_rewind, ?it_values, ?it_if, ?br_end, ?br_elsif, ?br_else. exists h, i. split; [constructor|exact HR].
  - intros k rest IH s h i HR HD HCs HKs. rewrite ?it_end, ?it_rewind, ?it_values, ?it_if, ?br_end, ?br_elsif, ?br_else in *; cbn [defs conds rewinds] in *.
    assert (Hk : In k K) by (apply HKs; left; reflexivity).
    assert (Hk0 : 0 <= k) by (destruct HK as [HF _]; rewrite Forall_forall in HF; apply HF; exact Hk).
    pose proof (rewind_spec k s h i HR Hk0) as [G _].
    { intros Hp. apply made_measured; [apply HR|]. apply Exists_exists. exists k. auto. }
    destruct (rewind k s) as [s1|c| |]; cbn [rbind]; try contradiction; [|destruct G; auto].
    destruct G as (keep & gone & -> & <- & HR1). specialize (IH s1 keep (octets gone ++ i) HR1 HD HCs ltac:(intros x Hx; apply HKs; right; exact Hx)).
    destruct (iterate after buf rest s1) as [s2|c| |]; try exact IH. destruct IH as (h' & i' & HF & HR2). exists h', i'. split; [constructor; exact HF|exact HR2].
  - intros ds rest IH. induction ds as [|d ds IHd]; intros s h i HR HD HCs HKs; rewrite ?it_end, ?it_rewind, ?it_values, ?it_if, ?br_end, ?br_elsif, ?br_else; cbn [import_values rbind].
    + cbn [defs app conds rewinds] in *. specialize (IH s h i HR HD HCs HKs). destruct (iterate after buf rest s) as [s2|c| |]; try exact IH.
      destruct IH as (h' & i' & HF & HR2). exists h', i'. split; [constructor; exact HF|exact HR2].
    + assert (Hd : In d D) by (apply HD; cbn [defs app]; left; reflexivity).
      pose proof (import_value_spec d s h i HR Hd) as [G _]. destruct (import_value after buf d s) as [s1|c| |]; cbn [rbind]; try contradiction; [|exact G].
      destruct G as (w & o & j & -> & HFd & HR1).
      specialize (IHd s1 (h ++ [(w, o)]) j HR1 ltac:(intros x Hx; apply HD; cbn [defs app] in *; right; exact Hx) HCs HKs). rewrite ?it_end, ?it_rewind, ?it_values, ?it_if, ?br_end, ?br_elsif, ?br_else in IHd.
      destruct (rbind (import_values after buf ds s1) (iterate after buf rest)) as [s2|c| |]; try exact IHd.
      destruct IHd as (h' & i' & HF & HR2). exists h', i'. split; [econstructor; [exact HFd|exact HF]|exact HR2].
  - intros c t IHt more IHm rest IHr s h i HR HD HCs HKs. rewrite ?it_end, ?it_rewind, ?it_values, ?it_if, ?br_end, ?br_elsif, ?br_else in *; cbn [defs conds rewinds] in *.
    assert (Hc : In c C) by (apply HCs; left; reflexivity).
    assert (D1 : incl (defs t) D) by (intros x Hx; apply HD; apply in_or_app; auto).
    assert (D2 : incl (defs_b more) D) by (intros x Hx; apply HD; apply in_or_app; right; apply in_or_app; auto).
    assert (D3 : incl (defs rest) D) by (intros x Hx; apply HD; apply in_or_app; right; apply in_or_app; auto).
    assert (C1 : incl (conds t) C) by (intros x Hx; apply HCs; right; apply in_or_app; auto).
    assert (C2 : incl (conds_b more) C) by (intros x Hx; apply HCs; right; apply in_or_app; right; apply in_or_app; auto).
    assert (C3 : incl (conds rest) C) by (intros x Hx; apply HCs; right; apply in_or_app; right; apply in_or_app; auto).
    assert (K1 : incl (rewinds t) K) by (intros x Hx; apply HKs; apply in_or_app; auto).
    assert (K2 : incl (rewinds_b more) K) by (intros x Hx; apply HKs; apply in_or_app; right; apply in_or_app; auto).
    assert (K3 : incl (rewinds rest) K) by (intros x Hx; apply HKs; apply in_or_app; right; apply in_or_app; auto).
    destruct HR as (R1 & R2 & R3 & R4). rewrite R1. pose proof (condition_spec h c R4 Hc) as [G _].
    assert (HR : rel s h i) by (split; [exact R1|split; [exact R2|split; [exact R3|exact R4]]]).
    assert (B : match (rbind (condition c (values h)) (fun b => if b then iterate after buf t s else iterate_branches after buf more s)) with
                | ROk s' => exists u h' i', chooses (values h) (BElsif c t more) u /\ follows after u h i h' i' /\ rel s' h' i'
                | RErr c => c = 1 \/ c = 2 \/ c = 4 | _ => False end).
    { destruct (condition c (values h)) as [[]|e| |]; cbn [rbind]; cbv beta iota; try contradiction.
      - specialize (IHt s h i HR D1 C1 K1). destruct (iterate after buf t s); try exact IHt. destruct IHt as (h' & i' & F & R). exists t, h', i'. split; [constructor; exact G|auto].
      - specialize (IHm s h i HR D2 C2 K2). destruct (iterate_branches after buf more s); try exact IHm. destruct IHm as (u & h' & i' & CH & F & R).
        exists u, h', i'. split; [apply C_false; assumption|auto].
      - auto. }
    destruct (rbind (condition c (values h)) _) as [s1|e| |]; cbn [rbind]; try exact B.
    destruct B as (u & h1 & i1 & CH & F & R). specialize (IHr s1 h1 i1 R D3 C3 K3). destruct (iterate after buf rest s1); try exact IHr.
    destruct IHr as (h' & i' & F' & R'). exists h', i'. split; [eapply F_if; eassumption|exact R'].
  - intros s h i HR _ _ _. rewrite ?it_end, ?it_rewind, ?it_values, ?it_if, ?br_end, ?br_elsif, ?br_else. exists TEnd, h, i. split; [constructor|]. split; [constructor|exact HR].
  - intros c t IHt more IHm s h i HR HD HCs HKs. rewrite ?it_end, ?it_rewind, ?it_values, ?it_if, ?br_end, ?br_elsif, ?br_else in *; cbn [defs_b conds_b rewinds_b] in *.
    assert (Hc : In c C) by (apply HCs; left; reflexivity).
    assert (D1 : incl (defs t) D) by (intros x Hx; apply HD; apply in_or_app; auto).
    assert (D2 : incl (defs_b more) D) by (intros x Hx; apply HD; apply in_or_app; auto).
    assert (C1 : incl (conds t) C) by (intros x Hx; apply HCs; right; apply in_or_app; auto).
    assert (C2 : incl (conds_b more) C) by (intros x Hx; apply HCs; right; apply in_or_app; auto).
    assert (K1 : incl (rewinds t) K) by (intros x Hx; apply HKs; apply in_or_app; auto).
    assert (K2 : incl (rewinds_b more) K) by (intros x Hx; apply HKs; apply in_or_app; auto).
    pose proof HR as (R1 & R2 & R3 & R4). rewrite R1. pose proof (condition_spec h c R4 Hc) as [G _].
    destruct (condition c (values h)) as [[]|e| |]; cbn [rbind]; cbv beta iota; try contradiction.
    + specialize (IHt s h i HR D1 C1 K1). destruct (iterate after buf t s); try exact IHt. destruct IHt as (h' & i' & F & R). exists t, h', i'. split; [constructor; exact G|auto].
    + specialize (IHm s h i HR D2 C2 K2). destruct (iterate_branches after buf more s); try exact IHm. destruct IHm as (u & h' & i' & CH & F & R).
      exists u, h', i'. split; [apply C_false; assumption|auto].
    + auto.
  - intros t IHt s h i HR HD HCs HKs. rewrite ?it_end, ?it_rewind, ?it_values, ?it_if, ?br_end, ?br_elsif, ?br_else in *; cbn [defs_b conds_b rewinds_b] in *. specialize (IHt s h i HR HD HCs HKs).
    destruct (iterate after buf t s); try exact IHt. destruct IHt as (h' & i' & F & R). exists t, h', i'. split; [constructor|auto].
Qed.

Lemma chooses_parts vs b u : chooses vs b u -> incl (defs u) (defs_b b) /\ incl (conds u) (conds_b b) /\ incl (rewinds u) (rewinds_b b).
Proof.
  intros H. induction H as [|t|c t more HT|c t more u HF HCH (I1 & I2 & I3)]; cbn [defs_b conds_b rewinds_b defs conds rewinds].
  - repeat split; apply incl_refl.
  - repeat split; apply incl_refl.
  - split; [apply incl_appl, incl_refl|]. split; [apply incl_tl, incl_appl, incl_refl|apply incl_appl, incl_refl].
  - split; [apply incl_appr; exact I1|]. split; [apply incl_tl, incl_appr; exact I2|apply incl_appr; exact I3].
Qed.
Lemma chooses_iterate vs b u : chooses vs b u -> forall s h, fst s = vs -> vs = values h -> Forall made h -> incl (conds_b b) C ->
  iterate_branches after buf b s = iterate after buf u s.
Proof.
  intros H. induction H as [|t|c t more HT|c t more u HF HCH IH]; intros s h E1 E2 HM HCs; rewrite ?it_end, ?it_rewind, ?it_values, ?it_if, ?br_end, ?br_elsif, ?br_else.
  - reflexivity.
  - reflexivity.
  - rewrite E1, E2. assert (Hc : In c C) by (apply HCs; left; reflexivity). destruct (condition_spec h c HM Hc) as (_ & G & _). rewrite G by (rewrite <- E2; exact HT). reflexivity.
  - assert (Hc : In c C) by (apply HCs; left; reflexivity). destruct (condition_spec h c HM Hc) as (_ & _ & G). rewrite E1, E2. rewrite G by (rewrite <- E2; exact HF). cbn [rbind].
    apply (IH s h E1 E2 HM). cbn [conds_b] in HCs. intros x Hx. apply HCs. right. apply in_or_app. auto.
Qed.
Lemma follows_iterate t h i h' i' : follows after t h i h' i' -> forall s, rel s h i -> incl (defs t) D -> incl (conds t) C -> incl (rewinds t) K ->
  exists s', iterate after buf t s = ROk s' /\ rel s' h' i'.
Proof.
  intros H. induction H as [h i|keep gone i rest h' i' HF IH|rest h i h' i' HF IH|d ds rest h o i w h' i' HFd HF IH|c t more rest u h i h1 i1 h' i' HCH HF1 IH1 HF2 IH2];
  intros s HR HD HCs HKs.
  - exists s. split; [reflexivity|exact HR].
  - rewrite ?it_end, ?it_rewind, ?it_values, ?it_if, ?br_end, ?br_elsif, ?br_else in *; cbn [defs conds rewinds] in *. assert (Hk : In (zlen gone) K) by (apply HKs; left; reflexivity).
    assert (Hk0 : 0 <= zlen gone) by apply zlen_nonneg.
    pose proof (rewind_spec (zlen gone) s (keep ++ gone) i HR Hk0) as [_ G].
    { intros Hp. apply made_measured; [apply HR|]. apply Exists_exists. exists (zlen gone). auto. }
    rewrite (G keep gone eq_refl eq_refl). cbn [rbind]. apply IH; [|exact HD|exact HCs|intros x Hx; apply HKs; right; exact Hx].
    destruct HR as (R1 & R2 & R3 & R4). split; [reflexivity|]. split; [reflexivity|]. split; [rewrite app_assoc, <- octets_app; exact R3|apply Forall_app in R4; apply R4].
  - rewrite ?it_end, ?it_rewind, ?it_values, ?it_if, ?br_end, ?br_elsif, ?br_else; cbn [import_values rbind]. apply IH; assumption.
  - assert (Hd : In d D) by (apply HD; cbn [defs app]; left; reflexivity).
    pose proof (import_value_spec d s h (o ++ i) HR Hd) as [G1 G2]. specialize (G2 w o HFd). rewrite ?it_end, ?it_rewind, ?it_values, ?it_if, ?br_end, ?br_elsif, ?br_else; cbn [import_values]. rewrite G2 in G1 |- *. cbn [rbind].
    destruct G1 as (w' & o' & j & E1 & _ & E2). 
    assert (EW : w' = w /\ o' = o).
    { destruct E2 as (Q1 & Q2 & Q3 & _). cbn [fst snd] in Q1, Q2. destruct HR as (R1 & R2 & _). rewrite R1 in Q1. rewrite R2 in Q2.
      unfold values in Q1. rewrite map_app in Q1. apply app_inv_head in Q1. cbn [map fst] in Q1. injection Q1 as Q1. rewrite octets_app, octets_one, zlen_app in Q2.
      split; [congruence|]. assert (EL : length o' = length o) by (unfold zlen in Q2; lia). 
      apply (f_equal (firstn (length o))) in E1. rewrite firstn_app, Nat.sub_diag, firstn_O, app_nil_r, firstn_all in E1.
      rewrite <- EL in E1. rewrite firstn_app, Nat.sub_diag, firstn_O, app_nil_r, firstn_all in E1. congruence. }
    destruct EW as [-> ->]. apply app_inv_head in E1. subst j.
    apply (IH _ E2); [intros x Hx; apply HD; cbn [defs app] in *; right; exact Hx|exact HCs|exact HKs].
  - rewrite ?it_end, ?it_rewind, ?it_values, ?it_if, ?br_end, ?br_elsif, ?br_else. assert (DD : incl (defs_b (BElsif c t more)) D /\ incl (conds_b (BElsif c t more)) C /\ incl (rewinds_b (BElsif c t more)) K /\ incl (defs rest) D /\ incl (conds rest) C /\ incl (rewinds rest) K).
    { cbn [defs conds rewinds defs_b conds_b rewinds_b] in *. unfold incl in *. repeat split; intros x Hx.
      - apply HD. apply in_app_or in Hx. destruct Hx; apply in_or_app; [left; assumption|right; apply in_or_app; auto].
      - apply HCs. destruct Hx as [<-|Hx]; [left; reflexivity|right]. apply in_app_or in Hx. destruct Hx; apply in_or_app; [left; assumption|right; apply in_or_app; auto].
      - apply HKs. apply in_app_or in Hx. destruct Hx; apply in_or_app; [left; assumption|right; apply in_or_app; auto].
      - apply HD. apply in_or_app. right. apply in_or_app. auto.
      - apply HCs. right. apply in_or_app. right. apply in_or_app. auto.
      - apply HKs. apply in_or_app. right. apply in_or_app. auto. }
    destruct DD as (D1 & C1 & K1 & D2 & C2 & K2). destruct (chooses_parts _ _ _ HCH) as (P1 & P2 & P3).
    pose proof (chooses_iterate _ _ _ HCH s h) as EQ. destruct HR as (R1 & R2 & R3 & R4). specialize (EQ R1 eq_refl R4 C1).
    rewrite ?it_end, ?it_rewind, ?it_values, ?it_if, ?br_end, ?br_elsif, ?br_else in EQ. rewrite EQ.
    destruct (IH1 s) as (s1 & -> & HR1); [split; [exact R1|split; [exact R2|split; [exact R3|exact R4]]]|intros x Hx; apply D1, P1, Hx|intros x Hx; apply C1, P2, Hx|intros x Hx; apply K1, P3, Hx|].
    cbn [rbind]. apply IH2; assumption.
Qed.

(** ** More octets arriving *)
Variable more : list Z.
Lemma rest_more s h i : rel s h i -> skipn (Z.to_nat (snd s)) (buf ++ more) = i ++ more.
Proof.
  intros HR. pose proof (rel_rest s h i HR) as E. destruct HR as (_ & H2 & H3 & _). rewrite skipn_app, E.
  replace (Z.to_nat (snd s) - length buf)%nat with 0%nat; [reflexivity|]. apply (f_equal (@zlen Z)) in H3. rewrite zlen_app in H3. pose proof (zlen_nonneg _ i). unfold zlen in *. lia.
Qed.
Lemma value_more d s h i : rel s h i -> In d D -> import_value after buf d s <> RErr 4 -> import_value after (buf ++ more) d s = import_value after buf d s.
Proof.
  intros HR Hd. pose proof (rel_rest s h i HR) as E1. pose proof (rest_more s h i HR) as E2. destruct s as [vs pos]. destruct HR as (H1 & H2 & H3 & H4). cbn [fst snd] in *. subst vs.
  unfold import_value. rewrite E1, E2.
  pose proof (resolve_ok h (d_length_ref d) (v_import_length (d_value d)) H4 ltac:(intros name E; left; exists d; auto)) as (RL1 & _).
  pose proof (resolve_ok h (d_count_ref d) (v_elements (d_value d)) H4 ltac:(intros name E; left; exists d; auto)) as (RC1 & _).
  destruct (resolve_ref (values h) (d_length_ref d) (v_import_length (d_value d))) as [len| | |]; cbn [rbind]; try reflexivity.
  destruct (resolve_ref (values h) (d_count_ref d) (v_elements (d_value d))) as [count| | |]; cbn [rbind]; try reflexivity. cbv zeta. cbn [set_elements set_import_length v_type].
  assert (SL : size_of (values h) (d_length_ref d) (v_import_length (d_value d)) len) by (apply RL1; reflexivity).
  assert (SC : size_of (values h) (d_count_ref d) (v_elements (d_value d)) count) by (apply RC1; reflexivity).
  assert (PD : plain_def D d) by (rewrite Forall_forall in HP; apply HP; exact Hd).
  assert (NL : 0 <= len).
  { destruct PD as (_ & _ & P3 & P4 & _). destruct (d_length_ref d) as [name|]; cbn [size_of] in SL.
    - destruct SL as (v & _ & -> & ?). lia.
    - rewrite SL. destruct (Z.eq_dec (type_max_length (v_type (d_value d))) 0) as [E|E]; [specialize (P3 E)|specialize (P4 E)]; lia. }
  assert (NC : 0 <= count).
  { destruct PD as (_ & _ & P3 & P4 & _). destruct (d_count_ref d) as [name|]; cbn [size_of] in SC.
    - destruct SC as (v & _ & -> & ?). lia.
    - rewrite SC. destruct (Z.eq_dec (type_max_length (v_type (d_value d))) 0) as [E|E]; [specialize (P3 E)|specialize (P4 E)]; lia. }
  destruct ((len =? 0) && negb (type_max_length (v_type (d_value d)) =? 0)) eqn:EE1; [reflexivity|].
  destruct (count =? 0) eqn:EE2; [reflexivity|].
  destruct (type_max_length (v_type (d_value d)) <? len) eqn:EE3; [reflexivity|].
  assert (K0 : type_max_length (v_type (d_value d)) = 0 -> len = 0) by lia.
  assert (K1 : type_max_length (v_type (d_value d)) <> 0 -> 0 < len <= type_max_length (v_type (d_value d))) by lia.
  destruct (sizes_sane h d len count H4 Hd SL SC ltac:(lia) K0 K1) as (S1 & S2 & S3 & S4 & S5 & S6 & S7).
  change (mk_value (v_type (d_value d)) (v_flags (d_value d)) (v_tag (d_value d)) len count (v_data (d_value d))) with (set_elements (set_import_length (d_value d) len) count).
  set (v := set_elements (set_import_length (d_value d) len) count) in *.
  assert (HLi : zlen i < 2^32) by (rewrite H3, zlen_app in HL; pose proof (zlen_nonneg _ (octets h)); lia).
  pose proof (import_safe after v i S1 HLi) as SAFE.
  intros H. rewrite (import_decided_partial after v i more (do_import after v i)); try reflexivity; try assumption.
  - intros E. rewrite E in H. apply H. reflexivity.
  - intros E. rewrite E in SAFE. contradiction.
Qed.
Lemma rbind_more {A B} (x y : res A) (f g : A -> res B) c : (x <> RErr c -> y = x) -> (forall a, x = ROk a -> f a <> RErr c -> g a = f a) -> rbind x f <> RErr c -> rbind y g = rbind x f.
Proof.
  intros HX HF H. destruct x as [a|e| |]; cbn [rbind] in *.
  - rewrite HX by discriminate. cbn [rbind]. apply HF; [reflexivity|exact H].
  - rewrite HX by (intros E; apply H; congruence). reflexivity.
  - rewrite HX by discriminate. reflexivity.
  - rewrite HX by discriminate. reflexivity.
Qed.
Lemma iterate_more :
  (forall t s h i, rel s h i -> incl (defs t) D -> incl (conds t) C -> incl (rewinds t) K ->
    iterate after buf t s <> RErr 4 -> iterate after (buf ++ more) t s = iterate after buf t s) /\
  (forall b s h i, rel s h i -> incl (defs_b b) D -> incl (conds_b b) C -> incl (rewinds_b b) K ->
    iterate_branches after buf b s <> RErr 4 -> iterate_branches after (buf ++ more) b s = iterate_branches after buf b s).
Proof.
  apply tree_branches_ind.
  - reflexivity.
  - intros k rest IH s h i HR HD HCs HKs H. rewrite ?it_end, ?it_rewind, ?it_values, ?it_if, ?br_end, ?br_elsif, ?br_else in *. apply (rbind_more _ _ _ _ 4); [reflexivity| |exact H].
    intros s1 E H1. assert (Hk : In k K) by (apply HKs; left; reflexivity).
    assert (Hk0 : 0 <= k) by (destruct HK as [HF _]; rewrite Forall_forall in HF; apply HF; exact Hk).
    pose proof (rewind_spec k s h i HR Hk0) as [G _].
    { intros Hp. apply made_measured; [apply HR|]. apply Exists_exists. exists k. auto. }
    rewrite E in G. destruct G as (keep & gone & _ & _ & HR1). apply (IH _ _ _ HR1); try assumption. intros x Hx. apply HKs. right. exact Hx.
  - intros ds rest IH. induction ds as [|d ds IHd]; intros s h i HR HD HCs HKs H; rewrite ?it_end, ?it_rewind, ?it_values, ?it_if, ?br_end, ?br_elsif, ?br_else in *; cbn [import_values rbind] in *.
    + apply (IH s h i HR); assumption.
    + assert (Hd : In d D) by (apply HD; cbn [defs app]; left; reflexivity).
      assert (A : forall (x : res state) (f : state -> res state) (g : state -> res state), rbind (rbind x f) g = rbind x (fun a => rbind (f a) g)) by (intros [] ? ?; reflexivity).
      rewrite !A in *. apply (rbind_more _ _ _ _ 4); [intros N; apply (value_more d s h i HR Hd N)| |exact H].
      intros s1 E H1. pose proof (import_value_spec d s h i HR Hd) as [G _]. rewrite E in G. destruct G as (w & o & j & _ & _ & HR1).
      apply (IHd s1 _ _ HR1); try assumption. intros x Hx. apply HD. cbn [defs app] in *. right. exact Hx.
  - intros c t IHt b IHm rest IHr s h i HR HD HCs HKs H. 
    assert (DD : incl (defs_b (BElsif c t b)) D /\ incl (conds_b (BElsif c t b)) C /\ incl (rewinds_b (BElsif c t b)) K /\ incl (defs rest) D /\ incl (conds rest) C /\ incl (rewinds rest) K).
    { cbn [defs conds rewinds defs_b conds_b rewinds_b] in *. unfold incl in *. repeat split; intros x Hx.
      - apply HD. apply in_app_or in Hx. destruct Hx; apply in_or_app; [left; assumption|right; apply in_or_app; auto].
      - apply HCs. destruct Hx as [<-|Hx]; [left; reflexivity|right]. apply in_app_or in Hx. destruct Hx; apply in_or_app; [left; assumption|right; apply in_or_app; auto].
      - apply HKs. apply in_app_or in Hx. destruct Hx; apply in_or_app; [left; assumption|right; apply in_or_app; auto].
      - apply HD. apply in_or_app. right. apply in_or_app. auto.
      - apply HCs. right. apply in_or_app. right. apply in_or_app. auto.
      - apply HKs. apply in_or_app. right. apply in_or_app. auto. }
    destruct DD as (D1 & C1 & K1 & D2 & C2 & K2).
    rewrite ?it_end, ?it_rewind, ?it_values, ?it_if, ?br_end, ?br_elsif, ?br_else in *. apply (rbind_more _ _ _ _ 4); [| |exact H].
    + intros N. apply (rbind_more _ _ _ _ 4); [reflexivity| |exact N]. intros [] E N1.
      * apply (IHt s h i HR); try assumption; intros x Hx; [apply D1|apply C1; right|apply K1]; apply in_or_app; auto.
      * apply (IHm s h i HR); try assumption; intros x Hx; [apply D1|apply C1; right|apply K1]; apply in_or_app; auto.
    + intros s1 E N1. destruct iterate_spec as [_ IS]. specialize (IS (BElsif c t b) s h i HR D1 C1 K1). rewrite ?it_end, ?it_rewind, ?it_values, ?it_if, ?br_end, ?br_elsif, ?br_else in IS. rewrite E in IS.
      destruct IS as (u & h1 & i1 & _ & _ & HR1). apply (IHr s1 h1 i1 HR1); assumption.
  - reflexivity.
  - intros c t IHt b IHm s h i HR HD HCs HKs H. rewrite ?it_end, ?it_rewind, ?it_values, ?it_if, ?br_end, ?br_elsif, ?br_else in *. apply (rbind_more _ _ _ _ 4); [reflexivity| |exact H]. intros [] E N1.
    + apply (IHt s h i HR); try assumption; intros x Hx; [apply HD|apply HCs; right|apply HKs]; apply in_or_app; auto.
    + apply (IHm s h i HR); try assumption; intros x Hx; [apply HD|apply HCs; right|apply HKs]; apply in_or_app; auto.
  - intros t IHt s h i HR HD HCs HKs H. rewrite ?it_end, ?it_rewind, ?it_values, ?it_if, ?br_end, ?br_elsif, ?br_else in *. apply (IHt s h i HR); assumption.
Qed.
End Import.

Lemma rel_start buf D : rel buf D ([], 0) [] buf.
Proof. split; [reflexivity|]. split; [reflexivity|]. split; [reflexivity|constructor]. Qed.
Lemma rel_result buf D s h i : rel buf D s h i -> s = (values h, zlen (octets h)).
Proof. intros (H1 & H2 & _). destruct s. cbn [fst snd] in *. congruence. Qed.

Lemma import_exact after t buf vs n : plain t -> bytes buf -> zlen buf < 2^32 ->
  import_from_buffer after buf t = ROk (vs, n) <->
  exists h rest, follows after t [] buf h rest /\ vs = values h /\ n = zlen (octets h).
Proof.
  intros (P1 & P2 & P3 & P4) HB HL. unfold import_from_buffer. split.
  - intros E. pose proof (iterate_spec after buf (defs t) (conds t) HB HL P1 P2 P4 (rewinds t) P3) as [IS _].
    specialize (IS t ([], 0) [] buf (rel_start buf (defs t)) (incl_refl _) (incl_refl _) (incl_refl _)). rewrite E in IS.
    destruct IS as (h & i & HF & HR). apply rel_result in HR. injection HR as -> ->. exists h, i. auto.
  - intros (h & rest & HF & -> & ->).
    destruct (follows_iterate after buf (defs t) (conds t) HB HL P1 P2 P4 (rewinds t) P3 t [] buf h rest HF ([], 0) (rel_start buf (defs t)) (incl_refl _) (incl_refl _) (incl_refl _)) as (s' & -> & HR).
    apply rel_result in HR. subst s'. reflexivity.
Qed.
Lemma follows_octets after t h i h' i' : follows after t h i h' i' -> octets h ++ i = octets h' ++ i'.
Proof.
  intros H. induction H as [h i|keep gone i rest h' i' HF IH|rest h i h' i' HF IH|d ds rest h o i w h' i' HFd HF IH|c t more rest u h i h1 i1 h' i' HCH HF1 IH1 HF2 IH2]; try congruence.
  - rewrite octets_app, <- app_assoc. exact IH.
  - rewrite octets_app, octets_one, <- app_assoc in IH. exact IH.
Qed.
Lemma import_safe_all after t buf : plain t -> bytes buf -> zlen buf < 2^32 ->
  (exists vs n, import_from_buffer after buf t = ROk (vs, n) /\ 0 <= n <= zlen buf) \/ (exists c, import_from_buffer after buf t = RErr c /\ In c [1; 2; 4]).
Proof.
  intros (P1 & P2 & P3 & P4) HB HL. unfold import_from_buffer.
  pose proof (iterate_spec after buf (defs t) (conds t) HB HL P1 P2 P4 (rewinds t) P3) as [IS _].
  specialize (IS t ([], 0) [] buf (rel_start buf (defs t)) (incl_refl _) (incl_refl _) (incl_refl _)).
  destruct (iterate after buf t ([], 0)) as [s'|c| |]; try contradiction.
  - left. destruct IS as (h & i & HF & HR). pose proof HR as (_ & _ & HE & _). apply rel_result in HR. subst s'. exists (values h), (zlen (octets h)). split; [reflexivity|].
    rewrite HE, zlen_app. pose proof (zlen_nonneg _ (octets h)). pose proof (zlen_nonneg _ i). lia.
  - right. exists c. split; [reflexivity|]. cbn [In]. intuition auto.
Qed.
Lemma import_more after t buf more : plain t -> bytes buf -> zlen buf < 2^32 -> import_from_buffer after buf t <> RErr 4 ->
  import_from_buffer after (buf ++ more) t = import_from_buffer after buf t.
Proof.
  intros (P1 & P2 & P3 & P4) HB HL H. unfold import_from_buffer in *.
  pose proof (iterate_more after buf (defs t) (conds t) HB HL P1 P2 P4 (rewinds t) P3 more) as [IM _].
  exact (IM t ([], 0) [] buf (rel_start buf (defs t)) (incl_refl _) (incl_refl _) (incl_refl _) H).
Qed.
