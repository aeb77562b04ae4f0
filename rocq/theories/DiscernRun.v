From Coq Require Import Strings.String.
From Coq Require Import ZArith List Bool Lia.
From Verif Require Import Common ParseModel DiscernModel DiscernSpec DiscernParse.
Import ListNotations.
Open Scope Z_scope.

Lemma length_replace e : forall i v, List.length (replace e i v) = List.length e.
Proof. induction e as [ | a e IH ]; intros [ | i ] v; cbn [replace List.length]; auto. Qed.
Lemma replace_at l a r v : replace (l ++ a :: r) (List.length l) v = l ++ v :: r.
Proof. induction l as [ | b l IH ]; cbn [app List.length replace]; [ reflexivity | now rewrite IH ]. Qed.
Lemma get_at l a r : zlen (l ++ a :: r) = 64 -> get (l ++ a :: r) (zlen l) = Ok a.
Proof.
  intros H. rewrite zlen_app, zlen_cons in H. pose proof (zlen_nonneg _ l). pose proof (zlen_nonneg _ r). unfold get, STACK_MAX. replace ((0 <=? zlen l) && (zlen l <? 64)) with true by lia.
  replace (Z.to_nat (zlen l)) with (List.length l) by (unfold zlen; lia). now rewrite nth_middle.
Qed.
Lemma put_at l a r v : zlen (l ++ a :: r) = 64 -> put (l ++ a :: r) (zlen l) v = Ok (l ++ v :: r).
Proof.
  intros H. rewrite zlen_app, zlen_cons in H. pose proof (zlen_nonneg _ l). pose proof (zlen_nonneg _ r). unfold put, STACK_MAX. replace ((0 <=? zlen l) && (zlen l <? 64)) with true by lia.
  replace (Z.to_nat (zlen l)) with (List.length l) by (unfold zlen; lia). now rewrite replace_at.
Qed.
Lemma put_value_at l a r x : zlen (l ++ a :: r) = 64 -> put_value (l ++ a :: r) (zlen l) x = Ok (l ++ mk_val (v_size a) (v_pos a) x :: r).
Proof. intros H. unfold put_value. rewrite get_at by auto. cbn [bind]. now apply put_at. Qed.

Lemma Forall2_len {A B} (R : A -> B -> Prop) l1 l2 : Forall2 R l1 l2 -> List.length l1 = List.length l2.
Proof. induction 1; cbn; congruence. Qed.

Section Run.
Variable S : Type.
Variable topic_cb : S -> list Z -> res (Z * Z * S).
Variable tag_cb : S -> list Z -> res (Z * Z * option (list Z) * S).
Variable apply_cb : bool -> S -> list Z -> res (Z * S).
Variable a : answers.
Variable rel : S -> decisions -> Prop.
Variable all : list instr.

(** The index tells of every tag there is. *)
Definition complete (index : list Z) : Prop := index = [] \/ forall t, In (Has t) all -> has a t = true -> In (first_last t) index.
Hypothesis Htopic : forall s ev f, In (Topic f) all -> rel s ev -> exists s', topic_cb s f = Ok (0, b2z (matches a f), s') /\ rel s' ev.
Hypothesis Htag : forall s ev t, In (Has t) all -> rel s ev -> exists new s', tag_cb s t = Ok (0, b2z (has a t), new, s') /\ rel s' ev /\ (forall i, new = Some i -> complete i).
Hypothesis Happly : forall s ev b d, In (Dest d) all -> rel s ev -> exists s', apply_cb b s d = Ok (0, s') /\ rel s' (ev ++ [(b, d)]).

Definition holds (st : list Z) (v : val) (i : item) : Prop :=
  match i with Truth b => v_value v = b2z b | Name d => string_at st (v_pos v) = Some d /\ In (Dest d) all end.
Definition item_kind (i : item) : kind := match i with Truth _ => KTruth | Name _ => KName end.
Definition fits (k : list kind) (is : list instr) : Prop := (k = [] /\ is = []) \/ legal k is.

Lemma excludes_false index t : In (Has t) all -> complete index -> index_excludes index (first_last t) = true -> has a t = false.
Proof.
  intros It C X. destruct (has a t) eqn:H; [ | reflexivity ]. exfalso. destruct C as [ -> | C ]; [ discriminate X | ]. specialize (C t It H).
  unfold index_excludes in X. destruct index as [ | i0 index ]; [ discriminate | ]. apply negb_true_iff in X.
  assert (Y : existsb (fun i => i =? first_last t) (i0 :: index) = true) by (apply existsb_exists; exists (first_last t); split; [ exact C | apply Z.eqb_refl ]). congruence.
Qed.
Lemma truth_b2z b : truth (b2z b) = b.
Proof. now destruct b. Qed.
Lemma odd_b2z b : Z.odd (b2z b) = b.
Proof. now destruct b. Qed.
Lemma legal_fits k i is : legal k (i :: is) -> exists k', effect i k = Some k' /\ fits k' is /\ zlen k' <= 63.
Proof.
  intros L. inversion L; subst; eexists; (split; [ eassumption | ]).
  - split; [ left; auto | cbn; lia ].
  - split; [ now right | assumption ].
Qed.
Lemma execute_ok values : forall is l vs high index s ev st,
  Forall2 (compiled values) l is -> incl is all -> fits (map item_kind st) is -> zlen st <= 63 -> zlen (rev vs ++ high) = 64 -> Forall2 (holds values) vs st -> complete index -> rel s ev ->
  exists ds bailed s', run a is st = Some (ds, bailed) /\
    execute_loop S topic_cb tag_cb apply_cb values l (rev vs ++ high) (zlen vs) index s = Ok (if bailed : bool then BAIL else 0, FOk, s') /\ rel s' (ev ++ ds).
Proof.
  induction is as [ | i is IH ]; intros l vs high index s ev st C Inc F Zs Z64 Hs Cx R.
  - inversion C; subst. destruct F as [ (F & _) | F ]; [ | now apply legal_some in F ]. destruct st; [ | discriminate F ]. inversion Hs; subst.
    exists [], false, s. rewrite app_nil_r. cbn. auto.
  - inversion C as [ | node i0 l0 is0 Cn Cl ]; subst. destruct F as [ (_ & F) | F ]; [ discriminate F | ]. apply legal_fits in F as (k' & Ef & F & Zk).
    assert (Hlen : zlen vs = zlen st) by (unfold zlen; f_equal; eapply Forall2_len; exact Hs).
    assert (Ii : In i all) by (apply Inc; now left). assert (Inc' : incl is all) by (intros j Hj; apply Inc; now right).
    assert (Hr : zlen (rev vs) = zlen vs) by apply zlen_rev. pose proof (zlen_nonneg _ vs) as Nv.
    cbn [execute_loop]. unfold STACK_MAX at 1. replace (64 <=? zlen vs) with false by lia.
    assert (PUSH : forall v it ev' s' index', holds values v it -> effect i (map item_kind st) = Some (item_kind it :: map item_kind st) -> complete index' -> rel s' ev' -> forall h high', high = h :: high' ->
       exists ds bailed s2, run a is (it :: st) = Some (ds, bailed) /\
         execute_loop S topic_cb tag_cb apply_cb values l0 (rev vs ++ v :: high') (zlen vs + 1) index' s' = Ok (if bailed : bool then BAIL else 0, FOk, s2) /\ rel s2 (ev' ++ ds)).
    { intros v it ev' s' index' Hv Ek Cx' R' h high' ->. rewrite Ek in Ef. injection Ef as <-.
      destruct (IH l0 (v :: vs) high' index' s' ev' (it :: st) Cl Inc') as (ds & bl & s2 & E1 & E2 & E3); auto.
      - rewrite zlen_cons in *. rewrite zlen_map in Zk. lia.
      - cbn [rev]. rewrite <- app_assoc. cbn [app]. rewrite zlen_app, zlen_cons in *. lia.
      - exists ds, bl, s2. split; [ exact E1 | ]. split; [ | exact E3 ]. cbn [rev] in E2. rewrite <- app_assoc in E2. cbn [app] in E2. rewrite zlen_cons, Z.add_comm in E2. exact E2. }
    destruct high as [ | h high ]; [ rewrite app_nil_r in Z64; lia | ]. rewrite <- Hr.
    destruct i as [ f | t | b | d | | | | | | ]; cbn [compiled] in Cn.
    + destruct Cn as (Ct & Co & Cs & _). rewrite Co, Ct. unfold string_of. rewrite Cs. cbn [bind]. destruct (Htopic s ev f Ii R) as (s1 & -> & R1). cbn [bind].
      rewrite put_value_at by auto. cbn [bind]. change (negb (0 =? 0)) with false. cbv iota. rewrite Hr. cbn [run]. eapply PUSH; eauto. reflexivity.
    + destruct Cn as (Ct & Co & Cs & _ & _ & Cv). rewrite Co, Ct, Cv. cbn [run]. destruct (index_excludes index (first_last t)) eqn:X.
      * rewrite put_value_at by auto. cbn [bind]. rewrite Hr. rewrite (excludes_false index t Ii Cx X). eapply PUSH; eauto. reflexivity.
      * unfold string_of. rewrite Cs. cbn [bind]. destruct (Htag s ev t Ii R) as (new & s1 & -> & R1 & Cn'). cbn [bind].
        rewrite put_value_at by auto. cbn [bind]. change (negb (0 =? 0)) with false. cbv iota zeta. rewrite Hr. eapply PUSH; eauto; [ reflexivity | ]. destruct new; [ now apply Cn' | exact Cx ].
    + destruct Cn as (Ct & Co & Cv & _). rewrite Co, Ct, Cv. rewrite put_value_at by auto. cbn [bind run]. rewrite Hr. eapply PUSH; eauto. reflexivity.
    + destruct Cn as (Ct & Co & Cs & _). rewrite Co, Ct. rewrite put_at by auto. cbn [bind run]. rewrite Hr. eapply PUSH; eauto. split; [ exact Cs | exact Ii ].
    + destruct Cn as (_ & Co). rewrite Co. destruct st as [ | [ x | x ] [ | [ y | y ] st ] ]; try discriminate Ef. injection Ef as <-.
      inversion Hs as [ | va ia vs0 st0 Ha Hs0 ]; subst. inversion Hs0 as [ | vb ib vs1 st1 Hb Hs1 ]; subst. cbn [rev] in *. rewrite <- !app_assoc in *. cbn [app] in *. cbn [holds] in Ha, Hb.
      assert (Q1 : zlen (rev vs1 ++ [vb; va]) - 1 = zlen (rev vs1 ++ [vb])) by (rewrite !zlen_app, !zlen_cons, zlen_nil; lia).
      assert (Q2 : zlen (rev vs1 ++ [vb; va]) - 2 = zlen (rev vs1)) by (rewrite !zlen_app, !zlen_cons, zlen_nil; lia).
      rewrite Q1, Q2. replace (rev vs1 ++ vb :: va :: h :: high) with ((rev vs1 ++ [vb]) ++ va :: h :: high) in * by now rewrite <- app_assoc.
      rewrite get_at by auto. cbn [bind]. rewrite <- app_assoc in *. cbn [app] in *. rewrite get_at by auto. cbn [bind]. rewrite put_value_at by auto. cbn [bind run].
      unfold op_and. rewrite Ha, Hb, !truth_b2z.
      destruct (IH l0 (mk_val (v_size vb) (v_pos vb) (b2z (x && y)) :: vs1) (va :: h :: high) index s ev (Truth (x && y) :: st) Cl Inc') as (ds & bl & s2 & E1 & E2 & E3); auto.
      { rewrite !zlen_cons in *. lia. }
      { cbn [rev]. rewrite <- app_assoc. cbn [app]. rewrite zlen_app, !zlen_cons in *. lia. }
      { constructor; [ reflexivity | exact Hs1 ]. }
      exists ds, bl, s2. split; [ exact E1 | ]. split; [ | exact E3 ]. cbn [rev] in E2. rewrite <- app_assoc in E2. cbn [app] in E2.
      replace (zlen (rev vs1 ++ [vb])) with (zlen (mk_val (v_size vb) (v_pos vb) (b2z (x && y)) :: vs1)) by (rewrite zlen_app, zlen_rev, !zlen_cons, zlen_nil; lia). exact E2.
    + destruct Cn as (_ & Co). rewrite Co. destruct st as [ | [ x | x ] [ | [ y | y ] st ] ]; try discriminate Ef. injection Ef as <-.
      inversion Hs as [ | va ia vs0 st0 Ha Hs0 ]; subst. inversion Hs0 as [ | vb ib vs1 st1 Hb Hs1 ]; subst. cbn [rev] in *. rewrite <- !app_assoc in *. cbn [app] in *. cbn [holds] in Ha, Hb.
      assert (Q1 : zlen (rev vs1 ++ [vb; va]) - 1 = zlen (rev vs1 ++ [vb])) by (rewrite !zlen_app, !zlen_cons, zlen_nil; lia).
      assert (Q2 : zlen (rev vs1 ++ [vb; va]) - 2 = zlen (rev vs1)) by (rewrite !zlen_app, !zlen_cons, zlen_nil; lia).
      rewrite Q1, Q2. replace (rev vs1 ++ vb :: va :: h :: high) with ((rev vs1 ++ [vb]) ++ va :: h :: high) in * by now rewrite <- app_assoc.
      rewrite get_at by auto. cbn [bind]. rewrite <- app_assoc in *. cbn [app] in *. rewrite get_at by auto. cbn [bind]. rewrite put_value_at by auto. cbn [bind run].
      unfold op_or. rewrite Ha, Hb, !truth_b2z.
      destruct (IH l0 (mk_val (v_size vb) (v_pos vb) (b2z (x || y)) :: vs1) (va :: h :: high) index s ev (Truth (x || y) :: st) Cl Inc') as (ds & bl & s2 & E1 & E2 & E3); auto.
      { rewrite !zlen_cons in *. lia. }
      { cbn [rev]. rewrite <- app_assoc. cbn [app]. rewrite zlen_app, !zlen_cons in *. lia. }
      { constructor; [ reflexivity | exact Hs1 ]. }
      exists ds, bl, s2. split; [ exact E1 | ]. split; [ | exact E3 ]. cbn [rev] in E2. rewrite <- app_assoc in E2. cbn [app] in E2.
      replace (zlen (rev vs1 ++ [vb])) with (zlen (mk_val (v_size vb) (v_pos vb) (b2z (x || y)) :: vs1)) by (rewrite zlen_app, zlen_rev, !zlen_cons, zlen_nil; lia). exact E2.
    + destruct Cn as (_ & Co). rewrite Co. destruct st as [ | [ x | x ] st ]; try discriminate Ef. injection Ef as <-.
      inversion Hs as [ | va ia vs0 st0 Ha Hs0 ]; subst. cbn [rev] in *. rewrite <- !app_assoc in *. cbn [app] in *. cbn [holds] in Ha.
      assert (Q1 : zlen (rev vs0 ++ [va]) - 1 = zlen (rev vs0)) by (rewrite !zlen_app, !zlen_cons, zlen_nil; lia).
      rewrite Q1, get_at by auto. cbn [bind]. rewrite put_value_at by auto. cbn [bind run]. unfold op_not. rewrite Ha, truth_b2z.
      destruct (IH l0 (mk_val (v_size va) (v_pos va) (b2z (negb x)) :: vs0) (h :: high) index s ev (Truth (negb x) :: st) Cl Inc') as (ds & bl & s2 & E1 & E2 & E3); auto.
      { cbn [rev]. rewrite <- app_assoc. cbn [app]. rewrite zlen_app, !zlen_cons in *. lia. }
      { constructor; [ reflexivity | exact Hs0 ]. }
      exists ds, bl, s2. split; [ exact E1 | ]. split; [ | exact E3 ]. cbn [rev] in E2. rewrite <- app_assoc in E2. cbn [app] in E2.
      replace (zlen (rev vs0 ++ [va])) with (zlen (mk_val (v_size va) (v_pos va) (b2z (negb x)) :: vs0)) by (rewrite zlen_app, zlen_rev, !zlen_cons, zlen_nil; lia). exact E2.
    + destruct Cn as (_ & Co). rewrite Co. destruct st as [ | [ x | x ] [ | [ y | y ] st ] ]; try discriminate Ef. injection Ef as <-.
      inversion Hs as [ | va ia vs0 st0 Ha Hs0 ]; subst. inversion Hs0 as [ | vb ib vs1 st1 Hb Hs1 ]; subst. cbn [rev] in *. rewrite <- !app_assoc in *. cbn [app] in *. cbn [holds] in Ha, Hb.
      assert (Q1 : zlen (rev vs1 ++ [vb; va]) - 1 = zlen (rev vs1 ++ [vb])) by (rewrite !zlen_app, !zlen_cons, zlen_nil; lia).
      assert (Q2 : zlen (rev vs1 ++ [vb; va]) - 2 = zlen (rev vs1)) by (rewrite !zlen_app, !zlen_cons, zlen_nil; lia).
      rewrite Q1, Q2. replace (rev vs1 ++ vb :: va :: h :: high) with ((rev vs1 ++ [vb]) ++ va :: h :: high) in * by now rewrite <- app_assoc.
      rewrite get_at by auto. cbn [bind]. rewrite <- app_assoc in *. cbn [app] in *. rewrite get_at by auto. cbn [bind]. destruct Ha as (Ha & Id). unfold string_of. rewrite Ha. cbn [bind].
      rewrite Hb, odd_b2z. destruct (Happly s ev y x Id R) as (s1 & -> & R1). cbn [bind run]. change (negb (0 =? 0)) with false. cbv iota.
      destruct (IH l0 (vb :: vs1) (va :: h :: high) index s1 (ev ++ [(y, x)]) (Truth y :: st) Cl Inc') as (ds & bl & s2 & E1 & E2 & E3); auto.
      { rewrite !zlen_cons in *. lia. }
      { cbn [rev]. rewrite <- app_assoc. cbn [app]. exact Z64. }
      exists ((y, x) :: ds), bl, s2. rewrite E1. split; [ reflexivity | ]. split; [ | rewrite <- app_assoc in E3; exact E3 ]. cbn [rev] in E2. rewrite <- app_assoc in E2. cbn [app] in E2.
      replace (zlen (rev vs1 ++ [vb])) with (zlen (vb :: vs1)) by (rewrite zlen_app, zlen_rev, !zlen_cons, zlen_nil; lia). exact E2.
    + destruct Cn as (_ & Co). rewrite Co. destruct st as [ | x st ]; try discriminate Ef. injection Ef as <-.
      inversion Hs as [ | va ia vs0 st0 Ha Hs0 ]; subst. cbn [rev] in *. rewrite <- !app_assoc in *. cbn [app] in *.
      destruct (IH l0 vs0 (va :: h :: high) index s ev st Cl Inc') as (ds & bl & s2 & E1 & E2 & E3); auto.
      { rewrite !zlen_cons in *. lia. }
      exists ds, bl, s2. split; [ cbn [run]; destruct x; exact E1 | ]. split; [ | exact E3 ].
      replace (zlen (rev vs0 ++ [va]) - 1) with (zlen vs0) by (rewrite zlen_app, zlen_rev, !zlen_cons, zlen_nil; lia). exact E2.
    + destruct Cn as (_ & Co). rewrite Co. destruct st as [ | [ x | x ] st ]; try discriminate Ef. injection Ef as <-.
      inversion Hs as [ | va ia vs0 st0 Ha Hs0 ]; subst. cbn [rev] in *. rewrite <- !app_assoc in *. cbn [app] in *. cbn [holds] in Ha.
      assert (Q1 : zlen (rev vs0 ++ [va]) - 1 = zlen (rev vs0)) by (rewrite !zlen_app, !zlen_cons, zlen_nil; lia).
      rewrite Q1, get_at by auto. cbn [bind run]. rewrite Ha, truth_b2z. destruct x.
      { exists [], true, s. rewrite app_nil_r. auto. }
      destruct (IH l0 vs0 (va :: h :: high) index s ev st Cl Inc') as (ds & bl & s2 & E1 & E2 & E3); auto.
      { rewrite !zlen_cons in *. lia. }
      exists ds, bl, s2. split; [ exact E1 | ]. split; [ | exact E3 ]. rewrite zlen_rev. exact E2.
Qed.

Lemma execute_def d is s ev : means d is -> incl is all -> is = [] \/ definition is -> rel s ev ->
  exists ds bailed s', run a is [] = Some (ds, bailed) /\ execute S topic_cb tag_cb apply_cb d s = Ok (if bailed : bool then BAIL else 0, FOk, s') /\ rel s' (ev ++ ds).
Proof.
  intros M Inc D R. apply (execute_ok (d_values d) is (d_list d) [] (repeat (mk_val 0 0 0) (Z.to_nat STACK_MAX)) [] s ev []); auto.
  - destruct D as [ -> | D ]; [ now left | now right ].
  - cbn. lia.
  - now left.
Qed.
Lemma collection_ok : forall ds iss s ev, Forall2 means ds iss -> incl (concat iss) all -> Forall (fun is => is = [] \/ definition is) iss -> rel s ev ->
  exists dec bailed s', run_all a iss = Some (dec, bailed) /\ collection_execute S topic_cb tag_cb apply_cb ds s = Ok (if bailed : bool then BAIL else 0, FOk, s') /\ rel s' (ev ++ dec).
Proof.
  induction ds as [ | d ds IH ]; intros iss s ev M Inc D R; inversion M as [ | d0 is ds0 iss0 Md Ms ]; subst; cbn [run_all collection_execute].
  - exists [], false, s. rewrite app_nil_r. auto.
  - cbn [concat] in Inc. inversion D as [ | ? ? D1 D2 ]; subst.
    destruct (execute_def d is s ev Md ltac:(intros x Hx; apply Inc, in_or_app; now left) D1 R) as (dec & bl & s1 & E1 & E2 & R1). rewrite E1, E2. cbn [bind]. destruct bl.
    + change (negb (BAIL =? 0)) with true. cbv iota. exists dec, true, s1. auto.
    + change (negb (0 =? 0)) with false. cbv iota.
      destruct (IH iss0 s1 (ev ++ dec) Ms ltac:(intros x Hx; apply Inc, in_or_app; now right) D2 R1) as (dec2 & bl & s2 & F1 & F2 & R2). rewrite F1, F2. exists (dec ++ dec2), bl, s2. rewrite app_assoc. auto.
Qed.
End Run.
