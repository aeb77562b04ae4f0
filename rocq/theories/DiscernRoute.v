From Coq Require Import Strings.String.
From Coq Require Import ZArith List Bool Lia.
From Verif Require Import Common ParseModel ParseSpec ParseProofs ConfigProofs MsgModel TypeModel ArrayModel TopicModel TopicSpec TopicProps DiscernModel DiscernSpec DiscernProofs DiscernParse DiscernRun.
Import ListNotations.
Open Scope Z_scope.

(** ** Execution never breaks *)
Section Safe.
Variable S : Type.
Variable topic_cb : S -> list Z -> res (Z * Z * S).
Variable tag_cb : S -> list Z -> res (Z * Z * option (list Z) * S).
Variable apply_cb : bool -> S -> list Z -> res (Z * S).
Hypothesis Htopic : forall s f, exists r, topic_cb s f = Ok r.
Hypothesis Htag : forall s f, exists r, tag_cb s f = Ok r.
Hypothesis Happly : forall b s d, exists r, apply_cb b s d = Ok r.

Definition named (st : list Z) (v : val) (k : kind) : Prop := k = KName -> exists d, string_at st (v_pos v) = Some d.

Lemma execute_safe values : forall is l vs high index s k,
  Forall2 (compiled values) l is -> fits k is -> zlen k <= 63 -> zlen (rev vs ++ high) = 64 -> Forall2 (named values) vs k ->
  exists r, execute_loop S topic_cb tag_cb apply_cb values l (rev vs ++ high) (zlen vs) index s = Ok r.
Proof.
  induction is as [ | i is IH ]; intros l vs high index s st C F Zs Z64 Hs.
  - inversion C; subst. destruct F as [ (F & _) | F ]; [ | now apply legal_some in F ]. subst. inversion Hs; subst. eexists. reflexivity.
  - inversion C as [ | node i0 l0 is0 Cn Cl ]; subst. destruct F as [ (_ & F) | F ]; [ discriminate F | ]. apply legal_fits in F as (k' & Ef & F & Zk).
    assert (Hlen : zlen vs = zlen st) by (unfold zlen; f_equal; eapply Forall2_len; exact Hs).
    assert (Hr : zlen (rev vs) = zlen vs) by apply zlen_rev. pose proof (zlen_nonneg _ vs) as Nv.
    cbn [execute_loop]. unfold STACK_MAX at 1. replace (64 <=? zlen vs) with false by lia.
    assert (PUSH : forall v k0 s' index', named values v k0 -> effect i st = Some (k0 :: st) -> forall h high', high = h :: high' ->
       exists r, execute_loop S topic_cb tag_cb apply_cb values l0 (rev vs ++ v :: high') (zlen vs + 1) index' s' = Ok r).
    { intros v k0 s' index' Hv Ek h high' ->. rewrite Ek in Ef. injection Ef as <-.
      destruct (IH l0 (v :: vs) high' index' s' (k0 :: st) Cl) as (r & E2); auto.
      - cbn [rev]. rewrite <- app_assoc. cbn [app]. rewrite zlen_app, zlen_cons in *. lia.
      - exists r. cbn [rev] in E2. rewrite <- app_assoc in E2. cbn [app] in E2. rewrite zlen_cons, Z.add_comm in E2. exact E2. }
    assert (DOWN : forall va vb vb' ka kb k0 vs1 r1 h high', vs = va :: vb :: vs1 -> st = ka :: kb :: r1 -> high = h :: high' -> k' = k0 :: r1 -> named values vb' k0 -> forall index' s',
       get (rev vs ++ high) (zlen (rev vs) - 1) = Ok va /\ get (rev vs ++ high) (zlen (rev vs) - 2) = Ok vb /\
       (forall x, put_value (rev vs ++ high) (zlen (rev vs) - 2) x = Ok (rev vs1 ++ mk_val (v_size vb) (v_pos vb) x :: va :: high)) /\
       exists r, execute_loop S topic_cb tag_cb apply_cb values l0 (rev vs1 ++ vb' :: va :: high) (zlen (rev vs) - 1) index' s' = Ok r).
    { intros va vb vb' ka kb k0 vs1 r1 h high' -> -> -> -> Hn index' s'. cbn [rev] in *. rewrite <- !app_assoc in *. cbn [app] in *.
      assert (Q1 : zlen (rev vs1 ++ [vb; va]) - 1 = zlen (rev vs1 ++ [vb])) by (rewrite !zlen_app, !zlen_cons, zlen_nil; lia).
      assert (Q2 : zlen (rev vs1 ++ [vb; va]) - 2 = zlen (rev vs1)) by (rewrite !zlen_app, !zlen_cons, zlen_nil; lia).
      rewrite Q1, Q2. split; [ | split; [ | split ] ].
      - replace (rev vs1 ++ vb :: va :: h :: high') with ((rev vs1 ++ [vb]) ++ va :: h :: high') in * by now rewrite <- app_assoc. now apply get_at.
      - now apply get_at.
      - intros x. now apply put_value_at.
      - inversion Hs as [ | va0 ka0 vs0 st0 Ha Hs0 ]; subst. inversion Hs0 as [ | vb0 kb0 vs2 st1 Hb Hs1 ]; subst.
        destruct (IH l0 (vb' :: vs1) (va :: h :: high') index' s' (k0 :: r1) Cl) as (r & E); auto.
        + cbn [rev]. rewrite <- app_assoc. cbn [app]. rewrite zlen_app, !zlen_cons in *. lia.
        + exists r. cbn [rev] in E. rewrite <- app_assoc in E. cbn [app] in E.
          replace (zlen (rev vs1 ++ [vb])) with (zlen (vb' :: vs1)) by (rewrite zlen_app, zlen_rev, !zlen_cons, zlen_nil; lia). exact E. }
    destruct high as [ | h high ]; [ rewrite app_nil_r in Z64; lia | ]. rewrite <- Hr.
    assert (NT : forall v, named values v KTruth) by (intros v; discriminate).
    destruct i as [ f | t | b | d | | | | | | ]; cbn [compiled] in Cn.
    + destruct Cn as (Ct & Co & Cs & _). rewrite Co, Ct. unfold string_of. rewrite Cs. cbn [bind]. destruct (Htopic s f) as (((rt & x) & s1) & ->). cbn [bind].
      rewrite put_value_at by auto. cbn [bind]. destruct (negb (rt =? 0)); [ eexists; reflexivity | ]. rewrite Hr. eapply PUSH; eauto; reflexivity.
    + destruct Cn as (Ct & Co & Cs & _ & _ & Cv). rewrite Co, Ct, Cv. destruct (index_excludes index (first_last t)) eqn:X.
      * rewrite put_value_at by auto. cbn [bind]. rewrite Hr. eapply PUSH; eauto; reflexivity.
      * unfold string_of. rewrite Cs. cbn [bind]. destruct (Htag s t) as ((((rt & x) & new) & s1) & ->). cbn [bind].
        rewrite put_value_at by auto. cbn [bind]. cbv zeta. destruct (negb (rt =? 0)); [ eexists; reflexivity | ]. rewrite Hr. eapply PUSH; eauto; reflexivity.
    + destruct Cn as (Ct & Co & Cv & _). rewrite Co, Ct, Cv. rewrite put_value_at by auto. cbn [bind]. rewrite Hr. eapply PUSH; eauto; reflexivity.
    + destruct Cn as (Ct & Co & Cs & _). rewrite Co, Ct. rewrite put_at by auto. cbn [bind]. rewrite Hr. eapply (PUSH _ KName); eauto. intros _. exists d. exact Cs.
    + destruct Cn as (_ & Co). rewrite Co. destruct st as [ | [ | ] [ | [ | ] st ] ]; try discriminate Ef. injection Ef as <-.
      inversion Hs as [ | va ia vs0 st0 Ha Hs0 ]; subst. inversion Hs0 as [ | vb ib vs1 st1 Hb Hs1 ]; subst.
      destruct (DOWN va vb (mk_val (v_size vb) (v_pos vb) (op_and (v_value va) (v_value vb))) _ _ _ vs1 st h high eq_refl eq_refl eq_refl eq_refl (NT _) index s) as (-> & -> & E3 & E4).
      cbn [bind]. rewrite E3. cbn [bind]. exact E4.
    + destruct Cn as (_ & Co). rewrite Co. destruct st as [ | [ | ] [ | [ | ] st ] ]; try discriminate Ef. injection Ef as <-.
      inversion Hs as [ | va ia vs0 st0 Ha Hs0 ]; subst. inversion Hs0 as [ | vb ib vs1 st1 Hb Hs1 ]; subst.
      destruct (DOWN va vb (mk_val (v_size vb) (v_pos vb) (op_or (v_value va) (v_value vb))) _ _ _ vs1 st h high eq_refl eq_refl eq_refl eq_refl (NT _) index s) as (-> & -> & E3 & E4).
      cbn [bind]. rewrite E3. cbn [bind]. exact E4.
    + destruct Cn as (_ & Co). rewrite Co. destruct st as [ | [ | ] st ]; try discriminate Ef. injection Ef as <-.
      inversion Hs as [ | va ia vs0 st0 Ha Hs0 ]; subst. cbn [rev] in *. rewrite <- !app_assoc in *. cbn [app] in *.
      assert (Q1 : zlen (rev vs0 ++ [va]) - 1 = zlen (rev vs0)) by (rewrite !zlen_app, !zlen_cons, zlen_nil; lia).
      rewrite Q1, get_at by auto. cbn [bind]. rewrite put_value_at by auto. cbn [bind].
      destruct (IH l0 (mk_val (v_size va) (v_pos va) (op_not (v_value va)) :: vs0) (h :: high) index s (KTruth :: st) Cl) as (r & E2); auto.
      { cbn [rev]. rewrite <- app_assoc. cbn [app]. rewrite zlen_app, !zlen_cons in *. lia. }
      exists r. cbn [rev] in E2. rewrite <- app_assoc in E2. cbn [app] in E2.
      replace (zlen (rev vs0 ++ [va])) with (zlen (mk_val (v_size va) (v_pos va) (op_not (v_value va)) :: vs0)) by (rewrite zlen_app, zlen_rev, !zlen_cons, zlen_nil; lia). exact E2.
    + destruct Cn as (_ & Co). rewrite Co. destruct st as [ | [ | ] [ | [ | ] st ] ]; try discriminate Ef. injection Ef as <-.
      inversion Hs as [ | va ia vs0 st0 Ha Hs0 ]; subst. inversion Hs0 as [ | vb ib vs1 st1 Hb Hs1 ]; subst.
      destruct (Ha eq_refl) as (d & Hd).
      assert (D2 := fun index' s' => DOWN va vb vb _ _ _ vs1 st h high eq_refl eq_refl eq_refl eq_refl (NT _) index' s').
      destruct (D2 index s) as (-> & -> & _ & _). cbn [bind]. unfold string_of. rewrite Hd. cbn [bind].
      destruct (Happly (Z.odd (v_value vb)) s d) as ((rt & s1) & ->). cbn [bind]. destruct (negb (rt =? 0)); [ eexists; reflexivity | ].
      destruct (D2 index s1) as (_ & _ & _ & r & E). exists r. cbn [rev] in *. rewrite <- !app_assoc in *. cbn [app] in *. exact E.
    + destruct Cn as (_ & Co). rewrite Co. destruct st as [ | x st ]; try discriminate Ef. injection Ef as <-.
      inversion Hs as [ | va ia vs0 st0 Ha Hs0 ]; subst. cbn [rev] in *. rewrite <- !app_assoc in *. cbn [app] in *.
      destruct (IH l0 vs0 (va :: h :: high) index s st Cl) as (r & E2); auto.
      exists r. replace (zlen (rev vs0 ++ [va]) - 1) with (zlen vs0) by (rewrite zlen_app, zlen_rev, !zlen_cons, zlen_nil; lia). exact E2.
    + destruct Cn as (_ & Co). rewrite Co. destruct st as [ | [ | ] st ]; try discriminate Ef. injection Ef as <-.
      inversion Hs as [ | va ia vs0 st0 Ha Hs0 ]; subst. cbn [rev] in *. rewrite <- !app_assoc in *. cbn [app] in *.
      assert (Q1 : zlen (rev vs0 ++ [va]) - 1 = zlen (rev vs0)) by (rewrite !zlen_app, !zlen_cons, zlen_nil; lia).
      rewrite Q1, get_at by auto. cbn [bind]. destruct (truth (v_value va)); [ eexists; reflexivity | ].
      destruct (IH l0 vs0 (va :: h :: high) index s st Cl) as (r & E2); auto. exists r. rewrite zlen_rev. exact E2.
Qed.
Lemma execute_never_breaks d is s : means d is -> is = [] \/ definition is -> exists r, execute S topic_cb tag_cb apply_cb d s = Ok r.
Proof.
  intros M D. apply (execute_safe (d_values d) is (d_list d) [] (repeat (mk_val 0 0 0) (Z.to_nat STACK_MAX)) [] s []); auto.
  - destruct D as [ -> | D ]; [ now left | now right ].
  - cbn. lia.
Qed.
End Safe.

(** ** Receivers *)
Lemma decided_app ev b d name : decided (ev ++ [(b, d)]) name = if list_eq_dec Z.eq_dec d name then Some b else decided ev name.
Proof.
  induction ev as [ | (b0 & d0) ev IH ]; cbn [app decided]; [ reflexivity | ]. rewrite IH. destruct (list_eq_dec Z.eq_dec d name); [ reflexivity | ]. reflexivity.
Qed.
Lemma same_iff x y : same x y = true <-> x = y.
Proof. unfold same. destruct (list_eq_dec Z.eq_dec x y); split; congruence. Qed.
Lemma exists_in_iff l d : exists_in l d = true <-> In d l.
Proof.
  unfold exists_in. rewrite existsb_exists. split; [ intros (x & H1 & H2); apply same_iff in H2; now subst | intros H; exists d; split; [ exact H | now apply same_iff ] ].
Qed.
Lemma remove_first_in l d x : NoDup l -> In x (remove_first l d) <-> In x l /\ x <> d.
Proof.
  induction l as [ | y l IH ]; intros N; cbn [remove_first]; [ cbn; tauto | ]. inversion N as [ | ? ? N1 N2 ]; subst. destruct (same y d) eqn:Q.
  - apply same_iff in Q. subst. cbn [In]. split; [ intros H; split; [ now right | intros -> ; contradiction ] | intros ([ H | H ] & H2); congruence ].
  - assert (y <> d) by (intros H; apply same_iff in H; congruence). cbn [In]. rewrite (IH N2). split; [ intros [ -> | (H1 & H2) ]; auto | intros ([ H1 | H1 ] & H2); auto ].
Qed.
Lemma remove_first_nodup l d : NoDup l -> NoDup (remove_first l d).
Proof.
  induction l as [ | y l IH ]; intros N; cbn [remove_first]; [ constructor | ]. inversion N as [ | ? ? N1 N2 ]; subst. destruct (same y d) eqn:Q; [ exact N2 | ].
  constructor; [ intros H; apply remove_first_in in H; tauto | now apply IH ].
Qed.
Lemma nodup_snoc {A} (l : list A) x : NoDup l -> ~ In x l -> NoDup (l ++ [x]).
Proof.
  induction l as [ | y l IH ]; intros N H; cbn [app]; [ repeat constructor; cbn; tauto | ]. inversion N as [ | ? ? N1 N2 ]; subst. constructor; [ | apply IH; cbn in H; tauto ].
  intros Q. apply in_app_or in Q. cbn in Q, H. intuition congruence.
Qed.
Definition route_rel (s : route_state) (ev : decisions) : Prop := NoDup (snd s) /\ forall name, In name (snd s) <-> decided ev name = Some true.
Lemma route_apply_ok known b hops d ev p : In d known -> route_rel (p, hops) ev -> exists hops', route_apply known b hops d = Ok (0, hops') /\ route_rel (p, hops') (ev ++ [(b, d)]).
Proof.
  intros K (N & R). unfold route_apply. apply exists_in_iff in K. rewrite K. cbn [negb]. cbv iota. cbn [snd] in *.
  destruct b.
  - unfold append_friend. destruct (exists_in (remove_first hops d) d) eqn:Q; [ apply exists_in_iff, remove_first_in in Q; tauto | ].
    exists (remove_first hops d ++ [d]). split; [ reflexivity | ]. split; cbn [snd].
    + apply nodup_snoc; [ now apply remove_first_nodup | ]. intros H. apply remove_first_in in H; tauto.
    + intros name. rewrite in_app_iff, (remove_first_in hops d name N), R, decided_app. cbn [In]. destruct (list_eq_dec Z.eq_dec d name); [ split; auto | ]. split; [ intros [ (H1 & H2) | [ H | [] ] ]; congruence | intros H; left; split; congruence ].
  - exists (remove_first hops d). split; [ reflexivity | ]. split; cbn [snd]; [ now apply remove_first_nodup | ].
    intros name. rewrite (remove_first_in hops d name N), R, decided_app. destruct (list_eq_dec Z.eq_dec d name); [ split; [ intros (_ & H); congruence | discriminate ] | split; [ tauto | intros H; split; congruence ] ].
Qed.

Lemma destinations_names st l is : Forall2 (compiled st) l is -> destinations st l = Some (names is).
Proof.
  induction 1 as [ | e i l is C _ IH ]; [ reflexivity | ]. cbn [destinations]. rewrite IH.
  destruct i as [ f | t | b | d | | | | | | ]; cbn [compiled] in C; try (destruct C as (C & _); rewrite C; reflexivity).
  destruct C as (C & _ & C2 & _). rewrite C. cbn [is_dest]. rewrite C2. reflexivity.
Qed.
Lemma check_names readers : forall routes iss, Forall2 means routes iss ->
  (check_destinations readers routes = Some 0 <-> incl (names (concat iss)) readers) /\ (check_destinations readers routes = Some 0 \/ check_destinations readers routes = Some 1).
Proof.
  intros routes iss. induction 1 as [ | d is ds iss M _ (IH & IH2) ]; cbn [check_destinations concat]; [ split; [ split; [ intros _ x [] | reflexivity ] | now left ] | ].
  rewrite (destinations_names _ _ _ M). assert (E : names (is ++ concat iss) = names is ++ names (concat iss)) by (unfold names; apply flat_map_app). rewrite E.
  destruct (forallb (exists_in readers) (names is)) eqn:Q.
  - split; [ | exact IH2 ]. rewrite IH. split; [ intros H; apply incl_app; [ | exact H ]; intros x Hx; rewrite forallb_forall in Q; apply exists_in_iff; now apply Q | intros H x Hx; apply H, in_or_app; now right ].
  - split; [ | now right ]. split; [ discriminate | ]. intros H. exfalso. assert (X : forallb (exists_in readers) (names is) = true); [ | congruence ].
    apply forallb_forall. intros x Hx. apply exists_in_iff, H, in_or_app. now left.
Qed.
Lemma in_names d is : In (Dest d) is <-> In d (names is).
Proof.
  unfold names. rewrite in_flat_map. split; [ intros H; exists (Dest d); split; [ exact H | now left ] | intros (i & H & H2); destruct i; cbn in H2; try contradiction; destruct H2 as [ -> | [] ]; exact H ].
Qed.

(** What parsed definitions hold *)
Definition wf_instr (i : instr) : Prop := match i with Topic f => filter_text f | Has t => t <> [] /\ Forall tag_char t | _ => True end.
Lemma token_wf s i : token s i -> wf_instr i.
Proof. intros T. inversion T as [ i0 w H | | | ]; subst; cbn; auto. destruct i; cbn in H; try discriminate; exact I. Qed.
Lemma written_wf s is : written s is -> Forall wf_instr is.
Proof. induction 1; constructor; eauto using token_wf. Qed.

Lemma c_string_clean l : ~ In 0 l -> c_string l = l.
Proof. induction l as [ | c l IH ]; intros H; [ reflexivity | ]. cbn [In] in H. cbn [c_string]. destruct (c =? 0) eqn:Q; [ exfalso; apply H; left; lia | ]. now rewrite IH by tauto. Qed.
Lemma tag_char_clean t : Forall tag_char t -> ~ In 0 t.
Proof. intros F H. rewrite Forall_forall in F. specialize (F 0 H). unfold tag_char in F. lia. Qed.
Lemma get_by_tag_iff vs tag : array_has_tag vs tag = true <-> exists v, In v vs /\ is_tag v tag = true.
Proof.
  unfold array_has_tag. induction vs as [ | v vs IH ]; cbn [get_by_tag]; [ split; [ discriminate | intros (v & [] & _) ] | ].
  destruct (is_tag v tag) eqn:Q; [ split; [ intros _; exists v; cbn; auto | reflexivity ] | ].
  rewrite IH. split; intros (w & H1 & H2); exists w; split; auto; [ now right | destruct H1 as [ -> | H1 ]; [ congruence | exact H1 ] ].
Qed.

(** [d] is what the parser makes of a text for the instructions [is], be it empty. *)
Definition read_from (d : dstack) (is : list instr) : Prop :=
  exists t p p' c0 s, t_nul t = true /\ bytes (t_data t) /\ located t p /\ interpret t p = Ok (0, FOk, Some d, p') /\ at_ t p = c0 ++ s ++ at_ t p' /\
    Forall (fun c => 0 <= c <= 31) c0 /\ written s is /\ definition is.
Lemma read_from_means d is : read_from d is -> means d is /\ Forall wf_instr is /\ definition is.
Proof.
  intros (t & p & p' & c0 & s & N & B & L & I & A & Fc & W & D). destruct (interpret_accepts t p c0 s is (at_ t p') N B L A Fc W D) as (d0 & p0 & I0 & _ & _ & M).
  rewrite I in I0. injection I0 as <- _. split; [ exact M | ]. split; [ now apply written_wf in W | exact D ].
Qed.

(** ** Answers for a message *)
Definition ordinary (after : list Z) (m : rrr_msg_msg) (vs : list value) : Prop :=
  (mm_topic_length m = 0 \/
   (mm_topic_length m <> 0 /\ (exists ts, is_levels ts /\ join ts = MSG_TOPIC m /\ join ts <> []) /\ exists o, nth_error (mm_data m) (Z.to_nat (mm_topic_length m)) = Some o /\ o <> 36)) /\
  (if MSG_IS_ARRAY m then append_to_array after m [] = ROk (vs, 0) else vs = []) /\
  Forall (fun v => ~ In 0 (v_tag v)) vs.
Definition tags_of (vs : list value) : list (list Z) := map v_tag vs.

Lemma topic_empty m : mm_topic_length m = 0 -> MSG_TOPIC m = [].
Proof. intros H. unfold MSG_TOPIC. rewrite H. reflexivity. Qed.
Lemma helper_topic_ok after m vs a f : ordinary after m vs -> truthful a (MSG_TOPIC m) (tags_of vs) -> filter_text f -> helper_topic m f = Ok (0, b2z (matches a f)).
Proof.
  intros (Ht & _) (Tm & _) (_ & Hd & _ & fs & Lf & <- & Gf). specialize (Tm fs Lf Gf). unfold helper_topic.
  assert (Nf : join fs <> []) by (intros Q; rewrite Q in Hd; now apply Hd).
  destruct Ht as [ Ht | (Ht & (ts & Lt & Et & Nt) & o & Ho & No) ].
  - rewrite Ht. cbn [Z.eqb]. rewrite (topic_empty m Ht) in Tm. destruct (matches a (join fs)); [ | reflexivity ]. exfalso. destruct Tm as (Tm & _). destruct (Tm eq_refl) as (X & _). now apply X.
  - replace (mm_topic_length m =? 0) with false by lia. rewrite Ho, <- Et. rewrite <- Et in Tm. rewrite (topic_linear_agrees_partial fs ts o 0 Lf Gf Nf Lt Nt No).
    destruct (topic_match_exact fs ts Lf Gf Nf Lt Nt) as (_ & Jt & M1 & M2).
    destruct (match_str (join fs) (join ts)) eqn:Q.
    + destruct (matches a (join fs)); [ reflexivity | ]. exfalso. assert (X : false = true); [ | discriminate X ]. apply Tm. split; [ exact Nt | ]. exists ts. split; [ exact Lt | ]. split; [ reflexivity | ]. now apply M1.
    + destruct (matches a (join fs)); [ | reflexivity ]. exfalso. destruct Tm as (Tm & _). destruct (Tm eq_refl) as (_ & ts' & Lt' & Et' & F).
      assert (ts' = ts). { destruct (topic_match_exact fs ts' Lf Gf Nf Lt' ltac:(congruence)) as (_ & Jt' & _). congruence. } subst. now apply M2.
    + destruct M1 as (_ & M1), M2 as (_ & M2). exfalso. assert (~ filter_match fs ts) by (intros X; specialize (M1 X); discriminate). specialize (M2 H). discriminate.
Qed.
Lemma has_tag_iff vs t : Forall (fun v => ~ In 0 (v_tag v)) vs -> ~ In 0 t -> array_has_tag vs t = true <-> In t (tags_of vs).
Proof.
  intros F N. rewrite get_by_tag_iff. unfold tags_of. rewrite in_map_iff. rewrite Forall_forall in F. split.
  - intros (v & I & H). exists v. split; [ | exact I ]. unfold is_tag in H. rewrite (c_string_clean _ (F v I)), (c_string_clean _ N) in H. now destruct (list_eq_dec Z.eq_dec (v_tag v) t).
  - intros (v & H & I). exists v. split; [ exact I | ]. unfold is_tag. rewrite (c_string_clean _ (F v I)), (c_string_clean _ N), H. now destruct (list_eq_dec Z.eq_dec t t).
Qed.
Lemma index_has vs t : t <> [] -> In t (tags_of vs) -> In (first_last t) (array_index vs).
Proof.
  intros N H. unfold tags_of in H. apply in_map_iff in H as (v & <- & I). unfold array_index. apply in_map_iff. exists v. split; [ reflexivity | ]. apply filter_In. split; [ exact I | ].
  destruct (v_tag v); [ congruence | ]. rewrite zlen_cons. pose proof (zlen_nonneg _ l). lia.
Qed.
Lemma helper_tag_ok after m vs a p t : ordinary after m vs -> truthful a (MSG_TOPIC m) (tags_of vs) -> t <> [] -> Forall tag_char t ->
  exists new p', helper_tag after m p t = Ok (0, b2z (has a t), new, p') /\ (forall i, new = Some i -> i = array_index vs).
Proof.
  intros (_ & Ha & Hn) (_ & Th) Nt Ft. unfold helper_tag. destruct (MSG_IS_ARRAY m); cbn [negb].
  - rewrite Ha. change (negb (0 =? 0)) with false. cbv iota. replace (array_has_tag vs t) with (has a t); [ | apply eq_true_iff_eq; rewrite Th; symmetry; apply has_tag_iff; auto using tag_char_clean ].
    eexists _, _. split; [ reflexivity | ]. intros i. destruct p; congruence.
  - subst. exists None, p. split; [ | discriminate ]. destruct (has a t) eqn:Q; [ apply Th in Q; destruct Q | reflexivity ].
Qed.

Lemma nexthop_iff hops r : hops <> [] -> nexthop_ok hops r = true <-> In r hops.
Proof. intros N. unfold nexthop_ok. destruct hops; [ congruence | ]. apply exists_in_iff. Qed.
Lemma receivers_ok after known readers routes iss m old vs a :
  Forall2 read_from routes iss -> check_destinations readers routes = Some 0 -> incl readers known -> ordinary after m vs -> truthful a (MSG_TOPIC m) (tags_of vs) ->
  exists ds bailed hops, run_all a iss = Some (ds, bailed) /\ postprocess after known routes m old = Ok (0, hops) /\
    forall r, nexthop_ok hops r = true <-> receives ds (fun x => nexthop_ok old x = true) r.
Proof.
  intros RF CD IK O T.
  assert (Fm : Forall2 means routes iss /\ Forall (fun is => is = [] \/ definition is) iss /\ Forall wf_instr (concat iss)).
  { clear - RF. induction RF as [ | d is ds iss H _ (IH1 & IH2 & IH3) ]; [ cbn; auto | ]. apply read_from_means in H as (H1 & H2 & H3). cbn [concat]. repeat split; auto. apply Forall_app; auto. }
  destruct Fm as (Fm & Fd & Fw). rewrite Forall_forall in Fw. destruct (check_names readers routes iss Fm) as (CN & _). apply CN in CD.
  destruct (collection_ok route_state
    (fun s f => bind (helper_topic m f) (fun '(ret, x) => Ok (ret, x, s)))
    (fun s tag => bind (helper_tag after m (fst s) tag) (fun '(ret, x, i, produced) => Ok (ret, x, i, (produced, snd s))))
    (fun b s d => bind (route_apply known b (snd s) d) (fun '(ret, hops) => Ok (ret, (fst s, hops)))) a route_rel (concat iss)) with (ds := routes) (iss := iss) (s := (false, [] : list (list Z))) (ev := [] : decisions) as (ds & bl & (p & hops) & E1 & E2 & R); auto.
  - intros s ev f I R. rewrite (helper_topic_ok after m vs a f O T (Fw _ I)). cbn [bind]. eauto.
  - intros s ev t I R. destruct (Fw _ I) as (W1 & W2). destruct (helper_tag_ok after m vs a (fst s) t O T W1 W2) as (new & p' & -> & Hi). cbn [bind]. exists new, (p', snd s). split; [ reflexivity | ]. split; [ exact R | ].
    intros i Hi2. rewrite (Hi i Hi2). right. intros t0 I0 H0. destruct (Fw _ I0) as (W3 & _). apply index_has; [ exact W3 | ]. now apply (proj2 T).
  - intros s ev b d I R. apply in_names in I. destruct s as (p & hops). destruct (route_apply_ok known b hops d ev p (IK _ (CD _ I)) R) as (h' & H1 & H2). cbn [fst snd]. rewrite H1. cbn [bind]. eauto.
  - intros x H. exact H.
  - split; [ constructor | intros name; cbn; split; [ tauto | discriminate ] ].
  - cbn [app] in R. destruct R as (N & R). cbn [snd] in N, R. exists ds, bl. unfold postprocess. destruct routes as [ | r0 routes ].
    + inversion Fm; subst. cbn [run_all] in E1. injection E1 as <- <-. exists old. split; [ reflexivity | ]. split; [ reflexivity | ]. intros r. unfold receives, someone. cbn [decided].
      split; [ intros H; right; split; [ intros (x & Hx); discriminate | exact H ] | intros [ H | (_ & H) ]; [ discriminate | exact H ] ].
    + rewrite E2. cbn [bind snd]. exists (match hops with [] => old | _ => hops end). split; [ exact E1 | ]. split.
      * destruct bl; [ change (negb (BAIL =? 0) && negb (BAIL =? BAIL)) with false | change (negb (0 =? 0) && negb (0 =? BAIL)) with false ]; destruct hops; reflexivity.
      * intros r. unfold receives, someone. destruct hops as [ | h hops ].
        -- split; [ intros H; right; split; [ intros (x & Hx); now apply R in Hx | exact H ] | intros [ H | (_ & H) ]; [ now apply R in H | exact H ] ].
        -- rewrite nexthop_iff by discriminate. rewrite R. split; [ auto | intros [ H | (H & _) ]; [ exact H | ] ]. exfalso. apply H. exists h. apply R. now left.
Qed.

Lemma nexthop_any hops r : nexthop_ok hops r = true <-> hops = [] \/ In r hops.
Proof. unfold nexthop_ok. destruct hops as [ | h hops ]; [ tauto | ]. rewrite exists_in_iff. split; [ auto | intros [ H | H ]; [ discriminate | exact H ] ]. Qed.
Lemma receivers_in after known readers routes iss m old vs a :
  Forall2 read_from routes iss -> check_destinations readers routes = Some 0 -> incl readers known -> ordinary after m vs -> truthful a (MSG_TOPIC m) (tags_of vs) ->
  exists ds bailed hops, run_all a iss = Some (ds, bailed) /\ postprocess after known routes m old = Ok (0, hops) /\
    forall r, nexthop_ok hops r = true <-> receives ds (fun x => old = [] \/ In x old) r.
Proof.
  intros RF CD IK O T. destruct (receivers_ok after known readers routes iss m old vs a RF CD IK O T) as (ds & bl & hops & E1 & E2 & H).
  exists ds, bl, hops. split; [ exact E1 | ]. split; [ exact E2 | ]. intros r. rewrite H. unfold receives. now rewrite nexthop_any.
Qed.
