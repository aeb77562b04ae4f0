From Coq Require Import ZArith List Bool Lia.
From Verif Require Import Common Dec SettingsModel SettingsSpec.
Import ListNotations.
Open Scope Z_scope.

Lemma streq_iff a b : streq a b = true <-> a = b.
Proof. unfold streq. destruct (list_eq_dec Z.eq_dec a b); split; congruence. Qed.
Lemma streq_refl a : streq a a = true.
Proof. now apply streq_iff. Qed.
Lemma streq_neq a b : a <> b -> streq a b = false.
Proof. intros H. destruct (streq a b) eqn:E; [ apply streq_iff in E; congruence | reflexivity ]. Qed.

Lemma set_nth_len {A : Type} (l : list A) i x : length (set_nth l i x) = length l.
Proof. revert i. induction l as [ | a l IH ]; intros [ | i ]; cbn [set_nth length]; auto. Qed.
Lemma set_nth_eq {A : Type} (l : list A) i x : (i < length l)%nat -> nth_error (set_nth l i x) i = Some x.
Proof. revert i. induction l as [ | a l IH ]; intros [ | i ] H; cbn in *; try lia; auto. apply IH. lia. Qed.
Lemma set_nth_ne {A : Type} (l : list A) i j x : i <> j -> nth_error (set_nth l i x) j = nth_error l j.
Proof. revert i j. induction l as [ | a l IH ]; intros [ | i ] [ | j ] H; cbn; auto; congruence. Qed.
Lemma nth_set_nth (l : list bool) i j x : (i < length l)%nat -> nth j (set_nth l i x) false = if Nat.eqb j i then x else nth j l false.
Proof. revert i j. induction l as [ | a l IH ]; intros [ | i ] [ | j ] H; cbn in *; try lia; auto. apply IH. lia. Qed.

Lemma find_none l n : forall i, find l n i = None -> ~ In n (map s_name l).
Proof. induction l as [ | x l IH ]; intros i H; cbn [find map In] in *; [ tauto | ]. destruct (streq (s_name x) n) eqn:E; [ discriminate | ].
  intros [ F | F ]; [ rewrite F, streq_refl in E; discriminate | eapply IH; eauto ]. Qed.
Lemma find_some l n : forall i j x, find l n i = Some (j, x) -> exists k, j = (i + k)%nat /\ nth_error l k = Some x /\ s_name x = n.
Proof. induction l as [ | y l IH ]; intros i j x H; cbn [find] in *; [ discriminate | ]. destruct (streq (s_name y) n) eqn:E.
  - injection H as <- <-. exists O. apply streq_iff in E. split; [ lia | auto ].
  - destruct (IH _ _ _ H) as (k & -> & H2 & H3). exists (S k). split; [ lia | auto ]. Qed.

Record rep (max : Z) (s : settings) (u : list bool) (t : table) : Prop := {
  r_max : t_max s = max;
  r_len : zlen (t_list s) <= max;
  r_used : length u = Z.to_nat max;
  r_names : map s_name (t_list s) = k_names t;
  r_dup : NoDup (k_names t);
  r_val : forall i x, nth_error (t_list s) i = Some x -> exists v, s_value x = VString v /\ v <> [] /\ ~ In 0 v /\ k_value t (s_name x) = Some v /\ nth i u false = k_used t (s_name x);
  r_dom : forall n, k_value t n <> None -> In n (k_names t);
  r_free : forall i, (length (t_list s) <= i)%nat -> nth i u false = false;
  r_free2 : forall n, k_value t n = None -> k_used t n = false }.

Lemma rep_init max : 0 <= max -> rep max (settings_new max) (used_init (settings_new max)) empty.
Proof.
  intros H. unfold settings_new, used_init, empty. constructor; cbn [t_max t_list k_names k_value k_used map]; auto.
  - now rewrite repeat_length.
  - constructor.
  - intros [ | i ] x E; discriminate.
  - congruence.
  - intros i _. destruct (Nat.lt_ge_cases i (Z.to_nat max)). + apply nth_repeat. + apply nth_overflow. now rewrite repeat_length.
Qed.

Lemma rep_find max s u t n : rep max s u t ->
  (exists i x v, find (t_list s) n 0 = Some (i, x) /\ nth_error (t_list s) i = Some x /\ s_name x = n /\ s_value x = VString v /\ k_value t n = Some v /\ v <> [] /\ ~ In 0 v /\ (i < length u)%nat) \/
  (find (t_list s) n 0 = None /\ k_value t n = None /\ ~ In n (k_names t)).
Proof.
  intros R. destruct (find (t_list s) n 0) as [ (i, x) | ] eqn:E.
  - left. destruct (find_some _ _ _ _ _ E) as (k & -> & H1 & H2). rewrite Nat.add_0_l in *. destruct (r_val _ _ _ _ R _ _ H1) as (v & V1 & V2 & V3 & V4 & _).
    exists k, x, v. rewrite H2 in V4. repeat (split; [ auto; fail | ]). rewrite (r_used _ _ _ _ R).
    assert (k < length (t_list s))%nat by (apply nth_error_Some; congruence). pose proof (r_len _ _ _ _ R). unfold zlen in *. lia.
  - right. pose proof (find_none _ _ _ E) as N. rewrite (r_names _ _ _ _ R) in N. split; [ reflexivity | ]. split; [ | exact N ].
    destruct (k_value t n) eqn:V; [ | reflexivity ]. exfalso. apply N. apply (r_dom _ _ _ _ R). congruence.
Qed.

Lemma same_index s i j x y : NoDup (map s_name (t_list s)) -> nth_error (t_list s) i = Some x -> nth_error (t_list s) j = Some y -> s_name x = s_name y -> i = j.
Proof.
  intros D Hi Hj E. apply (proj1 (NoDup_nth_error _) D).
  - rewrite map_length. apply nth_error_Some. congruence.
  - rewrite !nth_error_map, Hi, Hj. cbn. now rewrite E.
Qed.

(** Setting the flag of a known name. *)
Lemma rep_mark max s u t i x b : rep max s u t -> nth_error (t_list s) i = Some x ->
  rep max s (set_nth u i b) (mk_table (k_names t) (k_value t) (upd (k_used t) (s_name x) b)).
Proof.
  intros R H. assert (L : (i < length u)%nat).
  { rewrite (r_used _ _ _ _ R). assert (i < length (t_list s))%nat by (apply nth_error_Some; congruence). pose proof (r_len _ _ _ _ R). unfold zlen in *. lia. }
  destruct R as [ R1 R2 R3 R4 R5 R6 R7 R8 R9 ]. constructor; cbn [k_names k_value k_used]; auto.
  - now rewrite set_nth_len.
  - intros j y E. destruct (R6 _ _ E) as (v & V1 & V2 & V3 & V4 & V5). exists v. repeat (split; [ assumption | ]).
    rewrite nth_set_nth by assumption. unfold upd. destruct (Nat.eqb_spec j i) as [ -> | N ].
    + replace y with x by congruence. now rewrite streq_refl.
    + rewrite streq_neq; [ exact V5 | ]. intros Q. apply N. rewrite <- R4 in R5. eapply same_index; eauto.
  - intros j Hj. rewrite nth_set_nth by assumption. destruct (Nat.eqb_spec j i) as [ -> | N ]; [ | auto ].
    assert (i < length (t_list s))%nat by (apply nth_error_Some; congruence). lia.
  - intros m Hm. unfold upd. destruct (streq m (s_name x)) eqn:E; [ | auto ]. apply streq_iff in E. subst m.
    destruct (R6 _ _ H) as (v & _ & _ & _ & V & _). congruence.
Qed.

Lemma rep_look max s u t n : rep max s u t ->
  (exists x v, find_used u s n = (Some x, snd (find_used u s n)) /\ s_value x = VString v /\ k_value t n = Some v /\ v <> [] /\ ~ In 0 v) /\ rep max s (snd (find_used u s n)) (look t n) \/
  find_used u s n = (None, u) /\ k_value t n = None /\ look t n = t.
Proof.
  intros R. unfold find_used, look. destruct (rep_find _ _ _ _ n R) as [ (i & x & v & F & E & N & V1 & V2 & V3 & V4 & L) | (F & V & _) ]; rewrite F.
  - left. rewrite V2. cbn [snd]. split; [ eauto 10 | ]. subst n. now apply rep_mark.
  - right. rewrite V. auto.
Qed.

Lemma rep_add max s u t n v : rep max s u t -> k_value t n = None -> ~ In n (k_names t) -> zlen (t_list s) < max -> v <> [] -> ~ In 0 v ->
  rep max (mk_settings (t_max s) (t_list s ++ [mk_setting n (VString v)])) u (mk_table (k_names t ++ [n]) (upd (k_value t) n (Some v)) (k_used t)).
Proof.
  intros [ R1 R2 R3 R4 R5 R6 R7 R8 R9 ] V N L Hv H0. constructor; cbn [t_max t_list k_names k_value k_used]; auto.
  - rewrite zlen_app. change (zlen [_]) with 1. lia.
  - rewrite map_app, R4. reflexivity.
  - clear -R5 N. induction (k_names t) as [ | a l IH ]; cbn [app]; [ constructor; [ tauto | constructor ] | ].
    inversion R5; subst. cbn [In] in N. constructor; [ | apply IH; tauto ]. rewrite in_app_iff. cbn [In]. intuition congruence.
  - intros i x E. destruct (Nat.lt_ge_cases i (length (t_list s))).
    + rewrite nth_error_app1 in E by assumption. destruct (R6 _ _ E) as (w & W1 & W2 & W3 & W4 & W5). exists w. repeat (split; [ assumption | ]).
      split; [ | exact W5 ]. unfold upd. rewrite streq_neq; [ exact W4 | ]. intros Q. congruence.
    + rewrite nth_error_app2 in E by assumption. destruct (i - length (t_list s))%nat as [ | k ] eqn:D; [ | destruct k; discriminate ].
      injection E as <-. exists v. cbn [s_value s_name]. split; [ reflexivity | ]. split; [ assumption | ]. split; [ assumption | ]. split; [ unfold upd; now rewrite streq_refl | ].
      rewrite R8 by assumption. now rewrite R9.
  - intros m. unfold upd. rewrite in_app_iff. cbn [In]. destruct (streq m n) eqn:E; [ apply streq_iff in E; subst; auto | ]. auto.
  - intros i Hi. rewrite app_length in Hi. apply R8. lia.
  - intros m. unfold upd. destruct (streq m n) eqn:E; [ discriminate | ]. auto.
Qed.


Lemma map_set_nth (l : list setting) i x y : nth_error l i = Some x -> s_name y = s_name x -> map s_name (set_nth l i y) = map s_name l.
Proof. revert i. induction l as [ | a l IH ]; intros [ | i ] E N; cbn in *; try congruence. rewrite IH; auto. Qed.

Lemma rep_replace max s u t i x n v : rep max s u t -> nth_error (t_list s) i = Some x -> s_name x = n -> v <> [] -> ~ In 0 v ->
  rep max (mk_settings (t_max s) (set_nth (t_list s) i (mk_setting n (VString v)))) u (mk_table (k_names t) (upd (k_value t) n (Some v)) (k_used t)).
Proof.
  intros [ R1 R2 R3 R4 R5 R6 R7 R8 R9 ] E N Hv H0. assert (L : (i < length (t_list s))%nat) by (apply nth_error_Some; congruence).
  constructor; cbn [t_max t_list k_names k_value k_used]; auto.
  - unfold zlen in *. now rewrite set_nth_len.
  - rewrite map_set_nth with (x := x); auto.
  - intros j y Ey. destruct (Nat.eq_dec i j) as [ <- | D ].
    + rewrite set_nth_eq in Ey by assumption. injection Ey as <-. exists v. cbn [s_value s_name]. repeat (split; [ auto; fail | ]). unfold upd. rewrite streq_refl. split; [ reflexivity | ].
      destruct (R6 _ _ E) as (w & _ & _ & _ & _ & W). now rewrite <- N.
    + rewrite set_nth_ne in Ey by assumption. destruct (R6 _ _ Ey) as (w & W1 & W2 & W3 & W4 & W5). exists w. repeat (split; [ assumption | ]). split; [ | exact W5 ].
      unfold upd. rewrite streq_neq; [ exact W4 | ]. intros Q. apply D. rewrite <- R4 in R5. eapply same_index; eauto. congruence.
  - intros m. unfold upd. destruct (streq m n) eqn:Q; [ | auto ]. intros _. apply streq_iff in Q. subst. rewrite <- R4. apply in_map. eapply nth_error_In; eauto.
  - intros j Hj. rewrite set_nth_len in Hj. auto.
  - intros m. unfold upd. destruct (streq m n) eqn:Q; [ discriminate | ]. auto.
Qed.

(** * Commas *)
Lemma fields_ne v : fields v <> [].
Proof. induction v as [ | c r IH ]; cbn [fields]; [ discriminate | ]. destruct (c =? 44); [ discriminate | ]. destruct (fields r); [ congruence | discriminate ]. Qed.
Definition prefix_first (p : text) (fs : list text) : list text := match fs with f :: r => (p ++ f) :: r | [] => [] end.
Definition trim_last (fs : list text) : list text := match last fs [] with [] => removelast fs | _ => fs end.
Lemma trim_cons f g fs : trim_last (f :: g :: fs) = f :: trim_last (g :: fs).
Proof. unfold trim_last. change (last (f :: g :: fs) []) with (last (g :: fs) []). change (removelast (f :: g :: fs)) with (f :: removelast (g :: fs)). now destruct (last (g :: fs) []). Qed.
Lemma split_commas_ok v : forall cur, v <> [] \/ cur <> [] -> split_commas v cur = trim_last (prefix_first cur (fields v)).
Proof.
  induction v as [ | c r IH ]; intros cur H; cbn [split_commas fields].
  - cbn [prefix_first]. rewrite app_nil_r. unfold trim_last. cbn [last]. destruct cur; [ destruct H; congruence | reflexivity ].
  - destruct (c =? 44) eqn:E.
    + cbn [prefix_first]. rewrite app_nil_r. destruct r as [ | d r ].
      * cbn [fields]. rewrite trim_cons. reflexivity.
      * rewrite IH by (left; discriminate). destruct (fields (d :: r)) as [ | f fs ] eqn:F; [ now apply fields_ne in F | ]. cbn [prefix_first app]. now rewrite trim_cons.
    + rewrite IH by (right; destruct cur; discriminate). destruct (fields r) as [ | f fs ] eqn:F; [ now apply fields_ne in F | ]. cbn [prefix_first]. now rewrite <- app_assoc.
Qed.
Lemma commas_ok v : commas v = elements v.
Proof.
  unfold commas, elements. destruct v as [ | c r ]; [ reflexivity | ]. rewrite split_commas_ok by (left; discriminate).
  destruct (fields (c :: r)) as [ | f fs ] eqn:F; [ now apply fields_ne in F | ]. reflexivity.
Qed.

Lemma field_ok v : fields v = field v :: tl (fields v).
Proof. induction v as [ | c r IH ]; cbn [fields field]; [ reflexivity | ]. destruct (c =? 44); [ reflexivity | ]. rewrite IH. reflexivity. Qed.
Lemma skip_from (v : text) k : 0 <= k -> forall pre, skipn (Z.to_nat (zlen pre + k)) (pre ++ v) = skipn (Z.to_nat k) v.
Proof. intros Hk pre. replace (Z.to_nat (zlen pre + k)) with (length pre + Z.to_nat k)%nat by (unfold zlen; lia). rewrite skipn_app, skipn_all2 by lia. cbn [app]. f_equal. lia. Qed.
Lemma starts_ok v : ~ In 0 v -> forall pre, map (fun i => field (skipn (Z.to_nat i) (pre ++ v))) (starts v (zlen pre)) = tl (trim_last (fields v)) /\ (v <> [] -> trim_last (fields v) <> []).
Proof.
  induction v as [ | c r IH ]; intros H0 pre; cbn [starts fields]; [ split; [ reflexivity | congruence ] | ].
  assert (H0' : ~ In 0 r) by (intros Q; apply H0; now right).
  specialize (IH H0' (pre ++ [c])). rewrite zlen_app in IH. change (zlen [c]) with 1 in IH. rewrite <- app_assoc in IH. cbn [app] in IH. destruct IH as (IH & IHn).
  rewrite map_app, IH. destruct (c =? 44) eqn:E; cbn [andb].
  - destruct r as [ | n r ]; [ split; [ reflexivity | discriminate ] | ].
    destruct (Z.eqb_spec n 0) as [ -> | _ ]; [ exfalso; apply H0; right; now left | ]. cbn [negb map].
    assert (Q : skipn (Z.to_nat (zlen pre + 1)) (pre ++ c :: n :: r) = n :: r) by (rewrite skip_from by lia; reflexivity). rewrite Q.
    pose proof (field_ok (n :: r)) as F. specialize (IHn ltac:(discriminate)).
    destruct (fields (n :: r)) as [ | f fs ] eqn:Ff; [ now apply fields_ne in Ff | ]. apply (f_equal (hd [])) in F; cbn [hd] in F. rewrite trim_cons. cbn [tl app]. split; [ | discriminate ].
    assert (T : trim_last (f :: fs) = f :: tl (trim_last (f :: fs))).
    { destruct fs as [ | g fs ]; [ | now rewrite trim_cons ]. unfold trim_last. cbn [last]. unfold trim_last in IHn. cbn [last] in IHn. destruct f; [ exfalso; apply IHn; reflexivity | reflexivity ]. }
    rewrite T at 2. now rewrite <- F.
  - cbn [app map]. destruct (fields r) as [ | f fs ] eqn:F; [ now apply fields_ne in F | ].
    destruct fs as [ | g fs ]; [ | rewrite !trim_cons; split; [ reflexivity | discriminate ] ]. unfold trim_last. cbn [last]. destruct f; cbn [removelast tl]; split; (reflexivity || discriminate).
Qed.
Lemma to_array_ok v : ~ In 0 v -> to_array v = elements v.
Proof.
  intros H0. unfold to_array. destruct v as [ | c r ]; [ reflexivity | ]. destruct (starts_ok (c :: r) H0 []) as (E & N). cbn [app] in E. change (zlen []) with 0 in E.
  cbn [map]. rewrite E. change (skipn (Z.to_nat 0) (c :: r)) with (c :: r). specialize (N ltac:(discriminate)).
  change (elements (c :: r)) with (trim_last (fields (c :: r))). pose proof (field_ok (c :: r)) as F.
  destruct (fields (c :: r)) as [ | f fs ] eqn:Ff; [ discriminate | ]. apply (f_equal (hd [])) in F; cbn [hd] in F. destruct fs as [ | g fs ].
  - unfold trim_last in *. cbn [last] in *. destruct f; [ exfalso; apply N; reflexivity | ]. now rewrite <- F.
  - rewrite trim_cons. cbn [tl]. now rewrite <- F.
Qed.

(** * Histories *)
Lemma dump_ok l : forall val, (forall x, In x l -> exists v, s_value x = VString v /\ val (s_name x) = Some v) -> dump l = Ok (map (fun n => n ++ 61 :: of_text (val n)) (map s_name l)).
Proof.
  induction l as [ | x l IH ]; intros val H; cbn [dump map]; [ reflexivity | ]. destruct (H x (or_introl eq_refl)) as (v & V1 & V2). rewrite V1. cbn [to_string bind].
  rewrite (IH val) by (intros y Hy; apply H; now right). cbn [bind]. rewrite V2. reflexivity.
Qed.
Lemma all_used_ok l : forall u, (length l <= length u)%nat -> all_used l u = if forallb (fun b => b) (firstn (length l) u) then 0 else 1.
Proof. induction l as [ | x l IH ]; intros [ | b u ] H; cbn in *; try lia; try reflexivity. destruct b; [ apply IH; lia | reflexivity ]. Qed.
Lemma flags_names (l : list setting) : forall u (f : name -> bool), (length l <= length u)%nat -> (forall i x, nth_error l i = Some x -> nth i u false = f (s_name x)) -> firstn (length l) u = map f (map s_name l).
Proof.
  induction l as [ | x l IH ]; intros [ | b u ] f H E; cbn in *; try lia; try reflexivity. f_equal; [ exact (E O x eq_refl) | ]. apply IH; [ lia | ]. intros i y Ey. exact (E (S i) y Ey).
Qed.

Lemma forallb_map_id f (l : list name) : forallb (fun b : bool => b) (map f l) = forallb f l.
Proof. induction l; cbn; [ reflexivity | now rewrite IHl ]. Qed.

Lemma step_ok max s u t o : rep max s u t -> fits o ->
  exists s' u', step (s, u) o = Ok (s', u', snd (spec_step max t o)) /\ rep max s' u' (fst (spec_step max t o)).
Proof.
  intros R F. destruct o as [ n v | n v | n | n | n | n | n | n | n | n b | | ]; cbn [step spec_step fits] in *.
  - destruct F as (F1 & F2 & F3). unfold add_string, add_raw. destruct (rep_find _ _ _ _ n R) as [ (i & x & w & E & N & Nx & V1 & V2 & V3 & V4 & L) | (E & V & N) ]; rewrite E.
    + rewrite V2. cbn [bind fst snd]. eauto.
    + rewrite V. pose proof (r_len _ _ _ _ R). pose proof (r_max _ _ _ _ R) as Hm. replace (t_max s <? zlen (t_list s)) with false by lia.
      assert (K : zlen (k_names t) = zlen (t_list s)) by (rewrite <- (r_names _ _ _ _ R); apply zlen_map). rewrite K.
      destruct (Z.eqb_spec (zlen (t_list s)) (t_max s)).
      * replace (zlen (t_list s) <? max) with false by lia. cbn [bind fst snd]. eauto.
      * replace (zlen (t_list s) <? max) with true by lia. unfold MAX_NAME_SIZE. replace (244 <? zlen n + 1) with false by lia. cbn [bind fst snd]. do 2 eexists. split; [ reflexivity | ]. apply rep_add; auto. lia.
  - destruct F as (F1 & F2 & F3). unfold replace_string, add_raw. destruct (rep_find _ _ _ _ n R) as [ (i & x & w & E & N & Nx & V1 & V2 & V3 & V4 & L) | (E & V & N) ]; rewrite E.
    + rewrite V2. unfold MAX_NAME_SIZE. replace (244 <? zlen n + 1) with false by lia. cbn [bind fst snd]. do 2 eexists. split; [ reflexivity | ]. eapply rep_replace; eauto.
    + rewrite V. pose proof (r_len _ _ _ _ R). pose proof (r_max _ _ _ _ R) as Hm. replace (t_max s <? zlen (t_list s)) with false by lia.
      assert (K : zlen (k_names t) = zlen (t_list s)) by (rewrite <- (r_names _ _ _ _ R); apply zlen_map). rewrite K.
      destruct (Z.eqb_spec (zlen (t_list s)) (t_max s)).
      * replace (zlen (t_list s) <? max) with false by lia. cbn [bind fst snd]. eauto.
      * replace (zlen (t_list s) <? max) with true by lia. unfold MAX_NAME_SIZE. replace (244 <? zlen n + 1) with false by lia. cbn [bind fst snd]. do 2 eexists. split; [ reflexivity | ]. apply rep_add; auto. lia.
  - unfold get_string_noconvert. destruct (rep_look _ _ _ _ n R) as [ ((x & v & E & V1 & V2 & V3 & V4) & R') | (E & V & L) ]; rewrite E.
    + rewrite V1, V2. assert (zlen v + 1 <=? 1 = false) as -> by (destruct v; [ congruence | rewrite zlen_cons; pose proof (zlen_nonneg _ v); lia ]). cbn [bind fst snd of]. eauto.
    + rewrite V, L. cbn [bind fst snd of]. eauto.
  - unfold read_string. destruct (rep_look _ _ _ _ n R) as [ ((x & v & E & V1 & V2 & V3 & V4) & R') | (E & V & L) ]; rewrite E.
    + rewrite V1, V2. cbn [to_string bind fst snd of]. eauto.
    + rewrite V, L. cbn [bind fst snd of]. eauto.
  - unfold read_unsigned_integer. destruct (rep_look _ _ _ _ n R) as [ ((x & v & E & V1 & V2 & V3 & V4) & R') | (E & V & L) ]; rewrite E.
    + rewrite V1, V2. cbn [to_uint bind fst snd of]. destruct (forallb is_dec_digit v); cbn [bind]; eauto.
    + rewrite V, L. cbn [bind fst snd of]. eauto.
  - unfold check_yesno, read_string. destruct (rep_look _ _ _ _ n R) as [ ((x & v & E & V1 & V2 & V3 & V4) & R') | (E & V & L) ]; rewrite E.
    + rewrite V1, V2. cbn [to_string bind fst snd of]. unfold yesno. destruct v as [ | c v ]; [ congruence | ]. cbn [existsb]. rewrite !orb_false_r, !orb_assoc.
      destruct ((c =? 121) || (c =? 89) || (c =? 49)); [ cbn [bind]; eauto | ]. destruct ((c =? 110) || (c =? 78) || (c =? 48)); cbn [bind]; eauto.
    + rewrite V, L. cbn [bind fst snd of]. eauto.
  - unfold exists_. destruct (rep_look _ _ _ _ n R) as [ ((x & v & E & V1 & V2 & V3 & V4) & R') | (E & V & L) ]; rewrite E.
    + rewrite V2. cbn [fst snd]. eauto.
    + rewrite V, L. cbn [fst snd]. eauto.
  - unfold traverse_split_commas, get_string_noconvert. destruct (rep_look _ _ _ _ n R) as [ ((x & v & E & V1 & V2 & V3 & V4) & R') | (E & V & L) ]; rewrite E.
    + rewrite V1, V2. assert (zlen v + 1 <=? 1 = false) as -> by (destruct v; [ congruence | rewrite zlen_cons; pose proof (zlen_nonneg _ v); lia ]). cbn [bind fst snd of]. rewrite commas_ok. eauto.
    + rewrite V, L. cbn [bind fst snd of]. eauto.
  - unfold split_commas_to_array, get_string_noconvert. destruct (rep_look _ _ _ _ n R) as [ ((x & v & E & V1 & V2 & V3 & V4) & R') | (E & V & L) ]; rewrite E.
    + rewrite V1, V2. assert (zlen v + 1 <=? 1 = false) as -> by (destruct v; [ congruence | rewrite zlen_cons; pose proof (zlen_nonneg _ v); lia ]). cbn [bind fst snd of]. rewrite to_array_ok by assumption. eauto.
    + rewrite V, L. cbn [bind fst snd of]. eauto.
  - unfold set_used. destruct (rep_find _ _ _ _ n R) as [ (i & x & w & E & N & Nx & V1 & V2 & V3 & V4 & L) | (E & V & N) ]; rewrite E.
    + rewrite V2. cbn [fst snd]. do 2 eexists. split; [ reflexivity | ]. subst n. now apply rep_mark.
    + rewrite V. cbn [fst snd]. eauto.
  - cbn [fst snd]. do 2 eexists. split; [ | exact R ]. unfold check_all_used.
    assert (L : (length (t_list s) <= length u)%nat) by (rewrite (r_used _ _ _ _ R); pose proof (r_len _ _ _ _ R); unfold zlen in *; lia).
    rewrite all_used_ok by exact L. rewrite flags_names with (f := k_used t); [ | exact L | ].
    + rewrite forallb_map_id, (r_names _ _ _ _ R). reflexivity.
    + intros i x E. destruct (r_val _ _ _ _ R _ _ E) as (v & _ & _ & _ & _ & V). exact V.
  - cbn [fst snd]. rewrite dump_ok with (val := k_value t).
    + cbn [bind]. rewrite (r_names _ _ _ _ R). eauto.
    + intros x Hx. apply In_nth_error in Hx. destruct Hx as (i & Hi). destruct (r_val _ _ _ _ R _ _ Hi) as (v & V1 & _ & _ & V2 & _). eauto.
Qed.

Lemma run_ok max : forall os s u t, rep max s u t -> Forall fits os -> run (s, u) os = Ok (spec_run max t os).
Proof.
  induction os as [ | o os IH ]; intros s u t R F; cbn [run spec_run]; [ reflexivity | ]. inversion F; subst.
  destruct (step_ok _ _ _ _ o R H1) as (s' & u' & E & R'). rewrite E. cbn [bind]. destruct (spec_step max t o) as [ t' x ]. cbn [fst snd] in *. rewrite (IH _ _ _ R' H2). reflexivity.
Qed.

Lemma fields_join v : comma_join (fields v) = v /\ Forall (fun f => ~ In 44 f) (fields v).
Proof.
  induction v as [ | c r (IH & F) ]; cbn [fields]; [ split; [ reflexivity | repeat constructor; auto ] | ].
  pose proof (fields_ne r) as N. destruct (fields r) as [ | f fs ]; [ congruence | ]. destruct (Z.eqb_spec c 44) as [ -> | Hc ].
  - split; [ | constructor; auto ]. change (comma_join ([] :: f :: fs)) with (44 :: comma_join (f :: fs)). now rewrite IH.
  - inversion F; subst. split.
    + destruct fs; cbn [comma_join app] in *; congruence.
    + constructor; [ cbn [In]; intuition | assumption ].
Qed.
Lemma trim_join (fs : list text) : fs <> [] -> Forall (fun f => ~ In 44 f) fs ->
  (comma_join fs = comma_join (trim_last fs) /\ last (trim_last fs) [] <> [] \/ comma_join fs = comma_join (trim_last fs) ++ [44] /\ trim_last fs <> [] \/ fs = [[]]) /\ Forall (fun f => ~ In 44 f) (trim_last fs).
Proof.
  induction fs as [ | f fs IH ]; intros N F; [ congruence | ]. inversion F; subst. destruct fs as [ | g fs ].
  - unfold trim_last. cbn [last]. destruct f as [ | c f ]; cbn [removelast]; [ split; [ right; right; reflexivity | constructor ] | ].
    split; [ left; split; [ reflexivity | discriminate ] | assumption ].
  - rewrite trim_cons. destruct (IH ltac:(discriminate) H2) as ([ (E & L) | [ (E & L) | E ] ] & F2); (split; [ | constructor; assumption ]).
    + left. destruct (trim_last (g :: fs)) as [ | t ts ]; [ cbn [last] in L; congruence | ].
      change (comma_join (f :: g :: fs)) with (f ++ 44 :: comma_join (g :: fs)). rewrite E. split; [ reflexivity | exact L ].
    + right; left. destruct (trim_last (g :: fs)) as [ | t ts ]; [ congruence | ].
      change (comma_join (f :: g :: fs)) with (f ++ 44 :: comma_join (g :: fs)). rewrite E. split; [ | discriminate ].
      change (comma_join (f :: t :: ts)) with (f ++ 44 :: comma_join (t :: ts)). rewrite <- app_assoc. reflexivity.
    + right; left. rewrite E. unfold trim_last. cbn. split; [ reflexivity | discriminate ].
Qed.
Lemma elements_ok v : Forall (fun f => ~ In 44 f) (elements v) /\
  (v = [] /\ elements v = [] \/ v = comma_join (elements v) /\ last (elements v) [] <> [] \/ v = comma_join (elements v) ++ [44] /\ elements v <> []).
Proof.
  destruct (fields_join v) as (J & F). destruct (trim_join (fields v) (fields_ne v) F) as (H & F2). change (elements v) with (trim_last (fields v)). split; [ exact F2 | ].
  rewrite J in H. destruct H as [ H | [ H | H ] ]; auto. left. rewrite H in J. cbn in J. subst v. auto.
Qed.
