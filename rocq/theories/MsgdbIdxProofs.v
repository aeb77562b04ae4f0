(** Tidying and the index, as seen by those who ask. *)
From Coq Require Import ZArith List Bool Lia Permutation.
From Verif Require Import Common Crc32Model MsgModel MsgSpec MsgProofs MsgdbModel MsgdbSpec MsgdbFsProofs MsgdbProofs MsgdbMapProofs MsgdbIterProofs.
Import ListNotations.
Open Scope Z_scope.

Lemma sub_sub : forall l a n t, 0 <= t <= n -> sub_mem (sub_mem l a n) 0 t = sub_mem l a t.
Proof. intros. unfold sub_mem. change (Z.to_nat 0) with 0%nat. cbn [skipn]. rewrite firstn_firstn. f_equal. lia. Qed.
Lemma ok_inj : forall A (a b : A), Ok a = Ok b -> a = b. Proof. intros A a b E. injection E. auto. Qed.
Lemma read_top : forall m, mm_ok m -> exists m', read_file (Some (File (msg_msg_to_network m))) true None = Some m' /\ mm_timestamp m' = mm_timestamp m.
Proof.
  intros m H. destruct (read_head m H) as (E1 & E2 & E3). set (buf := msg_msg_to_network m) in *.
  pose proof H as (Ht & Hs & Hmax & Hv & Hts & Htc & Hver & Htl & Htl2 & _). pose proof (net_len m) as L. fold buf in L. pose proof (zlen_nonneg _ (mm_data m)).
  assert (U : u32 (zlen buf) = zlen buf) by (unfold u32; rewrite Z.mod_small; lia).
  set (b := sub_mem buf 0 HEAD_MAX).
  assert (FB : forall off n, 0 <= off -> 0 <= n -> off + n <= 60 -> be_field b off n = be_field buf off n) by (intros; unfold be_field, b, HEAD_MAX; rewrite sub_sub0 by lia; reflexivity).
  assert (E2' : head_to_host_and_verify b (zlen buf) = Ok (mm_head (with_crc m))).
  { rewrite <- E2. unfold head_to_host_and_verify. rewrite !FB by lia. reflexivity. }
  unfold msg_msg_to_host_and_verify in E3. destruct (zlen buf <? MSG_MSG_MIN) eqn:EM; [discriminate|]. cbv zeta in E3.
  destruct (negb _) eqn:EN in E3; [discriminate|]. destruct (message_validate _ _) eqn:EV in E3; [|discriminate]. apply ok_inj in E3.
  set (h := mm_head (with_crc m)) in *.
  assert (ED : sub_mem buf 30 (zlen buf - 30) = mm_data m) by (apply (f_equal mm_data) in E3; exact E3).
  assert (LB : zlen b = Z.min (zlen buf) HEAD_MAX).
  { unfold b, sub_mem, HEAD_MAX, zlen. change (Z.to_nat 0) with 0%nat. cbn [skipn]. rewrite firstn_length. lia. }
  assert (TP : sub_mem (sub_mem b 30 (zlen b - 30) ++ []) 0 (be_field b 28 2) = sub_mem (mm_data m ++ []) 0 (mm_topic_length m)).
  { rewrite !app_nil_r. rewrite FB by lia. replace (be_field buf 28 2) with (mm_topic_length m) by (apply (f_equal mm_topic_length) in E3; symmetry; exact E3).
    rewrite <- ED. rewrite !sub_sub by (rewrite ?LB; unfold HEAD_MAX; lia). unfold b. apply sub_sub0; unfold HEAD_MAX; lia. }
  exists (read_msg_msg h b). split.
  - unfold read_file. cbv zeta. fold b. rewrite U. replace (zlen buf <? MSG_HEAD_SIZE) with false by (unfold MSG_HEAD_SIZE; lia).
    replace (4294967295 <? zlen buf) with false by lia. cbn [negb andb]. rewrite E2'. change (msg_type h =? T_MESSAGE) with true. cbn [negb].
    unfold msg_msg_to_host_and_verify. rewrite EM. cbv zeta. cbn [read_msg_msg mm_head]. cbn [read_msg_msg mm_head] in EN. rewrite EN.
    replace (message_validate (read_msg_msg h b) []) with true.
    + cbn [read_msg_msg mm_topic_length]. rewrite FB by lia. replace (be_field buf 28 2) with (mm_topic_length m) by (apply (f_equal mm_topic_length) in E3; symmetry; exact E3).
      replace (zlen buf <? 30 + mm_topic_length m) with false by lia. reflexivity.
    + symmetry. rewrite <- EV. rewrite E3. unfold message_validate. cbn [read_msg_msg mm_data mm_topic_length mm_head with_crc]. rewrite TP.
      unfold MSG_CLASS_OK, MSG_CLASS, MSG_TYPE_OK, MSG_TYPE. cbn [read_msg_msg mm_type_and_class with_crc]. rewrite FB by lia.
      replace (be_field buf 26 1) with (mm_type_and_class m) by (apply (f_equal mm_type_and_class) in E3; symmetry; exact E3). reflexivity.
  - cbn [read_msg_msg mm_timestamp]. rewrite FB by lia. apply (f_equal mm_timestamp) in E3. exact E3.
Qed.
Lemma read_none : forall m, mm_ok m -> exists m', read_file (Some (File (msg_msg_to_network m))) false None = Some m' /\ msg_msg_to_network m' = msg_msg_to_network m.
Proof.
  intros m H. destruct (read_head m H) as (E1 & E2 & E3). set (buf := msg_msg_to_network m) in *. exists (with_crc m). split; [|apply with_crc_net; auto].
  pose proof H as (Ht & Hs & Hmax & Hv & Hts & Htc & Hver & Htl & Htl2 & _). pose proof (net_len m) as L. fold buf in L. pose proof (zlen_nonneg _ (mm_data m)).
  assert (U : u32 (zlen buf) = zlen buf) by (unfold u32; rewrite Z.mod_small; lia).
  unfold read_file. cbv zeta. rewrite U. replace (zlen buf <? MSG_HEAD_SIZE) with false by (unfold MSG_HEAD_SIZE; lia).
  replace (4294967295 <? zlen buf) with false by lia. rewrite E1, Z.eqb_refl. cbn [negb andb]. rewrite E2.
  change (msg_type (mm_head (with_crc m)) =? T_MESSAGE) with true. cbn [negb]. rewrite E3.
  change (mm_topic_length (with_crc m)) with (mm_topic_length m). replace (zlen buf <? 30 + mm_topic_length m) with false by lia. reflexivity.
Qed.
Lemma read_top_torn : forall m j, mm_ok m -> (j < Datatypes.length (msg_msg_to_network m))%nat ->
  read_file (Some (File (firstn j (msg_msg_to_network m)))) true None = None.
Proof.
  intros m j H HJ. pose proof (tail_bytes m H) as HB. pose proof (tail_head m H) as HH.
  destruct (cn_fields (mm_head m) (msg_msg_tail_bytes m) HB HH) as (_ & E2 & _). fold (msg_msg_to_network m) in E2.
  pose proof (net_len m) as L. set (buf := msg_msg_to_network m) in *. pose proof H as (_ & Hs & Hmax & _).
  assert (ZL : zlen (firstn j buf) = Z.of_nat j) by (unfold zlen; rewrite firstn_length; lia). assert (Z.of_nat j < zlen buf) by (unfold zlen; lia).
  unfold read_file. cbv zeta. rewrite ZL. unfold MSG_HEAD_SIZE. destruct (Z.of_nat j <? 18) eqn:E18; auto.
  replace (4294967295 <? Z.of_nat j) with false by lia. cbn [negb andb].
  assert (F : be_field (sub_mem (firstn j buf) 0 HEAD_MAX) 4 4 = msg_size (mm_head m)).
  { rewrite <- E2. unfold be_field, HEAD_MAX. rewrite sub_sub0 by lia. f_equal. change (firstn j buf) with (firstn j (skipn (Z.to_nat 0) buf)). rewrite <- (Nat2Z.id j). fold (sub_mem buf 0 (Z.of_nat j)). apply sub_sub0; lia. }
  unfold head_to_host_and_verify. cbv zeta. rewrite F, Hs. unfold head_validate. cbn [msg_size]. unfold u32. rewrite Z.mod_small by lia.
  replace (30 + zlen (mm_data m) =? Z.of_nat j) with false by lia. reflexivity.
Qed.
Lemma ttl_older : forall m now age, 0 <= mm_timestamp m -> ttl_ok m now (age * 1000000) = negb (older now age m).
Proof. intros. unfold ttl_ok, older. destruct (now <? age * 1000000) eqn:E1, (mm_timestamp m + age * 1000000 <? now) eqn:E2, (mm_timestamp m <? now - age * 1000000) eqn:E3; auto; lia. Qed.

Section Map.
Context (base : path) (H : list Z -> list Z) (T : list (list Z)) (HD : digest_ok H T).
Context (L : nat) (HL : (L <= 4)%nat) (k : kind) (age now : Z).
Notation C := (CC H T).
Notation nm := (nm H).
Notation Rep := (Rep base H T).
Lemma sound : forall n c m, C n c -> read_file (Some (File c)) true None = Some m ->
  exists m', read_file (Some (File c)) false None = Some m' /\ msg_msg_to_network m' = c.
Proof using.
  clear HL HD.
  intros n c m (p & j & [P _] & _ & _ & ->) E. pose proof (plain_ok p P) as PP. unfold octets in *.
  destruct (Nat.lt_ge_cases j (Datatypes.length (msg_msg_to_network (plain p)))) as [J|J]; [rewrite read_top_torn in E by auto; discriminate|].
  rewrite firstn_all2 by lia. apply read_none. auto.
Qed.
Lemma verdict : forall p, mm_ok p -> keepf k age now (octets p) = negb (older now age p) || is_idx k /\ sendf k age now (octets p) = older now age p && is_idx k.
Proof using.
  clear HL HD.
  intros p P. destruct (read_top (plain p) (plain_ok p P)) as (m' & E & TS). unfold keepf, sendf, octets. rewrite E.
  rewrite ttl_older by (rewrite TS; cbn [plain mm_timestamp]; destruct P as (_ & _ & _ & _ & X & _); lia).
  replace (older now age m') with (older now age p) by (unfold older; rewrite TS; reflexivity). destruct (older now age p), (is_idx k); auto.
Qed.
Lemma verdict_torn : forall t c, torn t c -> keepf k age now c = false /\ sendf k age now c = false.
Proof using.
  clear HL HD.
  intros t c (p & j & P & _ & -> & J). unfold keepf, sendf, octets in *. rewrite read_top_torn; auto. apply plain_ok; auto.
Qed.
(** The contents afterwards *)
Definition gone (d d' : db) : Prop := forall t, d' t = d t \/ d' t = None /\ k = Tidy /\ exists m, d t = Some m /\ older now age m = true.
Definition after (d : db) : db := match k with Tidy => tidied now age d | Idx => d end.
Lemma rep_between : forall d f g, Good base C f -> between base k age now f g -> Rep d f -> exists d', gone d d' /\ Rep d' g.
Proof using HD.
  clear HL.
  intros d f g GF B R.
  set (there := fun n c => existsb (fun j => match at_ base g (make_path j n) with Some (File x) => name_eqb x c | _ => false end) [0; 1; 2; 3; 4]%nat).
  assert (TH : forall n c, there n c = true <-> has base g n c).
  { intros n c. unfold there. rewrite existsb_exists. unfold has. split; intros (j & A & E); exists j.
    - split; [cbn in A; lia|]. destruct (at_ base g (make_path j n)) as [[|x]|]; try discriminate. apply name_eqb_iff in E. subst. auto.
    - split; [cbn; lia|]. rewrite E. apply name_eqb_iff. auto. }
  exists (fun t => match d t with
                   | Some m => if in_dec (list_eq_dec Z.eq_dec) t T then if there (nm t) (octets m) then Some m else None else Some m
                   | None => None end).
  split.
  - intros t. destruct (d t) as [m|] eqn:E; auto. destruct (in_dec _ t T) as [I|]; auto. destruct (there (nm t) (octets m)) eqn:TT; auto. right. split; auto.
    specialize (R t I). rewrite E in R. destruct R as ([R1 _] & R2 & R3). destruct (verdict m R1) as [V _].
    destruct (B (nm t) (octets m) (nm_ok H T HD t)) as [_ B2]. specialize (B2 R3).
    assert (NK : keepf k age now (octets m) = false).
    { destruct (keepf k age now (octets m)); auto. specialize (B2 eq_refl). apply TH in B2. rewrite B2 in TT. discriminate. }
    rewrite V in NK. apply orb_false_iff in NK as [NK1 NK2]. split.
    + unfold is_idx in NK2. revert NK2. clear. destruct k; auto; discriminate.
    + exists m. split; auto. destruct (older now age m); auto.
  - intros t I. specialize (R t I). destruct (d t) as [m|] eqn:E.
    + destruct (in_dec _ t T) as [_|]; [|tauto]. destruct R as (R1 & R2 & R3). destruct (there (nm t) (octets m)) eqn:TT.
      * split; auto. split; auto. apply TH. auto.
      * intros c X. exfalso. pose proof (proj1 (B (nm t) c (nm_ok H T HD t)) X) as Y.
        rewrite (has_one base C f (nm t) c (octets m) GF (nm_ok H T HD t) Y R3) in X. apply TH in X. congruence.
    + intros c X. apply R. apply (B (nm t) c (nm_ok H T HD t)). auto.
Qed.
Lemma rep_treated : forall d f g, Good base C f -> treated base k age now (fun _ => True) f g -> Rep d f -> Rep (after d) g.
Proof using HD.
  clear HL.
  intros d f g GF TR R t I. specialize (R t I). pose proof (fun c => TR (nm t) c (nm_ok H T HD t)) as TR'. unfold after.
  assert (X : forall m, d t = Some m -> forall c, has base g (nm t) c -> c = octets m /\ (older now age m = true -> k = Idx)).
  { intros m E c X. rewrite E in R. destruct R as ([R1 _] & R2 & R3). apply TR' in X as [X1 X2].
    pose proof (has_one base C f (nm t) c (octets m) GF (nm_ok H T HD t) X1 R3) as ->. split; auto. intros O. specialize (X2 Logic.I).
    rewrite (proj1 (verdict m R1)), O in X2. unfold is_idx in X2. destruct k; [discriminate|auto]. }
  destruct (d t) as [m|] eqn:E.
  - specialize (X m eq_refl). destruct R as (R1 & R2 & R3). destruct (verdict m (proj1 R1)) as [V _].
    assert (KEPT : older now age m = false \/ k = Idx -> request_ok m /\ MSG_TOPIC m = t /\ has base g (nm t) (octets m)).
    { intros Q. split; auto. split; auto. apply TR'. split; auto. intros _. rewrite V. unfold is_idx. destruct Q as [-> | ->]; auto. apply orb_true_r. }
    destruct k eqn:EK; [|rewrite E; auto]. unfold tidied. rewrite E. destruct (older now age m) eqn:O; [|auto].
    intros c Y. destruct (X c Y) as [_ Z]. specialize (Z eq_refl). discriminate.
  - assert (Y : forall c, has base g (nm t) c -> torn t c) by (intros c Y; apply TR' in Y; apply R; tauto).
    destruct k; [unfold tidied|]; rewrite E; auto.
Qed.
Lemma NoDup_flat : forall (A B : Type) (g : A -> option B) l, NoDup l -> (forall x y b, In x l -> In y l -> g x = Some b -> g y = Some b -> x = y) ->
  NoDup (flat_map (fun x => match g x with Some b => [b] | None => [] end) l).
Proof using.
  clear HL HD.
  induction l as [|x l IH]; intros N INJ; cbn [flat_map]; [constructor|]. inversion N; subst.
  assert (IH' : NoDup (flat_map (fun x => match g x with Some b => [b] | None => [] end) l)) by (apply IH; auto; intros; eapply INJ; eauto; right; auto).
  destruct (g x) as [b|] eqn:E; cbn [app]; auto. constructor; auto. intros X. apply in_flat_map in X as (y & Y1 & Y2). destruct (g y) as [b'|] eqn:E2; [|destruct Y2].
  destruct Y2 as [->|[]]. assert (x = y) by (eapply INJ; eauto; [left; auto|right; auto]). subst. auto.
Qed.
Lemma sent_index : forall d f out, Good base C f -> Rep d f -> sent base k age now (fun _ => True) f out ->
  Permutation out (match k with Tidy => [] | Idx => index now age d (nodup (list_eq_dec Z.eq_dec) T) end).
Proof using HD.
  clear HL.
  intros d f out GF R (es & -> & N & I).
  set (g := fun t => match d t with Some m => if older now age m && is_idx k then Some (nm t, octets m) else None | None => None end).
  assert (P : Permutation es (flat_map (fun t => match g t with Some b => [b] | None => [] end) (nodup (list_eq_dec Z.eq_dec) T))).
  { apply NoDup_Permutation.
    - eapply NoDup_map_inv; eauto.
    - apply NoDup_flat; [apply NoDup_nodup|]. intros x y b X Y E1 E2. apply nodup_In in X, Y. unfold g in *.
      destruct (d x) as [m1|]; [|discriminate]. destruct (d y) as [m2|]; [|discriminate]. destruct (_ && _) in E1; [|discriminate]. destruct (_ && _) in E2; [|discriminate].
      injection E1 as E1. injection E2 as E2. apply (nm_inj H T HD); auto. congruence.
    - intros [n c]. rewrite I, in_flat_map. split.
      + intros (NO & (j & J & X) & _ & SF). assert (HX : has base f n c) by (exists j; auto).
        apply (g_node _ _ _ GF) in X; [|apply make_path_nonnil]. destruct X as (j' & n' & E & _ & _ & (p & q & _ & IT & EN & _)). apply make_path_inj in E. subst n'.
        exists (MSG_TOPIC p). split; [apply nodup_In; auto|]. specialize (R _ IT). rewrite <- EN in R. unfold g. destruct (d (MSG_TOPIC p)) as [m|] eqn:E.
        * destruct R as ([R1 _] & R2 & R3). pose proof (has_one base C f n c (octets m) GF NO HX R3). subst c. rewrite (proj2 (verdict m R1)) in SF. rewrite SF. left. rewrite <- EN. reflexivity.
        * apply R in HX. rewrite (proj2 (verdict_torn _ _ HX)) in SF. discriminate.
      + intros (t & IT & X). apply nodup_In in IT. unfold g in X. specialize (R t IT). destruct (d t) as [m|]; [|destruct X]. destruct (_ && _) eqn:Q in X; [|destruct X]. destruct X as [X|[]]. injection X as <- <-.
        destruct R as ([R1 _] & R2 & R3). split; [apply (nm_ok H T HD)|]. split; auto. split; auto. rewrite (proj2 (verdict m R1)). auto. }
  apply (Permutation_map (fun e => RMsg (snd e))) in P. eapply Permutation_trans; [exact P|]. clear P I N GF R es.
  unfold index. induction (nodup (list_eq_dec Z.eq_dec) T) as [|t l IH]; cbn [flat_map map]; [destruct k; constructor|].
  rewrite map_app. assert (IH' : k = Tidy -> Permutation (map (fun e : name * list Z => RMsg (snd e)) (flat_map (fun t => match g t with Some b => [b] | None => [] end) l)) []) by (intros K; rewrite K in IH; exact IH).
  unfold g at 1. unfold is_idx. destruct k eqn:EK.
  - destruct (d t) as [m|]; [rewrite andb_false_r|]; cbn [map app]; auto.
  - apply Permutation_app; auto. destruct (d t) as [m|]; [destruct (older now age m)|]; cbn; auto.
Qed.
(** A server asked for an iteration *)
Lemma iteration_ok : forall c d b s, c_abs c = true -> c_dir c = base -> c_levels c = L -> St base C s -> at_ base (s_fs s) [] = Some Dir -> at_level base L (s_fs s) -> Rep d (s_fs s) ->
  (looks (s_fs s) base (dir_index L) <= b)%nat ->
  wp (slice c k age now (dir_index L) b) (fun r s' => exists out, r = (0, [], out ++ [RAck]) /\
      Permutation out (match k with Tidy => [] | Idx => index now age d (nodup (list_eq_dec Z.eq_dec) T) end) /\
      St base C s' /\ at_ base (s_fs s') [] = Some Dir /\ at_level base L (s_fs s') /\ Rep (after d) (s_fs s'))
    (fun g => Good base C g /\ exists d', gone d d' /\ Rep d' g) s.
Proof using HD HL.
  intros c d b s HA HC HCL HS B A R LK.
  assert (ALL : forall n, name_ok n -> in_dirs L (dir_index L) n) by (intros n [X Y]; apply dir_index_in; auto; lia).
  eapply wp_mono; [apply (slice_ok base C L HL k age now (fun n c m => sound n c m) c (dir_index L) b s); auto; [apply dir_index_nodup|apply dir_index_singles]|..].
  - intros r s' (out & E & S' & D' & A' & TR & SE). exists out. split; auto. split.
    + eapply sent_index; [apply HS|exact R|]. destruct SE as (es & X1 & X2 & X3). exists es. split; auto. split; auto. intros n x. rewrite X3. split; [tauto|]. intros (Y1 & Y2 & _ & Y4). auto.
    + split; auto. split; auto. split; auto. eapply rep_treated; [apply HS| |exact R]. intros n x N. rewrite (TR n x N). split; intros [X Y]; split; auto.
  - intros g [G BT]. split; auto. eapply rep_between; [apply HS|exact BT|exact R].
Qed.
End Map.

Lemma iteration_history : forall H dir home T rs f, fresh f dir -> digest_ok H T -> Forall (fun r => (fst (fst r) <= 4)%nat /\ Forall request_ok (snd r)) rs -> incl (topics rs) T ->
  exists d, history empty rs (run_all H dir home rs f) d /\
  forall levels life ms e s0 s k age now budget, (levels <= 4)%nat -> Forall request_ok ms -> incl (map MSG_TOPIC ms) T ->
    server_start (mk_cfg true dir levels) home (runs_fs H dir home rs f) life = Done e s0 -> serve_to H (mk_cfg true dir levels) ms s0 = Some s ->
    (looks (s_fs s) dir (dir_index levels) <= budget)%nat ->
    match slice (mk_cfg true dir levels) k age now (dir_index levels) budget s with
    | Done r s' => exists out, r = (0, [], out ++ [RAck]) /\
        Permutation out (match k with Tidy => [] | Idx => index now age (fold_left effect ms d) (nodup (list_eq_dec Z.eq_dec) T) end) /\
        forall ms2, Forall request_ok ms2 -> incl (map MSG_TOPIC ms2) T ->
          exists d2, ran (after k age now (fold_left effect ms d)) ms2 (fst (serve H (mk_cfg true dir levels) ms2 s')) d2 /\
            (s_life s' = None -> Datatypes.length (fst (serve H (mk_cfg true dir levels) ms2 s')) = Datatypes.length ms2)
    | Killed g => exists d', gone k age now (fold_left effect ms d) d' /\
        forall rs2, Forall (fun r => (fst (fst r) <= 4)%nat /\ Forall request_ok (snd r)) rs2 -> incl (topics rs2) T ->
          exists d2, history d' rs2 (run_all H dir home rs2 g) d2
    end.
Proof.
  intros H dir home T rs f F D R IN. destruct (fresh_good dir H T f F) as [G RP].
  destruct (all_runs_ok dir H T D rs home empty f R IN G RP) as (d & HI & G1 & R1). exists d. split; auto.
  intros levels life ms e s0 s k age now budget HL HM HI2 ES ET LK. set (c := mk_cfg true dir levels) in *.
  assert (FT : forall l, incl (map MSG_TOPIC l) T -> Forall (fun m => In (MSG_TOPIC m) T) l) by (intros l X; apply Forall_forall; intros m Y; apply X, in_map; auto).
  pose proof (restructure_ok dir (CC H T) c (mk_st (runs_fs H dir home rs f) home None life) eq_refl eq_refl HL) as X. specialize (X ltac:(split; cbn; [auto|discriminate])).
  unfold wp in X. unfold server_start in ES. rewrite ES in X. destruct X as (_ & S0 & D0 & K0 & A0). cbn [s_fs] in K0.
  destruct (serve_to_ok dir H T D c ms d s0 s eq_refl eq_refl HL HM (FT _ HI2) S0 A0 (rep_keeps dir H T D _ _ _ K0 R1) D0 ET) as (S1 & D1 & A1 & R2).
  pose proof (iteration_ok dir H T D levels HL k age now c (fold_left effect ms d) budget s eq_refl eq_refl eq_refl S1 D1 A1 R2 LK) as Y. unfold wp in Y.
  destruct (slice c k age now (dir_index levels) budget s) as [r s'|g].
  - destruct Y as (out & -> & PM & S2 & D2 & A2 & R3). exists out. split; auto. split; auto. intros ms2 HM2 HI3.
    pose proof (serve_ok dir H T D c ms2 _ s' eq_refl eq_refl HL HM2 (FT _ HI3) S2 A2 R3 D2) as Z. destruct (serve H c ms2 s') as [a g]. destruct Z as (_ & (d2 & Z1 & _) & Z2). exists d2. auto.
  - destruct Y as (G2 & d' & GO & R3). exists d'. split; auto. intros rs2 HR2 HI3. destruct (all_runs_ok dir H T D rs2 home d' g HR2 HI3 G2 R3) as (d2 & Z & _). eauto.
Qed.
