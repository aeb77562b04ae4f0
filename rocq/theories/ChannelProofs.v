From Coq Require Import ZArith List Bool Lia.
From Verif Require Import Common ChannelModel ChannelSpec.
Import ListNotations.
Open Scope Z_scope.

(** * Positions in the ring *)
Definition at_ (n rp i : Z) : Z := if rp + i <? n then rp + i else rp + i - n.

Lemma at_range n rp i : 0 <= rp < n -> 0 <= i <= n -> 0 <= at_ n rp i < n.
Proof. unfold at_. intros. destruct (rp + i <? n) eqn:E; lia. Qed.
Lemma at_inj n rp i j : 0 <= rp < n -> 0 <= i < n -> 0 <= j < n -> at_ n rp i = at_ n rp j -> i = j.
Proof. unfold at_. intros. destruct (rp + i <? n) eqn:E, (rp + j <? n) eqn:F; lia. Qed.
Lemma at_surj n rp p : 0 <= rp < n -> 0 <= p < n -> exists i, 0 <= i < n /\ p = at_ n rp i.
Proof.
  intros. exists (if p <? rp then p - rp + n else p - rp). unfold at_.
  destruct (p <? rp) eqn:E; split; try lia; destruct (_ <? n) eqn:F; lia.
Qed.
Lemma at_0 n rp : 0 <= rp < n -> at_ n rp 0 = rp.
Proof. unfold at_. intros. destruct (rp + 0 <? n) eqn:E; lia. Qed.
Lemma at_n n rp : 0 <= rp < n -> at_ n rp n = rp.
Proof. unfold at_. intros. destruct (rp + n <? n) eqn:E; lia. Qed.
Lemma at_fix n rp i : 0 <= rp < n -> 0 <= i <= n -> at_ n rp i = rp -> i = 0 \/ i = n.
Proof. unfold at_. intros. destruct (rp + i <? n) eqn:E; lia. Qed.
Lemma next_range n p : 0 <= p < n -> 0 <= next_pos n p < n.
Proof. unfold next_pos. intros. destruct (p + 1 =? n) eqn:E; lia. Qed.
Lemma next_at n rp i : 0 <= rp < n -> 0 <= i < n -> next_pos n (at_ n rp i) = at_ n rp (i + 1).
Proof.
  unfold next_pos, at_. intros.
  destruct (rp + i <? n) eqn:E, (rp + (i + 1) <? n) eqn:F; destruct (_ =? n) eqn:G; lia.
Qed.
Lemma at_next n rp i : 0 <= rp < n -> 0 <= i < n -> at_ n (next_pos n rp) i = at_ n rp (i + 1).
Proof.
  unfold next_pos, at_. intros.
  destruct (rp + 1 =? n) eqn:G; destruct (_ + i <? n) eqn:E, (rp + (i + 1) <? n) eqn:F; lia.
Qed.

(** * Invariant *)
Definition block_ok (b : block) : Prop :=
  zlen (b_data b) <= b_cap b /\ (0 < b_cap b -> b_ptr b = true) /\ (b_cleanup b = true -> b_data b = []).
Definition post_w (w : wpc) : Z := match w with WPost => 1 | _ => 0 end.
Definition post_r (r : rpc) : Z := match r with RPost _ => 1 | _ => 0 end.
Definition w_ok (n : Z) (c : channel) (w : wpc) : Prop :=
  match w with
  | WIdle | WPost => True
  | WClean i pos d => 0 <= i <= n /\ pos = c_wpos c /\ d <> []
  | WCleanHold i pos d => 0 <= i < n /\ pos = c_wpos c /\ d <> [] /\ b_lock (c_blocks c i) = Some Writer
  | WGot pos d => pos = c_wpos c /\ d <> []
  | WHold pos d => pos = c_wpos c /\ d <> [] /\ b_lock (c_blocks c pos) = Some Writer
  end.
Definition r_ok (c : channel) (r : rpc) : Prop :=
  match r with
  | RIdle | RPost _ => True
  | RGot pos => pos = c_rpos c /\ 1 <= c_count c
  | RHold pos => pos = c_rpos c /\ 1 <= c_count c /\ b_lock (c_blocks c pos) = Some Reader
  end.
Definition holds (w : wpc) (r : rpc) (i : Z) (o : who) : Prop :=
  match o with
  | Writer => match w with WCleanHold j _ _ => j = i | WHold j _ => j = i | _ => False end
  | Reader => match r with RHold j => j = i | _ => False end
  end.
Definition rp_of (n : Z) (c : channel) (r : rpc) : Z := match r with RPost _ => next_pos n (c_rpos c) | _ => c_rpos c end.
Definition wp_of (n : Z) (c : channel) (w : wpc) : Z := match w with WPost => next_pos n (c_wpos c) | _ => c_wpos c end.

Record inv (n : Z) (s : state) (q : list (list Z)) : Prop := {
  i_w : 0 <= c_wpos (s_ch s) < n;
  i_r : 0 <= c_rpos (s_ch s) < n;
  i_len : zlen q <= n;
  i_ne : Forall (fun d => d <> []) q;
  i_data : forall i, 0 <= i < n ->
    b_data (c_blocks (s_ch s) (at_ n (rp_of n (s_ch s) (s_r s)) i)) = nth (Z.to_nat i) q [];
  i_wp : wp_of n (s_ch s) (s_w s) = at_ n (rp_of n (s_ch s) (s_r s)) (zlen q);
  i_count : c_count (s_ch s) = zlen q - post_w (s_w s) + post_r (s_r s);
  i_post : post_w (s_w s) <= zlen q;
  i_wok : w_ok n (s_ch s) (s_w s);
  i_rok : r_ok (s_ch s) (s_r s);
  i_lock : forall i o, b_lock (c_blocks (s_ch s) i) = Some o -> holds (s_w s) (s_r s) i o;
  i_blk : forall i, block_ok (c_blocks (s_ch s) i) }.

Definition wst (w : wpc) : wstate := match w with WIdle => Outside | WPost => Stored | _ => Calling end.

Lemma inv_initial n : 0 < n -> inv n initial [].
Proof.
  intros Hn. constructor; cbn [s_ch s_w s_r initial channel_new c_wpos c_rpos c_count c_blocks b_data b_lock post_w post_r w_ok r_ok rp_of wp_of]; rewrite ?zlen_nil; try lia.
  - constructor.
  - intros i _. destruct (Z.to_nat i); reflexivity.
  - now rewrite at_0 by lia.
  - discriminate.
  - intros i. repeat split; cbn; lia.
Qed.

(** The block with its lock changed. *)
Lemma lock_ok b w : block_ok b -> block_ok (lock b w).
Proof. unfold block_ok, lock. cbn. auto. Qed.

Lemma free_ok b w : block_ok (lock (block_free b) w).
Proof. unfold block_ok, lock, block_free. cbn [b_data b_cap b_ptr b_cleanup]. rewrite zlen_nil. repeat split; lia. Qed.
Lemma empty_ok cap p sh cl w : 0 <= cap -> (0 < cap -> p = true) -> block_ok (mk_block [] cap p sh cl w).
Proof. unfold block_ok. cbn [b_data b_cap b_ptr b_cleanup]. rewrite zlen_nil. auto. Qed.

(** Replacing a block by one with the same message. *)
Lemma data_set (c : channel) p b n rp q :
  b_data b = b_data (c_blocks c p) ->
  (forall i, 0 <= i < n -> b_data (c_blocks c (at_ n rp i)) = nth (Z.to_nat i) q []) ->
  forall i, 0 <= i < n -> b_data (c_blocks (set_block c p b) (at_ n rp i)) = nth (Z.to_nat i) q [].
Proof.
  intros E H i Hi. rewrite <- H by assumption. cbn [c_blocks set_block].
  destruct (at_ n rp i =? p) eqn:F; [ | reflexivity ].
  apply Z.eqb_eq in F. now rewrite F.
Qed.

Lemma rp_set n c p b r : rp_of n (set_block c p b) r = rp_of n c r.
Proof. destruct r; reflexivity. Qed.

Lemma blk_set (c : channel) p b : block_ok b -> (forall i, block_ok (c_blocks c i)) -> forall i, block_ok (c_blocks (set_block c p b) i).
Proof. intros Hb H i. cbn [c_blocks set_block]. destruct (i =? p); auto. Qed.

Lemma zlen_zero (d : list Z) : zlen d = 0 -> d = [].
Proof. destruct d; [ reflexivity | rewrite zlen_cons; pose proof (zlen_nonneg _ d); lia ]. Qed.
Lemma zlen_pos (d : list Z) : d <> [] -> 0 < zlen d.
Proof. destruct d; [ congruence | rewrite zlen_cons; pose proof (zlen_nonneg _ d); lia ]. Qed.

Lemma allocate_ok b size ok b' :
  block_ok b -> b_data b = [] -> 0 < size -> allocate b size ok = Some b' ->
  size <= b_cap b' /\ b_ptr b' = true /\ b_data b' = [] /\ b_lock b' = b_lock b.
Proof.
  intros (H1 & H2 & H3) Hd Hs. unfold allocate.
  destruct (if b_shm b && b_ptr b then _ else _) eqn:E.
  - intros [= <-].
    assert (Hle : size <= b_cap b) by (destruct (b_shm b && b_ptr b); lia).
    repeat split; auto. apply H2. lia.
  - destruct ok; cbn [negb]; [ | discriminate ].
    unfold SHM_LIMIT, SHM_MIN_REUSE_SIZE.
    destruct (8192 <? size) eqn:F; intros [= <-]; cbn [b_cap b_ptr b_data b_lock block_free]; repeat split; auto; lia.
Qed.

Lemma allocate_true b size : allocate b size true <> None.
Proof.
  unfold allocate. cbn [negb].
  destruct (b_shm b && b_ptr b), (SHM_LIMIT <? size), ((SHM_MIN_REUSE_SIZE <=? size) && (size <=? b_cap b)), (size <=? b_cap b); discriminate.
Qed.

Lemma nth_ne q i : Forall (fun d : list Z => d <> []) q -> 0 <= i < zlen q -> nth (Z.to_nat i) q [] <> [].
Proof.
  intros H Hi. assert (L : (Z.to_nat i < length q)%nat) by (unfold zlen in Hi; lia).
  rewrite Forall_forall in H. apply H. now apply nth_In.
Qed.

(** The block to be written is empty only if there is room. *)
Lemma room n s q : inv n s q -> wp_of n (s_ch s) (s_w s) = c_wpos (s_ch s) ->
  b_data (c_blocks (s_ch s) (c_wpos (s_ch s))) = [] <-> zlen q < n.
Proof.
  intros V Hw. pose proof (i_wp _ _ _ V) as W. rewrite Hw in W.
  pose proof (i_len _ _ _ V) as L. pose proof (i_w _ _ _ V) as Rw.
  assert (Hrp : 0 <= rp_of n (s_ch s) (s_r s) < n).
  { pose proof (i_r _ _ _ V). unfold rp_of. destruct (s_r s); auto. apply next_range; auto. }
  split.
  - intros E. destruct (Z.eq_dec (zlen q) n) as [ X | X ]; [ | lia ].
    rewrite X, at_n in W by lia. rewrite W, <- (at_0 n (rp_of n (s_ch s) (s_r s))) in E by lia.
    rewrite (i_data _ _ _ V) in E by lia. exfalso. apply (nth_ne q 0); auto; [ apply (i_ne _ _ _ V) | lia ].
  - intros X. rewrite W, (i_data _ _ _ V) by (pose proof (zlen_nonneg _ q); lia).
    apply nth_overflow. unfold zlen. lia.
Qed.

Lemma head_block n s q pos : inv n s q -> (s_r s = RGot pos \/ s_r s = RHold pos) ->
  exists d q', q = d :: q' /\ d <> [] /\ b_data (c_blocks (s_ch s) pos) = d /\ post_w (s_w s) <= zlen q'.
Proof.
  intros V H. pose proof (i_rok _ _ _ V) as R. pose proof (i_count _ _ _ V) as C. pose proof (i_data _ _ _ V 0) as D.
  pose proof (i_r _ _ _ V) as Rr. pose proof (i_ne _ _ _ V) as N.
  assert (P : pos = c_rpos (s_ch s) /\ 1 <= c_count (s_ch s) /\ post_r (s_r s) = 0 /\ rp_of n (s_ch s) (s_r s) = c_rpos (s_ch s)).
  { destruct H as [ H | H ]; rewrite H in *; cbn [r_ok post_r rp_of] in *; intuition. }
  destruct P as (-> & P1 & P2 & P3). rewrite P2 in C. rewrite P3, at_0 in D by lia.
  destruct q as [ | d q' ]; [ rewrite zlen_nil in C; exfalso; destruct (s_w s); cbn [post_w] in C; lia | ].
  exists d, q'. split; [ reflexivity | ]. split; [ now inversion N | ].
  split; [ rewrite D by lia; reflexivity | ]. rewrite zlen_cons in C. lia.
Qed.

(** * Steps *)
Lemma post_w_same w : wst w <> Stored -> post_w w = 0.
Proof. destruct w; cbn; congruence. Qed.

Lemma step_ok n s q l s' es :
  inv n s q -> nonempty l -> step n s l = (s', es) ->
  exists q', inv n s' q' /\ queue_run n (q, wst (s_w s)) es (q', wst (s_w s')).
Proof.
  intros V Hne. pose proof V as [Vw Vr Vlen Vne Vdata Vwp Vcount Vpost Vwok Vrok Vlock Vblk].
  destruct s as [c w r]; cbn [s_ch s_w s_r] in *.
  unfold step; cbn [s_ch s_w s_r].
  destruct l as [ d | | | ao co | no | | | co | ].
  - (* DoWrite *)
    destruct w; try (intros [= <- <-]; exists q; split; [ exact V | constructor ]).
    intros [= <- <-]. exists q. split.
    + constructor; cbn [s_ch s_w s_r c_wpos c_rpos c_count c_blocks]; auto.
      * unfold begin_write. destruct (c_cleanup c); exact Vwp.
      * unfold begin_write. destruct (c_cleanup c); exact Vcount.
      * unfold begin_write. destruct (c_cleanup c); exact Vpost.
      * unfold begin_write. destruct (c_cleanup c); cbn [w_ok c_wpos]; cbn [nonempty] in Hne; repeat split; auto; lia.
      * intros i o Hl. specialize (Vlock i o Hl). destruct o; cbn [holds] in *; [ contradiction | exact Vlock ].
    + cbn [wst]. eapply qr_cons; [ apply q_call | ]. unfold begin_write. destruct (c_cleanup c); constructor.
  - (* DoClean *)
    destruct w as [ | i pos d | i pos d | | | ]; try (intros [= <- <-]; exists q; split; [ exact V | constructor ]).
    + cbn [w_ok] in Vwok. destruct Vwok as (Hi & Hpos & Hd).
      destruct (i =? n) eqn:Ei.
      { intros [= <- <-]. exists q. split; [ | constructor ].
        constructor; cbn [s_ch s_w s_r]; auto.
        cbn [w_ok]. auto. }
      destruct (b_lock (c_blocks c i)) as [ o | ] eqn:El.
      { intros [= <- <-]. exists q. split; [ | constructor ].
        constructor; cbn [s_ch s_w s_r]; auto.
        cbn [w_ok]. repeat split; auto; lia. }
      intros [= <- <-]. exists q. split; [ | constructor ].
      constructor; cbn [s_ch s_w s_r]; auto.
      * apply data_set; auto.
      * cbn [w_ok c_blocks set_block c_wpos]. rewrite Z.eqb_refl. repeat split; auto; lia.
      * destruct r; cbn [r_ok c_blocks set_block c_rpos c_count] in *; auto.
        destruct (pos0 =? i) eqn:F; [ | exact Vrok ]. exfalso. assert (pos0 = i) by lia. subst. rewrite El in Vrok. intuition discriminate.
      * intros j o. cbn [c_blocks set_block]. destruct (j =? i) eqn:F.
        -- cbn [b_lock lock]. intros [= <-]. cbn [holds]. lia.
        -- intros Hl. specialize (Vlock j o Hl). destruct o; cbn [holds] in *; [ contradiction | exact Vlock ].
      * apply blk_set; auto. apply lock_ok. auto.
    + cbn [w_ok] in Vwok. destruct Vwok as (Hi & Hpos & Hd & Hl0).
      intros [= <- <-]. exists q. split; [ | constructor ].
      assert (Hb : b_data (if b_cleanup (c_blocks c i) then block_free (mk_block (b_data (c_blocks c i)) (b_cap (c_blocks c i)) (b_ptr (c_blocks c i)) (b_shm (c_blocks c i)) false (b_lock (c_blocks c i))) else c_blocks c i) = b_data (c_blocks c i)).
      { destruct (b_cleanup (c_blocks c i)) eqn:F; [ | reflexivity ]. cbn [b_data block_free].
        destruct (Vblk i) as (_ & _ & X). symmetry. auto. }
      constructor; cbn [s_ch s_w s_r]; auto.
      * apply data_set; auto.
      * cbn [w_ok c_wpos set_block]. repeat split; auto; lia.
      * destruct r; cbn [r_ok c_blocks set_block c_rpos c_count] in *; auto.
        destruct (pos0 =? i) eqn:F; [ | exact Vrok ]. exfalso. assert (pos0 = i) by lia. subst. rewrite Hl0 in Vrok. intuition discriminate.
      * intros j o. cbn [c_blocks set_block]. destruct (j =? i) eqn:F; [ cbn [b_lock lock]; discriminate | ].
        intros Hl. specialize (Vlock j o Hl). destruct o; cbn [holds] in *; [ lia | exact Vlock ].
      * apply blk_set; auto. destruct (b_cleanup (c_blocks c i)); [ apply free_ok | apply lock_ok; auto ].
  - (* DoTryLock *)
    destruct w as [ | | | pos d | | ]; try (intros [= <- <-]; exists q; split; [ exact V | constructor ]).
    cbn [w_ok] in Vwok. destruct Vwok as (Hpos & Hd).
    destruct (b_lock (c_blocks c pos)) as [ o | ] eqn:El.
    + intros [= <- <-]. exists q. split.
      * constructor; cbn [s_ch s_w s_r c_wpos c_rpos c_count c_blocks]; auto; try exact I.
      * cbn [wst]. eapply qr_cons; [ | constructor ]. apply q_full.
        specialize (Vlock _ _ El). destruct o; cbn [holds] in Vlock; [ contradiction | ].
        destruct r; try contradiction. subst pos0.
        destruct (head_block n _ q pos V) as (d' & q' & -> & _ & _ & _); [ cbn; auto | ].
        cbn [r_ok] in Vrok. destruct Vrok as (Hr & _ & _). cbn [wp_of rp_of] in Vwp.
        rewrite <- Hpos, <- Hr in Vwp. symmetry in Vwp. apply at_fix in Vwp; [ | lia | ].
        -- rewrite zlen_cons in *. pose proof (zlen_nonneg _ q'). lia.
        -- rewrite zlen_cons in *. pose proof (zlen_nonneg _ q'). lia.
    + intros [= <- <-]. exists q. split; [ | constructor ].
      constructor; cbn [s_ch s_w s_r]; auto.
      * apply data_set; auto.
      * cbn [w_ok c_blocks set_block c_wpos]. rewrite Z.eqb_refl. auto.
      * destruct r; cbn [r_ok c_blocks set_block c_rpos c_count] in *; auto.
        destruct (pos0 =? pos) eqn:F; [ | exact Vrok ]. exfalso. assert (pos0 = pos) by lia. subst pos0. rewrite El in Vrok. intuition discriminate.
      * intros j o. cbn [c_blocks set_block]. destruct (j =? pos) eqn:F.
        -- cbn [b_lock lock]. intros [= <-]. cbn [holds]. lia.
        -- intros Hl. specialize (Vlock j o Hl). destruct o; cbn [holds] in *; [ contradiction | exact Vlock ].
      * apply blk_set; auto. apply lock_ok. auto.
  - (* DoFill *)
    destruct w as [ | | | | pos d | ]; try (intros [= <- <-]; exists q; split; [ exact V | constructor ]).
    cbn [w_ok] in Vwok. destruct Vwok as (Hpos & Hd & Hl0).
    pose proof (room n _ q V eq_refl) as Hroom. cbn [s_ch] in Hroom. rewrite <- Hpos in Hroom.
    assert (Vrok' : forall b c', c' = set_block c pos b -> r_ok c' r).
    { intros b c' ->. destruct r; cbn [r_ok c_blocks set_block c_rpos c_count] in *; auto.
      destruct (pos0 =? pos) eqn:F; [ | exact Vrok ]. exfalso. assert (pos0 = pos) by lia. subst pos0. rewrite Hl0 in Vrok. intuition discriminate. }
    assert (Vlock' : forall b w', b_lock b = None -> forall j o, b_lock (c_blocks (set_block c pos b) j) = Some o -> holds w' r j o).
    { intros b w' Hb j o. cbn [c_blocks set_block]. destruct (j =? pos) eqn:F; [ congruence | ].
      intros Hl. specialize (Vlock j o Hl). destruct o; cbn [holds] in *; [ lia | exact Vlock ]. }
    destruct (zlen (b_data (c_blocks c pos)) =? 0) eqn:Ez; cbn [negb].
    2:{ intros [= <- <-]. exists q. split.
        - constructor; cbn [s_ch s_w s_r]; auto; try exact I.
          + apply data_set; auto.
          + now apply (Vrok' (lock (c_blocks c pos) None)).
          + now apply Vlock'.
          + apply blk_set; auto. apply lock_ok. auto.
        - cbn [wst]. eapply qr_cons; [ | constructor ]. apply q_full.
          destruct (Z.eq_dec (zlen q) n) as [ X | X ]; [ exact X | ].
          assert (Y : zlen q < n) by lia. apply Hroom in Y. rewrite Y, zlen_nil in Ez. discriminate. }
    apply Z.eqb_eq, zlen_zero in Ez.
    destruct (allocate (c_blocks c pos) (zlen d) ao) as [ b | ] eqn:Ea.
    2:{ intros [= <- <-]. exists q. split.
        - constructor; cbn [s_ch s_w s_r]; auto; try exact I.
          + apply data_set; auto.
          + now apply (Vrok' (lock (block_free (c_blocks c pos)) None)).
          + now apply Vlock'.
          + apply blk_set; auto. apply free_ok.
        - cbn [wst]. eapply qr_cons; [ | constructor ]. apply q_fail. }
    destruct (allocate_ok _ _ _ _ (Vblk pos) Ez (zlen_pos d Hd) Ea) as (A1 & A2 & A3 & A4).
    destruct co; cbn [negb].
    2:{ intros [= <- <-]. exists q. split.
        - constructor; cbn [s_ch s_w s_r]; auto; try exact I.
          + apply data_set; auto. cbn [lock b_data]. congruence.
          + now apply (Vrok' (lock b None)).
          + now apply Vlock'.
          + apply blk_set; auto. unfold lock. rewrite A3. pose proof (zlen_nonneg _ d). apply empty_ok; auto. lia.
        - cbn [wst]. eapply qr_cons; [ | constructor ]. apply q_fail. }
    intros [= <- <-]. exists (q ++ [d]).
    assert (Hlt : zlen q < n) by (now apply Hroom). pose proof (zlen_nonneg _ q) as Hq.
    assert (Hrp : 0 <= rp_of n c r < n).
    { unfold rp_of. destruct r; auto. apply next_range; auto. }
    split.
    + constructor; cbn [s_ch s_w s_r]; auto; try exact I.
      * rewrite zlen_app, zlen_cons, zlen_nil. lia.
      * apply Forall_app. auto.
      * intros i Hi. rewrite rp_set. cbn [c_blocks set_block].
        destruct (at_ n (rp_of n c r) i =? pos) eqn:F.
        -- cbn [b_data]. apply Z.eqb_eq in F. rewrite Hpos in F. cbn [wp_of] in Vwp. rewrite Vwp in F.
           apply at_inj in F; [ | lia | lia | lia ]. subst i.
           rewrite app_nth2 by (unfold zlen; lia). replace (Z.to_nat (zlen q) - length q)%nat with O by (unfold zlen; lia). reflexivity.
        -- rewrite Vdata by lia.
           destruct (Z.lt_ge_cases i (zlen q)) as [ X | X ].
           ++ rewrite app_nth1 by (unfold zlen in X; lia). reflexivity.
           ++ assert (i <> zlen q).
              { intros ->. cbn [wp_of] in Vwp. rewrite <- Vwp, Hpos in F. lia. }
              rewrite !nth_overflow; auto; [ rewrite app_length; cbn [length]; unfold zlen in *; lia | unfold zlen in *; lia ].
      * cbn [wp_of]. cbn [wp_of] in Vwp. cbn [c_wpos set_block]. rewrite rp_set.
        rewrite Vwp, next_at, zlen_app, zlen_cons, zlen_nil by lia. reflexivity.
      * cbn [post_w] in *. cbn [c_count set_block]. rewrite zlen_app, zlen_cons, zlen_nil. lia.
      * cbn [post_w]. rewrite zlen_app, zlen_cons, zlen_nil. lia.
      * eapply Vrok'. reflexivity.
      * now apply Vlock'.
      * apply blk_set; auto. unfold block_ok. cbn [b_data b_cap b_ptr b_cleanup]. repeat split; auto. discriminate.
    + cbn [wst]. eapply qr_cons; [ now apply q_store | constructor ].
  - (* DoPost *)
    destruct w; try (intros [= <- <-]; exists q; split; [ exact V | constructor ]).
    intros [= <- <-]. exists q. split.
    + constructor; cbn [s_ch s_w s_r c_wpos c_rpos c_count c_blocks]; auto; try exact I.
      * now apply next_range.
      * cbn [post_w] in *. lia.
      * cbn [post_w] in *. lia.
      * destruct r; cbn [r_ok c_rpos c_count c_blocks] in *; intuition; lia.
    + cbn [wst]. eapply qr_cons; [ | constructor ]. destruct no; constructor.
  - (* DoRead *)
    destruct r; try (destruct w; intros [= <- <-]; exists q; split; [ exact V | constructor | exact V | constructor | exact V | constructor | exact V | constructor | exact V | constructor | exact V | constructor ]).
    all: cycle 1.
    all: try solve [ destruct w; intros [= <- <-]; exists q; split; first [ exact V | apply qr_nil ] ].
    assert (G : (if c_count c =? 0 then (mk_state c w RIdle, [RNothing]) else (mk_state c w (RGot (c_rpos c)), [])) = (s', es) ->
       exists q', inv n s' q' /\ queue_run n (q, wst w) es (q', wst (s_w s'))).
    { destruct (c_count c =? 0) eqn:Ec; intros [= <- <-]; exists q.
      - split; [ exact V | ]. cbn [s_w]. eapply qr_cons; [ | constructor ].
        cbn [post_r] in Vcount. pose proof (zlen_nonneg _ q).
        destruct q as [ | d [ | d2 q ] ]; rewrite ?zlen_cons, ?zlen_nil in *.
        + constructor.
        + destruct w; cbn [post_w] in *; try lia. cbn [wst]. apply q_nothing_yet.
        + pose proof (zlen_nonneg _ q). destruct w; cbn [post_w] in *; lia.
      - split; [ | constructor ]. constructor; cbn [s_ch s_w s_r]; auto.
        cbn [r_ok]. split; [ reflexivity | ]. cbn [post_r] in Vcount. lia. }
    destruct w; exact G.
  - (* DoReadLock *)
    assert (G : forall pos, r = RGot pos -> match b_lock (c_blocks c pos) with
      | Some _ => (mk_state c w RIdle, [REmpty])
      | None => (mk_state (set_block c pos (lock (c_blocks c pos) (Some Reader))) w (RHold pos), [])
      end = (s', es) -> exists q', inv n s' q' /\ queue_run n (q, wst w) es (q', wst (s_w s'))).
    { intros pos ->. cbn [r_ok] in Vrok. destruct Vrok as (Hpos & Hc).
      destruct (b_lock (c_blocks c pos)) as [ o | ] eqn:El; intros [= <- <-]; exists q.
      - split.
        + constructor; cbn [s_ch s_w s_r]; auto; try exact I.
        + cbn [s_w]. eapply qr_cons; [ | constructor ].
          specialize (Vlock _ _ El). destruct o; cbn [holds] in Vlock; [ | contradiction ].
          destruct w; try contradiction; cbn [wst]; constructor.
      - split; [ | constructor ].
        constructor; cbn [s_ch s_w s_r]; auto.
        + apply data_set; auto.
        + destruct w; cbn [w_ok c_blocks set_block c_wpos] in *; auto.
          * destruct (i =? pos) eqn:F; [ | exact Vwok ]. exfalso. assert (i = pos) by lia. subst i. rewrite El in Vwok. intuition discriminate.
          * destruct (pos0 =? pos) eqn:F; [ | exact Vwok ]. exfalso. assert (pos0 = pos) by lia. subst pos0. rewrite El in Vwok. intuition discriminate.
        + cbn [r_ok c_blocks set_block c_rpos c_count]. rewrite Z.eqb_refl. auto.
        + intros j o. cbn [c_blocks set_block]. destruct (j =? pos) eqn:F.
          * cbn [b_lock lock]. intros [= <-]. cbn [holds]. lia.
          * intros Hl. specialize (Vlock j o Hl). destruct o; cbn [holds] in *; [ exact Vlock | contradiction ].
        + apply blk_set; auto. apply lock_ok. auto. }
    destruct r; try solve [ destruct w; intros [= <- <-]; exists q; split; first [ exact V | apply qr_nil ] ].
    destruct w; apply (G _ eq_refl).
  - (* DoShow *)
    destruct r as [ | | pos | ]; try solve [ destruct w; intros [= <- <-]; exists q; split; first [ exact V | apply qr_nil ] ].
    destruct (head_block n _ q pos V) as (d & q' & -> & Hd & Hb & Hp); [ cbn; auto | ]. cbn [s_ch s_w] in Hb, Hp.
    cbn [r_ok] in Vrok. destruct Vrok as (Hpos & Hc & Hl0).
    assert (Vwok' : forall b, w_ok n (set_block c pos b) w).
    { intros b. destruct w; cbn [w_ok c_blocks set_block c_wpos] in *; auto.
      - destruct (i =? pos) eqn:F; [ | exact Vwok ]. exfalso. assert (i = pos) by lia. subst i. rewrite Hl0 in Vwok. intuition discriminate.
      - destruct (pos0 =? pos) eqn:F; [ | exact Vwok ]. exfalso. assert (pos0 = pos) by lia. subst pos0. rewrite Hl0 in Vwok. intuition discriminate. }
    assert (Vlock' : forall b r', b_lock b = None -> forall j o, b_lock (c_blocks (set_block c pos b) j) = Some o -> holds w r' j o).
    { intros b r' Hbl j o. cbn [c_blocks set_block]. destruct (j =? pos) eqn:F; [ congruence | ].
      intros Hl. specialize (Vlock j o Hl). destruct o; cbn [holds] in *; [ exact Vlock | lia ]. }
    assert (Hz : (zlen (b_data (c_blocks c pos)) =? 0) = false) by (rewrite Hb; pose proof (zlen_pos d Hd); lia).
    assert (G : (if negb co then (mk_state (set_block c pos (lock (c_blocks c pos) None)) w RIdle, [Shown d; RFailed])
      else (mk_state (set_block c pos (mk_block [] (b_cap (c_blocks c pos)) (b_ptr (c_blocks c pos)) (b_shm (c_blocks c pos)) (MAX_PERSISTENT_SIZE <? b_cap (c_blocks c pos)) None)) w
         (RPost (MAX_PERSISTENT_SIZE <? b_cap (c_blocks c pos))), [Shown d; Took d])) = (s', es) ->
       exists q2, inv n s' q2 /\ queue_run n (d :: q', wst w) es (q2, wst (s_w s'))).
    { destruct co; cbn [negb]; intros [= <- <-].
      - exists q'. split; [ | cbn [s_w]; eapply qr_cons; [ apply q_show | ]; eapply qr_cons; [ apply q_take | constructor ] ].
        rewrite zlen_cons in *. pose proof (zlen_nonneg _ q') as Hq.
        constructor; cbn [s_ch s_w s_r]; auto; try exact I.
        + lia.
        + now inversion Vne.
        + intros i Hi. cbn [rp_of c_rpos set_block c_blocks].
          rewrite at_next by lia.
          destruct (at_ n (c_rpos c) (i + 1) =? pos) eqn:F.
          * cbn [b_data]. rewrite Hpos in F. apply Z.eqb_eq in F. apply at_fix in F; [ | lia | lia ].
            symmetry. apply nth_overflow. unfold zlen in *. lia.
          * assert (i + 1 <> n) by (intros X; rewrite X, at_n in F by lia; lia).
            specialize (Vdata (i + 1)). cbn [rp_of] in Vdata. rewrite Vdata by lia.
            replace (Z.to_nat (i + 1)) with (S (Z.to_nat i)) by lia. reflexivity.
        + cbn [rp_of c_rpos set_block] in *. rewrite at_next by lia.
          rewrite Z.add_comm. rewrite <- Vwp. destruct w; reflexivity.
        + cbn [post_r c_count set_block] in *. lia.
        + now apply Vlock'.
        + apply blk_set; auto. destruct (Vblk pos) as (B1 & B2 & _). apply empty_ok; auto. rewrite Hb in B1. pose proof (zlen_nonneg _ d). lia.
      - exists (d :: q'). split; [ | cbn [s_w]; eapply qr_cons; [ apply q_show | ]; eapply qr_cons; [ apply q_refuse | constructor ] ].
        constructor; cbn [s_ch s_w s_r]; auto; try exact I.
        + apply data_set; auto.
        + now apply Vlock'.
        + apply blk_set; auto. apply lock_ok. auto. }
    destruct w; rewrite Hz; rewrite Hb; exact G.
  - (* DoReadPost *)
    destruct r as [ | | | cl ]; try solve [ destruct w; intros [= <- <-]; exists q; split; first [ exact V | apply qr_nil ] ].
    assert (G : (mk_state (mk_channel (c_count c - 1) (c_wpos c) (next_pos n (c_rpos c)) (c_blocks c) (c_cleanup c || cl) (c_full c)) w RIdle, @nil event) = (s', es) ->
      exists q2, inv n s' q2 /\ queue_run n (q, wst w) es (q2, wst (s_w s'))).
    { intros [= <- <-]. exists q. split; [ | constructor ].
      constructor; cbn [s_ch s_w s_r c_wpos c_rpos c_count c_blocks]; auto; try exact I.
      - now apply next_range.
      - cbn [post_r] in *. lia. }
    destruct w; exact G.
Qed.

(** * Schedules *)
Lemma queue_run_app n a e1 b e2 c : queue_run n a e1 b -> queue_run n b e2 c -> queue_run n a (e1 ++ e2) c.
Proof. induction 1; cbn [app]; intros; [ assumption | ]. eapply qr_cons; eauto. Qed.

Lemma run_ok n s q ls s' es :
  inv n s q -> Forall nonempty ls -> run n s ls = (s', es) ->
  exists q', inv n s' q' /\ queue_run n (q, wst (s_w s)) es (q', wst (s_w s')).
Proof.
  revert s q es. induction ls as [ | l ls IH ]; intros s q es V Hn; cbn [run].
  - intros [= <- <-]. exists q. split; [ exact V | constructor ].
  - destruct (step n s l) as [s1 e1] eqn:E1. destruct (run n s1 ls) as [s2 e2] eqn:E2.
    intros [= <- <-]. inversion Hn; subst.
    destruct (step_ok _ _ _ _ _ _ V H1 E1) as (q1 & V1 & Q1).
    destruct (IH _ _ _ V1 H2 E2) as (q2 & V2 & Q2).
    exists q2. split; [ exact V2 | ]. eapply queue_run_app; eauto.
Qed.

(** The queue accounts for every message. *)
Lemma queue_account n a es b : queue_run n a es b -> fst a ++ written es = taken es ++ fst b.
Proof.
  induction 1 as [ | a e a' es b Q R IH ]; [ cbn; now rewrite app_nil_r | ].
  destruct Q; cbn [fst] in *; unfold written, taken in *; cbn [flat_map] in *; cbn [app]; auto.
  - rewrite <- IH, <- app_assoc. reflexivity.
  - now rewrite IH.
Qed.

Lemma queue_run_split n a es1 es2 b : queue_run n a (es1 ++ es2) b -> exists m, queue_run n a es1 m /\ queue_run n m es2 b.
Proof.
  revert a. induction es1 as [ | e es1 IH ]; intros a; cbn [app].
  - intros H. exists a. split; [ constructor | exact H ].
  - inversion 1; subst. destruct (IH _ H5) as (m & M1 & M2). exists m. split; [ econstructor; eauto | exact M2 ].
Qed.

Lemma queue_bound n a es b : zlen (fst a) <= n -> queue_run n a es b -> zlen (fst b) <= n.
Proof.
  intros H R. revert H. induction R as [ | a e a' es b Q R IH ]; intros H; [ exact H | ].
  apply IH. destruct Q; cbn [fst] in *; rewrite ?zlen_app, ?zlen_cons, ?zlen_nil in *; lia.
Qed.

(** * Calls which are not interrupted *)
Lemma run_cons n s l ls : run n s (l :: ls) = (let '(s1, e) := step n s l in let '(s2, e') := run n s1 ls in (s2, e ++ e')).
Proof. reflexivity. Qed.
Lemma run_app n s l1 l2 : run n s (l1 ++ l2) = (let '(s1, e) := run n s l1 in let '(s2, e') := run n s1 l2 in (s2, e ++ e')).
Proof.
  revert s. induction l1 as [ | l l1 IH ]; intros s; cbn [app run].
  - destruct (run n s l2). reflexivity.
  - destruct (step n s l) as [s1 e1]. rewrite IH. destruct (run n s1 l1) as [s2 e2]. destruct (run n s2 l2) as [s3 e3]. now rewrite app_assoc.
Qed.

Lemma quiet_unlocked n s q i : inv n s q -> quiet s -> b_lock (c_blocks (s_ch s) i) = None.
Proof.
  intros V (Hw & Hr). destruct (b_lock _) as [ o | ] eqn:E; [ | reflexivity ].
  apply (i_lock _ _ _ V) in E. rewrite Hw, Hr in E. destruct o; contradiction.
Qed.

Lemma quiet_read n s d q : inv n s (d :: q) -> quiet s ->
  exists s', run n s read_call = (s', [Shown d; Took d]) /\ quiet s' /\ inv n s' q.
Proof.
  intros V Q. pose proof Q as (Hw & Hr).
  pose proof (quiet_unlocked n s _ (c_rpos (s_ch s)) V Q) as Hl.
  pose proof (i_count _ _ _ V) as Hc. rewrite Hw, Hr in Hc. cbn [post_w post_r] in Hc. rewrite zlen_cons in Hc. pose proof (zlen_nonneg _ q).
  pose proof (i_data _ _ _ V 0) as D. pose proof (i_r _ _ _ V) as Rr. pose proof (i_ne _ _ _ V) as N.
  rewrite Hr in D. cbn [rp_of] in D. rewrite at_0 in D by lia. specialize (D ltac:(lia)). cbn [Z.to_nat nth] in D.
  assert (Hd : d <> []) by (now inversion N).
  destruct s as [c w r]; cbn [s_ch s_w s_r] in *. subst w r.
  assert (R : exists s', run n (mk_state c WIdle RIdle) read_call = (s', [Shown d; Took d]) /\ quiet s').
  { unfold read_call. rewrite run_cons. cbn [step s_ch s_w s_r].
    replace (c_count c =? 0) with false by lia.
    rewrite run_cons. cbn [step s_ch s_w s_r]. rewrite Hl.
    rewrite run_cons. cbn [step s_ch s_w s_r c_blocks set_block]. rewrite Z.eqb_refl. cbn [b_data lock]. rewrite D.
    pose proof (zlen_pos d Hd). replace (zlen d =? 0) with false by lia. cbn [negb].
    rewrite run_cons. cbn [step s_ch s_w s_r run app].
    eexists. split; [ reflexivity | ]. split; reflexivity. }
  destruct R as (s' & R & Q'). exists s'. split; [ exact R | ]. split; [ exact Q' | ].
  assert (N2 : Forall nonempty read_call) by (repeat constructor).
  destruct (run_ok _ _ _ _ _ _ V N2 R) as (q' & V' & A).
  apply queue_account in A. cbn in A. injection A as A. rewrite app_nil_r in A. now subst.
Qed.

(** Cleaning, with the reader idle. *)
Lemma clean_run n c d k i q :
  inv n (mk_state c (WClean i (c_wpos c) d) RIdle) q -> d <> [] -> 0 <= i <= n -> Z.of_nat k = 2 * (n - i) + 1 ->
  exists c', run n (mk_state c (WClean i (c_wpos c) d) RIdle) (repeat DoClean k) = (mk_state c' (WGot (c_wpos c') d) RIdle, []).
Proof.
  intros V Hd Hi. remember (Z.to_nat (n - i)) as m eqn:Hm. revert c i k q V Hi Hm.
  induction m as [ | m IH ]; intros c i k q V Hi Hm Hk.
  - assert (i = n) by lia. subst i. replace k with 1%nat by lia. exists c. cbn [repeat run step s_ch s_w s_r]. rewrite Z.eqb_refl. reflexivity.
  - destruct k as [ | [ | k ] ]; [ lia | lia | ]. cbn [repeat]. rewrite run_cons.
    destruct (step n (mk_state c (WClean i (c_wpos c) d) RIdle) DoClean) as [s1 e1] eqn:S1.
    destruct (step_ok _ _ _ DoClean _ _ V I S1) as (q1 & V1 & _).
    cbn [step s_ch s_w s_r] in S1. replace (i =? n) with false in S1 by lia.
    assert (Hl : b_lock (c_blocks c i) = None).
    { destruct (b_lock (c_blocks c i)) as [ o | ] eqn:E; [ | reflexivity ].
      apply (i_lock _ _ _ V) in E. destruct o; contradiction. }
    rewrite Hl in S1. injection S1 as <- <-.
    rewrite run_cons.
    destruct (step n (mk_state (set_block c i (lock (c_blocks c i) (Some Writer))) (WCleanHold i (c_wpos c) d) RIdle) DoClean) as [s2 e2] eqn:S2.
    destruct (step_ok _ _ _ DoClean _ _ V1 I S2) as (q2 & V2 & _).
    cbn [step s_ch s_w s_r] in S2. injection S2 as <- <-.
    destruct (IH _ (i + 1) k q2 V2) as (c' & R); [ lia | lia | lia | ].
    exists c'. cbn [c_wpos set_block] in R. rewrite R. reflexivity.
Qed.

Lemma quiet_write n s q d : inv n s q -> quiet s -> d <> [] -> zlen q < n ->
  exists s', run n s (write_call n d (c_cleanup (s_ch s))) = (s', [WCall; Wrote d; WDone]) /\ quiet s' /\ inv n s' (q ++ [d]).
Proof.
  intros V Q Hd Hlt. pose proof Q as (Hw & Hr). pose proof (i_w _ _ _ V) as Rw.
  assert (R : exists s', run n s (write_call n d (c_cleanup (s_ch s))) = (s', [WCall; Wrote d; WDone]) /\ quiet s').
  { destruct s as [c w r]; cbn [s_ch s_w s_r] in *. subst w r.
    unfold write_call. rewrite run_cons.
    destruct (step n (mk_state c WIdle RIdle) (DoWrite d)) as [s1 e1] eqn:S1.
    destruct (step_ok _ _ _ (DoWrite d) _ _ V Hd S1) as (q1 & V1 & A1). apply queue_account in A1.
    cbn [step s_ch s_w s_r] in S1. injection S1 as <- <-. cbn in A1. rewrite app_nil_r in A1. subst q1.
    assert (C : exists c', run n (mk_state (mk_channel (c_count c) (c_wpos c) (c_rpos c) (c_blocks c) false (c_full c)) (begin_write (c_cleanup c) (c_wpos c) d) RIdle)
        (if c_cleanup c then repeat DoClean (Z.to_nat (2 * n + 1)) else []) = (mk_state c' (WGot (c_wpos c') d) RIdle, [])).
    { unfold begin_write in *. destruct (c_cleanup c);
        [ | exists (mk_channel (c_count c) (c_wpos c) (c_rpos c) (c_blocks c) false (c_full c)); reflexivity ].
      refine (clean_run n _ d _ 0 q V1 Hd _ _); lia. }
    destruct C as (c' & C). rewrite run_app, C.
    assert (N2 : Forall nonempty (if c_cleanup c then repeat DoClean (Z.to_nat (2 * n + 1)) else [])).
    { destruct (c_cleanup c); [ | constructor ]. apply Forall_forall. intros x Hx. apply repeat_spec in Hx. subst. exact I. }
    destruct (run_ok _ _ _ _ _ _ V1 N2 C) as (q2 & V2 & A2). apply queue_account in A2. cbn in A2. rewrite app_nil_r in A2. subst q2.
    assert (Hl : b_lock (c_blocks c' (c_wpos c')) = None).
    { destruct (b_lock _) as [ o | ] eqn:E; [ | reflexivity ].
      apply (i_lock _ _ _ V2) in E. destruct o; contradiction. }
    pose proof (room n _ q V2 eq_refl) as Hroom. cbn [s_ch] in Hroom. apply Hroom in Hlt.
    rewrite run_cons. cbn [step s_ch s_w s_r]. rewrite Hl.
    rewrite run_cons. cbn [step s_ch s_w s_r c_blocks set_block]. rewrite Z.eqb_refl. cbn [b_data lock]. rewrite Hlt, zlen_nil. cbn [negb Z.eqb].
    destruct (allocate _ (zlen d) true) as [ b | ] eqn:Ea.
    2:{ now apply allocate_true in Ea. }
    rewrite run_cons. cbn [step s_ch s_w s_r run app].
    eexists. split; [ reflexivity | ]. split; reflexivity. }
  destruct R as (s' & R & Q'). exists s'. split; [ exact R | ]. split; [ exact Q' | ].
  assert (N2 : Forall nonempty (write_call n d (c_cleanup (s_ch s)))).
  { unfold write_call. constructor; [ exact Hd | ]. apply Forall_app. split; [ | repeat constructor ].
    destruct (c_cleanup (s_ch s)); [ | constructor ]. apply Forall_forall. intros x Hx. apply repeat_spec in Hx. subst. exact I. }
  destruct (run_ok _ _ _ _ _ _ V N2 R) as (q' & V' & A).
  apply queue_account in A. cbn in A. now rewrite A.
Qed.

(** * The claims *)
Lemma reach n ls : 0 < n -> Forall nonempty ls ->
  exists q, inv n (fst (run n initial ls)) q /\
    queue_run n ([], Outside) (snd (run n initial ls)) (q, wst (s_w (fst (run n initial ls)))).
Proof.
  intros Hn H. destruct (run n initial ls) as [s es] eqn:E.
  exact (run_ok n initial [] ls s es (inv_initial n Hn) H E).
Qed.

Lemma refines_queue ls : Forall nonempty ls -> exists r, queue_run SLOTS ([], Outside) (snd (run SLOTS initial ls)) r.
Proof. intros H. destruct (reach SLOTS ls eq_refl H) as (q & _ & Q). eauto. Qed.

Lemma fifo ls : Forall nonempty ls ->
  exists waiting, written (snd (run SLOTS initial ls)) = taken (snd (run SLOTS initial ls)) ++ waiting /\ zlen waiting <= SLOTS.
Proof.
  intros H. destruct (reach SLOTS ls eq_refl H) as (q & V & Q). exists q.
  split; [ exact (queue_account _ _ _ _ Q) | exact (i_len _ _ _ V) ].
Qed.

Lemma shown_next ls es1 d es2 : Forall nonempty ls -> snd (run SLOTS initial ls) = es1 ++ Shown d :: es2 ->
  exists rest, written es1 = taken es1 ++ d :: rest.
Proof.
  intros H E. destruct (reach SLOTS ls eq_refl H) as (q & _ & Q). rewrite E in Q.
  apply queue_run_split in Q. destruct Q as ([m w] & Q1 & Q2). inversion Q2; subst.
  match goal with X : queue _ _ (Shown d) _ |- _ => inversion X; subst end.
  exists q0. exact (queue_account _ _ _ _ Q1).
Qed.

Lemma full_only ls es1 es2 : Forall nonempty ls -> snd (run SLOTS initial ls) = es1 ++ WFull :: es2 ->
  exists waiting, written es1 = taken es1 ++ waiting /\ zlen waiting = SLOTS.
Proof.
  intros H E. destruct (reach SLOTS ls eq_refl H) as (q & _ & Q). rewrite E in Q.
  apply queue_run_split in Q. destruct Q as ([m w] & Q1 & Q2). inversion Q2; subst.
  match goal with X : queue _ _ WFull _ |- _ => inversion X; subst end.
  exists m. split; [ exact (queue_account _ _ _ _ Q1) | assumption ].
Qed.

Lemma count_waiting ls s : Forall nonempty ls -> s = fst (run SLOTS initial ls) -> quiet s ->
  exists waiting, written (snd (run SLOTS initial ls)) = taken (snd (run SLOTS initial ls)) ++ waiting /\ channel_count (s_ch s) = zlen waiting.
Proof.
  intros H -> (Hw & Hr). destruct (reach SLOTS ls eq_refl H) as (q & V & Q). exists q.
  split; [ exact (queue_account _ _ _ _ Q) | ].
  pose proof (i_count _ _ _ V) as C. rewrite Hw, Hr in C. cbn [post_w post_r] in C. unfold channel_count. lia.
Qed.

Lemma quiet_progress ls s : Forall nonempty ls -> s = fst (run SLOTS initial ls) -> quiet s ->
  exists waiting, written (snd (run SLOTS initial ls)) = taken (snd (run SLOTS initial ls)) ++ waiting /\
    (forall d rest, waiting = d :: rest -> snd (run SLOTS s read_call) = [Shown d; Took d] /\ quiet (fst (run SLOTS s read_call))) /\
    (forall d, d <> [] -> zlen waiting < SLOTS ->
       snd (run SLOTS s (write_call SLOTS d (c_cleanup (s_ch s)))) = [WCall; Wrote d; WDone] /\
       quiet (fst (run SLOTS s (write_call SLOTS d (c_cleanup (s_ch s)))))).
Proof.
  intros H -> Q. destruct (reach SLOTS ls eq_refl H) as (q & V & A). exists q.
  split; [ exact (queue_account _ _ _ _ A) | ]. split.
  - intros d rest ->. destruct (quiet_read _ _ _ _ V Q) as (s' & -> & Q' & _). auto.
  - intros d Hd Hlt. destruct (quiet_write _ _ _ _ V Q Hd Hlt) as (s' & -> & Q' & _). auto.
Qed.

Lemma in_bounds ls i : Forall nonempty ls ->
  let b := c_blocks (s_ch (fst (run SLOTS initial ls))) i in
  zlen (b_data b) <= b_cap b /\ (b_data b <> [] -> b_ptr b = true).
Proof.
  intros H b. destruct (reach SLOTS ls eq_refl H) as (q & V & _). destruct (i_blk _ _ _ V i) as (B1 & B2 & _).
  split; [ exact B1 | ]. intros Hd. apply B2. fold b in B1. pose proof (zlen_pos _ Hd). fold b. lia.
Qed.
