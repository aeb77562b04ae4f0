From Coq Require Import ZArith List Bool Lia.
From Verif Require Import Common MsgModel ReadModel ReadSpec.
Import ListNotations.
Open Scope Z_scope.

Lemma zlen_firstn_skipn : forall n (l : list Z), 0 <= n <= zlen l ->
  zlen (firstn (Z.to_nat n) l) = n /\ zlen (skipn (Z.to_nat n) l) = zlen l - n.
Proof. intros n l H. unfold zlen in *. rewrite firstn_length, skipn_length. lia. Qed.

Lemma firstn_app_le : forall n (l x : list Z), 0 <= n <= zlen l -> firstn (Z.to_nat n) (l ++ x) = firstn (Z.to_nat n) l.
Proof.
  intros n l x H. unfold zlen in H. rewrite firstn_app. replace (Z.to_nat n - length l)%nat with 0%nat by lia.
  cbn [firstn]. apply app_nil_r.
Qed.
Lemma skipn_app_le : forall n (l x : list Z), 0 <= n <= zlen l -> skipn (Z.to_nat n) (l ++ x) = skipn (Z.to_nat n) l ++ x.
Proof.
  intros n l x H. unfold zlen in H. rewrite skipn_app. replace (Z.to_nat n - length l)%nat with 0%nat by lia. reflexivity.
Qed.
Lemma zlen_pos_ne : forall l : list Z, 0 < zlen l -> l <> [].
Proof. intros l H ->. rewrite zlen_nil in H. lia. Qed.
Lemma ne_zlen_pos : forall l : list Z, l <> [] -> 0 < zlen l.
Proof. intros [ | c l] H; [ congruence | rewrite zlen_cons; pose proof (zlen_nonneg _ l); lia ]. Qed.

Section Parse.
  Variable f : list Z -> framing.
  Hypothesis Hst : stable f.

  Lemma stable_size : forall p q n e, p <> [] -> f p = FSize n e -> exists e', f (p ++ q) = FSize n e'.
  Proof.
    intros p q n e Hp H. pose proof (Hst p q Hp ltac:(congruence)) as S. rewrite H in S. cbn in S.
    destruct (f (p ++ q)); try congruence. subst. eauto.
  Qed.
  Lemma stable_skip : forall p q k, p <> [] -> f p = FSkip k -> f (p ++ q) = FSkip k.
  Proof. intros p q n Hp H. pose proof (Hst p q Hp ltac:(congruence)) as S. rewrite H in S. cbn in S. congruence. Qed.
  Lemma stable_to_end : forall p q, p <> [] -> f p = FToEnd -> f (p ++ q) = FToEnd.
  Proof. intros p q Hp H. pose proof (Hst p q Hp ltac:(congruence)) as S. rewrite H in S. cbn in S. congruence. Qed.

  Lemma parse_extend : forall s ms r x, parse f s ms r -> parse f (s ++ x) ms (r ++ x).
  Proof.
    intros s ms r x H. induction H as [ s | s n e ms r Hf Hn H IH | s k ms r Hf Hk H IH ].
    - apply parse_stop.
    - destruct (stable_size s x n e (zlen_pos_ne s ltac:(lia)) Hf) as [e' Hf'].
      rewrite <- (firstn_app_le n s x) by lia. apply (parse_msg f (s ++ x) n e'); auto.
      + rewrite zlen_app. pose proof (zlen_nonneg _ x). lia.
      + rewrite skipn_app_le by lia. exact IH.
    - apply (parse_skip f (s ++ x) k); auto.
      + apply stable_skip; auto. apply zlen_pos_ne. lia.
      + rewrite zlen_app. pose proof (zlen_nonneg _ x). lia.
      + rewrite skipn_app_le by lia. exact IH.
  Qed.

  Lemma parse_snoc : forall s ms r n e, parse f s ms r -> f r = FSize n e -> 0 < n <= zlen r ->
    parse f s (ms ++ [firstn (Z.to_nat n) r]) (skipn (Z.to_nat n) r).
  Proof.
    intros s ms r n e H Hf Hn. induction H as [ s | s m e1 ms r Hf1 Hn1 H IH | s k ms r Hf1 Hk H IH ].
    - eapply parse_msg; eauto. apply parse_stop.
    - cbn [app]. eapply parse_msg; eauto.
    - eapply parse_skip; eauto.
  Qed.
  Lemma parse_snoc_skip : forall s ms r k, parse f s ms r -> f r = FSkip k -> 0 < k <= zlen r ->
    parse f s ms (skipn (Z.to_nat k) r).
  Proof.
    intros s ms r n H Hf Hn. induction H as [ s | s m e1 ms r Hf1 Hn1 H IH | s k ms r Hf1 Hk H IH ].
    - eapply parse_skip; eauto. apply parse_stop.
    - eapply parse_msg; eauto.
    - eapply parse_skip; eauto.
  Qed.
End Parse.

Lemma stuck_not : forall f s, stuck f s ->
  (forall n e, f s = FSize n e -> 0 < n <= zlen s -> False) /\ (forall k, f s = FSkip k -> 0 < k <= zlen s -> False).
Proof.
  intros f s [ -> | [ H | [ H | (n & e & H & L) ] ] ]; split; intros; try congruence.
  - rewrite zlen_nil in H0. lia.
  - rewrite zlen_nil in H0. lia.
  - assert (n0 = n) by congruence. lia.
Qed.

Lemma parse_det : forall f s m1 r1, parse f s m1 r1 -> stuck f r1 ->
  forall m2 r2, parse f s m2 r2 -> stuck f r2 -> m1 = m2 /\ r1 = r2.
Proof.
  intros f s m1 r1 H. induction H as [ s | s n e ms r Hf Hn H IH | s k ms r Hf Hk H IH ];
    intros S1 m2 r2 H2 S2; inversion H2; subst; auto.
  - exfalso. eapply (proj1 (stuck_not f s S1)); eauto.
  - exfalso. eapply (proj2 (stuck_not f s S1)); eauto.
  - exfalso. eapply (proj1 (stuck_not f r2 S2)); eauto.
  - rewrite Hf in H0. injection H0 as <- <-. destruct (IH S1 _ _ H3 S2) as [ -> -> ]. auto.
  - congruence.
  - exfalso. eapply (proj2 (stuck_not f r2 S2)); eauto.
  - congruence.
  - rewrite Hf in H0. injection H0 as <-. destruct (IH S1 _ _ H3 S2) as [ -> -> ]. auto.
Qed.

(** A parse with messages delivered is a part of any finished parse. *)
Lemma parse_prefix : forall f s m1 r1, parse f s m1 r1 ->
  forall m2 r2, parse f s m2 r2 -> stuck f r2 -> exists m3, m2 = m1 ++ m3 /\ parse f r1 m3 r2.
Proof.
  intros f s m1 r1 H. induction H as [ s | s n e ms r Hf Hn H IH | s k ms r Hf Hk H IH ];
    intros m2 r2 H2 S2.
  - exists m2. auto.
  - inversion H2; subst.
    + exfalso. eapply (proj1 (stuck_not f r2 S2)); eauto.
    + rewrite Hf in H0. injection H0 as <- <-. destruct (IH _ _ H3 S2) as (m3 & -> & P). exists m3. auto.
    + congruence.
  - inversion H2; subst.
    + exfalso. eapply (proj2 (stuck_not f r2 S2)); eauto.
    + congruence.
    + rewrite Hf in H0. injection H0 as <-. apply (IH _ _ H3 S2).
Qed.

(** ** One session *)

Definition content (s : session) : list Z :=
  match s_buf s with Some b => b | None => match s_over s with Some o => o | None => [] end end.

Definition bounds (s : session) : Prop :=
  (forall b, s_buf s = Some b -> zlen b <= s_size s <= s_alloc s) /\
  (forall o, s_over s = Some o -> zlen o <= s_over_alloc s).

Definition sess_inv (f : list Z -> framing) (s : session) (R : list Z) (D : list (list Z)) : Prop :=
  s_complete s = false /\ parse f R D (content s) /\ bounds s /\
  match s_buf s with
  | Some b => b <> [] /\ s_over s = None /\
      (if s_zero_bytes s then s_target s = 0 /\ f b = FToEnd
       else (s_target s = 0 /\ f b = FIncomplete) \/
            (exists e, 0 < s_target s /\ f b = FSize (s_target s) e /\ zlen b < s_target s))
  | None => s_zero_bytes s = false /\ (forall o, s_over s = Some o -> o <> [])
  end.

Lemma append_ok : forall p now s b bytes, s_buf s = Some b -> zlen b <= s_size s <= s_alloc s ->
  exists t, append p now s b bytes = Some t /\ s_buf t = Some (b ++ bytes) /\
    zlen (b ++ bytes) <= s_size t <= s_alloc t /\
    s_addr t = s_addr s /\ s_over t = s_over s /\ s_over_alloc t = s_over_alloc s /\ s_target t = s_target s /\
    s_zero_bytes t = s_zero_bytes s /\ s_complete t = s_complete s /\ s_eof_ok t = s_eof_ok s.
Proof.
  intros p now s b bytes Hb HB. unfold append. rewrite zlen_app. pose proof (zlen_nonneg _ bytes).
  destruct (0 <? zlen bytes) eqn:E.
  - set (ex := if s_target s <? _ then 0 else _).
    destruct (s_size s <? zlen bytes + zlen b) eqn:E2.
    + destruct (s_size s + Z.max (zlen bytes) ex <? zlen b + zlen bytes) eqn:E3; [ lia | ].
      eexists. split; [ reflexivity | ]. cbn. repeat split; try reflexivity; lia.
    + destruct (s_alloc s <? zlen b + zlen bytes) eqn:E3; [ lia | ].
      eexists. split; [ reflexivity | ]. cbn. repeat split; try reflexivity; lia.
  - exists s. split; [ reflexivity | ]. assert (bytes = []) as -> by (apply zlen_0; lia).
    rewrite app_nil_r, zlen_nil. repeat split; auto; lia.
Qed.

(** The situation after [prepare]. *)
Definition ready (f : list Z -> framing) (s : session) (b : list Z) (R : list Z) (D : list (list Z)) : Prop :=
  s_buf s = Some b /\ s_complete s = false /\ parse f R D b /\ zlen b <= s_size s <= s_alloc s /\
  s_over s = None /\
  (if s_zero_bytes s then s_target s = 0 /\ b <> [] /\ f b = FToEnd
   else s_target s = 0 \/
        (exists e, 0 < s_target s /\ b <> [] /\ f b = FSize (s_target s) e /\ zlen b < s_target s)).

Lemma prepare_ready : forall p f s R D bytes, sess_inv f s R D ->
  (s_over s = None /\ 0 <= p_step p) \/ s_buf s = None /\ s_over s <> None ->
  exists b, ready f (prepare p s bytes) b R D /\ s_addr (prepare p s bytes) = s_addr s /\
    (s_over s <> None -> b <> []).
Proof.
  intros p f s R D bytes (Hc & HP & (HB1 & HB2) & HS) H. unfold prepare, content in *.
  destruct (s_buf s) as [ b | ] eqn:Eb.
  - destruct HS as (Hb & Ho & HT). exists b. split; [ | split; [ reflexivity | congruence ] ].
    unfold ready. rewrite Eb, Hc, Ho. split; auto. split; auto. split; auto. split; auto. split; auto.
    destruct (s_zero_bytes s).
    + intuition.
    + destruct HT as [ [T _] | (e & T1 & T2 & T3) ]; [ auto | right; exists e; auto ].
  - destruct HS as (Hz & Ho). destruct (s_over s) as [ o | ] eqn:Eo.
    + exists o. unfold ready. cbn. rewrite Hz. repeat split; auto; try lia. all: try exact (HB2 o eq_refl).
    + exists []. unfold ready. cbn. rewrite Hz. pose proof (zlen_nonneg _ bytes).
      repeat split; auto; try lia; try congruence.
      destruct H as [ [_ H] | [_ H] ]; [ lia | congruence ].
Qed.

(** The messages of some events, all of one sender. *)
Definition only_msgs (a : Z) (e : list event) (ms : list (list Z)) : Prop := e = map (Msg a) ms.

Lemma ask_none : forall p s b, p_framer p = None -> ask_target p s b = Ok (inl (set_target s (p_initial p))).
Proof. intros p s b H. unfold ask_target. rewrite H. reflexivity. Qed.

Definition kept (code : Z) : Prop := code = READ_OK \/ code = READ_INCOMPLETE.

Section Process.
  Variable p : params.
  Let f := framer_of p.
  Hypothesis Hst : stable f.
  Hypothesis Hok : framer_ok f.
  Hypothesis Hin : p_framer p = None -> 0 < p_initial p.

  (** Cutting and completing once the target is known. *)
  Lemma target_known : forall w s full R D e,
    s_buf s = Some full -> s_complete s = false -> parse f R D full ->
    zlen full <= s_size s <= s_alloc s -> s_over s = None -> s_zero_bytes s = false ->
    0 < s_target s -> full <> [] -> f full = FSize (s_target s) e -> w_code w <> READ_INCOMPLETE ->
    exists t code ms, match cut s full with Ok s => Ok (complete w false s) | Bug => Bug | Ub => Ub end
        = Ok (t, code, map (Msg (s_addr s)) ms) /\ s_addr t = s_addr s /\
      (kept code -> sess_inv f t R (D ++ ms)) /\
      (code = READ_INCOMPLETE -> s_over t = None) /\
      (code = READ_EOF -> w_code w = READ_EOF) /\
      (code = READ_OK -> zlen (content t) < zlen full) /\
      (kept code \/ code = w_code w) /\
      exists r, parse f R (D ++ ms) r.
  Proof.
    intros w s full R D e Hb Hc HP HB Ho Hz Ht Hne Hf Hw. unfold cut. rewrite Hz, Ho. cbn [negb].
    rewrite andb_true_r. destruct (s_target s <? zlen full) eqn:E.
    - unfold complete. cbn [s_buf s_target s_addr s_time s_alloc s_size s_over s_over_alloc s_zero_bytes s_eof_ok s_complete].
      destruct (zlen_firstn_skipn (s_target s) full ltac:(lia)) as (L1 & L2). rewrite L1, Z.eqb_refl.
      replace (0 <? s_target s) with true by lia. cbn [andb].
      pose proof (parse_snoc f R D full (s_target s) e HP Hf ltac:(lia)) as PS.
      destruct (w_code w =? 0) eqn:Ew; cbn [negb].
      + eexists _, READ_OK, [firstn (Z.to_nat (s_target s)) full]. split; [ reflexivity | ]. cbn [s_addr].
        split; [ reflexivity | ].
        split; [ | split; [ discriminate | split; [ discriminate | split; [ intros _; unfold content; cbn [s_buf s_over]; lia | split; [ left; left; reflexivity | eauto ] ] ] ] ].
        intros _. unfold sess_inv, content, bounds. cbn. repeat split; auto; try congruence.
        * intros o Eo. injection Eo as <-. lia.
        * intros o Eo. injection Eo as <-. apply zlen_pos_ne. lia.
      + eexists _, (w_code w), [firstn (Z.to_nat (s_target s)) full]. split; [ reflexivity | ]. cbn [s_addr].
        split; [ reflexivity | ]. unfold kept, READ_OK. split; [ intros [K | K]; [ lia | congruence ] | ].
        split; [ congruence | ]. split; [ auto | split; [ unfold READ_OK; lia | split; [ auto | eauto ] ] ].
    - unfold complete. rewrite Hb. destruct (zlen full =? s_target s) eqn:E2.
      + replace (0 <? s_target s) with true by lia. cbn [andb].
        assert (Hfull : firstn (Z.to_nat (s_target s)) full = full).
        { apply firstn_all2. unfold zlen in *. lia. }
        assert (Hrest : skipn (Z.to_nat (s_target s)) full = []).
        { apply skipn_all2. unfold zlen in *. lia. }
        pose proof (parse_snoc f R D full (s_target s) e HP Hf ltac:(lia)) as PS. rewrite Hfull, Hrest in PS.
        destruct (w_code w =? 0) eqn:Ew; cbn [negb].
        * eexists _, READ_OK, [full]. split; [ reflexivity | ]. cbn [s_addr].
          split; [ reflexivity | ].
          split; [ | split; [ discriminate | split; [ discriminate | split; [ intros _; unfold content; cbn [s_buf s_over]; rewrite Ho, zlen_nil; lia | split; [ left; left; reflexivity | eauto ] ] ] ] ].
          intros _. unfold sess_inv, content, bounds. cbn. rewrite Ho. repeat split; auto; try congruence.
        * eexists _, (w_code w), [full]. split; [ reflexivity | ]. cbn [s_addr].
          split; [ reflexivity | ]. unfold kept, READ_OK. split; [ intros [K | K]; [ lia | congruence ] | ].
          split; [ congruence | ]. split; [ auto | split; [ unfold READ_OK; lia | split; [ auto | eauto ] ] ].
      + cbn [andb]. exists s, READ_INCOMPLETE, []. split; [ reflexivity | ]. split; [ reflexivity | ].
        rewrite app_nil_r. split; [ | split; [ auto | split; [ discriminate | split; [ discriminate | split; [ left; right; reflexivity | eauto ] ] ] ] ].
        intros _. unfold sess_inv, content, bounds. rewrite Hb, Ho, Hz.
        split; [ exact Hc | ]. split; [ exact HP | ]. split; [ split; [ intros ? [= <-]; lia | discriminate ] | ].
        split; [ exact Hne | ]. split; [ reflexivity | ]. right. exists e. repeat split; auto. lia.
  Qed.

  Lemma process_ok : forall w s R D bytes, sess_inv f s R D -> w_code w <> READ_INCOMPLETE ->
    (s_over s = None /\ 0 <= p_step p /\ bytes <> []) \/ (s_buf s = None /\ s_over s <> None) ->
    (process p w false s bytes = Bug /\ exists r e, parse f (R ++ bytes) D r /\ r <> [] /\ f r = FSize 0 e) \/
    exists t code ms, process p w false s bytes = Ok (t, code, map (Msg (s_addr s)) ms) /\
      s_addr t = s_addr s /\
      (kept code -> sess_inv f t (R ++ bytes) (D ++ ms)) /\
      (code = READ_INCOMPLETE -> (forall k, f (content s ++ bytes) <> FSkip k) -> s_over t = None) /\
      (code = READ_EOF -> w_code w = READ_EOF \/ exists r, f r = FError READ_EOF) /\
      (code = READ_OK -> zlen (content t) < zlen (content s ++ bytes)) /\
      (kept code \/ code = w_code w \/ f (content s ++ bytes) = FError code \/
       (0 < p_max p < zlen (content s ++ bytes) /\ code = READ_SOFT)) /\
      exists r, parse f (R ++ bytes) (D ++ ms) r.
  Proof.
    intros w s R D bytes HI Hw HC.
    destruct (prepare_ready p f s R D bytes HI) as (b & (Hb & Hc & HP & HB & Ho & HT) & Ha & Hne);
      [ intuition | ].
    assert (Hcont : content s = b).
    { destruct HI as (_ & HP' & _ & HS). revert Hb. unfold prepare, content.
      destruct (s_buf s) eqn:Eb; [ congruence | ]. destruct (s_over s) eqn:Eo; cbn; congruence. }
    rewrite Hcont. clear Hcont.
    unfold process. rewrite Hc, Hb. destruct (append_ok p (w_time w) _ b bytes Hb HB)
      as (t & -> & Tb & TB & Ta & To & _ & Tt & Tz & Tc & _).
    rewrite <- Ha, <- Ta in *. rewrite Ho in To. rewrite <- Tt, <- Tz in HT. rewrite Hc in Tc.
    clear Hb Hc HB Ho Ha Ta Tt Tz. revert Tb TB To Tc HT. generalize t. clear t HI.
    intros t Tb TB To Tc HT.
    assert (Hfull : b ++ bytes <> []).
    { destruct HC as [ (_ & _ & N) | (_ & N) ]; [ destruct b; [ exact N | discriminate ] | specialize (Hne N); destruct b; [ congruence | discriminate ] ]. }
    assert (HP' : parse f (R ++ bytes) D (b ++ bytes)) by (apply parse_extend; auto).
    destruct ((0 <? p_max p) && (p_max p <? zlen (b ++ bytes))) eqn:Emax.
    { right. exists t, READ_SOFT, []. split; [ reflexivity | ]. split; [ reflexivity | ]. rewrite app_nil_r.
      split; [ intros [K | K]; discriminate | ]. split; [ discriminate | split; [ discriminate | split; [ discriminate | split; [ right; right; right; split; [ lia | reflexivity ] | eauto ] ] ] ]. }
    clear HC Hne.
    set (full := b ++ bytes) in *.
    (* known target *)
    assert (Known : forall e, s_zero_bytes t = false -> 0 < s_target t -> f full = FSize (s_target t) e ->
      exists t0 code ms, match cut t full with Ok s0 => Ok (complete w false s0) | Bug => Bug | Ub => Ub end
        = Ok (t0, code, map (Msg (s_addr t)) ms) /\ s_addr t0 = s_addr t /\
      (kept code -> sess_inv f t0 (R ++ bytes) (D ++ ms)) /\
      (code = READ_INCOMPLETE -> (forall k, f full <> FSkip k) -> s_over t0 = None) /\
      (code = READ_EOF -> w_code w = READ_EOF \/ exists r, f r = FError READ_EOF) /\
      (code = READ_OK -> zlen (content t0) < zlen full) /\
      (kept code \/ code = w_code w \/ f full = FError code \/ (0 < p_max p < zlen full /\ code = READ_SOFT)) /\
      exists r, parse f (R ++ bytes) (D ++ ms) r).
    { intros e Kz Kt Kf. destruct (target_known w t full (R ++ bytes) D e Tb Tc HP' TB To Kz Kt Hfull Kf Hw)
        as (t0 & code & ms & K1 & K2 & K3 & K4 & K5 & K6 & K7 & K8). exists t0, code, ms. intuition. }
    destruct (p_framer p) as [ g | ] eqn:Eg.
    - assert (Hg : f = g) by (subst f; unfold framer_of; rewrite Eg; reflexivity).
      unfold ask_target. rewrite Eg. rewrite <- Hg.
      destruct (s_zero_bytes t) eqn:Ez.
      + destruct HT as (T0 & Nb & Hf). rewrite andb_false_r. unfold cut. rewrite Ez, andb_false_r.
        unfold complete. rewrite Tb, T0, andb_false_r.
        right. exists t, READ_INCOMPLETE, []. split; [ reflexivity | ]. split; [ reflexivity | ]. rewrite app_nil_r.
        split; [ | split; [ auto | split; [ discriminate | split; [ discriminate | split; [ left; right; reflexivity | eauto ] ] ] ] ]. intros _. unfold sess_inv, content, bounds. rewrite Tb, To, Ez.
        split; [ exact Tc | ]. split; [ exact HP' | ]. split; [ split; [ intros ? [= <-]; lia | discriminate ] | ].
        split; [ exact Hfull | ]. split; [ reflexivity | ]. split; [ exact T0 | ]. apply stable_to_end; auto.
      + destruct (s_target t =? 0) eqn:Et; cbn [andb negb].
        * clear HT. pose proof (Hok full Hfull) as Ok1. destruct (f full) as [ n e | | k | | c ] eqn:Ef.
          -- destruct (n =? 0) eqn:En.
             { left. split; [ reflexivity | ]. exists full, e. split; [ exact HP' | ]. split; [ exact Hfull | ]. rewrite Ef. f_equal. lia. }
             right.
             assert (exists t1, set_eof_ok (set_target t n) (e || s_eof_ok t) = t1) as [t1 E1] by eauto. rewrite E1.
             assert (K : s_buf t1 = Some full /\ zlen full <= s_size t1 <= s_alloc t1 /\ s_over t1 = None /\ s_complete t1 = false
                         /\ s_zero_bytes t1 = false /\ s_target t1 = n /\ s_addr t1 = s_addr t) by (subst t1; cbn; auto 10).
             destruct K as (K1 & K2 & K3 & K4 & K5 & K6 & K7).
             destruct (target_known w t1 full (R ++ bytes) D e K1 K4 HP' K2 K3 K5 ltac:(lia) Hfull ltac:(congruence) Hw)
               as (t0 & code & ms & J1 & J2 & J3 & J4 & J5 & J6 & J7 & J8). rewrite K7 in *. exists t0, code, ms. intuition.
          -- right. exists t, READ_INCOMPLETE, []. split; [ reflexivity | ]. split; [ reflexivity | ]. rewrite app_nil_r.
             split; [ | split; [ auto | split; [ discriminate | split; [ discriminate | split; [ left; right; reflexivity | eauto ] ] ] ] ]. intros _. unfold sess_inv, content, bounds. rewrite Tb, To, Ez.
             split; [ exact Tc | ]. split; [ exact HP' | ]. split; [ split; [ intros ? [= <-]; lia | discriminate ] | ].
             split; [ exact Hfull | ]. split; [ reflexivity | ]. left. split; [ lia | exact Ef ].
          -- destruct ((k <=? 0) || (zlen full <? k)) eqn:Ek; [ lia | ].
             destruct (zlen_firstn_skipn k full ltac:(lia)) as (_ & L2).
             destruct ((0 <? zlen (skipn (Z.to_nat k) full)) && (s_size t <? zlen (skipn (Z.to_nat k) full))) eqn:E2; [ lia | ].
             pose proof (parse_snoc_skip f _ _ _ k HP' Ef ltac:(lia)) as PS.
             destruct (0 <? zlen (skipn (Z.to_nat k) full)) eqn:E3.
             ++ right. eexists _, READ_INCOMPLETE, []. split; [ reflexivity | ]. split; [ reflexivity | ]. rewrite app_nil_r.
                split; [ | split; [ intros _ N; destruct (N k eq_refl) | split; [ discriminate | split; [ discriminate | split; [ left; right; reflexivity | eauto ] ] ] ] ].
                intros _. unfold sess_inv, content, bounds. cbn. try rewrite Ez. repeat split; auto; try congruence.
                ** intros o [= <-]. lia.
                ** intros o [= <-]. apply zlen_pos_ne. lia.
             ++ right. eexists _, READ_INCOMPLETE, []. split; [ reflexivity | ]. split; [ reflexivity | ]. rewrite app_nil_r.
                split; [ | split; [ intros _ N; destruct (N k eq_refl) | split; [ discriminate | split; [ discriminate | split; [ left; right; reflexivity | eauto ] ] ] ] ].
                intros _. unfold sess_inv, content, bounds. cbn. try rewrite Ez; rewrite To.
                assert (skipn (Z.to_nat k) full = []) as RE by (apply zlen_0; pose proof (zlen_nonneg _ (skipn (Z.to_nat k) full)); lia).
                rewrite RE in PS. repeat split; auto; try congruence.
          -- assert (exists t1, set_zero_bytes t = t1) as [t1 E1] by eauto. rewrite E1.
             assert (K : s_buf t1 = Some full /\ zlen full <= s_size t1 <= s_alloc t1 /\ s_over t1 = None /\ s_complete t1 = false
                         /\ s_zero_bytes t1 = true /\ s_target t1 = s_target t /\ s_addr t1 = s_addr t) by (subst t1; cbn; auto 10).
             destruct K as (K1 & K2 & K3 & K4 & K5 & K6 & K7).
             unfold cut. rewrite K5, andb_false_r. unfold complete. rewrite K1, K6.
             replace (0 <? s_target t) with false by lia. rewrite andb_false_r.
             right. exists t1, READ_INCOMPLETE, []. split; [ reflexivity | ]. split; [ exact K7 | ]. rewrite app_nil_r.
             split; [ | split; [ auto | split; [ discriminate | split; [ discriminate | split; [ left; right; reflexivity | eauto ] ] ] ] ]. intros _. unfold sess_inv, content, bounds. rewrite K1, K3, K5, K6.
             split; [ exact K4 | ]. split; [ exact HP' | ]. split; [ split; [ intros ? [= <-]; lia | discriminate ] | ].
             split; [ exact Hfull | ]. split; [ reflexivity | ]. split; [ lia | exact Ef ].
          -- destruct ((c =? READ_OK) || (c =? READ_INCOMPLETE)) eqn:Ec; [ unfold READ_OK, READ_INCOMPLETE in *; lia | ].
             right. exists t, c, []. split; [ reflexivity | ]. split; [ reflexivity | ]. rewrite app_nil_r.
             unfold READ_OK, READ_INCOMPLETE in *. split; [ intros [K | K]; unfold READ_OK, READ_INCOMPLETE in *; lia | ]. split; [ lia | split; [ intros ->; right; eauto | split; [ lia | split; [ auto | eauto ] ] ] ].
        * destruct HT as [ T | (e & T1 & Nb & T2 & T3) ]; [ lia | ].
          destruct (stable_size f Hst b bytes _ e Nb T2) as (e' & Hf'). right. apply (Known e'); auto.
    - rewrite ask_none by exact Eg.
      assert (Hf : forall x, f x = FSize (p_initial p) false) by (intro x; subst f; unfold framer_of; rewrite Eg; reflexivity).
      pose proof (Hin eq_refl) as Ok1. right.
      destruct (s_zero_bytes t) eqn:Ez.
      { destruct HT as (_ & _ & HT). rewrite Hf in HT. discriminate. }
      assert (exists t1, set_target t (p_initial p) = t1) as [t1 E1] by eauto. rewrite E1.
      assert (K : s_buf t1 = Some full /\ zlen full <= s_size t1 <= s_alloc t1 /\ s_over t1 = None /\ s_complete t1 = false
                  /\ s_zero_bytes t1 = false /\ s_target t1 = p_initial p /\ s_addr t1 = s_addr t) by (subst t1; cbn; auto 10).
      destruct K as (K1 & K2 & K3 & K4 & K5 & K6 & K7).
      destruct (target_known w t1 full (R ++ bytes) D false K1 K4 HP' K2 K3 K5 ltac:(lia) Hfull ltac:(rewrite K6; apply Hf) Hw)
        as (t0 & code & ms & J1 & J2 & J3 & J4 & J5 & J6 & J7 & J8). rewrite K7 in *. exists t0, code, ms. intuition.
  Qed.

  (** At the end of the connection. *)
  Lemma process_eof : forall w s R D, sess_inv f s R D -> s_zero_bytes s = true ->
    exists b, s_buf s = Some b /\ exists t code ms,
      process p w true (set_eof_ok (set_target s (zlen b)) false) [] = Ok (t, code, map (Msg (s_addr s)) ms) /\
      s_addr t = s_addr s /\ code <> READ_OK /\ (w_code w <> READ_INCOMPLETE -> code <> READ_INCOMPLETE) /\
      (code = READ_EOF -> ms = [b]) /\ (ms = [] \/ ms = [b]) /\ f b = FToEnd.
  Proof.
    intros w s R D (Hc & HP & (HB & _) & HS) Hz. destruct (s_buf s) as [ b | ] eqn:Eb.
    2: { destruct HS; congruence. }
    rewrite Hz in HS. destruct HS as (Nb & Ho & Ht & Hf). pose proof (ne_zlen_pos b Nb) as Lb.
    exists b. split; [ reflexivity | ].
    assert (exists t1, set_eof_ok (set_target s (zlen b)) false = t1) as [t1 E1] by eauto. rewrite E1.
    assert (K : s_buf t1 = Some b /\ s_complete t1 = false /\ s_zero_bytes t1 = true /\ s_target t1 = zlen b /\ s_addr t1 = s_addr s)
      by (subst t1; cbn; rewrite Eb; auto 10).
    destruct K as (K1 & K2 & K3 & K4 & K5). unfold process, prepare. rewrite K1, K2, K1.
    unfold append. rewrite zlen_nil. change (0 <? 0) with false. cbv iota. rewrite app_nil_r.
    destruct ((0 <? p_max p) && (p_max p <? zlen b)).
    { exists t1, READ_SOFT, []. repeat split; auto; try discriminate. }
    unfold ask_target. destruct (p_framer p) as [ g | ] eqn:Eg.
    - rewrite K4. replace (zlen b =? 0) with false by lia. cbn [andb]. unfold cut. rewrite K3, andb_false_r.
      unfold complete. rewrite K1, K4, Z.eqb_refl. replace (0 <? zlen b) with true by lia. cbn [andb].
      destruct (w_code w =? 0) eqn:Ew; cbn [negb].
      + eexists _, READ_EOF, [b]. rewrite K5. cbn [s_addr]. repeat split; auto; discriminate.
      + eexists _, (w_code w), [b]. rewrite K5. cbn [s_addr]. unfold READ_OK. repeat split; auto. lia.
    - exfalso. subst f. unfold framer_of in Hf. rewrite Eg in Hf. discriminate.
  Qed.
End Process.

(** ** All sessions *)

Lemma received_app : forall a e1 e2 acc, received a acc (e1 ++ e2) = received a (received a acc e1) e2.
Proof. intros a e1. induction e1 as [ | [ b d | b m | b c ] e1 IH ]; intros; cbn; auto. Qed.
Lemma delivered_app : forall a e1 e2 acc, delivered a acc (e1 ++ e2) = delivered a (delivered a acc e1) e2.
Proof. intros a e1. induction e1 as [ | [ b d | b m | b c ] e1 IH ]; intros; cbn; auto. Qed.
Lemma received_msgs : forall a b ms acc, received a acc (map (Msg b) ms) = acc.
Proof. intros a b ms. induction ms; intros; cbn; auto. Qed.
Lemma delivered_msgs : forall a b ms acc, delivered a acc (map (Msg b) ms) = if b =? a then acc ++ ms else acc.
Proof.
  intros a b ms. induction ms as [ | m ms IH ]; intros acc; cbn.
  - destruct (b =? a); rewrite ?app_nil_r; reflexivity.
  - rewrite IH. destruct (b =? a); [ rewrite <- app_assoc | ]; reflexivity.
Qed.

Lemma in_put : forall s t ss, In t (put s ss) -> (t = s /\ In (s_addr s) (map s_addr ss)) \/ (In t ss /\ s_addr t <> s_addr s).
Proof.
  intros s t ss H. unfold put in H. apply in_map_iff in H as (u & H & I).
  destruct (s_addr u =? s_addr s) eqn:E.
  - left. split; [ auto | ]. apply in_map_iff. exists u. split; [ lia | auto ].
  - right. subst u. split; [ auto | lia ].
Qed.
Lemma put_addrs : forall s ss, map s_addr (put s ss) = map s_addr ss.
Proof.
  intros s ss. unfold put. rewrite map_map. apply map_ext. intro t. destruct (s_addr t =? s_addr s) eqn:E; [ lia | auto ].
Qed.
Lemma in_remove : forall s t ss, In t (remove s ss) <-> In t ss /\ s_addr t <> s_addr s.
Proof. intros s t ss. unfold remove. rewrite filter_In. split; intros [H1 H2]; split; auto; lia. Qed.
Lemma nodup_filter : forall g ss, NoDup (map s_addr ss) -> NoDup (map s_addr (filter g ss)).
Proof.
  intros g ss. induction ss as [ | s ss IH ]; cbn; intro H; [ auto | ].
  inversion H; subst. destruct (g s); [ | auto ]. cbn. constructor; [ | auto ].
  intro I. apply H2. apply in_map_iff in I as (t & E & I). apply filter_In in I. apply in_map_iff. exists t. tauto.
Qed.
Lemma nodup_inj : forall (ss : list session) s t, NoDup (map s_addr ss) -> In s ss -> In t ss -> s_addr s = s_addr t -> s = t.
Proof.
  induction ss as [ | u ss IH ]; cbn; intros s t H I J E; [ tauto | ]. inversion H; subst.
  destruct I as [ -> | I ], J as [ -> | J ]; auto.
  - exfalso. apply H2. rewrite E. apply in_map. auto.
  - exfalso. apply H2. rewrite <- E. apply in_map. auto.
Qed.

Definition inv (f : list Z -> framing) (ss : list session) (ev : list event) : Prop :=
  NoDup (map s_addr ss) /\
  (forall s, In s ss -> sess_inv f s (received (s_addr s) [] ev) (delivered (s_addr s) [] ev)) /\
  (forall a, ~ In a (map s_addr ss) -> received a [] ev = [] /\ delivered a [] ev = []) /\
  (forall s t, In s ss -> In t ss -> s_over s <> None -> s_over t <> None -> s_addr s = s_addr t).

Lemma inv_init : forall f, inv f [] [].
Proof. intro f. split; [ constructor | ]. split; [ intros s [] | ]. split; [ auto | intros s t [] ]. Qed.

Lemma maintain_eq : forall now ss, maintain now ss =
  (filter (fun s => negb (expired now s)) ss, map (fun s => Drop (s_addr s) None) (filter (expired now) ss)).
Proof.
  intros now ss. induction ss as [ | s ss IH ]; cbn [maintain filter]; [ reflexivity | ]. rewrite IH.
  destruct (expired now s); reflexivity.
Qed.
Lemma received_drops : forall a ds acc,
  received a acc (map (fun s => Drop (s_addr s) None) ds) = if existsb (fun s => s_addr s =? a) ds then [] else acc.
Proof.
  intros a ds. induction ds as [ | d ds IH ]; intro acc; cbn [map received existsb]; [ reflexivity | ].
  rewrite IH. destruct (s_addr d =? a); cbn [orb]; [ | reflexivity ]. destruct (existsb _ ds); reflexivity.
Qed.
Lemma delivered_drops : forall a ds acc,
  delivered a acc (map (fun s => Drop (s_addr s) None) ds) = if existsb (fun s => s_addr s =? a) ds then [] else acc.
Proof.
  intros a ds. induction ds as [ | d ds IH ]; intro acc; cbn [map delivered existsb]; [ reflexivity | ].
  rewrite IH. destruct (s_addr d =? a); cbn [orb]; [ | reflexivity ]. destruct (existsb _ ds); reflexivity.
Qed.

Lemma maintain_inv : forall f now ss ev, inv f ss ev ->
  inv f (fst (maintain now ss)) (ev ++ snd (maintain now ss)).
Proof.
  intros f now ss ev (N & HS & HO & HW). rewrite maintain_eq. cbn [fst snd].
  assert (Old : forall s, In s (filter (fun s => negb (expired now s)) ss) ->
    existsb (fun t => s_addr t =? s_addr s) (filter (expired now) ss) = false).
  { intros s I. apply filter_In in I as [I J]. destruct (existsb _ _) eqn:E; [ | reflexivity ].
    apply existsb_exists in E as (t & It & Et). apply filter_In in It as [It Jt].
    assert (s = t) by (apply (nodup_inj ss); auto; lia). subst t. rewrite Jt in J. discriminate. }
  split; [ apply nodup_filter; exact N | ]. split; [ | split ].
  - intros s I. rewrite received_app, delivered_app, received_drops, delivered_drops, (Old s I).
    apply filter_In in I as [I _]. auto.
  - intros a I. rewrite received_app, delivered_app, received_drops, delivered_drops.
    destruct (existsb _ _) eqn:E; [ auto | ]. apply HO. intro J. apply I.
    apply in_map_iff in J as (s & Es & J). apply in_map_iff. exists s. split; auto. apply filter_In. split; auto.
    destruct (expired now s) eqn:X; [ | reflexivity ]. exfalso.
    assert (existsb (fun s0 => s_addr s0 =? a) (filter (expired now) ss) = true); [ | congruence ].
    apply existsb_exists. exists s. split; [ apply filter_In; auto | lia ].
  - intros s t I J. apply filter_In in I as [I _]. apply filter_In in J as [J _]. auto.
Qed.

Lemma with_addr_spec : forall a ss, NoDup (map s_addr ss) ->
  (with_addr a ss = [] /\ ~ In a (map s_addr ss)) \/ (exists s, with_addr a ss = [s] /\ In s ss /\ s_addr s = a).
Proof.
  intros a ss N. unfold with_addr. induction ss as [ | s ss IH ]; [ left; auto | ]. cbn [filter map] in *. inversion N; subst.
  destruct (s_addr s =? a) eqn:E.
  - right. exists s. split; [ | split; [ left; auto | lia ] ]. f_equal. destruct (IH H2) as [ [ -> _ ] | (t & E2 & I & J) ]; [ reflexivity | ].
    exfalso. apply H1. apply in_map_iff. exists t. split; [ lia | auto ].
  - destruct (IH H2) as [ [ -> K ] | (t & -> & I & J) ].
    + left. split; auto. intros [L | L]; [ lia | auto ].
    + right. exists t. split; auto. split; [ right; auto | auto ].
Qed.

Lemma session_new_inv : forall p f a now, sess_inv f (session_new p a now) [] [].
Proof.
  intros p f a now. unfold sess_inv, content, bounds. cbn. repeat split; try congruence. apply parse_stop.
Qed.

Lemma find_ok : forall p f a now ss ev, inv f ss ev ->
  exists s k e, find_or_create p a now ss = Ok (s, k, e) /\ In s k /\ s_addr s = a /\ e = snd (maintain now ss) /\ inv f k (ev ++ e) /\
    ((forall t, In t ss -> s_over t = None) -> forall t, In t k -> s_over t = None).
Proof.
  intros p f a now ss ev H. unfold find_or_create.
  pose proof (maintain_inv f now ss ev H) as M.
  assert (Sub : forall t, In t (fst (maintain now ss)) -> In t ss).
  { intros t I. rewrite maintain_eq in I. apply filter_In in I. tauto. }
  destruct (maintain now ss) as [k e]. cbn [fst snd] in *.
  pose proof M as (N & HS & HO & HW). destruct (with_addr_spec a k N) as [ [ -> NI ] | (s & -> & I & Ha) ].
  - exists (session_new p a now), (session_new p a now :: k), e. split; [ reflexivity | ]. split; [ left; auto | ].
    split; [ reflexivity | ]. split; [ reflexivity | ]. split.
    + split; [ cbn; constructor; auto | ]. split; [ | split ].
      * intros s [ <- | I ]; [ | auto ]. cbn [session_new s_addr]. destruct (HO a NI) as [ -> -> ]. apply session_new_inv.
      * intros b NB. apply HO. intro J. apply NB. right. auto.
      * intros s t [ <- | I ] [ <- | J ]; cbn; auto; congruence.
    + intros C t [ <- | I ]; [ reflexivity | auto ].
  - exists s, k, e. split; [ reflexivity | ]. auto 8.
Qed.

(** The other sessions are not concerned. *)
Lemma finish_inv : forall f ss ev a t code ms, NoDup (map s_addr ss) -> In a (map s_addr ss) ->
  (forall s, In s ss -> s_addr s <> a -> sess_inv f s (received (s_addr s) [] ev) (delivered (s_addr s) [] ev) /\ s_over s = None) ->
  (forall b, ~ In b (map s_addr ss) -> received b [] ev = [] /\ delivered b [] ev = []) ->
  s_addr t = a ->
  (kept code -> sess_inv f t (received a [] ev) (delivered a [] ev ++ ms)) ->
  forall ss' code' e, leave ss (t, code, map (Msg a) ms) = (ss', code', e) -> inv f ss' (ev ++ e) /\ code' = code.
Proof.
  intros f ss ev a t code ms N I HS HO Ha HK ss' code' e H. unfold leave in H.
  assert (Other : forall b, b <> a -> received b [] (ev ++ map (Msg a) ms) = received b [] ev /\
                                 delivered b [] (ev ++ map (Msg a) ms) = delivered b [] ev).
  { intros b Nb. rewrite received_app, delivered_app, received_msgs, delivered_msgs.
    replace (a =? b) with false by lia. auto. }
  destruct ((code =? READ_OK) || (code =? READ_INCOMPLETE)) eqn:E.
  - injection H as <- <- <-. split; [ | reflexivity ].
    assert (K : kept code) by (unfold kept; lia). specialize (HK K).
    split; [ rewrite put_addrs; auto | ]. split; [ | split ].
    + intros s J. apply in_put in J as [ [ -> _ ] | [ J J2 ] ].
      * rewrite Ha, received_app, delivered_app, received_msgs, delivered_msgs, Z.eqb_refl. exact HK.
      * rewrite Ha in J2. destruct (Other _ J2) as [ -> -> ]. apply HS; auto.
    + intros b NB. rewrite put_addrs in NB. destruct (Other b) as [ -> -> ]; [ intros ->; auto | auto ].
    + intros s u J1 J2 O1 O2. apply in_put in J1 as [ [ -> _ ] | [ J1 A1 ] ]; apply in_put in J2 as [ [ -> _ ] | [ J2 A2 ] ]; auto.
      * rewrite Ha in A2. destruct (HS u J2 A2). congruence.
      * rewrite Ha in A1. destruct (HS s J1 A1). congruence.
      * rewrite Ha in A1. destruct (HS s J1 A1). congruence.
  - injection H as <- <- <-. split; [ | reflexivity ]. rewrite app_assoc.
    split; [ apply nodup_filter; auto | ]. split; [ | split ].
    + intros s J. apply in_remove in J as [J J2]. rewrite Ha in J2. rewrite received_app, delivered_app. cbn [received delivered].
      rewrite Ha. replace (a =? s_addr s) with false by lia. destruct (Other _ J2) as [ -> -> ]. apply HS; auto.
    + intros b NB. rewrite received_app, delivered_app. cbn [received delivered]. rewrite Ha.
      destruct (a =? b) eqn:Eb; [ auto | ]. destruct (Other b) as [ -> -> ]; [ lia | ]. apply HO. intro J. apply NB.
      apply in_map_iff in J as (s & Es & J). apply in_map_iff. exists s. split; auto. apply in_remove. split; auto. lia.
    + intros s u J1 J2 O1 O2. apply in_remove in J1 as [J1 A1]. rewrite Ha in A1. destruct (HS s J1 A1). congruence.
Qed.

Lemma with_overshoot_some : forall ss s, with_overshoot ss = Some s -> In s ss /\ s_over s <> None.
Proof.
  induction ss as [ | u ss IH ]; cbn; intros s H; [ discriminate | ]. destruct (s_over u) eqn:E.
  - injection H as <-. split; [ auto | congruence ].
  - destruct (IH s H). auto.
Qed.
Lemma with_overshoot_none : forall ss, with_overshoot ss = None <-> forall s, In s ss -> s_over s = None.
Proof.
  induction ss as [ | u ss IH ]; cbn; [ split; [ intros _ s [] | auto ] | ]. destruct (s_over u) eqn:E; split; intro H.
  - discriminate.
  - specialize (H u (or_introl eq_refl)). congruence.
  - intros s [ <- | I ]; [ auto | apply IH; auto ].
  - apply IH. auto.
Qed.

Lemma sess_inv_eof_ok : forall f s R D b, sess_inv f s R D -> sess_inv f (set_eof_ok s b) R D.
Proof. intros f s R D b H. exact H. Qed.

Lemma sess_inv_overshoot : forall f s R D, sess_inv f s R D -> s_over s <> None -> s_buf s = None.
Proof. intros f s R D (_ & _ & _ & H) O. destruct (s_buf s); [ | reflexivity ]. destruct H as (_ & H & _). congruence. Qed.

Section Calls.
  Variable p : params.
  Let f := framer_of p.
  Hypothesis Hst : stable f.
  Hypothesis Hok : framer_ok f.
  Hypothesis Hin : p_framer p = None -> 0 < p_initial p.

  (** Every call succeeds and keeps the invariant. *)
  (** A call aborts only because of a message of size zero in what was read. *)
  Lemma call_ok : forall flush ss ev w, inv f ss ev -> world_ok p w ->
    (read_call p flush ss w = Bug /\ zero_size p ss ev w) \/
    exists ss' code e, read_call p flush ss w = Ok (ss', code, e) /\ inv f ss' (ev ++ e).
  Proof.
    intros flush ss ev w H (W1 & W2 & W3 & W4). unfold read_call.
    destruct (with_overshoot ss) as [ s | ] eqn:Eo.
    - apply with_overshoot_some in Eo as [I O]. pose proof H as (N & HS & HO & HW).
      destruct (process_ok p Hst Hok Hin w s _ _ [] (HS s I) W4) as [ (-> & r & e & Z1 & Z2 & Z3) | (t & code & ms & -> & Ta & K & _) ].
      { right. split; [ eapply sess_inv_overshoot; eauto | auto ]. }
      { left. split; [ reflexivity | ]. rewrite app_nil_r in Z1. exists (s_addr s), ev, (delivered (s_addr s) [] ev), r, e. auto. }
      right. unfold finish. destruct (leave ss (t, code, map (Msg (s_addr s)) ms)) as [ [ss' code'] e ] eqn:EL.
      exists ss', code', ([] ++ e). split; [ reflexivity | ]. cbn [app].
      destruct (finish_inv f ss ev (s_addr s) t code ms N (in_map _ _ _ I)) with (ss' := ss') (code' := code') (e := e) as [J _]; auto.
      + intros u Iu Nu. split; [ auto | ]. destruct (s_over u) eqn:Eu; [ | reflexivity ].
        exfalso. apply Nu. apply HW; auto. congruence.
      + rewrite app_nil_r in K. exact K.
    - destruct flush.
      { right. exists ss, READ_INCOMPLETE, []. rewrite app_nil_r. auto. }
      destruct (p_step p <? zlen (w_data w)) eqn:E1; [ lia | ].
      destruct (negb (Z.land (w_ret w) READ_HARD =? 0)) eqn:E2.
      { right. exists ss, READ_HARD, []. rewrite app_nil_r. auto. }
      rewrite W2. change (negb (0 =? 0)) with false. cbv iota.
      destruct (negb (Z.land (w_ret w) READ_EOF =? 0) && (0 <? zlen (w_data w))) eqn:E3.
      { exfalso. apply andb_true_iff in E3 as [E3 E4]. assert (w_ret w <> 0) by (intro K; rewrite K in E3; discriminate).
        rewrite (W3 H0) in E4. discriminate. }
      rewrite with_overshoot_none in Eo.
      destruct (find_ok p f (w_addr w) (w_time w) ss ev H) as (s & k & e & -> & I & Ha & He & H1 & C). specialize (C Eo).
      clear H. pose proof H1 as (N & HS & HO & HW). pose proof (zlen_nonneg _ (w_data w)) as LD.
      (* leaving with a session as it was, without a message *)
      assert (Leave : forall code ms t, s_addr t = w_addr w ->
        (kept code -> sess_inv f t (received (w_addr w) [] (ev ++ e)) (delivered (w_addr w) [] (ev ++ e) ++ ms)) ->
        exists ss' code' e', finish k e (Ok (t, code, map (Msg (w_addr w)) ms)) = Ok (ss', code', e') /\ inv f ss' (ev ++ e')).
      { intros code ms t At K. unfold finish. destruct (leave k (t, code, map (Msg (w_addr w)) ms)) as [ [ss' code'] e' ] eqn:EL.
        exists ss', code', (e ++ e'). split; [ reflexivity | ]. rewrite app_assoc.
        eapply finish_inv; eauto. rewrite <- Ha. apply in_map. exact I. }
      destruct ((zlen (w_data w) =? 0) || negb (w_ret w =? 0)) eqn:E4.
      + right. assert (D0 : w_data w = []).
        { destruct (w_ret w =? 0) eqn:E5; [ apply zlen_0; lia | apply W3; lia ]. }
        specialize (HS s I) as HI. rewrite Ha in HI.
        destruct (s_zero_bytes s) eqn:Ez.
        * assert (s_target s = 0) as T0.
          { destruct HI as (_ & _ & _ & HI). destruct (s_buf s); [ | destruct HI; congruence ]. rewrite Ez in HI. tauto. }
          rewrite T0. change (0 <? 0) with false. cbv iota.
          destruct (process_eof p Hin w s _ _ HI Ez) as (b & -> & t & code & ms & Pr & Ta & C1 & C2 & _).
          rewrite D0, Pr, Ha. apply Leave; [ congruence | ]. intros [K | K]; [ congruence | destruct (C2 W4 K) ].
        * destruct (negb (Z.land (w_ret w) READ_EOF =? 0)) eqn:E5.
          -- apply (Leave _ [] s Ha). set (c := _ && _). destruct c; intros [K | K]; discriminate.
          -- destruct (w_ret w =? 0) eqn:E6; cbn [negb].
             ++ exists k, READ_INCOMPLETE, e. auto.
             ++ apply (Leave _ [] s Ha). rewrite app_nil_r. intros _. exact HI.
      + specialize (HS s I) as HI.
        destruct (process_ok p Hst Hok Hin w (set_eof_ok s false) _ _ (w_data w) (sess_inv_eof_ok _ _ _ _ false HI) W4)
          as [ (-> & r & e0 & Z1 & Z2 & Z3) | (t & code & ms & Pr & Ta & K & _) ].
        { left. cbn. split; [ auto | ]. split; [ lia | ]. apply zlen_pos_ne. lia. }
        { left. split; [ reflexivity | ]. rewrite Ha in Z1.
          exists (w_addr w), (ev ++ e ++ [Recv (w_addr w) (w_data w)]), (delivered (w_addr w) [] (ev ++ e)), r, e0.
          rewrite app_assoc, received_app. cbn [received]. rewrite Z.eqb_refl. split; [ exact Z1 | ]. split; [ exact Z2 | ].
          split; [ exact Z3 | ]. right. rewrite He, <- app_assoc. reflexivity. }
        right. rewrite Pr. cbn [set_eof_ok s_addr] in *. unfold finish.
        destruct (leave k (t, code, map (Msg (s_addr s)) ms)) as [ [ss' code'] e' ] eqn:EL.
        exists ss', code', ((e ++ [Recv (w_addr w) (w_data w)]) ++ e'). split; [ reflexivity | ].
        rewrite !app_assoc. rewrite <- app_assoc with (l := ev). rewrite Ha in *.
        set (ev1 := ev ++ e) in *.
        replace (ev ++ e ++ [Recv (w_addr w) (w_data w)]) with (ev1 ++ [Recv (w_addr w) (w_data w)]) by (unfold ev1; rewrite app_assoc; reflexivity).
        assert (RD : forall b, b <> w_addr w -> received b [] (ev1 ++ [Recv (w_addr w) (w_data w)]) = received b [] ev1 /\
                       delivered b [] (ev1 ++ [Recv (w_addr w) (w_data w)]) = delivered b [] ev1).
        { intros b Nb. rewrite received_app, delivered_app. cbn. replace (w_addr w =? b) with false by lia. auto. }
        destruct (finish_inv f k (ev1 ++ [Recv (w_addr w) (w_data w)]) (w_addr w) t code ms N) with (ss' := ss') (code' := code') (e := e') as [J _]; auto.
        * rewrite <- Ha. apply in_map. exact I.
        * intros u Iu Nu. destruct (RD _ Nu) as [ -> -> ]. auto.
        * intros b NB. destruct (RD b) as [ -> -> ]; [ | auto ]. intros ->. apply NB. rewrite <- Ha. apply in_map. exact I.
        * rewrite received_app, delivered_app. cbn. rewrite Z.eqb_refl. exact K.
  Qed.

  Lemma run_inv : forall ws ss ev ss' e, inv f ss ev -> Forall (world_ok p) ws ->
    run p ss ws = Ok (ss', e) -> inv f ss' (ev ++ e).
  Proof.
    induction ws as [ | w ws IH ]; intros ss ev ss' e H W; cbn [run].
    - intros [= <- <-]. rewrite app_nil_r. auto.
    - apply Forall_cons_iff in W as [W1 W2].
      destruct (call_ok false ss ev w H W1) as [ [ -> _ ] | (ss1 & code & e1 & -> & H1) ]; [ discriminate | ].
      destruct (run p ss1 ws) as [ [ss2 e2] | | ] eqn:E; try discriminate. intros [= <- <-].
      rewrite app_assoc. eapply IH; eauto.
  Qed.
  Lemma run_ok : (forall r e, r <> [] -> f r <> FSize 0 e) -> forall ws ss ev, inv f ss ev -> Forall (world_ok p) ws ->
    exists ss' e, run p ss ws = Ok (ss', e).
  Proof.
    intro NZ. induction ws as [ | w ws IH ]; intros ss ev H W; cbn [run]; [ eauto | ].
    apply Forall_cons_iff in W as [W1 W2].
    destruct (call_ok false ss ev w H W1) as [ [ _ (a & ev' & D & r & e & _ & K1 & K2 & _) ] | (ss1 & code & e1 & -> & H1) ].
    { destruct (NZ r e K1 K2). }
    destruct (IH ss1 _ H1 W2) as (ss2 & e2 & ->). eauto.
  Qed.
End Calls.

Lemma sess_inv_stuck : forall f s R D, sess_inv f s R D -> s_over s = None -> stuck f (content s).
Proof.
  intros f s R D (_ & _ & _ & H) Ho. unfold content, stuck. destruct (s_buf s) as [ b | ].
  - destruct H as (_ & _ & H). destruct (s_zero_bytes s).
    + tauto.
    + destruct H as [ [_ H] | (e & _ & H & L) ]; [ auto | right; right; right; eauto ].
  - rewrite Ho. auto.
Qed.

Lemma inv_parse : forall f ss ev a, inv f ss ev ->
  exists rest, parse f (received a [] ev) (delivered a [] ev) rest /\ (~ waiting a ss -> stuck f rest) /\
    (forall s, In s ss -> s_addr s = a -> rest = content s).
Proof.
  intros f ss ev a (N & HS & HO & _).
  destruct (with_addr_spec a ss N) as [ [_ NI] | (s & _ & I & Ha) ].
  - destruct (HO a NI) as [ -> -> ]. exists []. split; [ apply parse_stop | ]. split; [ left; reflexivity | ].
    intros s I Ha. exfalso. apply NI. rewrite <- Ha. apply in_map. exact I.
  - exists (content s). specialize (HS s I). rewrite Ha in HS. split; [ apply HS | ]. split.
    + intro W. eapply sess_inv_stuck; eauto. destruct (s_over s) eqn:E; [ | reflexivity ].
      exfalso. apply W. exists s. rewrite E. repeat split; auto; discriminate.
    + intros t It Et. f_equal. apply (nodup_inj ss); auto. congruence.
Qed.

(** ** Buffers, for any framing function *)

Lemma process_bounds : forall p w emit s bytes, bounds s -> 0 <= p_step p ->
  process p w emit s bytes <> Ub /\
  (forall t code e, process p w emit s bytes = Ok (t, code, e) -> bounds t).
Proof.
  intros p w emit s bytes (B1 & B2) Hp. unfold process.
  set (s1 := prepare p s bytes).
  assert (P : (forall b, s_buf s1 = Some b -> zlen b <= s_size s1 <= s_alloc s1) /\
              (forall o, s_over s1 = Some o -> zlen o <= s_over_alloc s1)).
  { unfold s1, prepare. destruct (s_buf s) as [ b | ] eqn:Eb; [ rewrite Eb; auto | ].
    destruct (s_over s) as [ o | ] eqn:Eo; cbn; (split; [ intros ? [= <-] | discriminate ]).
    - specialize (B2 o eq_refl). lia.
    - change (zlen (@nil Z)) with 0. pose proof (zlen_nonneg _ bytes). lia. }
  clearbody s1. destruct P as (P1 & P2). clear s B1 B2.
  destruct (s_complete s1); [ split; [ discriminate | intros; discriminate ] | ].
  destruct (s_buf s1) as [ b | ] eqn:Eb; [ | split; [ discriminate | intros; discriminate ] ].
  destruct (append_ok p (w_time w) s1 b bytes Eb (P1 b eq_refl)) as (t & -> & Tb & TB & _ & To & Toa & _).
  assert (BT : bounds t).
  { unfold bounds. rewrite Tb, To, Toa. split; [ intros ? [= <-]; lia | auto ]. }
  destruct ((0 <? p_max p) && _); [ split; [ discriminate | intros ? ? ? [= <- _ _]; exact BT ] | ].
  assert (A : ask_target p t (b ++ bytes) <> Ub /\
    (forall u c, ask_target p t (b ++ bytes) = Ok (inr (u, c)) -> bounds u) /\
    (forall u, ask_target p t (b ++ bytes) = Ok (inl u) -> bounds u /\ s_buf u = s_buf t /\ s_size u = s_size t)).
  { unfold ask_target. destruct (p_framer p) as [ f | ].
    2: { split; [ discriminate | ]. split; [ discriminate | ]. intros u [= <-]. auto. }
    destruct ((s_target t =? 0) && negb (s_zero_bytes t)).
    2: { split; [ discriminate | ]. split; [ discriminate | ]. intros u [= <-]. auto. }
    destruct (f (b ++ bytes)) as [ n e | | k | | c ].
    - destruct (n =? 0); (split; [ discriminate | ]); (split; [ discriminate | ]); try discriminate. intros u [= <-]. auto.
    - split; [ discriminate | ]. split; [ intros u c [= <- <-]; auto | discriminate ].
    - destruct ((k <=? 0) || (zlen (b ++ bytes) <? k)) eqn:Ek.
      { split; [ discriminate | ]. split; discriminate. }
      destruct (zlen_firstn_skipn k (b ++ bytes) ltac:(lia)) as (_ & L2).
      destruct ((0 <? zlen (skipn (Z.to_nat k) (b ++ bytes))) && (s_size t <? zlen (skipn (Z.to_nat k) (b ++ bytes)))) eqn:E2; [ lia | ].
      destruct (0 <? zlen (skipn (Z.to_nat k) (b ++ bytes))) eqn:E3; (split; [ discriminate | ]); (split; [ | discriminate ]).
      + intros u c [= <- <-]. split; cbn; [ discriminate | ]. intros o [= <-]. lia.
      + intros u c [= <- <-]. split; cbn; [ discriminate | ]. apply BT.
    - split; [ discriminate | ]. split; [ discriminate | ]. intros u [= <-]. auto.
    - destruct ((c =? READ_OK) || (c =? READ_INCOMPLETE)); (split; [ discriminate | ]); (split; [ | discriminate ]); try discriminate.
      intros u c' [= <- <-]. auto. }
  destruct (ask_target p t (b ++ bytes)) as [ [ u | [u c] ] | | ].
  - destruct A as (_ & _ & A). destruct (A u eq_refl) as (BU & Ub & Us). unfold cut.
    set (full := b ++ bytes) in *.
    assert (C : forall v c e, bounds v -> complete w emit v = (v, c, e) \/ True -> forall v' c' e', complete w emit v = (v', c', e') -> bounds v').
    { intros v _ _ (V1 & V2) _ v' c' e'. unfold complete. destruct (s_buf v) as [ vb | ] eqn:Vb.
      - destruct ((zlen vb =? s_target v) && (0 <? s_target v)).
        + destruct (negb (w_code w =? 0)).
          * intros [= <- _ _]. split; cbn; rewrite ?Vb; auto.
          * intros [= <- _ _]. split; cbn; [ discriminate | auto ].
        + intros [= <- _ _]. split; rewrite ?Vb; auto.
      - intros [= <- _ _]. split; rewrite ?Vb; auto. }
    destruct ((s_target u <? zlen full) && negb (s_zero_bytes u)) eqn:E.
    + destruct (s_over u) eqn:Eu; [ split; discriminate | ]. split; [ discriminate | ].
      intros t0 code e H. injection H as H. eapply (C _ 0 []); [ | auto | exact H ].
      destruct BU as (U1 & _). rewrite Ub, Tb in U1. specialize (U1 _ eq_refl). split; cbn.
      * intros ? [= <-]. unfold zlen in *. rewrite firstn_length. lia.
      * intros ? [= <-]. unfold zlen in *. rewrite skipn_length. lia.
    + split; [ discriminate | ]. intros t0 code e H. injection H as H. eapply (C _ 0 []); [ exact BU | auto | exact H ].
  - split; [ discriminate | ]. intros t0 code e [= <- _ _]. destruct A as (_ & A & _). eapply A. reflexivity.
  - split; discriminate.
  - destruct A as (A & _). congruence.
Qed.

Lemma finish_bounds : forall ss e0 r, Forall bounds ss -> r <> Ub -> (forall t c e, r = Ok (t, c, e) -> bounds t) ->
  finish ss e0 r <> Ub /\ (forall ss' c e, finish ss e0 r = Ok (ss', c, e) -> Forall bounds ss').
Proof.
  intros ss e0 r F U B. unfold finish. destruct r as [ [ [t c] e ] | | ]; [ | split; discriminate | congruence ].
  specialize (B t c e eq_refl). unfold leave. destruct ((c =? READ_OK) || (c =? READ_INCOMPLETE)).
  - split; [ discriminate | ]. intros ss' c' e' [= <- _ _]. rewrite Forall_forall in *. intros x I.
    apply in_put in I as [ [ -> _ ] | [ I _ ] ]; auto.
  - split; [ discriminate | ]. intros ss' c' e' [= <- _ _]. rewrite Forall_forall in *. intros x I.
    apply in_remove in I as [ I _ ]; auto.
Qed.

Lemma call_bounds : forall p flush ss w, Forall bounds ss -> zlen (w_data w) <= p_step p ->
  read_call p flush ss w <> Ub /\ (forall ss' c e, read_call p flush ss w = Ok (ss', c, e) -> Forall bounds ss').
Proof.
  intros p flush ss w F W. pose proof (zlen_nonneg _ (w_data w)) as L. unfold read_call.
  destruct (with_overshoot ss) as [ s | ] eqn:Eo.
  - apply with_overshoot_some in Eo as [I _]. assert (B : bounds s) by (rewrite Forall_forall in F; auto).
    destruct (process_bounds p w false s [] B ltac:(lia)). apply finish_bounds; auto.
  - destruct flush; [ split; [ discriminate | intros ? ? ? [= <- _ _]; auto ] | ].
    destruct (p_step p <? zlen (w_data w)) eqn:E1; [ lia | ].
    destruct (negb (Z.land (w_ret w) READ_HARD =? 0)); [ split; [ discriminate | intros ? ? ? [= <- _ _]; auto ] | ].
    destruct (negb (Z.land (w_ret w) READ_INCOMPLETE =? 0)); [ split; discriminate | ].
    destruct (negb (Z.land (w_ret w) READ_EOF =? 0) && (0 <? zlen (w_data w))); [ split; discriminate | ].
    unfold find_or_create. rewrite maintain_eq.
    set (k := filter (fun s => negb (expired (w_time w) s)) ss). set (e := map _ (filter (expired (w_time w)) ss)).
    assert (FK : Forall bounds k).
    { rewrite Forall_forall in *. intros x I. apply filter_In in I as [I _]. auto. }
    clearbody k e.
    assert (Main : forall s k, Forall bounds k -> bounds s ->
      let r := (if (zlen (w_data w) =? 0) || negb (w_ret w =? 0) then
              if s_zero_bytes s then
                if 0 <? s_target s then Bug
                else finish k e (process p w true (set_eof_ok (set_target s (match s_buf s with Some b => zlen b | None => 0 end)) false) (w_data w))
              else if negb (Z.land (w_ret w) READ_EOF =? 0) then
                finish k e (Ok (s, if s_eof_ok s && (match s_buf s with None => true | _ => false end)
                             && (match s_over s with None => true | _ => false end) then READ_EOF else READ_SOFT, []))
              else if negb (w_ret w =? 0) then finish k e (Ok (s, w_ret w, []))
              else Ok (k, READ_INCOMPLETE, e)
            else finish k (e ++ [Recv (w_addr w) (w_data w)]) (process p w false (set_eof_ok s false) (w_data w))) in
      r <> Ub /\ (forall ss' c e', r = Ok (ss', c, e') -> Forall bounds ss')).
    { clear - L W. intros s k FK B. cbv zeta. destruct ((zlen (w_data w) =? 0) || negb (w_ret w =? 0)).
      - destruct (s_zero_bytes s).
        + destruct (0 <? s_target s); [ split; discriminate | ].
          match goal with |- context [process p w true ?x ?y] => destruct (process_bounds p w true x y B ltac:(lia)) end.
          apply finish_bounds; auto.
        + destruct (negb (Z.land (w_ret w) READ_EOF =? 0)); [ apply finish_bounds; auto; [ discriminate | intros ? ? ? [= <- _ _]; auto ] | ].
          destruct (negb (w_ret w =? 0)); [ apply finish_bounds; auto; [ discriminate | intros ? ? ? [= <- _ _]; auto ] | ].
          split; [ discriminate | intros ? ? ? [= <- _ _]; auto ].
      - destruct (process_bounds p w false (set_eof_ok s false) (w_data w) B ltac:(lia)). apply finish_bounds; auto. }
    destruct (with_addr (w_addr w) k) as [ | s [ | s2 l ] ] eqn:Ew.
    + assert (B0 : bounds (session_new p (w_addr w) (w_time w))) by (split; cbn; discriminate).
      apply Main; auto.
    + apply Main; auto. assert (I : In s (with_addr (w_addr w) k)) by (rewrite Ew; left; auto).
      apply filter_In in I as [I _]. rewrite Forall_forall in FK. auto.
    + split; discriminate.
Qed.

Lemma run_bounds : forall p ws ss, Forall bounds ss -> Forall (fun w => zlen (w_data w) <= p_step p) ws ->
  run p ss ws <> Ub /\ forall ss' e, run p ss ws = Ok (ss', e) -> Forall bounds ss'.
Proof.
  intros p ws. induction ws as [ | w ws IH ]; intros ss F W; cbn [run].
  - split; [ discriminate | intros ? ? [= <- _]; auto ].
  - apply Forall_cons_iff in W as [W1 W2]. destruct (call_bounds p false ss w F W1) as (U & B).
    destruct (read_call p false ss w) as [ [ [ss' c] e ] | | ]; [ | split; discriminate | congruence ].
    destruct (IH ss' (B _ _ _ eq_refl) W2) as (U2 & B2).
    destruct (run p ss' ws) as [ [ss2 e2] | | ]; [ | split; discriminate | congruence ].
    split; [ discriminate | ]. intros ? ? [= <- _]. eapply B2; reflexivity.
Qed.

(** ** Flushing *)

Definition over_len (ss : list session) : Z := match with_overshoot ss with Some s => zlen (content s) | None => 0 end.

Section Flush.
  Variable p : params.
  Let f := framer_of p.
  Hypothesis Hst : stable f.
  Hypothesis Hok : framer_ok f.
  Hypothesis Hin : p_framer p = None -> 0 < p_initial p.
  Hypothesis Hns : forall r k, f r <> FSkip k.

  Lemma flush_call : forall ss ev w ss' code e, inv f ss ev -> world_ok p w ->
    read_call p true ss w = Ok (ss', code, e) ->
    (code = READ_OK -> over_len ss' < over_len ss) /\ (code = READ_INCOMPLETE -> with_overshoot ss' = None).
  Proof.
    intros ss ev w ss' code e H (W1 & W2 & W3 & W4). unfold read_call, over_len.
    destruct (with_overshoot ss) as [ s | ] eqn:Eo.
    2: { intros [= <- <- <-]. split; [ discriminate | auto ]. }
    apply with_overshoot_some in Eo as [I O]. pose proof H as (N & HS & HO & HW).
    destruct (process_ok p Hst Hok Hin w s _ _ [] (HS s I) W4) as [ (-> & _) | (t & c & ms & -> & Ta & K & K1 & K2 & K3 & _) ].
    { right. split; [ eapply sess_inv_overshoot; eauto | auto ]. }
    { discriminate. }
    unfold finish, leave. rewrite app_nil_r in *.
    destruct ((c =? READ_OK) || (c =? READ_INCOMPLETE)) eqn:E.
    2: { intros [= <- <- <-]. unfold READ_OK, READ_INCOMPLETE in *. lia. }
    intros [= <- <- <-].
    assert (C : forall u, In u (put t ss) -> s_over u <> None -> u = t).
    { intros u J Ju. apply in_put in J as [ [ -> _ ] | [ J A ] ]; [ reflexivity | ].
      exfalso. apply A. rewrite Ta. apply HW; auto. }
    split; intro Ec.
    - destruct (with_overshoot (put t ss)) as [ u | ] eqn:Eu.
      + apply with_overshoot_some in Eu as [Iu Ou]. rewrite (C u Iu Ou). auto.
      + pose proof (K3 Ec). pose proof (zlen_nonneg _ (content t)). lia.
    - apply with_overshoot_none. intros u J. destruct (s_over u) eqn:Eu; [ | reflexivity ].
      rewrite (C u J) in Eu by congruence. rewrite (K1 Ec) in Eu; [ discriminate | auto ].
  Qed.

  Lemma flush_loop_ok : forall ws ss ev e0 ss' code e, inv f ss ev -> Forall (world_ok p) ws ->
    over_len ss < zlen ws -> flush_loop p ss ws e0 = Ok (ss', code, e) -> code = READ_OK -> with_overshoot ss' = None.
  Proof.
    induction ws as [ | w ws IH ]; intros ss ev e0 ss' code e H W L; cbn [flush_loop].
    - rewrite zlen_nil in L. unfold over_len in L. destruct (with_overshoot ss) as [ s | ] eqn:E.
      + pose proof (zlen_nonneg _ (content s)). lia.
      + lia.
    - apply Forall_cons_iff in W as [W1 W2]. rewrite zlen_cons in L.
      destruct (call_ok p Hst Hok Hin true ss ev w H W1) as [ [ -> _ ] | (ss1 & c1 & e1 & C1 & H1) ]; [ discriminate | ].
      rewrite C1. destruct (flush_call ss ev w ss1 c1 e1 H W1 C1) as (F1 & F2).
      destruct (c1 =? READ_OK) eqn:E1.
      + intros R Rc. eapply IH; eauto. specialize (F1 ltac:(lia)). lia.
      + intros [= <- <- _] Rc. apply F2. unfold READ_OK, READ_INCOMPLETE in *.
        assert (Z.ldiff c1 4 = 0) as Rc' by exact Rc. clear - E1 Rc'.
        assert (B : forall i, 0 <= i -> i <> 2 -> Z.testbit c1 i = false).
        { intros i Hi Ni. pose proof (Z.ldiff_spec c1 4 i) as S. rewrite Rc', Z.bits_0 in S.
          assert (Z.testbit 4 i = false) as T4. { change 4 with (2^2). apply Z.pow2_bits_false. lia. }
          rewrite T4, andb_true_r in S. auto. }
        assert (B2 : forall i, Z.testbit c1 i = Z.testbit (if Z.testbit c1 2 then 4 else 0) i).
        { intro i. destruct (Z.eq_dec i 2) as [ -> | Ni ].
          - destruct (Z.testbit c1 2); reflexivity.
          - destruct (Z_lt_le_dec i 0); [ rewrite !Z.testbit_neg_r by lia; reflexivity | ]. rewrite B by lia.
            destruct (Z.testbit c1 2); [ symmetry; change 4 with (2^2); apply Z.pow2_bits_false; lia | symmetry; apply Z.bits_0 ]. }
        apply Z.bits_inj in B2. destruct (Z.testbit c1 2); [ exact B2 | lia ].
  Qed.

  Lemma read_message_flush : forall ss ev w, inv f ss ev -> world_ok p w ->
    exists n, forall ws ss' e, Forall (world_ok p) ws -> n < zlen ws ->
      read_message p true ss w ws = Ok (ss', READ_OK, e) -> with_overshoot ss' = None.
  Proof.
    intros ss ev w H W. unfold read_message.
    destruct (call_ok p Hst Hok Hin false ss ev w H W) as [ [ -> _ ] | (ss1 & c1 & e1 & C1 & H1) ].
    { exists 0. discriminate. }
    rewrite C1. destruct (c1 =? READ_OK) eqn:E; cbn [negb].
    - exists (over_len ss1). intros ws ss' e F L R. eapply flush_loop_ok; eauto.
    - exists 0. intros ws ss' e _ _ [= _ K _]. unfold READ_OK in *. lia.
  Qed.
End Flush.

(** ** End of file *)

Section Eof.
  Variable p : params.
  Let f := framer_of p.
  Hypothesis Hst : stable f.
  Hypothesis Hok : framer_ok f.
  Hypothesis Hin : p_framer p = None -> 0 < p_initial p.
  Hypothesis Hne : forall r, f r <> FError READ_EOF.

  Lemma finish_code : forall ss e0 t code ms ss' c e, finish ss e0 (Ok (t, code, ms)) = Ok (ss', c, e) ->
    c = code /\ e = e0 ++ ms ++ (if (code =? READ_OK) || (code =? READ_INCOMPLETE) then [] else [Drop (s_addr t) (Some code)]).
  Proof.
    intros ss e0 t code ms ss' c e. unfold finish, leave. destruct ((code =? READ_OK) || (code =? READ_INCOMPLETE)).
    - intros [= <- <- <-]. rewrite app_nil_r. auto.
    - intros [= <- <- <-]. auto.
  Qed.

  Lemma eof_ok : forall ss ev w ss' e, inv f ss ev -> world_ok p w -> w_code w <> READ_EOF ->
    (forall s, In s ss -> s_addr s = w_addr w -> expired (w_time w) s = false) ->
    read_call p false ss w = Ok (ss', READ_EOF, e) ->
    let a := w_addr w in
    exists rest, parse f (received a [] ev) (delivered a [] ev) rest /\
      ((rest = [] /\ (forall m, ~ In (Msg a m) e)) \/
       (rest <> [] /\ f rest = FToEnd /\ exists e0, e = e0 ++ [Msg a rest; Drop a (Some READ_EOF)] /\ forall m, ~ In (Msg a m) e0)).
  Proof.
    intros ss ev w ss' e H (W1 & W2 & W3 & W4) W5 NX. unfold read_call.
    destruct (with_overshoot ss) as [ s | ] eqn:Eo.
    { apply with_overshoot_some in Eo as [I O]. pose proof H as (N & HS & HO & HW).
      destruct (process_ok p Hst Hok Hin w s _ _ [] (HS s I) W4) as [ (-> & _) | (t & c & ms & -> & Ta & K & K1 & K2 & K3 & _) ].
      { right. split; [ eapply sess_inv_overshoot; eauto | auto ]. }
      { discriminate. }
      intro F. apply finish_code in F as [F _]. destruct (K2 (eq_sym F)) as [X | [r X]]; [ congruence | destruct (Hne r X) ]. }
    destruct (p_step p <? zlen (w_data w)); [ discriminate | ].
    destruct (negb (Z.land (w_ret w) READ_HARD =? 0)); [ discriminate | ].
    destruct (negb (Z.land (w_ret w) READ_INCOMPLETE =? 0)); [ discriminate | ].
    destruct (negb (Z.land (w_ret w) READ_EOF =? 0) && (0 <? zlen (w_data w))) eqn:E3; [ discriminate | ].
    rewrite with_overshoot_none in Eo.
    destruct (find_ok p f (w_addr w) (w_time w) ss ev H) as (s & k & e1 & -> & I & Ha & He & H1 & C). specialize (C Eo).
    assert (Same : received (w_addr w) [] (ev ++ e1) = received (w_addr w) [] ev /\
                   delivered (w_addr w) [] (ev ++ e1) = delivered (w_addr w) [] ev /\ forall b m, ~ In (Msg b m) e1).
    { rewrite received_app, delivered_app, He, maintain_eq. cbn [snd]. rewrite received_drops, delivered_drops.
      replace (existsb (fun s0 => s_addr s0 =? w_addr w) (filter (expired (w_time w)) ss)) with false.
      - split; [ reflexivity | ]. split; [ reflexivity | ]. intros b m J. apply in_map_iff in J as (x & J & _). discriminate.
      - symmetry. destruct (existsb _ _) eqn:X; [ | reflexivity ]. apply existsb_exists in X as (x & X1 & X2).
        apply filter_In in X1 as [X1 X3]. rewrite (NX x X1) in X3 by lia. discriminate. }
    destruct Same as (S1 & S2 & S3). pose proof H1 as (N & HS & HO & HW). specialize (HS s I) as HI.
    rewrite Ha, S1, S2 in HI.
    destruct ((zlen (w_data w) =? 0) || negb (w_ret w =? 0)) eqn:E4.
    - assert (D0 : w_data w = []).
      { destruct (w_ret w =? 0) eqn:E5; [ apply zlen_0; pose proof (zlen_nonneg _ (w_data w)); lia | apply W3; lia ]. }
      destruct (s_zero_bytes s) eqn:Ez.
      + destruct (0 <? s_target s); [ discriminate | ].
        destruct (process_eof p Hin w s _ _ HI Ez) as (b & Eb & t & code & ms & Pr & Ta & C1 & C2 & C3 & _ & C5).
        rewrite Eb, D0, Pr. intro F. apply finish_code in F as [F Fe]. subst code. specialize (C3 eq_refl). subst ms.
        exists b. cbv zeta. unfold content in HI. pose proof HI as (_ & HP & _ & HX). unfold content in HP. rewrite Eb in HP, HX.
        split; [ exact HP | ]. right. split; [ apply HX | ]. split; [ exact C5 | ].
        exists e1. split; [ rewrite Fe, Ta, Ha; reflexivity | auto ].
      + destruct (negb (Z.land (w_ret w) READ_EOF =? 0)) eqn:E5.
        * intro F. apply finish_code in F as [F Fe].
          destruct (s_eof_ok s && _ && _) eqn:Ec; [ | discriminate ]. clear F.
          exists []. cbv zeta. destruct HI as (_ & HP & _ & _). unfold content in HP.
          destruct (s_buf s); [ rewrite andb_false_r in Ec; discriminate | ].
          destruct (s_over s); [ rewrite andb_false_r in Ec; discriminate | ].
          split; [ exact HP | ]. left. split; [ reflexivity | ]. intros m J. rewrite Fe in J. cbn in J.
          apply in_app_or in J as [J | [J | []]]; [ eapply S3; eauto | discriminate ].
        * destruct (w_ret w =? 0) eqn:E6; cbn [negb]; [ discriminate | ].
          intro F. apply finish_code in F as [F Fe]. rewrite <- F in E5. discriminate.
    - destruct (process_ok p Hst Hok Hin w (set_eof_ok s false) _ _ (w_data w) (sess_inv_eof_ok _ _ _ _ false HI) W4)
        as [ (-> & _) | (t & c & ms & -> & Ta & K & K1 & K2 & _) ].
      { left. cbn. pose proof (zlen_nonneg _ (w_data w)). split; [ auto | ]. split; [ lia | ]. apply zlen_pos_ne. lia. }
      { discriminate. }
      intro F. apply finish_code in F as [F _]. destruct (K2 (eq_sym F)) as [X | [r X]]; [ congruence | destruct (Hne r X) ].
  Qed.
End Eof.

(** ** Messages *)

Lemma sub_mem_app_l : forall l x off n, 0 <= off -> 0 <= n -> off + n <= zlen l -> sub_mem (l ++ x) off n = sub_mem l off n.
Proof.
  intros l x off n H1 H2 H3. unfold sub_mem, zlen in *. rewrite skipn_app, firstn_app.
  rewrite skipn_length. replace (Z.to_nat n - (length l - Z.to_nat off))%nat with 0%nat by lia.
  cbn [firstn]. apply app_nil_r.
Qed.

Lemma target_size_app : forall p q, 18 <= zlen p -> get_target_size (p ++ q) = get_target_size p.
Proof.
  intros p q H. unfold get_target_size, be_field, MSG_HEAD_SIZE. rewrite zlen_app. pose proof (zlen_nonneg _ q).
  replace (zlen p + zlen q <? 18) with false by lia. replace (zlen p <? 18) with false by lia.
  rewrite !sub_mem_app_l by lia. reflexivity.
Qed.

Lemma msg_framer_stable : stable msg_framer.
Proof.
  intros p q _ H. unfold msg_framer in *.
  destruct (Z_lt_le_dec (zlen p) 18).
  - exfalso. apply H. unfold get_target_size, MSG_HEAD_SIZE. replace (zlen p <? 18) with true by lia. reflexivity.
  - rewrite target_size_app by lia. destruct (get_target_size p) as [ n | c | ]; cbn; auto.
    destruct (c =? READ_INCOMPLETE); cbn; auto.
Qed.
Lemma msg_framer_ok : framer_ok msg_framer.
Proof.
  intros p _. unfold msg_framer, get_target_size. destruct (zlen p <? MSG_HEAD_SIZE); [ exact I | ].
  destruct (negb _); [ cbn; unfold READ_OK, READ_INCOMPLETE, SOFT_ERROR; lia | ].
  unfold u32. apply Z.mod_pos_bound. lia.
Qed.

Lemma parse_messages : forall ms, Forall (fun b => 0 < zlen b < 2^32 /\ 18 <= zlen b /\ get_target_size b = MsgModel.Ok (zlen b)) ms ->
  parse msg_framer (concat ms) ms [].
Proof.
  intros ms H. induction H as [ | b ms (H1 & H2 & H3) H IH ]; cbn [concat]; [ apply parse_stop | ].
  assert (F : msg_framer (b ++ concat ms) = FSize (zlen b) false).
  { unfold msg_framer. rewrite target_size_app, H3 by lia. unfold u32. rewrite Z.mod_small by lia. reflexivity. }
  replace (b :: ms) with (firstn (Z.to_nat (zlen b)) (b ++ concat ms) :: ms).
  - eapply parse_msg; eauto.
    + rewrite zlen_app. pose proof (zlen_nonneg _ (concat ms)). lia.
    + rewrite skipn_app_le by lia. rewrite skipn_all2 by (unfold zlen; lia). exact IH.
  - f_equal. rewrite firstn_app_le by lia. apply firstn_all2. unfold zlen. lia.
Qed.

(** ** Why a session is removed *)

Section Drop.
  Variable p : params.
  Let f := framer_of p.
  Hypothesis Hst : stable f.
  Hypothesis Hok : framer_ok f.
  Hypothesis Hin : p_framer p = None -> 0 < p_initial p.

  Lemma drop_reason_ok : forall ss ev w ss' code e a c, inv f ss ev -> world_ok p w ->
    read_call p false ss w = Ok (ss', code, e) -> In (Drop a c) e -> drop_reason p ss ev w a c.
  Proof.
    intros ss ev w ss' code e a c H (W1 & W2 & W3 & W4). unfold read_call.
    assert (NoMsg : forall b ms, ~ In (Drop a c) (map (Msg b) ms)).
    { intros b ms J. apply in_map_iff in J as (x & J & _). discriminate. }
    destruct (with_overshoot ss) as [ s | ] eqn:Eo.
    { apply with_overshoot_some in Eo as [I O]. pose proof H as (N & HS & HO & HW).
      destruct (process_ok p Hst Hok Hin w s _ _ [] (HS s I) W4) as [ (-> & _) | (t & d & ms & -> & Ta & K & K1 & K2 & K3 & K4 & _) ].
      { right. split; [ eapply sess_inv_overshoot; eauto | auto ]. }
      { discriminate. }
      intro F. apply finish_code in F as [F Fe]. intro J. rewrite Fe in J. cbn [app] in J.
      apply in_app_or in J as [J | J]; [ destruct (NoMsg _ _ J) | ].
      destruct ((d =? READ_OK) || (d =? READ_INCOMPLETE)) eqn:Ed; [ destruct J | ]. destruct J as [J | []].
      injection J as <- <-. rewrite Ta. rewrite app_nil_r in K4. unfold drop_reason.
      specialize (HS s I). destruct HS as (_ & HP & _).
      destruct K4 as [ K4 | [ -> | [ K4 | [K4 ->] ] ] ].
      - exfalso. unfold kept in K4. lia.
      - auto.
      - right. right. exists ev, (content s). auto 8.
      - right. right. exists ev, (content s). auto 8. }
    destruct (p_step p <? zlen (w_data w)); [ discriminate | ].
    destruct (negb (Z.land (w_ret w) READ_HARD =? 0)); [ intros [= <- <- <-] [] | ].
    destruct (negb (Z.land (w_ret w) READ_INCOMPLETE =? 0)); [ discriminate | ].
    destruct (negb (Z.land (w_ret w) READ_EOF =? 0) && (0 <? zlen (w_data w))) eqn:E3; [ discriminate | ].
    rewrite with_overshoot_none in Eo.
    destruct (find_ok p f (w_addr w) (w_time w) ss ev H) as (s & k & e1 & -> & I & Ha & He & H1 & C). specialize (C Eo).
    assert (Old : In (Drop a c) e1 -> drop_reason p ss ev w a c).
    { rewrite He, maintain_eq. cbn [snd]. intro J. apply in_map_iff in J as (x & J & Ix). injection J as <- <-.
      apply filter_In in Ix as [Ix Xx]. exists x. split; [ exact Ix | ]. split; [ reflexivity | ].
      intro T. revert Xx. unfold expired, CLIENT_TIMEOUT, u64. rewrite Z.mod_small by lia. lia. }
    pose proof H1 as (N & HS & HO & HW). specialize (HS s I) as HI.
    rewrite Ha in HI.
    destruct ((zlen (w_data w) =? 0) || negb (w_ret w =? 0)) eqn:E4.
    - assert (D0 : w_data w = []).
      { destruct (w_ret w =? 0) eqn:E5; [ apply zlen_0; pose proof (zlen_nonneg _ (w_data w)); lia | apply W3; lia ]. }
      destruct (s_zero_bytes s) eqn:Ez.
      + destruct (0 <? s_target s); [ discriminate | ].
        destruct (process_eof p Hin w s _ _ HI Ez) as (b & Eb & t & d & ms & Pr & Ta & C1 & C2 & C3 & _ & C5).
        rewrite Eb, D0, Pr. intro F. apply finish_code in F as [F Fe]. intro J. rewrite Fe in J.
        apply in_app_or in J as [J | J]; [ auto | ]. apply in_app_or in J as [J | J]; [ destruct (NoMsg _ _ J) | ].
        destruct ((d =? READ_OK) || (d =? READ_INCOMPLETE)) eqn:Ed; [ destruct J | ]. destruct J as [J | []].
        injection J as <- <-. rewrite Ta, Ha. right. right. exists (ev ++ e1), b.
        split; [ right; left; rewrite He; reflexivity | ]. destruct HI as (_ & HP & _ & HX). unfold content in HP.
        rewrite Eb in HP, HX. split; [ exact HP | ]. right. right. intuition.
      + destruct (negb (Z.land (w_ret w) READ_EOF =? 0)) eqn:E5.
        * assert (w_ret w <> 0) as WR by (intro K; rewrite K in E5; discriminate).
          intro F. apply finish_code in F as [F Fe]. intro J. rewrite Fe in J. cbn [app] in J.
          apply in_app_or in J as [J | J]; [ auto | ].
          match type of J with context [if (?x =? READ_OK) || _ then _ else _] => destruct ((x =? READ_OK) || (x =? READ_INCOMPLETE)); [ destruct J | ] end. destruct J as [J | []].
          injection J as <- <-. right. left. auto.
        * destruct (w_ret w =? 0) eqn:E6; cbn [negb].
          -- intros [= <- <- <-]. auto.
          -- intro F. apply finish_code in F as [F Fe]. intro J. rewrite Fe in J. cbn [app] in J.
             apply in_app_or in J as [J | J]; [ auto | ]. 
             destruct ((w_ret w =? READ_OK) || (w_ret w =? READ_INCOMPLETE)); [ destruct J | ]. destruct J as [J | []].
             injection J as <- <-. right. left. split; [ auto | lia ].
    - destruct (process_ok p Hst Hok Hin w (set_eof_ok s false) _ _ (w_data w) (sess_inv_eof_ok _ _ _ _ false HI) W4)
        as [ (-> & _) | (t & d & ms & -> & Ta & K & K1 & K2 & K3 & K4 & _) ].
      { left. cbn. pose proof (zlen_nonneg _ (w_data w)). split; [ auto | ]. split; [ lia | ]. apply zlen_pos_ne. lia. }
      { discriminate. }
      intro F. apply finish_code in F as [F Fe]. intro J. rewrite Fe in J.
      apply in_app_or in J as [J | J].
      { apply in_app_or in J as [J | [J | []]]; [ auto | discriminate ]. }
      apply in_app_or in J as [J | J]; [ destruct (NoMsg _ _ J) | ].
      destruct ((d =? READ_OK) || (d =? READ_INCOMPLETE)) eqn:Ed; [ destruct J | ]. destruct J as [J | []].
      injection J as <- <-. rewrite Ta. cbn [set_eof_ok s_addr]. rewrite Ha. unfold drop_reason.
      change (content (set_eof_ok s false)) with (content s) in K4. destruct HI as (_ & HP & _).
      assert (PX : parse f (received (w_addr w) [] (ev ++ snd (maintain (w_time w) ss) ++ [Recv (w_addr w) (w_data w)]))
                     (delivered (w_addr w) [] (ev ++ snd (maintain (w_time w) ss) ++ [Recv (w_addr w) (w_data w)])) (content s ++ w_data w)).
      { rewrite <- He, app_assoc, received_app, delivered_app. cbn [received delivered]. rewrite Z.eqb_refl. apply parse_extend; auto. }
      destruct K4 as [ K4 | [ -> | [ K4 | [K4 ->] ] ] ].
      + exfalso. unfold kept in K4. lia.
      + auto.
      + right. right. eexists _, (content s ++ w_data w). split; [ right; right; reflexivity | ]. split; [ exact PX | ]. auto.
      + right. right. eexists _, (content s ++ w_data w). split; [ right; right; reflexivity | ]. split; [ exact PX | ]. auto.
  Qed.
End Drop.

Definition is_recv (e : event) : bool := match e with Recv _ _ => true | _ => false end.
Lemma process_no_recv : forall p w b s d t c e, process p w b s d = Ok (t, c, e) -> filter is_recv e = [].
Proof.
  intros p w b s d t c e. unfold process. destruct (s_complete _); [ discriminate | ].
  destruct (s_buf _) as [ buf | ]; [ | discriminate ]. destruct (append _ _ _ _ _) as [ s1 | ]; [ | discriminate ].
  destruct (_ && _); [ intros [= _ _ <-]; reflexivity | ].
  destruct (ask_target _ _ _) as [ [ s2 | [s2 c2] ] | | ]; try discriminate; [ | intros [= _ _ <-]; reflexivity ].
  destruct (cut _ _) as [ s3 | | ]; try discriminate. unfold complete.
  destruct (s_buf s3) as [ b3 | ]; [ | intros [= _ _ <-]; reflexivity ].
  destruct (_ && _); [ | intros [= _ _ <-]; reflexivity ].
  destruct (negb _); intros [= _ _ <-]; reflexivity.
Qed.
Lemma finish_no_recv : forall p w b s d ss e0 ss' c e, finish ss e0 (process p w b s d) = Ok (ss', c, e) ->
  filter is_recv e = filter is_recv e0.
Proof.
  intros p w b s d ss e0 ss' c e. destruct (process p w b s d) as [ [ [t c1] e1 ] | | ] eqn:E; try discriminate.
  apply process_no_recv in E. unfold finish, leave.
  destruct (_ || _); intros [= _ _ <-]; rewrite !filter_app, E; cbn; rewrite ?app_nil_r; reflexivity.
Qed.
Lemma call_recv : forall p ss w ss' c e, read_call p false ss w = Ok (ss', c, e) -> w_ret w = 0 ->
  filter is_recv e = match with_overshoot ss with Some _ => [] | None => if zlen (w_data w) =? 0 then [] else [Recv (w_addr w) (w_data w)] end.
Proof.
  intros p ss w ss' c e. unfold read_call. destruct (with_overshoot ss).
  - intros H _. apply finish_no_recv in H. exact H.
  - intros H E. rewrite E in H. change (negb (Z.land 0 READ_HARD =? 0)) with false in H.
    change (negb (Z.land 0 READ_INCOMPLETE =? 0)) with false in H. change (negb (Z.land 0 READ_EOF =? 0)) with false in H.
    cbv iota in H. cbn [andb] in H. destruct (p_step p <? zlen (w_data w)); [ discriminate | ].
    assert (FD : forall s1 ss1 e1, find_or_create p (w_addr w) (w_time w) ss = Ok (s1, ss1, e1) -> filter is_recv e1 = []).
    { unfold find_or_create. rewrite maintain_eq. intros s1 ss1 e1.
      assert (X : forall l, filter is_recv (map (fun s => Drop (s_addr s) None) l) = []) by (induction l; auto).
      destruct (with_addr _ _) as [ | x [ | ] ]; try discriminate; intros [= _ _ <-]; apply X. }
    destruct (find_or_create _ _ _ _) as [ [ [s1 ss1] e1 ] | | ] eqn:F; try discriminate. specialize (FD _ _ _ eq_refl).
    change (negb (0 =? 0)) with false in H. rewrite orb_false_r in H. destruct (zlen (w_data w) =? 0).
    + destruct (s_zero_bytes s1); [ destruct (0 <? s_target s1); [ discriminate | ] | ].
      * apply finish_no_recv in H. rewrite H. exact FD.
      * injection H as _ _ <-. exact FD.
    + apply finish_no_recv in H. rewrite H, filter_app, FD. reflexivity.
Qed.

(** * Times *)
Lemma prepare_time : forall p s bytes, s_time (prepare p s bytes) = s_time s /\ s_addr (prepare p s bytes) = s_addr s.
Proof. intros. unfold prepare. destruct (s_buf s); [ auto | ]. destruct (s_over s); auto. Qed.
Lemma append_time : forall p now s buf bytes t, append p now s buf bytes = Some t ->
  s_addr t = s_addr s /\ s_time t = if 0 <? zlen bytes then now else s_time s.
Proof.
  intros p now s buf bytes t. unfold append. destruct (0 <? zlen bytes); [ | intros [= <-]; auto ]. cbv zeta.
  destruct (s_size s <? zlen bytes + zlen buf).
  - match goal with |- (if ?b then _ else _) = _ -> _ => destruct b end; [ discriminate | ]. intros [= <-]. auto.
  - match goal with |- (if ?b then _ else _) = _ -> _ => destruct b end; [ discriminate | ]. intros [= <-]. auto.
Qed.
Lemma process_time : forall p w em s bytes t c e, process p w em s bytes = Ok (t, c, e) ->
  s_addr t = s_addr s /\ s_time t = (if 0 <? zlen bytes then w_time w else s_time s) /\ forall a d, ~ In (Recv a d) e.
Proof.
  intros p w em s bytes t c e. unfold process. destruct (prepare_time p s bytes) as [P1 P2]. set (s1 := prepare p s bytes) in *.
  destruct (s_complete s1); [ discriminate | ]. destruct (s_buf s1) as [ buf | ]; [ | discriminate ].
  destruct (append p (w_time w) s1 buf bytes) as [ s2 | ] eqn:E; [ | discriminate ]. apply append_time in E as [A1 A2]. rewrite P2 in A1. rewrite P1 in A2.
  destruct ((0 <? p_max p) && _). { intros [= <- <- <-]. auto. }
  destruct (ask_target p s2 (buf ++ bytes)) as [ [ s3 | [s3 c3] ] | | ] eqn:E3; try discriminate.
  - assert (T3 : s_addr s3 = s_addr s2 /\ s_time s3 = s_time s2).
    { revert E3. unfold ask_target. destruct (p_framer p) as [ f | ]; [ | intros [= <-]; auto ]. destruct (_ && _); [ | intros [= <-]; auto ].
      destruct (f (buf ++ bytes)) as [ | | | | ].
      all: try discriminate; try (intros [= <-]; auto; fail).
      all: match goal with |- (if ?b then _ else _) = _ -> _ => destruct b end; try discriminate.
      all: try (intros [= <-]; auto; fail).
      cbv zeta. match goal with |- (if ?b then _ else _) = _ -> _ => destruct b end; try discriminate. destruct (0 <? _) in |- *; intro Q; discriminate Q. }
    destruct (cut s3 (buf ++ bytes)) as [ s4 | | ] eqn:E4; try discriminate.
    assert (T4 : s_addr s4 = s_addr s3 /\ s_time s4 = s_time s3).
    { revert E4. unfold cut. destruct (_ && _); [ | intros [= <-]; auto ]. destruct (s_over s3); [ discriminate | ]. intros [= <-]. auto. }
    unfold complete. destruct T3, T4. destruct (s_buf s4); [ destruct (_ && _); [ destruct (negb (w_code w =? 0)) | ] | ]; intros [= <- <- <-];
      cbn [s_addr s_time]; (split; [ congruence | split; [ congruence | intros a d [ [=] | [] ] || intros a d [] ] ]).
  - intros [= <- <- <-]. revert E3. unfold ask_target. destruct (p_framer p) as [ f | ]; [ | discriminate ]. destruct (_ && _); [ | discriminate ].
    assert (N : forall a d, ~ In (Recv a d) []) by (intros a d []).
    destruct (f (buf ++ bytes)) as [ | | | | ]; try discriminate.
    all: try (intros [= <- <-]; auto; fail).
    all: match goal with |- (if ?b then _ else _) = _ -> _ => destruct b end; try discriminate; try (intros [= <- <-]; auto; fail).
    cbv zeta. match goal with |- (if ?b then _ else _) = _ -> _ => destruct b end; try discriminate. match goal with |- context [if ?b then _ else _] => destruct b end; cbv iota beta; intro Q; injection Q as Q1 Q2; subst; cbn [s_addr s_time]; auto.
Qed.

Lemma put_in : forall t ss x, In x (put t ss) -> x = t \/ In x ss.
Proof. intros t ss x I. unfold put in I. apply in_map_iff in I as (y & E & I). destruct (s_addr y =? s_addr t); subst; auto. Qed.
Lemma leave_time : forall ss t code e ss' c e', leave ss (t, code, e) = (ss', c, e') ->
  (forall x, In x ss' -> x = t \/ (In x ss /\ s_addr x <> s_addr t)) /\
  (forall x, In x ss -> (exists y, In y ss' /\ s_addr y = s_addr x) \/ exists k, In (Drop (s_addr x) k) e') /\
  (forall a d, In (Recv a d) e' -> In (Recv a d) e).
Proof.
  intros ss t code e ss' c e'. unfold leave. destruct (_ || _); intros [= <- <- <-].
  - split; [ | split ].
    + intros x I. unfold put in I. apply in_map_iff in I as (y & E & I). destruct (s_addr y =? s_addr t) eqn:Y; subst; [ auto | right; split; [ auto | lia ] ].
    + intros x I. left. exists (if s_addr x =? s_addr t then t else x). split; [ unfold put; apply in_map_iff; exists x; auto | ].
      destruct (s_addr x =? s_addr t) eqn:Y; [ lia | reflexivity ].
    + auto.
  - split; [ | split ].
    + intros x I. unfold remove in I. apply filter_In in I as [I J]. right. split; [ auto | lia ].
    + intros x I. destruct (s_addr x =? s_addr t) eqn:Y.
      * right. exists (Some code). apply in_or_app. right. left. f_equal. lia.
      * left. exists x. split; [ unfold remove; apply filter_In; split; [ auto | rewrite Y; reflexivity ] | reflexivity ].
    + intros a d I. apply in_app_or in I as [I | [I | []]]; [ auto | discriminate ].
Qed.
Lemma finish_time : forall ss e0 t code e ss' c e', finish ss e0 (Ok (t, code, e)) = Ok (ss', c, e') ->
  (forall x, In x ss' -> x = t \/ (In x ss /\ s_addr x <> s_addr t)) /\
  (forall x, In x ss -> (exists y, In y ss' /\ s_addr y = s_addr x) \/ exists k, In (Drop (s_addr x) k) e') /\
  (forall a d, In (Recv a d) e' -> In (Recv a d) e0 \/ In (Recv a d) e) /\
  (forall a k, In (Drop a k) e0 -> In (Drop a k) e').
Proof.
  intros ss e0 t code e ss' c e'. unfold finish. destruct (leave ss (t, code, e)) as [ [ss1 c1] e1 ] eqn:L. intros [= <- <- <-].
  destruct (leave_time _ _ _ _ _ _ _ L) as (A & B & C). split; [ exact A | ]. split; [ | split ].
  - intros x I. destruct (B x I) as [ K | (k & K) ]; [ auto | right; exists k; apply in_or_app; auto ].
  - intros a d I. apply in_app_or in I as [I | I]; auto.
  - intros a k I. apply in_or_app. auto.
Qed.

Lemma find_shape : forall p a now ss s k1 e0, find_or_create p a now ss = Ok (s, k1, e0) ->
  s_addr s = a /\ In s k1 /\ (forall x, In x ss -> In x k1 \/ In (Drop (s_addr x) None) e0) /\
  (forall x, In x k1 -> (s_addr x = a /\ s_time x = now) \/ In x ss) /\ (forall b d, ~ In (Recv b d) e0).
Proof.
  intros p a now ss s k1 e0. unfold find_or_create. rewrite maintain_eq.
  assert (Kept : forall x, In x ss -> In x (filter (fun s => negb (expired now s)) ss) \/ In (Drop (s_addr x) None) (map (fun s => Drop (s_addr s) None) (filter (expired now) ss))).
  { intros x I. destruct (expired now x) eqn:X; [ right; apply in_map_iff; exists x; split; [ reflexivity | apply filter_In; auto ] | left; apply filter_In; rewrite X; auto ]. }
  assert (NR : forall b d, ~ In (Recv b d) (map (fun s => Drop (s_addr s) None) (filter (expired now) ss))) by (intros b d I; apply in_map_iff in I as (x & I & _); discriminate).
  assert (Sub : forall x, In x (filter (fun s => negb (expired now s)) ss) -> In x ss) by (intros x I; apply filter_In in I; tauto).
  destruct (with_addr a _) as [ | s1 [ | s2 l ] ] eqn:Wa; [ | | discriminate ]; intros [= <- <- <-].
  - split; [ reflexivity | ]. split; [ left; reflexivity | ]. split; [ intros x I; destruct (Kept x I); [ left; right; auto | auto ] | ].
    split; [ intros x [ <- | I ]; auto | exact NR ].
  - assert (I : In s1 (with_addr a (filter (fun s => negb (expired now s)) ss))) by (rewrite Wa; left; reflexivity). apply filter_In in I as [I J].
    split; [ lia | ]. split; [ exact I | ]. split; [ exact Kept | ]. split; [ auto | exact NR ].
Qed.

Lemma call_time : forall p ss w ss' code e, read_call p false ss w = Ok (ss', code, e) ->
  (forall s, In s ss' -> (s_addr s = w_addr w /\ s_time s = w_time w) \/ exists s0, In s0 ss /\ s_addr s0 = s_addr s /\ s_time s0 = s_time s) /\
  (forall s d, In s ss' -> In (Recv (s_addr s) d) e -> s_time s = w_time w) /\
  (forall s, In s ss -> (exists s', In s' ss' /\ s_addr s' = s_addr s) \/ exists c, In (Drop (s_addr s) c) e).
Proof.
  intros p ss w ss' code e. unfold read_call. destruct (with_overshoot ss) as [ s | ] eqn:Eo.
  { apply with_overshoot_some in Eo as [I O]. destruct (process p w false s []) as [ [ [t c1] e1 ] | | ] eqn:P; try discriminate.
    apply process_time in P as (P1 & P2 & P3). cbn in P2. intro F. destruct (finish_time _ _ _ _ _ _ _ _ F) as (A & B & C & _).
    split; [ | split ].
    - intros x X. right. destruct (A x X) as [ -> | [Y _] ]; [ exists s; auto | exists x; auto ].
    - intros x d X Y. destruct (C _ _ Y) as [ [] | Z ]. destruct (P3 _ _ Z).
    - exact B. }
  destruct (p_step p <? zlen (w_data w)); [ discriminate | ].
  destruct (negb (Z.land (w_ret w) READ_HARD =? 0)).
  { intros [= <- <- <-]. split; [ | split ]; [ intros s I; right; exists s; auto | intros s d _ [] | intros s I; left; exists s; auto ]. }
  destruct (negb (Z.land (w_ret w) READ_INCOMPLETE =? 0)); [ discriminate | ].
  destruct (negb (Z.land (w_ret w) READ_EOF =? 0) && (0 <? zlen (w_data w))) eqn:E3; [ discriminate | ].
  destruct (find_or_create p (w_addr w) (w_time w) ss) as [ [ [s k1] e0 ] | | ] eqn:Fc; try discriminate.
  apply find_shape in Fc as (Sa & Si & Kept & K2 & NR).
  assert (Done : forall e1 t c1 e2 time, s_addr t = w_addr w -> s_time t = time -> time = w_time w \/ time = s_time s -> (forall a d, ~ In (Recv a d) e2) ->
     (forall a d, In (Recv a d) e1 -> time = w_time w /\ a = w_addr w) -> (forall a c, In (Drop a c) e0 -> In (Drop a c) e1) ->
     finish k1 e1 (Ok (t, c1, e2)) = Ok (ss', code, e) ->
     (forall s, In s ss' -> (s_addr s = w_addr w /\ s_time s = w_time w) \/ exists s0, In s0 ss /\ s_addr s0 = s_addr s /\ s_time s0 = s_time s) /\
     (forall s d, In s ss' -> In (Recv (s_addr s) d) e -> s_time s = w_time w) /\
     (forall s, In s ss -> (exists s', In s' ss' /\ s_addr s' = s_addr s) \/ exists c, In (Drop (s_addr s) c) e)).
  { intros e1 t c1 e2 time T1 T2 T3 N2 N1 De F. destruct (finish_time _ _ _ _ _ _ _ _ F) as (A & B & C & D). split; [ | split ].
    - intros x X. destruct (A x X) as [ -> | [Y _] ].
      + destruct T3 as [ T3 | T3 ]; [ left; split; congruence | ]. destruct (K2 s Si) as [ [_ Z] | Z ]; [ left; split; congruence | right; exists s; split; [ auto | split; congruence ] ].
      + destruct (K2 x Y) as [ Z | Z ]; [ auto | right; exists x; auto ].
    - intros x d X Y. destruct (C _ _ Y) as [ Z | Z ]; [ | destruct (N2 _ _ Z) ]. destruct (N1 _ _ Z) as [Z1 Z2].
      destruct (A x X) as [ -> | [_ V] ]; [ congruence | ]. exfalso. apply V. congruence.
    - intros x X. destruct (Kept x X) as [ Y | Y ]; [ exact (B x Y) | right; eauto ]. }
  destruct ((zlen (w_data w) =? 0) || negb (w_ret w =? 0)) eqn:E4.
  - assert (D0 : zlen (w_data w) = 0 -> (0 <? zlen (w_data w)) = false) by lia.
    destruct (s_zero_bytes s).
    + destruct (0 <? s_target s); [ discriminate | ]. match goal with |- finish _ _ ?x = _ -> _ => destruct x as [ [ [t c1] e1 ] | | ] eqn:P end; try discriminate.
      apply process_time in P as (P1 & P2 & P3). cbn [s_addr s_time set_eof_ok set_target] in P1, P2. intro F.
      eapply (Done _ _ _ _ _ (eq_trans P1 Sa) P2); eauto.
      * destruct (0 <? zlen (w_data w)); auto.
      * intros a d X. destruct (NR _ _ X).
    + destruct (negb (Z.land (w_ret w) READ_EOF =? 0)).
      { intro F. eapply (Done _ _ _ _ (s_time s) Sa eq_refl (or_intror eq_refl)); [ | | | exact F ]; [ intros a d [] | intros a d X; destruct (NR _ _ X) | auto ]. }
      destruct (negb (w_ret w =? 0)).
      { intro F. eapply (Done _ _ _ _ (s_time s) Sa eq_refl (or_intror eq_refl)); [ | | | exact F ]; [ intros a d [] | intros a d X; destruct (NR _ _ X) | auto ]. }
      intros [= <- <- <-]. split; [ | split ].
      * intros x X. destruct (K2 x X); [ auto | right; exists x; auto ].
      * intros x d _ X. destruct (NR _ _ X).
      * intros x X. destruct (Kept x X) as [ Y | Y ]; [ left; exists x; auto | right; eauto ].
  - match goal with |- finish _ _ ?x = _ -> _ => destruct x as [ [ [t c1] e1 ] | | ] eqn:P end; try discriminate.
    apply process_time in P as (P1 & P2 & P3). cbn [s_addr s_time set_eof_ok] in P1, P2. intro F.
    assert (L : (0 <? zlen (w_data w)) = true) by (pose proof (zlen_nonneg _ (w_data w)); lia). rewrite L in P2.
    eapply (Done _ _ _ _ _ (eq_trans P1 Sa) P2); [ auto | exact P3 | | | exact F ].
    + intros a d X. apply in_app_or in X as [X | [X | []]]; [ destruct (NR _ _ X) | ]. injection X as <- <-. auto.
    + intros a c X. apply in_or_app. auto.
Qed.
