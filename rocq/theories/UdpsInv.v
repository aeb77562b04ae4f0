(** The invariant of UDP-streams. *)
From Coq Require Import ZArith List Bool Lia.
From Verif Require Import Common MsgModel ReadModel UdpsModel UdpsSpec UdpsProofs.
Import ListNotations.
Open Scope Z_scope.

Definition ids (l : list frame) : list Z := map fr_id l.
Lemma ids_cores : forall a b, cores a = cores b -> ids a = ids b.
Proof. intros a b H. unfold ids. destruct (core_parts a) as (-> & _). destruct (core_parts b) as (-> & _). now rewrite H. Qed.
Lemma ascending_ids : forall a b lo, ids a = ids b -> ascending lo a -> ascending lo b.
Proof.
  induction a as [ | f a IH ]; intros [ | g b ] lo E H; try discriminate; [ exact H | ]. cbn [ids map] in E. injection E as E1 E2. cbn [ascending] in *. rewrite <- E1.
  destruct H. split; [ assumption | ]. now apply IH.
Qed.
Lemma known_cores : forall Q a b, cores a = cores b -> Forall (known Q) a -> Forall (known Q) b.
Proof.
  induction a as [ | f a IH ]; intros [ | g b ] E H; try discriminate; [ exact H | ]. unfold cores in E. cbn [map] in E.
  assert (E1 : core f = core g) by congruence. assert (E2 : map core a = map core b) by congruence. inversion H; subst. constructor; [ eapply known_core; eauto | now apply IH ].
Qed.
Lemma in_ids : forall l i, In i (ids l) <-> exists f, In f l /\ fr_id f = i.
Proof. intros l i. unfold ids. rewrite in_map_iff. split; intros (f & A & B); exists f; auto. Qed.

(** ** Receive buffer *)
Lemma insert_spec : forall l f max lo, max <= lo -> lo < fr_id f -> ascending lo l ->
  exists l', insert f max l = Ok l' /\ ascending lo l' /\ (forall g, In g l' -> g = f \/ In g l) /\ (forall g, In g l -> In g l') /\ In (fr_id f) (ids l').
Proof.
  induction l as [ | g r IH ]; intros f max lo M L A; cbn [insert].
  - exists [f]. split; [ reflexivity | ]. split; [ cbn; auto | ]. split; [ intros g [ -> | [] ]; auto | ]. split; [ intros g [] | left; reflexivity ].
  - cbn [ascending] in A. destruct A as (A1 & A2). destruct (Z.eqb_spec (fr_id g) (fr_id f)) as [ E | E ].
    + exists (g :: r). split; [ reflexivity | ]. split; [ cbn; auto | ]. split; [ auto | ]. split; [ auto | left; exact E ].
    + destruct (Z.ltb_spec (fr_id f) (fr_id g)) as [ H | H ].
      * exists (f :: g :: r). split; [ reflexivity | ]. split; [ cbn; auto | ]. split; [ intros h [ -> | I ]; auto | ]. split; [ intros h I; now right | left; reflexivity ].
      * destruct (Z.ltb_spec (fr_id g) max) as [ B | B ]; [ lia | ]. destruct (IH f (fr_id g) (fr_id g) ltac:(lia) ltac:(lia) A2) as (l' & -> & A' & S1 & S2 & S3).
        exists (g :: l'). split; [ reflexivity | ]. split; [ cbn; auto | ]. split; [ intros h [ -> | I ]; [ right; left; reflexivity | ]; destruct (S1 _ I); [ auto | right; right; assumption ] | ].
        split; [ intros h [ -> | I ]; [ left; reflexivity | right; auto ] | right; exact S3 ].
Qed.
Lemma insert_frame_spec : forall l f, 1 <= fr_id f -> ascending 0 l ->
  exists l', insert_frame f l = Ok l' /\ ascending 0 l' /\ (forall g, In g l' -> g = f \/ In g l) /\ (forall g, In g l -> In g l') /\ In (fr_id f) (ids l').
Proof.
  intros l f L A. unfold insert_frame. destruct (rev l) as [ | g r ] eqn:R; [ apply insert_spec; auto; lia | ].
  destruct (fr_id g <? fr_id f) eqn:B; [ | apply insert_spec; auto; lia ].
  assert (l = rev r ++ [g]) as -> by (rewrite <- (rev_involutive l), R; reflexivity).
  exists ((rev r ++ [g]) ++ [f]). split; [ reflexivity | ]. split; [ | split; [ | split ] ].
  - apply ascending_app; [ exact A | lia | ]. clear R. revert A. generalize 0. induction (rev r) as [ | h t IH ]; intros z A; cbn [List.app] in *; cbn [ascending] in A; destruct A as (A1 & A2).
    + constructor; [ lia | constructor ].
    + pose proof (ascending_all _ _ A2) as F. specialize (IH _ A2). constructor; [ | exact IH ]. rewrite Forall_forall in F. assert (In g (t ++ [g])) by (apply in_or_app; right; left; reflexivity). specialize (F _ H). cbn beta in F. lia.
  - intros h I. apply in_app_or in I as [ I | [ -> | [] ] ]; auto.
  - intros h I. apply in_or_app. auto.
  - unfold ids. rewrite map_app. apply in_or_app. right. left. reflexivity.
Qed.

(** ** Acknowledgement *)
Lemma ack_list_spec : forall (P : Z -> Prop) prev l first last adjust, 0 <= prev < 2^32 -> P prev ->
  (first = 0 /\ last = 0 \/ 1 <= first <= last /\ last < 2^32 /\ forall i, first <= i <= last -> P i) ->
  ascending last l -> Forall (fun f => 1 <= fr_id f < 2^32 /\ P (fr_id f)) l ->
  let '(l', acks, _) := ack_list prev first last adjust l in
  cores l' = cores l /\ Forall (fun a => 0 <= fst a < 2^32 /\ 0 <= snd a < 2^32 /\ forall i, fst a <= i <= snd a -> P i) acks.
Proof.
  intros P prev. induction l as [ | f r IH ]; intros first last adjust PV PP R A F; cbn [ack_list]; [ split; constructor | ].
  cbn [ascending] in A. destruct A as (A1 & A2). inversion F as [ | ? ? (F1 & F2) F3 ]; subst.
  set (first' := if first =? 0 then fr_id f else first). cbv zeta.
  assert (NEXT : forall fst0 adj g add, core g = core f -> (1 <= fst0 <= fr_id f /\ forall i, fst0 <= i <= fr_id f -> P i) ->
    Forall (fun a => 0 <= fst a < 2^32 /\ 0 <= snd a < 2^32 /\ forall i, fst a <= i <= snd a -> P i) add ->
    let '(l', acks, _) := (let '(r', acks, adjust) := ack_list prev fst0 (fr_id f) adj r in (g :: r', add ++ acks, adjust)) in
    cores l' = cores (f :: r) /\ Forall (fun a => 0 <= fst a < 2^32 /\ 0 <= snd a < 2^32 /\ forall i, fst a <= i <= snd a -> P i) acks).
  { intros fst0 adj g add CG (R1 & R2) AD. specialize (IH fst0 (fr_id f) adj PV PP ltac:(right; split; [ lia | split; [ lia | exact R2 ] ]) A2 F3).
    destruct (ack_list prev fst0 (fr_id f) adj r) as ((r', acks), ad). destruct IH as (C & K). split; [ cbn; unfold cores in *; now rewrite C, CG | ]. apply Forall_app. auto. }
  assert (SELF : 1 <= fr_id f <= fr_id f /\ forall i, fr_id f <= i <= fr_id f -> P i) by (split; [ lia | intros i H; replace i with (fr_id f) by lia; exact F2 ]).
  destruct ((first =? 0) && negb (prev =? 0) && (prev <? fr_id f) && (1 <? fr_id f - prev)) eqn:B1.
  { apply NEXT; [ reflexivity | | ].
    - unfold first'. destruct (first =? 0) eqn:Z0; [ exact SELF | discriminate B1 ].
    - constructor; [ cbn [fst snd]; split; [ lia | split; [ lia | intros i H; replace i with prev by lia; exact PP ] ] | constructor ]. }
  destruct (negb (last =? 0) && (last <? fr_id f) && (1 <? fr_id f - last)) eqn:B2.
  { destruct R as [ (-> & ->) | (R1 & R2 & R3) ]; [ discriminate B2 | ]. apply NEXT; [ reflexivity | exact SELF | ].
    constructor; [ | constructor ]. unfold first'. cbn [fst snd]. destruct (Z.eqb_spec first 0); [ lia | ]. split; [ lia | ]. split; [ lia | exact R3 ]. }
  assert (RNG : 1 <= first' <= fr_id f /\ forall i, first' <= i <= fr_id f -> P i).
  { unfold first'. destruct R as [ (-> & ->) | (R1 & R2 & R3) ]; [ exact SELF | ]. destruct (Z.eqb_spec first 0); [ lia | ]. split; [ lia | ]. intros i H.
    destruct (Z.eq_dec i (fr_id f)) as [ -> | N ]; [ exact F2 | ]. apply R3. lia. }
  destruct r as [ | h r ]; [ | apply NEXT; [ reflexivity | exact RNG | constructor ] ].
  destruct (fr_grace f - 1 <=? 0); (apply NEXT; [ reflexivity | exact RNG | ]); [ | constructor ].
  constructor; [ | constructor ]. cbn [fst snd]. split; [ lia | ]. split; [ lia | apply RNG ].
Qed.
Lemma send_acks_keep : forall acks s adjust, let '(s', out) := send_acks s adjust acks in
  s_id s' = s_id s /\ s_send s' = s_send s /\ s_send_counter s' = s_send_counter s /\ s_recv s' = s_recv s /\ s_recv_counter s' = s_recv_counter s /\ s_prev s' = s_prev s /\
  s_handle s' = s_handle s /\ s_pending s' = s_pending s /\ Forall (fun p => exists a w, In a acks /\ p = ack_packet s a w) out.
Proof.
  induction acks as [ | a acks IH ]; intros s adjust; cbn [send_acks]; [ repeat split; constructor | ].
  specialize (IH (regulate s adjust) adjust). destruct (send_acks (regulate s adjust) adjust acks) as (s', out). cbn [regulate set_windows s_id s_send s_send_counter s_recv s_recv_counter s_prev s_handle s_pending] in IH.
  destruct IH as (H1 & H2 & H3 & H4 & H5 & H6 & H7 & H8 & H9). repeat (split; [ assumption | ]). constructor.
  - exists a. eexists. split; [ left; reflexivity | reflexivity ].
  - eapply Forall_impl; [ | exact H9 ]. cbv beta. intros p (b & w & I & ->). exists b, w. split; [ right; exact I | reflexivity ].
Qed.
Lemma ftype_ack : forall s a w, ftype (p_ft (ack_packet s a w)) = TYPE_ACK.
Proof. intros s a w. unfold ack_packet. cbn [p_ft]. destruct (w =? 0); reflexivity. Qed.
Lemma ack_ids : forall s a w, 0 <= fst a < 2^32 -> 0 <= snd a < 2^32 -> ack_first (ack_packet s a w) = fst a /\ ack_last (ack_packet s a w) = snd a.
Proof.
  intros s a w H1 H2. unfold ack_first, ack_last, ack_packet. cbn [p_app]. split.
  - rewrite Z.div_add_l, Z.div_small by lia. lia.
  - rewrite Z.add_comm, Z.mod_add, Z.mod_small by lia. reflexivity.
Qed.

(** ** Send buffer *)
Lemma send_loop_spec : forall l now window missing sent, Forall (fun f => 1 <= fr_id f) l ->
  exists l' out c, send_loop now window missing sent l = Ok (l', out, c) /\ cores l' = cores l /\ Forall (fun f => exists g, In g l /\ core f = core g) out.
Proof.
  induction l as [ | f r IH ]; intros now window missing sent F; cbn [send_loop]; [ exists [], [], true; repeat split; constructor | ].
  inversion F as [ | ? ? F1 F2 ]; subst. destruct (fr_id f =? 0) eqn:Z0; [ lia | ].
  destruct (if fr_sent f =? 0 then _ else _) as (do_send, missing').
  assert (C : core (sent_at now f) = core f) by reflexivity.
  assert (W : forall out, Forall (fun f0 => exists g, In g r /\ core f0 = core g) out -> Forall (fun f0 => exists g, In g (f :: r) /\ core f0 = core g) out).
  { intros out H. eapply Forall_impl; [ | exact H ]. cbv beta. intros x (g & I & E). exists g. split; [ right; exact I | exact E ]. }
  destruct do_send.
  - destruct (BURST_SEND <=? sent + 1).
    + do 3 eexists. split; [ reflexivity | ]. split; [ reflexivity | ]. constructor; [ exists f; split; [ left; reflexivity | reflexivity ] | constructor ].
    + destruct (IH now window missing' (sent + 1) F2) as (l' & out & c & -> & H1 & H2). do 3 eexists. split; [ reflexivity | ]. split; [ unfold cores in *; cbn [map]; now rewrite H1, C | ].
      constructor; [ exists f; split; [ left; reflexivity | reflexivity ] | auto ].
  - destruct (IH now window missing' sent F2) as (l' & out & c & -> & H1 & H2). do 3 eexists. split; [ reflexivity | ]. split; [ unfold cores in *; cbn [map]; now rewrite H1 | auto ].
Qed.
Lemma ack_loop_spec : forall l lo now first last nag, ascending lo l -> let '(l', out) := ack_loop now first last nag l in
  ascending lo l' /\ (forall g, In g l' \/ In g out -> exists f, In f l /\ core g = core f) /\
  (forall i, In i (ids l) -> first <= i <= last \/ In i (ids l')).
Proof.
  induction l as [ | f r IH ]; intros lo now first last nag A; cbn [ack_loop].
  { split; [ exact I | ]. split; [ intros g [ [] | [] ] | intros i [] ]. }
  cbn [ascending] in A. destruct A as (A1 & A2). specialize (IH (fr_id f) now first last nag A2).
  destruct (ack_loop now first last nag r) as (r', out). destruct IH as (H1 & H2 & H3).
  destruct ((first <=? fr_id f) && (fr_id f <=? last)) eqn:B.
  { split; [ eapply ascending_weaken; [ | exact H1 ]; lia | ]. split; [ intros g G; destruct (H2 g G) as (h & I & E); exists h; split; [ right; exact I | exact E ] | ].
    intros i [ <- | I ]; [ left; lia | apply H3; exact I ]. }
  destruct (fr_id f =? nag + 1).
  - split; [ cbn [ascending sent_at fr_id]; auto | ]. split.
    + intros g G. assert (G' : g = sent_at now f \/ In g r' \/ In g out) by (destruct G as [ [ G | G ] | [ G | G ] ]; auto).
      destruct G' as [ -> | G' ]; [ exists f; split; [ left; reflexivity | reflexivity ] | ]. destruct (H2 g G') as (h & I & E). exists h. split; [ right; exact I | exact E ].
    + intros i [ <- | I ]; [ right; left; reflexivity | ]. destruct (H3 i I); [ auto | right; right; assumption ].
  - split; [ cbn [ascending fr_id]; auto | ]. split.
    + intros g G. assert (G' : g = mk_frame (fr_id f) (fr_ft f) (fr_app f) (fr_data f) (fr_sent f) (fr_unack f + 1) (fr_grace f) \/ In g r' \/ In g out) by (destruct G as [ [ G | G ] | G ]; auto).
      destruct G' as [ -> | G' ]; [ exists f; split; [ left; reflexivity | reflexivity ] | ]. destruct (H2 g G') as (h & I & E). exists h. split; [ right; exact I | exact E ].
    + intros i [ <- | I ]; [ right; left; reflexivity | ]. destruct (H3 i I); [ auto | right; right; assumption ].
Qed.

(** ** The invariant *)
Definition has_frame (s : stream) (i : Z) : Prop := i <= s_prev s \/ In i (ids (s_recv s)).
Definition packet_frame (p : packet) : frame := mk_frame (p_id p) (p_ft p) (p_app p) (p_data p) 0 0 0.
Definition data_ok (Q : list (Z * Z * Z * list Z)) (p : packet) : Prop :=
  ftype (p_ft p) = TYPE_RESET \/ ftype (p_ft p) = TYPE_ACK \/ ftype (p_ft p) = TYPE_CONTROL \/ known Q (packet_frame p).
Definition ack_ok (s : stream) (p : packet) : Prop := ftype (p_ft p) = TYPE_ACK -> forall i, ack_first p <= i <= ack_last p -> has_frame s i.
(** what [y] has got of the messages of [x] *)
Definition recv_ok (valid : list Z -> bool) (x y : endpoint) : Prop :=
  exists done todo, e_queued x = done ++ todo /\ e_delivered y = expected valid done /\
  forall s, e_stream y = Some s -> s_prev s = zlen (frames_from 1 done) /\ ascending 0 (s_recv s) /\ Forall (known (all_cores (e_queued x))) (s_recv s).
Definition dir (valid : list Z -> bool) (x y : endpoint) : Prop :=
  let Q := all_cores (e_queued x) in
  sized (e_queued x) /\ zlen Q <= FRAME_ID_LIMIT /\
  (forall s, e_stream x = Some s -> s_send_counter s = zlen Q /\ ascending 0 (s_send s) /\ Forall (known Q) (s_send s)) /\
  Forall (data_ok Q) (e_out x) /\
  recv_ok valid x y /\
  (forall s, e_stream y = Some s -> Forall (ack_ok s) (e_out y)) /\
  (forall s t, e_stream x = Some s -> e_stream y = Some t -> forall i, 1 <= i <= zlen Q -> In i (ids (s_send s)) \/ has_frame t i).

Lemma known_type : forall q f, known (all_cores q) f -> ftype (fr_ft f) = TYPE_DATA.
Proof.
  intros q f (_ & N). apply nth_error_In in N. unfold all_cores, cores in N. apply in_map_iff in N as (g & E & I). unfold core in E. injection E as _ E _ _. rewrite <- E. clear E.
  assert (M : forall fuel id app data, Forall (fun f => ftype (fr_ft f) = TYPE_DATA) (make_frames fuel id app data)).
  { induction fuel as [ | fuel IH ]; intros id app [ | a data ]; cbn [make_frames]; constructor; auto. cbn [fr_ft]. now destruct (skipn (Z.to_nat DATA_SIZE_LIMIT) (a :: data)). }
  revert g I. generalize 1. induction q as [ | (app, data) q IH ]; intros id g I; [ destruct I | ]. cbn [frames_from] in I. cbv zeta in I. apply in_app_or in I as [ I | I ]; [ | eapply IH; exact I ].
  specialize (M (length data) id app data). rewrite Forall_forall in M. now apply M.
Qed.

Lemma dir_sender : forall valid x x' y o, dir valid x y -> e_queued x' = e_queued x -> e_out x' = e_out x ++ o -> Forall (data_ok (all_cores (e_queued x))) o ->
  (forall s', e_stream x' = Some s' -> exists s, e_stream x = Some s /\ s_send_counter s' = s_send_counter s /\ ascending 0 (s_send s') /\ Forall (known (all_cores (e_queued x))) (s_send s') /\
    forall i, In i (ids (s_send s)) -> In i (ids (s_send s')) \/ forall t, e_stream y = Some t -> has_frame t i) ->
  dir valid x' y.
Proof.
  intros valid x x' y o (D1 & D2 & D3 & D4 & D5 & D6 & D7) EQ EO O H. unfold dir, recv_ok in *. rewrite EQ. split; [ exact D1 | ]. split; [ exact D2 | ].
  split. { intros s' E. destruct (H s' E) as (s & Es & C & A & K & _). destruct (D3 s Es) as (C' & _). split; [ congruence | auto ]. }
  split. { rewrite EO. apply Forall_app. auto. }
  split; [ exact D5 | ]. split; [ exact D6 | ].
  intros s' t E Et i I. destruct (H s' E) as (s & Es & _ & _ & _ & R). destruct (D7 s t Es Et i I) as [ S | S ]; [ | auto ]. destruct (R i S) as [ | R' ]; [ auto | right; auto ].
Qed.
Lemma dir_receiver : forall valid x y y' o, dir valid x y -> recv_ok valid x y' -> e_out y' = e_out y ++ o ->
  (forall s', e_stream y' = Some s' -> exists s, e_stream y = Some s /\ (forall i, has_frame s i -> has_frame s' i) /\ Forall (ack_ok s') o) ->
  dir valid x y'.
Proof.
  intros valid x y y' o (D1 & D2 & D3 & D4 & D5 & D6 & D7) R EO H. unfold dir. split; [ exact D1 | ]. split; [ exact D2 | ]. split; [ exact D3 | ]. split; [ exact D4 | ]. split; [ exact R | ].
  split.
  - intros s' E. destruct (H s' E) as (s & Es & M & K). rewrite EO. apply Forall_app. split; [ | exact K ]. eapply Forall_impl; [ | apply (D6 s Es) ]. intros p A T i I. apply M. apply A; auto.
  - intros s t' Es E i I. destruct (H t' E) as (t & Et & M & _). destruct (D7 s t Es Et i I); auto.
Qed.
(** nothing changes at the receiving side *)
Lemma dir_receiver_same : forall valid x y y' o, dir valid x y -> e_delivered y' = e_delivered y -> e_out y' = e_out y ++ o -> Forall (fun p => ftype (p_ft p) <> TYPE_ACK) o ->
  (forall s', e_stream y' = Some s' -> exists s, e_stream y = Some s /\ s_prev s' = s_prev s /\ s_recv s' = s_recv s) -> dir valid x y'.
Proof.
  intros valid x y y' o D ED EO O H. eapply dir_receiver; [ exact D | | exact EO | ].
  - destruct D as (_ & _ & _ & _ & (done & todo & Q1 & Q2 & Q3) & _). exists done, todo. split; [ exact Q1 | ]. split; [ congruence | ]. intros s' E. destruct (H s' E) as (s & Es & -> & ->). auto.
  - intros s' E. destruct (H s' E) as (s & Es & P & R). exists s. split; [ exact Es | ]. unfold has_frame. rewrite P, R. split; [ auto | ]. eapply Forall_impl; [ | exact O ]. intros p N T. contradiction.
Qed.
Lemma dir_receiver_gone : forall valid x y y' o, dir valid x y -> e_delivered y' = e_delivered y -> e_out y' = e_out y ++ o -> e_stream y' = None -> dir valid x y'.
Proof.
  intros valid x y y' o D ED EO N. eapply dir_receiver; [ exact D | | exact EO | rewrite N; discriminate ].
  destruct D as (_ & _ & _ & _ & (done & todo & Q1 & Q2 & Q3) & _). exists done, todo. split; [ exact Q1 | ]. split; [ congruence | ]. rewrite N. discriminate.
Qed.
Lemma dir_sender_gone : forall valid x x' y o, dir valid x y -> e_queued x' = e_queued x -> e_out x' = e_out x ++ o -> Forall (fun p => ftype (p_ft p) = TYPE_RESET) o -> e_stream x' = None -> dir valid x' y.
Proof. intros valid x x' y o D EQ EO O N. eapply dir_sender; eauto; [ | rewrite N; discriminate ]. eapply Forall_impl; [ | exact O ]. intros p T. left. exact T. Qed.
Lemma dir_sender_same : forall valid x x' y o, dir valid x y -> e_queued x' = e_queued x -> e_out x' = e_out x ++ o -> Forall (data_ok (all_cores (e_queued x))) o ->
  (forall s', e_stream x' = Some s' -> exists s, e_stream x = Some s /\ s_send_counter s' = s_send_counter s /\ s_send s' = s_send s) -> dir valid x' y.
Proof.
  intros valid x x' y o D EQ EO O H. eapply dir_sender; eauto. intros s' E. destruct (H s' E) as (s & Es & C & S). exists s. rewrite C, S. split; [ exact Es | ]. split; [ reflexivity | ].
  destruct D as (_ & _ & D3 & _). destruct (D3 s Es) as (_ & A & K). split; [ exact A | ]. split; [ exact K | ]. auto.
Qed.

Lemma repeat_Forall : forall (A : Type) (P : A -> Prop) a n, P a -> Forall P (repeat a n).
Proof. intros A P a n H. induction n; constructor; auto. Qed.

Lemma zlen_cores : forall l, zlen (cores l) = zlen l.
Proof. intros. unfold cores, zlen. now rewrite map_length. Qed.
Lemma ascending_join : forall a b lo mid, lo <= mid -> ascending lo a -> Forall (fun f => fr_id f <= mid) a -> ascending mid b -> ascending lo (a ++ b).
Proof.
  induction a as [ | f a IH ]; intros b lo mid L A F B; cbn [List.app]; [ eapply ascending_weaken; eauto | ]. cbn [ascending] in *. destruct A as (A1 & A2). inversion F; subst. split; [ exact A1 | ].
  eapply IH; eauto.
Qed.
Lemma make_ascending : forall fuel id app data, ascending (id - 1) (make_frames fuel id app data).
Proof. induction fuel as [ | fuel IH ]; intros id app [ | a data ]; cbn [make_frames]; try exact I. cbn [ascending fr_id]. split; [ lia | ]. specialize (IH (id + 1) app (skipn (Z.to_nat DATA_SIZE_LIMIT) (a :: data))). now replace (id + 1 - 1) with id in IH by lia. Qed.
Lemma make_count : forall fuel id app data, zlen (make_frames fuel id app data) <= zlen data / DATA_SIZE_LIMIT + 1.
Proof.
  induction fuel as [ | fuel IH ]; intros id app data; [ cbn [make_frames]; rewrite zlen_nil; pose proof (zlen_nonneg _ data); pose proof (Z.div_pos (zlen data) DATA_SIZE_LIMIT); unfold DATA_SIZE_LIMIT in *; lia | ].
  destruct data as [ | a data ]; [ cbn [make_frames]; rewrite zlen_nil; cbn; lia | ]. cbn [make_frames]. rewrite zlen_cons. set (D := a :: data).
  destruct (skipn (Z.to_nat DATA_SIZE_LIMIT) D) as [ | b r ] eqn:Q.
  - assert (make_frames fuel (id + 1) app [] = []) as -> by (destruct fuel; reflexivity). rewrite zlen_nil. pose proof (zlen_nonneg _ D). pose proof (Z.div_pos (zlen D) DATA_SIZE_LIMIT). unfold DATA_SIZE_LIMIT in *. lia.
  - specialize (IH (id + 1) app (b :: r)). pose proof (f_equal (@zlen _) (firstn_skipn (Z.to_nat DATA_SIZE_LIMIT) D)) as L. rewrite zlen_app, Q in L.
    assert (L2 : zlen (firstn (Z.to_nat DATA_SIZE_LIMIT) D) = DATA_SIZE_LIMIT).
    { unfold zlen. rewrite firstn_length_le; [ unfold DATA_SIZE_LIMIT; lia | ]. pose proof (f_equal (@length _) Q) as L3. rewrite skipn_length in L3. cbn [length] in L3. lia. }
    rewrite L2 in L. rewrite <- L. replace (DATA_SIZE_LIMIT + zlen (b :: r)) with (1 * DATA_SIZE_LIMIT + zlen (b :: r)) by lia. rewrite Z.div_add_l by (unfold DATA_SIZE_LIMIT; lia). lia.
Qed.
