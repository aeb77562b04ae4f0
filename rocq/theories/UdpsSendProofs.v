(** Lemmas about the choice of the frames which are sent in a round of UDP-streams. *)
From Coq Require Import ZArith List Bool Lia.
From Verif Require Import Common MsgModel ReadModel UdpsModel UdpsSpec.
Import ListNotations.
Open Scope Z_scope.

Lemma again_iff now f : fr_sent f <> 0 -> ((RESEND_INTERVAL <? u64 (now - fr_sent f)) || (UNACKNOWLEDGED_LIMIT <=? fr_unack f) = true <-> again now f).
Proof. intros N. unfold again, RESEND_INTERVAL, UNACKNOWLEDGED_LIMIT. rewrite orb_true_iff, Z.ltb_lt, Z.leb_le. tauto. Qed.
Lemma waited_fun now l n m : waited now l n -> waited now l m -> n = m.
Proof. intros H. revert m. induction H; intros m M; inversion M; subst; try contradiction; [ reflexivity | auto | f_equal; auto ]. Qed.
Lemma waited_snoc now l n f : waited now l n -> (again now f -> waited now (l ++ [f]) n) /\ (~ again now f -> waited now (l ++ [f]) (n + 1)).
Proof.
  induction 1 as [|g l n A W IH|g l n A W IH]; cbn [app].
  - split; intros B; [ apply w_again | apply (w_wait now f [] 0) ]; try exact B; constructor.
  - split; intros B; apply w_again; try exact A; now apply IH.
  - split; intros B; apply w_wait; try exact A; now apply IH.
Qed.

(** What holds of the loop begun with the frames [pre] done already *)
Definition chosen (now window : Z) (pre l out : list frame) (complete : bool) : Prop :=
  (forall g, In g out -> exists a f b, l = a ++ f :: b /\ g = sent_at now f /\ may_send now window (pre ++ a) f) /\
  (complete = true -> forall a f b, l = a ++ f :: b -> may_send now window (pre ++ a) f -> In (sent_at now f) out).
Lemma chosen_skip now window pre f l out complete : ~ may_send now window pre f -> chosen now window (pre ++ [f]) l out complete -> chosen now window pre (f :: l) out complete.
Proof.
  intros N (A & B). split.
  - intros g I. destruct (A g I) as (a & h & b & -> & E & M). exists (f :: a), h, b. rewrite <- app_assoc in M. auto.
  - intros C [|x a] h b E M; injection E as <- E; [ rewrite app_nil_r in M; contradiction | ]. apply (B C a h b E). rewrite <- app_assoc. exact M.
Qed.
Lemma chosen_take now window pre f l out complete : may_send now window pre f -> chosen now window (pre ++ [f]) l out complete -> chosen now window pre (f :: l) (sent_at now f :: out) complete.
Proof.
  intros M0 (A & B). split.
  - intros g [<-|I]; [ exists [], f, l; rewrite app_nil_r; auto | ]. destruct (A g I) as (a & h & b & -> & E & M). exists (f :: a), h, b. rewrite <- app_assoc in M. auto.
  - intros C [|x a] h b E M; injection E as <- E; [ now left | ]. right. apply (B C a h b E). rewrite <- app_assoc. exact M.
Qed.
Lemma send_loop_chosen now window l : forall pre missing sent l' out complete, waited now pre missing -> 0 <= sent < 100 ->
  send_loop now window missing sent l = Ok (l', out, complete) ->
  chosen now window pre l out complete /\ sent + zlen out <= 100 /\ (complete = false -> sent + zlen out = 100).
Proof.
  induction l as [|f l IH]; intros pre missing sent l' out complete W S E.
  - cbn [send_loop] in E. injection E as <- <- <-. split; [ | rewrite zlen_nil; split; [ lia | discriminate ] ]. split; [ intros g [] | intros _ [|x a] g b X; discriminate ].
  - cbn [send_loop] in E. destruct (fr_id f =? 0); [ discriminate | ].
    pose proof (waited_snoc now pre missing f W) as [W1 W2].
    assert (NM : ~ again now f -> ~ may_send now window pre f -> forall sent' l2 o2 c2, sent' = sent -> send_loop now window (missing + 1) sent' l = Ok (l2, o2, c2) -> chosen now window pre (f :: l) o2 c2 /\ sent + zlen o2 <= 100 /\ (c2 = false -> sent + zlen o2 = 100)).
    { intros A M sent' l2 o2 c2 -> X. destruct (IH (pre ++ [f]) (missing + 1) sent l2 o2 c2 (W2 A) S X) as (C & D). split; [ now apply chosen_skip | exact D ]. }
    assert (TK : forall miss l2 o2 c2, may_send now window pre f -> waited now (pre ++ [f]) miss ->
              (if BURST_SEND <=? sent + 1 then Ok (sent_at now f :: l, [sent_at now f], false)
               else match send_loop now window miss (sent + 1) l with Ok (r', o, c) => Ok (sent_at now f :: r', sent_at now f :: o, c) | Bug => Bug | Ub => Ub end) = Ok (l2, o2, c2) ->
              chosen now window pre (f :: l) o2 c2 /\ sent + zlen o2 <= 100 /\ (c2 = false -> sent + zlen o2 = 100)).
    { intros miss l2 o2 c2 M Wm X. unfold BURST_SEND in X. destruct (Z.leb_spec 100 (sent + 1)).
      - injection X as <- <- <-. change (zlen [sent_at now f]) with 1. split; [ | lia ]. split; [ | discriminate ]. intros g [<-|[]]. exists [], f, l. rewrite app_nil_r. auto.
      - destruct (send_loop now window miss (sent + 1) l) as [[[r' o] c]| |] eqn:Y; try discriminate X. injection X as <- <- <-.
        destruct (IH (pre ++ [f]) miss (sent + 1) r' o c Wm ltac:(lia) Y) as (C & D & F). split; [ now apply chosen_take | ]. rewrite zlen_cons. split; [ lia | intros Z; specialize (F Z); lia ]. }
    destruct (Z.eqb_spec (fr_sent f) 0) as [Z|Z].
    + assert (NA : ~ again now f) by (intros [X _]; contradiction). cbv beta iota zeta in E. destruct (Z.ltb_spec (missing + 1) window) as [L|L].
      * apply (TK (missing + 1) l' out complete); [ right; split; [ exact Z | exists missing; auto ] | now apply W2 | exact E ].
      * destruct (send_loop now window (missing + 1) sent l) as [[[r' o] c]| |] eqn:Y; try discriminate E. injection E as <- <- <-.
        apply (NM NA) with (sent' := sent) (l2 := r'); [ | reflexivity | exact Y ]. intros [M|(_ & n & Wn & Ln)]; [ contradiction | ]. rewrite (waited_fun now pre n missing Wn W) in Ln. lia.
    + pose proof (again_iff now f Z) as AI. destruct ((RESEND_INTERVAL <? u64 (now - fr_sent f)) || (UNACKNOWLEDGED_LIMIT <=? fr_unack f)) eqn:D; cbv beta iota zeta in E.
      * assert (A : again now f) by (now apply AI). apply (TK missing l' out complete); [ now left | now apply W1 | exact E ].
      * assert (A : ~ again now f) by (intros X; apply AI in X; discriminate). destruct (send_loop now window (missing + 1) sent l) as [[[r' o] c]| |] eqn:Y; try discriminate E. injection E as <- <- <-.
        apply (NM A) with (sent' := sent) (l2 := r'); [ | reflexivity | exact Y ]. intros [M|(X & _)]; contradiction.
Qed.
Lemma packet_same s now f : frame_packet s (sent_at now f) = frame_packet s f. Proof. reflexivity. Qed.
Lemma event_send_chosen now s s' out : s_pending s = true -> event_send now s = Ok (s', out) ->
  (forall p, In p out -> exists a f b, s_send s = a ++ f :: b /\ p = frame_packet s f /\ may_send now (s_from_remote s) a f) /\
  (s_pending s' = false -> forall a f b, s_send s = a ++ f :: b -> may_send now (s_from_remote s) a f -> In (frame_packet s f) out) /\
  zlen out <= 100 /\ (s_pending s' = true -> zlen out = 100).
Proof.
  intros P E. unfold event_send in E. destruct (send_loop now (s_from_remote s) 0 0 (s_send s)) as [[[l o] c]| |] eqn:X; try discriminate E. injection E as E <-.
  destruct (send_loop_chosen now (s_from_remote s) (s_send s) [] 0 0 l o c (w_nil now) ltac:(lia) X) as ((A & B) & L & F). assert (Zl : zlen (map (frame_packet s) o) = zlen o) by (unfold zlen; now rewrite map_length). rewrite Zl.
  split; [ | split; [ | split; [ lia | ] ] ].
  - intros p I. apply in_map_iff in I. destruct I as (g & <- & I). destruct (A g I) as (a & f & b & E1 & -> & M). exists a, f, b. auto.
  - intros N a f b E1 M. destruct c; [ | rewrite <- E in N; cbn [set_send s_pending] in N; congruence ]. apply (in_map (frame_packet s) o (sent_at now f)). apply (B eq_refl a f b E1 M).
  - intros N. destruct c; [ rewrite <- E in N; discriminate N | ]. specialize (F eq_refl). lia.
Qed.
