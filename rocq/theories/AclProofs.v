(** Proofs about the reader of access lists. *)
From Coq Require Import Strings.String.
From Coq Require Import ZArith List Bool Lia.
From Verif Require Import Common ParseModel TopicModel AclModel.
From Verif Require Import ParseSpec ParseProofs TopicSpec TopicProofs PwdSpec PwdProofs AclSpec.
Import ListNotations.
Open Scope Z_scope.

(** * Lines passed over *)
Definition rest_at (t : text) (p : pos) : list Z := from t (p_pos p).
Definition within (t : text) (p : pos) : Prop := 0 <= p_pos p <= t_size t.

Lemma nl_newline c : nl c = is_newline c.
Proof. unfold nl, is_newline. apply orb_comm. Qed.

(** Line numbers are only counted up. *)
Definition shifted (k : Z) (a b : res pos) : Prop :=
  match a, b with
  | Ok p, Ok q => p_pos q = p_pos p /\ p_line q = p_line p + k
  | Ub, Ub => True
  | Bug, Bug => True
  | _, _ => False
  end.
Lemma ignore_loop_shift fuel t cond k : forall c p q, p_pos q = p_pos p -> p_line q = p_line p + k ->
  shifted k (ignore_loop fuel t cond c p) (ignore_loop fuel t cond c q).
Proof.
  induction fuel as [ | fuel IH ]; intros c p q P L; cbn [ignore_loop]; [ split; assumption | ]. rewrite P.
  destruct (cond c && (p_pos p <? t_size t)); [ | split; assumption ].
  destruct (if p_pos p + 1 <? t_size t then rd t (p_pos p + 1) else Ok 0) as [ next | | ]; cbn [bind]; [ | exact Logic.I | exact Logic.I ].
  assert (STEP : forall p1 q1, p_pos q1 = p_pos p1 -> p_line q1 = p_line p1 + k ->
    shifted k (if eof t p1 then Ok p1 else bind (rd t (p_pos p1)) (fun c => ignore_loop fuel t cond c p1))
              (if eof t q1 then Ok q1 else bind (rd t (p_pos q1)) (fun c => ignore_loop fuel t cond c q1))).
  { intros p1 q1 P1 L1. unfold eof. rewrite P1. destruct (t_size t <=? p_pos p1); [ split; assumption | ].
    destruct (rd t (p_pos p1)); cbn [bind]; [ now apply IH | exact Logic.I | exact Logic.I ]. }
  destruct ((c =? 13) && (next =? 10)); [ | destruct (c =? 10); [ | destruct (c =? 13) ] ];
    apply STEP; cbn [set_pos p_pos p_line]; lia.
Qed.

(** Octets with a line end in them which are all blanks or line ends, up to something else. *)
Lemma lines_mono d i n : 0 <= i -> lines_before d i <= lines_before d (i + Z.of_nat n).
Proof.
  intros H. induction n as [ | n IH ]; [ rewrite Z.add_0_r; lia | ].
  replace (i + Z.of_nat (S n)) with (i + Z.of_nat n + 1) by lia. rewrite lines_step by lia. destruct (ends_line d _); lia.
Qed.
Lemma lines_le d i j : 0 <= i <= j -> lines_before d i <= lines_before d j.
Proof. intros H. replace j with (i + Z.of_nat (Z.to_nat (j - i))) by lia. apply lines_mono. lia. Qed.
Lemma lines_newline t i : 0 <= i <= t_size t ->
  let l := leading is_spaces (from t i) in existsb is_newline l = true -> lines_before (t_data t) i < lines_before (t_data t) (i + zlen l).
Proof.
  intros Hi l. subst l. remember (Z.to_nat (t_size t - i)) as n eqn:Hn. revert i Hi Hn.
  induction n as [ | n IH ]; intros i Hi Hn E.
  { rewrite from_end in E by lia. discriminate. }
  rewrite from_cons in * by lia. set (c := nth (Z.to_nat i) (t_data t) 0) in *. cbn [leading] in *.
  destruct (is_spaces c) eqn:SP; [ | discriminate ]. cbn [existsb] in E. rewrite zlen_cons.
  pose proof (leading_len is_spaces (from t (i + 1))) as LL.
  pose proof (lines_step (t_data t) i ltac:(lia)) as LS.
  destruct (ends_line (t_data t) (Z.to_nat i)) eqn:EL.
  - pose proof (lines_le (t_data t) (i + 1) (i + (1 + zlen (leading is_spaces (from t (i + 1))))) ltac:(lia)). lia.
  - assert (E' : existsb is_newline (leading is_spaces (from t (i + 1))) = true).
    { destruct (is_newline c) eqn:N; [ | exact E ]. unfold ends_line in EL. fold c in EL. unfold is_newline in N.
      assert (N2 : c = 13 /\ nth (S (Z.to_nat i)) (t_data t) 0 = 10) by (destruct (c =? 10) eqn:?, (c =? 13) eqn:?, (nth (S (Z.to_nat i)) (t_data t) 0 =? 10) eqn:?; cbn in *; try discriminate; lia).
      destruct N2 as (_ & N2). replace (S (Z.to_nat i)) with (Z.to_nat (i + 1)) in N2 by lia.
      assert (i + 1 < t_size t). { destruct (Z.lt_ge_cases (i + 1) (t_size t)); [ assumption | ]. rewrite nth_overflow in N2 by (unfold t_size, zlen in *; lia). discriminate. }
      rewrite from_cons by lia. rewrite N2. reflexivity. }
    replace (i + (1 + zlen (leading is_spaces (from t (i + 1))))) with (i + 1 + zlen (leading is_spaces (from t (i + 1)))) by lia.
    pose proof (IH (i + 1) ltac:(lia) ltac:(lia) E'). lia.
Qed.

(** What skipping blanks and line ends does. *)
Lemma skip_spaces t p : within t p ->
  exists p', ignore_spaces t p = Ok p' /\ within t p' /\ p_pos p' = p_pos p + zlen (leading is_spaces (rest_at t p)) /\
    rest_at t p = leading is_spaces (rest_at t p) ++ rest_at t p' /\
    (p_line p =? p_line p') = negb (existsb is_newline (leading is_spaces (rest_at t p))).
Proof.
  intros W. unfold within, rest_at in *. set (q := mk_pos (p_pos p) (1 + lines_before (t_data t) (p_pos p)) (line_begin (t_data t) (p_pos p))).
  assert (LQ : located t q) by (unfold located, q; cbn; auto).
  destruct (ignore_ok t is_spaces q eq_refl W) as (q' & Q & PQ & L'). specialize (L' LQ). cbn [p_pos q] in PQ.
  assert (SH : shifted (p_line p - p_line q) (ignore_spaces t q) (ignore_spaces t p)).
  { unfold ignore_spaces, ignore. cbn [p_pos q]. destruct (t_size t <=? p_pos p); [ split; cbn; lia | ].
    destruct (rd t (p_pos p)); cbn [bind]; [ | exact Logic.I | exact Logic.I ]. apply ignore_loop_shift; cbn; lia. }
  unfold ignore_spaces in *. rewrite Q in SH. destruct (ignore t is_spaces p) as [ p' | | ]; try contradiction. destruct SH as (S1 & S2).
  exists p'. split; [ reflexivity | ]. pose proof (leading_end t is_spaces (p_pos p) W). rewrite S1, PQ. split; [ lia | ]. split; [ reflexivity | ].
  set (l := leading is_spaces (from t (p_pos p))) in *. split.
  - pose proof (leading_split is_spaces (from t (p_pos p))) as SP. fold l in SP. rewrite SP at 1. f_equal. symmetry. apply from_app; [ lia | exact SP ].
  - destruct LQ as (_ & LQ & _). destruct L' as (_ & L' & _). rewrite PQ in L'. rewrite S2. 
    destruct (existsb is_newline l) eqn:E; cbn [negb].
    + pose proof (lines_newline t (p_pos p) W E) as X. fold l in X. cbn [p_line q] in *. lia.
    + assert (NL : located t (set_pos q (p_pos q + zlen l))).
      { apply (located_plain t q l (from t (p_pos p + zlen l))); [ unfold located, q; cbn; auto | | ].
        - cbn [p_pos q]. pose proof (leading_split is_spaces (from t (p_pos p))) as SP. fold l in SP. rewrite SP at 1. f_equal. symmetry. apply from_app; [ lia | exact SP ].
        - apply Forall_forall. intros c C. destruct (is_newline c) eqn:N; [ | reflexivity ]. exfalso. assert (existsb is_newline l = true) by (apply existsb_exists; eauto). congruence. }
      destruct NL as (_ & NL & _). cbn [set_pos p_pos p_line q] in *. lia.
Qed.

(** * A position inside a line: what is left of the line, and what comes after it *)
Definition line_end (d : list Z) : Prop := match d with [] => True | c :: _ => is_newline c = true end.
Definition at_line (t : text) (p : pos) (l d : list Z) : Prop :=
  within t p /\ rest_at t p = l ++ d /\ Forall (fun c => is_newline c = false) l /\ line_end d.

Lemma at_eof t p : within t p -> eof t p = match rest_at t p with [] => true | _ => false end.
Proof.
  intros W. unfold within in W. unfold eof, rest_at. destruct (Z.lt_ge_cases (p_pos p) (t_size t)).
  - rewrite from_cons by lia. lia.
  - rewrite from_end by lia. lia.
Qed.
Lemma at_move t p l r d n : at_line t p (l ++ r) d -> n = zlen l -> at_line t (set_pos p (p_pos p + n)) r d.
Proof.
  intros (W & E & F & D) ->. unfold at_line, within, rest_at in *. cbn [p_pos set_pos]. rewrite <- app_assoc in E.
  assert (E' : from t (p_pos p + zlen l) = r ++ d) by (apply from_app; [ lia | exact E ]).
  assert (LN : t_size t - p_pos p = zlen l + (zlen r + zlen d)) by (rewrite <- (from_len t (p_pos p) W), E, !zlen_app; reflexivity).
  pose proof (zlen_nonneg _ l). pose proof (zlen_nonneg _ r). pose proof (zlen_nonneg _ d). apply Forall_app in F. split; [ lia | ]. split; [ exact E' | ]. split; [ apply F | exact D ].
Qed.

Lemma strip_split l : exists b, l = b ++ strip l /\ blanks b.
Proof.
  induction l as [ | c l IH ]; cbn [strip]; [ exists []; split; [ reflexivity | constructor ] | ].
  destruct (blank c) eqn:B; [ | exists []; split; [ reflexivity | constructor ] ]. destruct IH as (b & E & F). exists (c :: b). rewrite E at 1. split; [ reflexivity | now constructor ].
Qed.
Lemma strip_head l : match strip l with c :: _ => blank c = false | [] => True end.
Proof. induction l as [ | c l IH ]; cbn [strip]; [ exact Logic.I | ]. destruct (blank c) eqn:B; [ exact IH | exact B ]. Qed.
Lemma strip_same l : match l with c :: _ => blank c = false | [] => True end -> strip l = l.
Proof. destruct l as [ | c l ]; cbn [strip]; [ reflexivity | ]. now intros ->. Qed.
Lemma strip_blanks b l : blanks b -> strip (b ++ l) = strip l.
Proof. induction 1 as [ | c b B _ IH ]; [ reflexivity | ]. cbn [app strip]. now rewrite B. Qed.
Lemma strip_len l b : l = b ++ strip l -> (b = [] <-> strip l = l).
Proof.
  intros E. split; [ intros ->; symmetry; exact E | ]. intros H. rewrite H in E. apply (f_equal (@length Z)) in E. rewrite app_length in E. destruct b; [ reflexivity | cbn in E; lia ].
Qed.
Lemma leading_spaces_line b r : blanks b -> match r with c :: _ => is_spaces c = false | [] => True end -> leading is_spaces (b ++ r) = b.
Proof.
  intros B R. induction B as [ | c b BC B IH ]; cbn [app leading].
  - destruct r; [ reflexivity | ]. cbn [leading]. now rewrite R.
  - rewrite is_spaces_def. rewrite BC. cbn [orb]. now rewrite IH.
Qed.
Lemma blanks_no_newline b : blanks b -> existsb is_newline b = false.
Proof.
  induction 1 as [ | c b B _ IH ]; [ reflexivity | ]. cbn [existsb]. rewrite IH, orb_false_r. unfold blank, is_newline in *. lia.
Qed.
Lemma line_nonspace c l : Forall (fun c => is_newline c = false) (c :: l) -> blank c = false -> is_spaces c = false.
Proof. intros F B. inversion F; subst. rewrite is_spaces_def, B. now rewrite nl_newline. Qed.

(** Skipping, from inside a line. *)
Lemma skip_line t p l d : at_line t p l d ->
  exists p', ignore_spaces t p = Ok p' /\ within t p' /\ p_pos p <= p_pos p' /\
    (strip l <> [] -> at_line t p' (strip l) d /\ p_line p = p_line p' /\ (p_pos p = p_pos p' <-> strip l = l)) /\
    (strip l = [] -> lines (rest_at t p') = lines d /\ (d = [] -> rest_at t p' = [] /\ p_line p = p_line p' /\ (p_pos p = p_pos p' <-> l = [])) /\
       (d <> [] -> p_line p <> p_line p' /\ p_pos p <> p_pos p')).
Proof.
  intros (W & E & F & D). destruct (skip_spaces t p W) as (p' & R & W' & P & SP & LN). exists p'. split; [ exact R | ]. split; [ exact W' | ].
  pose proof (zlen_nonneg _ (leading is_spaces (rest_at t p))). split; [ lia | ].
  destruct (strip_split l) as (b & LB & B). pose proof (strip_len l b LB) as SL. split.
  - intros NE. assert (LD : leading is_spaces (rest_at t p) = b).
    { rewrite E, LB, <- app_assoc. apply leading_spaces_line; [ exact B | ]. pose proof (strip_head l) as SH. destruct (strip l) as [ | c r ] eqn:ES; [ congruence | ]. cbn [app].
      apply (line_nonspace c r); [ | exact SH ]. rewrite LB in F. apply Forall_app in F. apply F. }
    rewrite LD in *. split; [ | split ].
    + split; [ exact W' | ]. split; [ | split; [ rewrite LB in F; apply Forall_app in F; apply F | exact D ] ].
      rewrite E, LB, <- app_assoc in SP. now apply app_inv_head in SP.
    + rewrite blanks_no_newline in LN by exact B. cbn in LN. lia.
    + rewrite <- SL, P. split; [ intros X; destruct b; [ reflexivity | rewrite zlen_cons in X; pose proof (zlen_nonneg _ b); lia ] | intros ->; rewrite zlen_nil; lia ].
  - intros NE. rewrite NE, app_nil_r in LB. subst b. assert (BS : Forall (fun c => is_spaces c = true) l).
    { eapply Forall_impl; [ | exact B ]. intros c C. cbn in C. rewrite is_spaces_def, C. reflexivity. }
    split; [ | split ].
    + rewrite <- (lines_spaces l d BS), <- E, SP. symmetry. apply lines_spaces, leading_all.
    + intros ->. rewrite app_nil_r in E. assert (LD : leading is_spaces (rest_at t p) = l).
      { rewrite E. rewrite <- (app_nil_r l) at 1. apply leading_spaces_line; [ exact B | exact Logic.I ]. }
      rewrite LD in *. split; [ rewrite E in SP; rewrite <- (app_nil_r l) in SP at 1; now apply app_inv_head in SP | ]. split.
      * rewrite blanks_no_newline in LN by exact B. cbn in LN. lia.
      * rewrite P. split; [ intros X; destruct l; [ reflexivity | rewrite zlen_cons in X; pose proof (zlen_nonneg _ l); lia ] | intros ->; rewrite zlen_nil; lia ].
    + intros ND. destruct d as [ | c d ]; [ congruence | ]. cbn [line_end] in D.
      assert (LD : exists r, leading is_spaces (rest_at t p) = l ++ c :: r).
      { exists (leading is_spaces d). rewrite E. clear - BS D. induction BS as [ | x l X _ IH ]; cbn [app leading].
        - rewrite is_spaces_def, nl_newline, D, orb_true_r. reflexivity.
        - rewrite X, IH. reflexivity. }
      destruct LD as (r & LD). rewrite LD in *. rewrite existsb_app in LN. cbn [existsb] in LN. rewrite D in LN. cbn [orb] in LN. rewrite orb_true_r in LN. cbn in LN.
      split; [ lia | ]. rewrite P, zlen_app, zlen_cons. pose proof (zlen_nonneg _ l). pose proof (zlen_nonneg _ r). lia.
Qed.

(** * Keywords *)
Fixpoint cut_word (w l : list Z) : option (list Z) :=
  match w with
  | [] => Some l
  | x :: w' => match l with c :: r => if lower x =? lower c then cut_word w' r else None | [] => None end
  end.
Lemma cut_word_iff w : forall l r, cut_word w l = Some r <-> exists k, l = k ++ r /\ map lower k = map lower w.
Proof.
  induction w as [ | x w IH ]; intros l r; cbn [cut_word map].
  - split; [ intros H; injection H as <-; now exists [] | ]. intros (k & -> & K). destruct k; [ reflexivity | discriminate ].
  - destruct l as [ | c l ]; [ split; [ discriminate | intros (k & L & K); destruct k; discriminate ] | ]. destruct (lower x =? lower c) eqn:E.
    + rewrite IH. split; intros (k & L & K).
      * exists (c :: k). cbn [app map]. rewrite L, K. split; [ reflexivity | f_equal; lia ].
      * destruct k as [ | y k ]; [ discriminate | ]. injection L as -> ->. cbn [map] in K. injection K as K1 K2. now exists k.
    + split; [ discriminate | ]. intros (k & L & K). destruct k as [ | y k ]; [ discriminate | ]. injection L as -> ->. cbn [map] in K. injection K as K1 K2. lia.
Qed.
Lemma lower_newline a b : lower a = lower b -> is_newline b = true -> is_newline a = true.
Proof. unfold lower, is_newline. destruct ((65 <=? a) && (a <=? 90)) eqn:?, ((65 <=? b) && (b <=? 90)) eqn:?; lia. Qed.
Lemma cut_word_line w : forall l d, line_end d -> Forall (fun c => is_newline c = false) w ->
  cut_word w (l ++ d) = match cut_word w l with Some r => Some (r ++ d) | None => None end.
Proof.
  induction w as [ | x w IH ]; intros l d D F; cbn [cut_word]; [ reflexivity | ]. inversion_clear F as [ | ? ? F1 F2 ]. destruct l as [ | c l ]; cbn [app].
  - destruct d as [ | c d ]; [ reflexivity | ]. cbn in D. destruct (lower x =? lower c) eqn:E; [ | reflexivity ]. apply Z.eqb_eq in E. pose proof (lower_newline _ _ E D). congruence.
  - destruct (lower x =? lower c); [ now apply IH | reflexivity ].
Qed.
Lemma word_line t w p l d : at_line t p l d -> Forall (fun c => is_newline c = false) w -> ~ In 0 w ->
  match cut_word w l with
  | Some r => exists p', match_word_case t w p = Ok (true, p') /\ at_line t p' r d /\ p_pos p' = p_pos p + zlen w
  | None => match_word_case t w p = Ok (false, p)
  end.
Proof.
  intros A N Z0. pose proof A as (W & E & F & D). pose proof (cut_word_line w l d D N) as CW.
  destruct (word_case_exact t w p W Z0) as [ ((k & r & K & LK) & R) | (NO & R) ].
  - unfold rest_at in E. assert (C : cut_word w (l ++ d) = Some r) by (apply cut_word_iff; exists k; split; [ congruence | exact LK ]).
    rewrite C in CW. destruct (cut_word w l) as [ r' | ] eqn:CL; [ | discriminate ]. exists (set_pos p (p_pos p + zlen w)). split; [ exact R | ]. split; [ | reflexivity ].
    apply cut_word_iff in CL. destruct CL as (k' & -> & LK'). apply (at_move t p k'); [ exact A | ].
    apply (f_equal (@length Z)) in LK'. rewrite !map_length in LK'. unfold zlen. lia.
  - destruct (cut_word w l) as [ r' | ] eqn:CL; [ | exact R ]. exfalso. apply cut_word_iff in CL. destruct CL as (k' & -> & LK').
    apply (NO k' (r' ++ d) LK'). unfold rest_at in E. rewrite E, <- app_assoc. reflexivity.
Qed.

(** * Parts of statements *)
Definition cut_action (l : list Z) : option (Z * list Z) :=
  match cut_word (str_bytes "DENY") l with
  | Some r => Some (0, r)
  | None => match cut_word (str_bytes "READ") l with
            | Some r => Some (1, r)
            | None => match cut_word (str_bytes "WRITE") l with Some r => Some (2, r) | None => None end
            end
  end.
Definition end_action (l : list Z) : option Z :=
  match cut_action (strip l) with Some (a, r) => if nonempty (strip r) then None else Some a | None => None end.
(** An action after at least one blank, up to the end of the line. *)
Definition value (l : list Z) : option Z := match l with c :: _ => if blank c then end_action l else None | [] => None end.
Definition letter (c : Z) : bool := match_char MATCH_TAG c.
Definition user_value (l : list Z) : option (list Z * Z) :=
  let l := strip l in
  let name := leading letter l in
  if nonempty name then match value (skipn (length name) l) with Some a => Some (name, a) | None => None end else None.
Definition topic_value (l : list Z) : option (list Z) :=
  match l with c :: _ => if blank c then (if nonempty (strip l) then Some (strip l) else None) else None | [] => None end.

Ltac plain := repeat constructor.
Ltac nozero := cbn; intuition discriminate.

Lemma action_line t p l d : at_line t p l d ->
  match cut_action l with
  | Some (a, r) => exists p', parse_action t p = Ok (Some a, p') /\ at_line t p' r d
  | None => parse_action t p = Ok (None, p)
  end.
Proof.
  intros A. unfold cut_action, parse_action.
  pose proof (word_line t (str_bytes "DENY") p l d A ltac:(plain) ltac:(nozero)) as W1. destruct (cut_word (str_bytes "DENY") l).
  { destruct W1 as (p' & -> & A' & _). cbn [bind]. now exists p'. }
  rewrite W1. cbn [bind].
  pose proof (word_line t (str_bytes "READ") p l d A ltac:(plain) ltac:(nozero)) as W2. destruct (cut_word (str_bytes "READ") l).
  { destruct W2 as (p' & -> & A' & _). cbn [bind]. now exists p'. }
  rewrite W2. cbn [bind].
  pose proof (word_line t (str_bytes "WRITE") p l d A ltac:(plain) ltac:(nozero)) as W3. destruct (cut_word (str_bytes "WRITE") l).
  { destruct W3 as (p' & -> & A' & _). cbn [bind]. now exists p'. }
  rewrite W3. reflexivity.
Qed.

Lemma strip_head_same l : strip l = l <-> match l with c :: _ => blank c = false | [] => True end.
Proof. split; [ intros <-; apply strip_head | apply strip_same ]. Qed.

(** The blank before a value: true only if there is one, and then the position is after it. *)
Lemma space_line t p l d : at_line t p l d ->
  exists b p', require_space t p = Ok (b, p') /\ within t p' /\
    (b = true -> at_line t p' (strip l) d /\ match l with c :: _ => blank c = true | [] => False end) /\
    (b = false -> match l with c :: _ => blank c = true -> strip l = [] | [] => True end).
Proof.
  intros A. destruct (skip_line t p l d A) as (p' & R & W' & LE & H1 & H2). unfold require_space. rewrite R. cbn [bind].
  eexists. exists p'. split; [ reflexivity | ]. split; [ exact W' | ].
  assert (BL : strip l <> l -> match l with c :: _ => blank c = true | [] => False end).
  { destruct l as [ | c r ]; [ intros X; exfalso; apply X; reflexivity | ]. cbn [strip]. destruct (blank c); [ reflexivity | intros X; exfalso; apply X; reflexivity ]. }
  destruct (strip l) as [ | c0 r0 ] eqn:ES.
  - destruct (H2 eq_refl) as (_ & HD & HN). destruct d as [ | x d ].
    + destruct (HD eq_refl) as (RE & LN & PS). rewrite LN, Z.eqb_refl. cbn [negb]. rewrite orb_false_r. split.
      * intros N. assert (NE : l <> []) by (intros X; apply PS in X; lia).
        split; [ split; [ exact W' | split; [ exact RE | split; [ constructor | exact Logic.I ] ] ] | ]. apply BL. congruence.
      * intros N. assert (l = []) as -> by (apply PS; lia). exact Logic.I.
    + destruct (HN ltac:(discriminate)) as (LN & PS). replace (p_line p =? p_line p') with false by lia. cbn [negb]. rewrite orb_true_r. cbn [negb]. split; [ discriminate | ].
      intros _. destruct l; [ exact Logic.I | reflexivity ].
  - destruct (H1 ltac:(discriminate)) as (A' & LN & PS). rewrite LN, Z.eqb_refl. cbn [negb]. rewrite orb_false_r. split.
    + intros N. split; [ exact A' | ]. apply BL. intros X. apply PS in X. lia.
    + intros N. assert (X : c0 :: r0 = l) by (apply PS; lia). rewrite <- X. pose proof (strip_head l) as SH. rewrite ES in SH. congruence.
Qed.

(** The end of a line. *)
Lemma end_line t p l d : at_line t p l d ->
  exists p', require_newline_or_eof t p = Ok (negb (nonempty (strip l)), p') /\ within t p' /\ p_pos p <= p_pos p' /\
    (strip l = [] -> lines (rest_at t p') = lines d).
Proof.
  intros A. destruct (skip_line t p l d A) as (p' & R & W' & LE & H1 & H2). unfold require_newline_or_eof. rewrite R. cbn [bind].
  exists p'. rewrite at_eof by exact W'. destruct (strip l) as [ | c0 r0 ] eqn:ES; cbn [nonempty negb].
  - destruct (H2 eq_refl) as (LI & HD & HN). split; [ | auto ].
    destruct d as [ | x d ]; [ destruct (HD eq_refl) as (-> & _); reflexivity | ]. destruct (HN ltac:(discriminate)) as (LN & PS).
    destruct (rest_at t p'); [ reflexivity | ]. replace (p_pos p =? p_pos p') with false by lia. replace (p_line p =? p_line p') with false by lia. reflexivity.
  - destruct (H1 ltac:(discriminate)) as ((_ & -> & _) & LN & _). cbn [app]. rewrite LN, Z.eqb_refl. cbn [negb]. split; [ | split; [ exact W' | split; [ exact LE | discriminate ] ] ].
    destruct (p_pos p =? p_pos p'); reflexivity.
Qed.

Lemma action_nil : cut_action [] = None.
Proof. reflexivity. Qed.

Lemma at_pos t p l d : at_line t p l d -> p_pos p = t_size t - zlen l - zlen d.
Proof. intros (W & E & _). pose proof (from_len t (p_pos p) W) as L. unfold rest_at in E. rewrite E, zlen_app in L. lia. Qed.
Lemma strip_le l : zlen (strip l) <= zlen l.
Proof. induction l as [ | c l IH ]; cbn [strip]; [ lia | ]. destruct (blank c); rewrite ?zlen_cons; lia. Qed.
Lemma cut_le w l r : cut_word w l = Some r -> zlen l = zlen w + zlen r.
Proof. intros H. apply cut_word_iff in H. destruct H as (k & -> & K). apply (f_equal (@length Z)) in K. rewrite !map_length in K. rewrite zlen_app. unfold zlen. lia. Qed.
Lemma cut_action_le l a r : cut_action l = Some (a, r) -> zlen r < zlen l.
Proof.
  unfold cut_action. destruct (cut_word (str_bytes "DENY") l) eqn:E1; [ | destruct (cut_word (str_bytes "READ") l) eqn:E2; [ | destruct (cut_word (str_bytes "WRITE") l) eqn:E3; [ | discriminate ] ] ];
    intros H; injection H as _ <-.
  - apply cut_le in E1. rewrite E1. change (zlen (str_bytes "DENY")) with 4. lia.
  - apply cut_le in E2. rewrite E2. change (zlen (str_bytes "READ")) with 4. lia.
  - apply cut_le in E3. rewrite E3. change (zlen (str_bytes "WRITE")) with 5. lia.
Qed.

Lemma value_line t p l d : at_line t p l d ->
  exists p', action_value t p = Ok (value l, p') /\ within t p' /\ (value l <> None -> p_pos p < p_pos p' /\ lines (rest_at t p') = lines d).
Proof.
  intros A. destruct (space_line t p l d A) as (b & p1 & R1 & W1 & T1 & F1). unfold action_value. rewrite R1. cbn [bind]. destruct b; cbn [negb].
  - destruct (T1 eq_refl) as (A1 & BL). pose proof (action_line t p1 (strip l) d A1) as AL.
    assert (V : value l = end_action l) by (unfold value; destruct l; [ contradiction | now rewrite BL ]). rewrite V. unfold end_action.
    destruct (cut_action (strip l)) as [ (a & r) | ] eqn:CA.
    + destruct AL as (p2 & -> & A2). cbn [bind]. destruct (end_line t p2 r d A2) as (p3 & -> & W3 & LE3 & L3). cbn [bind]. exists p3. split; [ destruct (nonempty (strip r)); reflexivity | ]. split; [ exact W3 | ].
      intros NE. destruct (strip r) eqn:SR; [ | cbn in NE; congruence ]. apply at_pos in A, A2. apply cut_action_le in CA. pose proof (strip_le l). split; [ lia | auto ].
    + rewrite AL. cbn [bind]. exists p1. split; [ reflexivity | ]. split; [ exact W1 | congruence ].
  - exists p1. assert (V : value l = None).
    { specialize (F1 eq_refl). unfold value. destruct l as [ | c l ]; [ reflexivity | ]. destruct (blank c) eqn:B; [ | reflexivity ]. unfold end_action. rewrite (F1 eq_refl). reflexivity. }
    rewrite V. split; [ reflexivity | ]. split; [ exact W1 | congruence ].
Qed.

Lemma letter_line c : letter c = true -> is_newline c = false /\ c <> 0 /\ blank c = false.
Proof.
  unfold letter, match_char. change (Z.testbit MATCH_TAG F_SPACE_TAB) with false. change (Z.testbit MATCH_TAG F_COMMAS) with false. change (Z.testbit MATCH_TAG F_LETTERS) with true.
  change (Z.testbit MATCH_TAG F_HEX) with false. change (Z.testbit MATCH_TAG F_NUMBERS) with true. change (Z.testbit MATCH_TAG F_NEWLINES) with false. change (Z.testbit MATCH_TAG F_NULL) with false.
  change (Z.testbit MATCH_TAG F_DASH) with false. change (Z.testbit MATCH_TAG F_CONTROL) with false. cbn [andb orb]. unfold is_letter, is_number, is_newline, blank. lia.
Qed.
Lemma letter_user c : letter c = true <-> user_char c.
Proof.
  unfold letter, match_char. change (Z.testbit MATCH_TAG F_SPACE_TAB) with false. change (Z.testbit MATCH_TAG F_COMMAS) with false. change (Z.testbit MATCH_TAG F_LETTERS) with true.
  change (Z.testbit MATCH_TAG F_HEX) with false. change (Z.testbit MATCH_TAG F_NUMBERS) with true. change (Z.testbit MATCH_TAG F_NEWLINES) with false. change (Z.testbit MATCH_TAG F_NULL) with false.
  change (Z.testbit MATCH_TAG F_DASH) with false. change (Z.testbit MATCH_TAG F_CONTROL) with false. cbn [andb orb]. unfold is_letter, is_number, user_char. lia.
Qed.
Lemma leading_line f l d : line_end d -> (forall c, f c = true -> is_newline c = false) -> leading f (l ++ d) = leading f l.
Proof.
  intros D H. induction l as [ | c l IH ]; cbn [app leading].
  - destruct d as [ | c d ]; [ reflexivity | ]. cbn in *. destruct (f c) eqn:E; [ apply H in E; congruence | reflexivity ].
  - destruct (f c); [ now rewrite IH | reflexivity ].
Qed.

Lemma tab_line t p l d : at_line t p l d -> exists p', ignore_space_and_tab t p = Ok p' /\ at_line t p' (strip l) d.
Proof.
  intros A. pose proof A as (W & E & F & D). destruct (ignore_ok t is_space_tab p eq_refl W) as (p' & R & P & _). exists p'. split; [ exact R | ].
  destruct (strip_split l) as (b & LB & B).
  assert (LD : leading is_space_tab (from t (p_pos p)) = b).
  { unfold rest_at in E. rewrite E, leading_line; [ | exact D | unfold is_space_tab, is_newline; intros; lia ]. rewrite LB. pose proof (strip_head l) as SH. clear - B SH.
    induction B as [ | c b BC _ IH ]; cbn [app leading].
    - destruct (strip l); [ reflexivity | ]. cbn [leading]. change (is_space_tab z) with (blank z). now rewrite SH.
    - change (is_space_tab c) with (blank c). rewrite BC. now rewrite IH. }
  rewrite LD in P. assert (X : p_pos p' = p_pos (set_pos p (p_pos p + zlen b))) by exact P.
  rewrite LB in A. pose proof (at_move t p b (strip l) d (zlen b) A eq_refl) as (W2 & E2 & F2 & D2).
  unfold at_line, within, rest_at in *. rewrite X. auto.
Qed.

Lemma user_line t p l d : t_nul t = true -> at_line t p l d ->
  exists p', keyword_user t p = Ok (user_value l, p') /\ (user_value l <> None -> within t p' /\ p_pos p < p_pos p' /\ lines (rest_at t p') = lines d).
Proof.
  intros NU A. unfold keyword_user. destruct (tab_line t p l d A) as (p1 & -> & A1). cbn [bind]. unfold user_value. cbv zeta.
  assert (PL : p_pos p <= p_pos p1). { apply at_pos in A, A1. pose proof (strip_le l). lia. }
  set (l1 := strip l) in *. pose proof A1 as (W1 & E1 & F1 & D1). rewrite match_letters_ok by exact W1. cbv zeta. cbn [bind].
  assert (LD : leading (match_char MATCH_TAG) (from t (p_pos p1)) = leading letter l1).
  { unfold rest_at in E1. rewrite E1. apply leading_line; [ exact D1 | ]. intros c C. now apply letter_line in C. }
  rewrite LD. set (name := leading letter l1) in *. pose proof (leading_split letter l1) as SP. fold name in SP.
  destruct name as [ | c0 n0 ] eqn:EN; cbn [nonempty].
  { rewrite zlen_nil. replace (p_pos p1 + 0 - 1 <? p_pos p1) with true by lia. eexists. split; [ reflexivity | congruence ]. }
  rewrite <- EN in *. assert (NP : 0 < zlen name) by (rewrite EN, zlen_cons; pose proof (zlen_nonneg _ n0); lia).
  replace (p_pos p1 + zlen name - 1 <? p_pos p1) with false by lia. unfold name_length. replace (p_pos p1 + zlen name - 1 <? p_pos p1) with false by lia. cbn [bind].
  unfold str_extract. replace (p_pos p1 + zlen name - 1 - p_pos p1 + 1) with (zlen name) by lia. replace (zlen name =? 0) with false by lia.
  rewrite <- LD. rewrite copy_leading by exact W1. rewrite LD. cbn [bind].
  assert (CS : cstr name = name). { apply cstr_id. intros X. pose proof (leading_all letter l1) as FA. fold name in FA. rewrite Forall_forall in FA. apply FA in X. discriminate. }
  rewrite CS. assert (A2 : at_line t (set_pos p1 (p_pos p1 + zlen name)) (skipn (length name) l1) d).
  { apply (at_move t p1 name); [ rewrite <- SP; exact A1 | reflexivity ]. }
  destruct (value_line t _ _ _ A2) as (p3 & -> & W3 & L3). cbn [bind]. destruct (value (skipn (length name) l1)) as [ a | ].
  - replace (zlen name =? 0) with false by lia. exists p3. split; [ reflexivity | ]. intros _. destruct (L3 ltac:(discriminate)) as (P3 & Q3). cbn [set_pos p_pos] in P3. split; [ exact W3 | ]. split; [ lia | exact Q3 ].
  - exists p3. split; [ reflexivity | congruence ].
Qed.

(** * Between statements *)
Definition content (d : list Z) : list (list Z) := filter (fun l => negb (comment l)) (lines d).

Lemma cut_line d : exists l r, d = l ++ r /\ l = leading (fun c => negb (is_newline c)) d /\ Forall (fun c => is_newline c = false) l /\ line_end r.
Proof.
  exists (leading (fun c => negb (is_newline c)) d), (skipn (length (leading (fun c => negb (is_newline c)) d)) d). split; [ apply leading_split | ]. split; [ reflexivity | ]. split.
  - eapply Forall_impl; [ | apply leading_all ]. cbn. intros c C. now destruct (is_newline c).
  - induction d as [ | c d IH ]; cbn [leading]; [ exact Logic.I | ]. destruct (is_newline c) eqn:N; cbn [negb]; [ exact N | exact IH ].
Qed.
Lemma leading_head f l : match skipn (length (leading f l)) l with c :: _ => f c = false | [] => True end.
Proof. induction l as [ | c l IH ]; cbn [leading]; [ exact Logic.I | ]. destruct (f c) eqn:E; [ exact IH | exact E ]. Qed.
Lemma no_nl l : Forall (fun c => is_newline c = false) l -> Forall (fun c => nl c = false) l.
Proof. apply Forall_impl. intros c. now rewrite nl_newline. Qed.
Lemma end_nl d : line_end d -> match d with [] => True | x :: _ => nl x = true end.
Proof. destruct d; [ auto | ]. cbn. now rewrite nl_newline. Qed.

Lemma gap_ok t : t_nul t = true -> forall fuel p, within t p -> (Z.to_nat (t_size t - p_pos p) < fuel)%nat ->
  exists p', gap fuel t p = Ok p' /\ within t p' /\ p_pos p <= p_pos p' /\ content (rest_at t p') = content (rest_at t p) /\
    match rest_at t p' with c :: _ => is_spaces c = false /\ c <> 35 | [] => True end.
Proof.
  intros NU. induction fuel as [ | fuel IH ]; intros p W F; [ lia | ]. cbn [gap].
  destruct (skip_spaces t p W) as (p1 & -> & W1 & P1 & SP1 & _). cbn [bind].
  assert (HD : match rest_at t p1 with c :: _ => is_spaces c = false | [] => True end).
  { pose proof (leading_head is_spaces (rest_at t p)) as LH. pose proof (leading_split is_spaces (rest_at t p)) as LS. rewrite SP1 in LS at 1. apply app_inv_head in LS. now rewrite <- LS in LH. }
  assert (LE1 : p_pos p <= p_pos p1) by (pose proof (zlen_nonneg _ (leading is_spaces (rest_at t p))); lia).
  assert (C1 : content (rest_at t p1) = content (rest_at t p)) by (unfold content; rewrite SP1; rewrite lines_spaces by apply leading_all; reflexivity).
  rewrite at_eof by exact W1. destruct (rest_at t p1) as [ | c r ] eqn:E1.
  { exists p1. split; [ reflexivity | ]. rewrite E1. auto. }
  assert (LT : p_pos p1 < t_size t). { unfold within in W1. destruct (Z.lt_ge_cases (p_pos p1) (t_size t)); [ assumption | ]. unfold rest_at in E1. rewrite from_end in E1 by lia. discriminate. }
  unfold within in W1. rewrite rd_in by lia. cbn [bind]. assert (CC : nth (Z.to_nat (p_pos p1)) (t_data t) 0 = c) by (unfold rest_at in E1; rewrite from_cons in E1 by lia; now injection E1).
  rewrite CC. destruct (c =? 35) eqn:H35.
  - apply Z.eqb_eq in H35. subst c. rewrite H35 in *. destruct (comment_ok t p1 ltac:(lia) NU) as (p2 & -> & P2 & _). cbn [bind]. cbv zeta in P2.
    fold (rest_at t p1) in P2. rewrite E1 in P2. destruct (cut_line (35 :: r)) as (l & r' & LR & LL & FL & DR). rewrite <- LL in P2.
    assert (E2 : from t (p_pos p1 + zlen l) = r') by (apply from_app; [ lia | unfold rest_at in E1; rewrite E1; exact LR ]). rewrite E2 in P2.
    assert (LL1 : 0 < zlen l) by (rewrite LL; cbn [leading is_newline negb]; cbn; rewrite ?zlen_cons; pose proof (zlen_nonneg _ (leading (fun c => negb (is_newline c)) r)); unfold zlen in *; cbn; lia).
    assert (W2 : within t p2).
    { unfold within. pose proof (leading_len is_spaces r'). assert (zlen (from t (p_pos p1 + zlen l)) = zlen r') by now rewrite E2.
      assert (p_pos p1 + zlen l <= t_size t). { assert (X : zlen (35 :: r) = t_size t - p_pos p1) by (rewrite <- E1; apply from_len; lia). rewrite LR, zlen_app in X. pose proof (zlen_nonneg _ r'). lia. }
      rewrite from_len in * by lia. lia. }
    assert (E3 : rest_at t p2 = skipn (length (leading is_spaces r')) r').
    { unfold rest_at. rewrite P2. apply from_app; [ lia | ]. rewrite E2. apply leading_split. }
    destruct (IH p2 W2) as (p3 & R3 & W3 & LE3 & C3 & H3). { pose proof (zlen_nonneg _ (leading is_spaces r')). unfold within in W2. lia. }
    exists p3. split; [ exact R3 | ]. split; [ exact W3 | ]. split; [ pose proof (zlen_nonneg _ (leading is_spaces r')); lia | ]. split; [ | exact H3 ].
    rewrite C3, <- C1, E3. unfold content. rewrite LR. 
    replace (lines (skipn (length (leading is_spaces r')) r')) with (lines r') by (rewrite (leading_split is_spaces r') at 1; apply lines_spaces, leading_all).
    destruct l as [ | x l ]; [ rewrite zlen_nil in LL1; lia | ]. assert (x = 35) as -> by (cbn in LL; now injection LL).
    rewrite lines_line; [ reflexivity | reflexivity | now apply no_nl | now apply end_nl ].
  - apply Z.eqb_neq in H35. destruct (skip_spaces t p1 W1) as (p2 & -> & W2 & P2 & SP2 & _). rewrite E1 in P2, SP2. cbn [leading] in P2, SP2. rewrite HD in P2, SP2. rewrite zlen_nil in P2. cbn [app] in SP2.
    exists p2. split; [ reflexivity | ]. rewrite <- SP2. split; [ exact W2 | ]. split; [ lia | ]. rewrite <- C1. auto.
Qed.
