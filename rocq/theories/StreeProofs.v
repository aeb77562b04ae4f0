From Coq Require Import ZArith List Bool Lia.
From Verif Require Import Common StreeModel StreeSpec.
Import ListNotations.
Open Scope Z_scope.

(** ** Paths *)
Lemma segments_nonnil : forall p, segments p <> [].
Proof. destruct p as [|c p]; cbn [segments]; [discriminate|]. destruct (c =? 47); [discriminate|]. destruct (segments p); discriminate. Qed.

Lemma until_slash_spec : forall p a r, until_slash p = (a, r) ->
  segments p = a :: tl (segments p) /\ (length r <= length p)%nat /\
  (r = [] -> p = a /\ Forall (fun c => c <> 47) a /\ tl (segments p) = []) /\
  (r <> [] -> last r 47 = last p 47 /\ levels r = filter (fun s => match s with [] => false | _ => true end) (tl (segments p))).
Proof.
  induction p as [|c p IH]; intros a r H; cbn [until_slash] in H.
  - injection H as <- <-. split; [reflexivity|]. split; [auto|]. split; [intros _; split; [reflexivity|split; [apply Forall_nil|reflexivity]]|]. intros C. contradiction C. reflexivity.
  - unfold slash in H. destruct (c =? 47) eqn:E.
    + injection H as <- <-. cbn [segments]. rewrite E. split; [reflexivity|]. split; [auto|]. split; [discriminate|].
      intros _. split; [reflexivity|]. unfold levels. cbn [segments]. rewrite E. reflexivity.
    + destruct (until_slash p) as [a0 r0] eqn:U. injection H as <- <-. destruct (IH _ _ eq_refl) as (H1 & H2 & H3 & H4).
      cbn [segments]. rewrite E. destruct (segments p) as [|s ss] eqn:G; [discriminate H1|]. cbn [tl] in *. injection H1 as ->.
      split; [reflexivity|]. split; [cbn [length]; lia|]. split.
      * intros ->. destruct (H3 eq_refl) as (-> & F & T). split; [reflexivity|]. split; [|exact T]. apply Forall_cons; [lia|exact F].
      * intros N. destruct (H4 N) as (L & T). split; [|exact T]. rewrite L. destruct p as [|d p]; [|reflexivity].
        cbn [until_slash] in U. injection U as <- <-. contradiction N. reflexivity.
Qed.

Definition ok_path (p : list Z) : bool := match p with [] => true | _ => negb (last p 47 =? 47) end.

Lemma last_not_slash : forall a : list Z, a <> [] -> Forall (fun c => c <> 47) a -> last a 47 <> 47.
Proof.
  induction a as [|c a IH]; intros N F; [contradiction N; reflexivity|]. apply Forall_cons_iff in F as (F1 & F2).
  destruct a as [|d a]; [exact F1|]. apply IH; [discriminate|exact F2].
Qed.

Lemma first_level_spec : forall p l r, first_level p = (l, r) ->
  (l = [] -> levels p = [] /\ (p <> [] -> ok_path p = false)) /\
  (l <> [] -> levels p = l :: levels r /\ (length r < length p)%nat /\ ok_path r = ok_path p).
Proof.
  induction p as [|c p IH]; intros l r H; cbn [first_level] in H.
  - injection H as <- <-. split; [|intros C; contradiction C; reflexivity]. intros _. split; [reflexivity|]. intros C. contradiction C. reflexivity.
  - unfold slash in H. destruct (c =? 47) eqn:E.
    + destruct (IH _ _ H) as (A & B). split.
      * intros N. destruct (A N) as (A1 & A2). split; [unfold levels; cbn [segments]; rewrite E; exact A1|].
        intros _. destruct p as [|d p]; [apply Z.eqb_eq in E; subst c; reflexivity|]. specialize (A2 ltac:(discriminate)). exact A2.
      * intros N. destruct (B N) as (B1 & B2 & B3). split; [unfold levels; cbn [segments]; rewrite E; exact B1|]. split; [cbn [length]; lia|].
        rewrite B3. destruct p as [|d p]; [cbn [first_level] in H; injection H as <- <-; contradiction N; reflexivity|reflexivity].
    + cbn [until_slash] in H. unfold slash in H. rewrite E in H. destruct (until_slash p) as [a0 r0] eqn:U. injection H as <- <-.
      destruct (until_slash_spec _ _ _ U) as (H1 & H2 & H3 & H4). split; [discriminate|]. intros _.
      destruct (segments p) as [|s ss] eqn:G; [discriminate H1|]. cbn [tl] in *. injection H1 as ->.
      assert (LV : levels (c :: p) = (c :: a0) :: filter (fun s => match s with [] => false | _ => true end) ss).
      { unfold levels. cbn [segments]. rewrite E, G. reflexivity. }
      rewrite LV. destruct r0 as [|d r0].
      * destruct (H3 eq_refl) as (-> & F & ->). split; [reflexivity|]. split; [cbn [length]; lia|].
        assert (last (c :: a0) 47 <> 47) by (apply last_not_slash; [discriminate|apply Forall_cons; [lia|exact F]]). unfold ok_path. lia.
      * destruct (H4 ltac:(discriminate)) as (L & T). split; [rewrite T; reflexivity|]. split; [cbn [length] in *; lia|].
        unfold ok_path. rewrite L. destruct p as [|e p]; [cbn in U; discriminate U|reflexivity].
Qed.

(** ** Insertion by levels *)
Fixpoint ins (now m : Z) (ok : bool) (ls : list (list Z)) (b : branch) : branch * Z :=
  let '(Branch name value _ children) := b in
  match ls with
  | [] => (Branch name (if ok then Some m else value) now children, if ok then OK else SOFT)
  | l :: r => match update_child (ins now m ok r) l children with
              | Some (children, ret) => (Branch name value now children, ret)
              | None => let '(c, ret) := ins now m ok r (Branch l None now []) in (Branch name value now (children ++ [c]), ret)
              end
  end.

Lemma update_child_ext : forall f g l cs, (forall c, f c = g c) -> update_child f l cs = update_child g l cs.
Proof. intros f g l cs E. induction cs as [|c cs IH]; [reflexivity|]. cbn [update_child]. rewrite E, IH. reflexivity. Qed.

Lemma insert_ins : forall fuel now m p b, (length p < fuel)%nat -> insert_branch fuel now m p b = ins now m (ok_path p) (levels p) b.
Proof.
  induction fuel as [|fuel IH]; intros now m p b H; [lia|]. destruct b as [name value seen children].
  destruct p as [|c0 p0] eqn:EP; [reflexivity|]. rewrite <- EP in *. assert (NP : p <> []) by (rewrite EP; discriminate).
  assert (insert_branch (S fuel) now m p (Branch name value seen children) =
    let '(level, rest) := first_level p in
    match level with
    | [] => (Branch name value now children, SOFT)
    | _ => match update_child (insert_branch fuel now m rest) level children with
           | Some (children, ret) => (Branch name value now children, ret)
           | None => let '(c, ret) := insert_branch fuel now m rest (Branch level None now []) in (Branch name value now (children ++ [c]), ret)
           end
    end) as -> by (rewrite EP; reflexivity).
  clear EP. destruct (first_level p) as [l r] eqn:F. destruct (first_level_spec _ _ _ F) as (A & B). destruct l as [|x l].
  - destruct (A eq_refl) as (-> & A2). rewrite (A2 NP). reflexivity.
  - destruct (B ltac:(discriminate)) as (-> & B2 & B3). cbn [ins]. rewrite <- B3.
    rewrite (update_child_ext (insert_branch fuel now m r) (ins now m (ok_path r) (levels r))) by (intros c; apply IH; lia).
    rewrite IH by lia. reflexivity.
Qed.

Lemma ins_name : forall now m ok ls b, b_name (fst (ins now m ok ls b)) = b_name b.
Proof.
  intros now m ok [|l ls] [n v s cs]; [reflexivity|]. cbn [ins]. destruct (update_child _ l cs) as [[cs' ret]|]; [reflexivity|].
  destruct (ins now m ok ls (Branch l None now [])) as [c ret]. reflexivity.
Qed.
Lemma ins_ret : forall now m ok ls b, snd (ins now m ok ls b) = if ok then OK else SOFT.
Proof.
  induction ls as [|l ls IH]; intros [n v s cs]; [reflexivity|]. cbn [ins].
  assert (U : forall cs', update_child (ins now m ok ls) l cs' = None \/ exists c, update_child (ins now m ok ls) l cs' = Some (c, if ok then OK else SOFT)).
  { induction cs' as [|c cs' IHc]; [left; reflexivity|]. cbn [update_child]. destruct (list_eq_dec Z.eq_dec (b_name c) l).
    - right. specialize (IH c). destruct (ins now m ok ls c) as [c1 ret]. cbn [snd] in IH. rewrite IH. eexists. reflexivity.
    - destruct IHc as [->|(c1 & ->)]; [left; reflexivity|right; eexists; reflexivity]. }
  destruct (U cs) as [->|(c & ->)]; [|reflexivity]. specialize (IH (Branch l None now [])). destruct (ins now m ok ls (Branch l None now [])) as [c ret]. exact IH.
Qed.

Lemma child_cons : forall n c cs, child n (c :: cs) = if list_eq_dec Z.eq_dec (b_name c) n then Some c else child n cs.
Proof. intros. unfold child. cbn [find]. destruct (list_eq_dec Z.eq_dec (b_name c) n); reflexivity. Qed.
Lemma child_name : forall n cs c, child n cs = Some c -> b_name c = n.
Proof. induction cs as [|d cs IH]; intros c H; [discriminate|]. rewrite child_cons in H. destruct (list_eq_dec Z.eq_dec (b_name d) n) as [E|E]; [injection H as <-; exact E|auto]. Qed.
Lemma child_none : forall n cs, child n cs = None -> ~ In n (map b_name cs).
Proof.
  induction cs as [|d cs IH]; intros H; [auto|]. rewrite child_cons in H. destruct (list_eq_dec Z.eq_dec (b_name d) n) as [E|E]; [discriminate|].
  cbn [map In]. intros [C|C]; [auto|]. exact (IH H C).
Qed.
Lemma child_app : forall n cs c, child n (cs ++ [c]) = match child n cs with Some d => Some d | None => if list_eq_dec Z.eq_dec (b_name c) n then Some c else None end.
Proof.
  induction cs as [|d cs IH]; intros c; [cbn [app]; rewrite child_cons; reflexivity|].
  cbn [app]. rewrite !child_cons. destruct (list_eq_dec Z.eq_dec (b_name d) n); [reflexivity|apply IH].
Qed.
Lemma update_spec : forall f l cs, (forall c, b_name (fst (f c)) = b_name c) ->
  match update_child f l cs with
  | None => child l cs = None
  | Some (cs', ret) => map b_name cs' = map b_name cs /\ exists c, child l cs = Some c /\ child l cs' = Some (fst (f c)) /\ forall n, n <> l -> child n cs' = child n cs
  end.
Proof.
  intros f l cs N. induction cs as [|c cs IH]; [reflexivity|]. cbn [update_child]. destruct (list_eq_dec Z.eq_dec (b_name c) l) as [E|E].
  - pose proof (N c) as Nc. destruct (f c) as [c1 ret] eqn:F. cbn [fst] in Nc. split; [cbn [map]; rewrite Nc; reflexivity|]. exists c. rewrite !child_cons, F.
    cbn [fst]. rewrite Nc. destruct (list_eq_dec Z.eq_dec (b_name c) l); [|contradiction]. split; [reflexivity|]. split; [reflexivity|].
    intros n D. rewrite !child_cons, Nc. destruct (list_eq_dec Z.eq_dec (b_name c) n) as [E2|E2]; [subst; contradiction|reflexivity].
  - destruct (update_child f l cs) as [[cs' ret]|].
    + destruct IH as (IH0 & c1 & H1 & H2 & H3). split; [cbn [map]; rewrite IH0; reflexivity|]. exists c1. rewrite !child_cons. destruct (list_eq_dec Z.eq_dec (b_name c) l); [contradiction|].
      split; [exact H1|]. split; [exact H2|]. intros k D. rewrite !child_cons. rewrite H3 by exact D. reflexivity.
    + rewrite child_cons. destruct (list_eq_dec Z.eq_dec (b_name c) l); [contradiction|]. exact IH.
Qed.
(** The children after an insertion *)
Lemma ins_children : forall now m ok l ls b,
  let b' := fst (ins now m ok (l :: ls) b) in
  let old := match child l (b_children b) with Some c => c | None => Branch l None now [] end in
  b_seen b' = now /\ b_value b' = b_value b /\
  child l (b_children b') = Some (fst (ins now m ok ls old)) /\
  (forall n, n <> l -> child n (b_children b') = child n (b_children b)) /\
  (NoDup (map b_name (b_children b)) -> NoDup (map b_name (b_children b'))).
Proof.
  intros now m ok l ls [n v s cs]. cbn [ins b_children].
  pose proof (update_spec (ins now m ok ls) l cs (ins_name now m ok ls)) as U.
  destruct (update_child (ins now m ok ls) l cs) as [[cs' ret]|].
  - destruct U as (U0 & c & U1 & U2 & U3). rewrite U1. cbn [fst b_seen b_value b_children]. rewrite U0.
    split; [reflexivity|]. split; [reflexivity|]. split; [exact U2|]. split; [exact U3|]. auto.
  - rewrite U. pose proof (ins_name now m ok ls (Branch l None now [])) as N. destruct (ins now m ok ls (Branch l None now [])) as [c ret].
    cbn [fst b_name b_seen b_value b_children] in *. split; [reflexivity|]. split; [reflexivity|].
    rewrite !child_app, U, N. destruct (list_eq_dec Z.eq_dec l l) as [_|C]; [|contradiction C; reflexivity]. split; [reflexivity|]. split.
    + intros k D. rewrite child_app, N. destruct (child k cs); [reflexivity|]. destruct (list_eq_dec Z.eq_dec l k); [subst; contradiction|reflexivity].
    + intros ND. rewrite map_app. cbn [map]. rewrite N. apply NoDup_Add with (a := l) (l := map b_name cs).
      * rewrite <- (app_nil_r (map b_name cs)) at 1. apply Add_app.
      * split; [exact ND|]. apply child_none. exact U.
Qed.

Lemma is_prefix_cons : forall n p l r, is_prefix (n :: p) (l :: r) = (if list_eq_dec Z.eq_dec n l then is_prefix p r else false).
Proof.
  intros. unfold is_prefix. cbn [length firstn]. destruct (level_dec (n :: p) (l :: firstn (length p) r)) as [E|E], (list_eq_dec Z.eq_dec n l) as [F|F], (level_dec p (firstn (length p) r)) as [G|G]; try reflexivity;
    try (injection E as E1 E2; contradiction); try (exfalso; apply E; rewrite F; f_equal; exact G).
Qed.
Lemma look_cons : forall b n p, look b (n :: p) = match child n (b_children b) with Some c => look c p | None => None end.
Proof. intros. unfold look. cbn [at_path]. destruct (child n (b_children b)); reflexivity. Qed.
Lemma look_new : forall l now p, look (Branch l None now []) p = match p with [] => Some (now, None) | _ => None end.
Proof. intros. destruct p; reflexivity. Qed.

Lemma ins_look : forall now m ok ls b p, look (fst (ins now m ok ls b)) p =
  if is_prefix p ls then Some (now, if level_dec p ls then if ok then Some m else message_of (look b p) else message_of (look b p)) else look b p.
Proof.
  induction ls as [|l ls IH]; intros b p.
  - destruct b as [n v s cs]. destruct p as [|k p]; [destruct ok; reflexivity|reflexivity].
  - pose proof (ins_children now m ok l ls b) as H. cbv zeta in H. set (b' := fst (ins now m ok (l :: ls) b)) in *. destruct H as (H1 & H2 & H3 & H4 & _).
    destruct p as [|k p].
    + unfold look, is_prefix. cbn [at_path length firstn]. rewrite H1, H2. destruct (level_dec [] []) as [_|C]; [|contradiction C; reflexivity].
      destruct (level_dec [] (l :: ls)); [discriminate|reflexivity].
    + rewrite is_prefix_cons, !look_cons. destruct (list_eq_dec Z.eq_dec k l) as [->|D].
      * rewrite H3, IH. assert (EQ : forall x y : option Z, (if level_dec (l :: p) (l :: ls) then x else y) = if level_dec p ls then x else y).
        { intros x y. destruct (level_dec (l :: p) (l :: ls)) as [E|E], (level_dec p ls) as [F|F]; try reflexivity; [injection E as E; contradiction|rewrite F in E; contradiction E; reflexivity]. }
        rewrite EQ. destruct (child l (b_children b)) as [c|]; [reflexivity|]. rewrite look_new.
        destruct (is_prefix p ls) eqn:P; [destruct p; reflexivity|]. destruct p; [|reflexivity].
        unfold is_prefix in P. cbn [length firstn] in P. destruct (level_dec [] []) as [_|C]; [discriminate P|contradiction C; reflexivity].
      * rewrite H4 by exact D. reflexivity.
Qed.

(** ** Names are different *)
Definition wf (b : branch) : Prop := forall p c, at_path b p = Some c -> NoDup (map b_name (b_children c)).
Lemma wf_child : forall b n c, wf b -> child n (b_children b) = Some c -> wf c.
Proof. intros b n c W H p d A. apply (W (n :: p)). cbn [at_path]. rewrite H. exact A. Qed.
Lemma wf_new : forall l v now, wf (Branch l v now []).
Proof. intros l v now [|n p] c H; [injection H as <-; apply NoDup_nil|discriminate]. Qed.
Lemma ins_wf : forall now m ok ls b, wf b -> wf (fst (ins now m ok ls b)).
Proof.
  induction ls as [|l ls IH]; intros b W.
  - destruct b as [n v s cs]. intros [|k p] c H; [injection H as <-; exact (W [] _ eq_refl)|exact (W (k :: p) c H)].
  - pose proof (ins_children now m ok l ls b) as H. cbv zeta in H. set (b' := fst (ins now m ok (l :: ls) b)) in *. destruct H as (H1 & H2 & H3 & H4 & H5).
    intros [|k p] c H; [injection H as <-; apply H5; exact (W [] _ eq_refl)|]. cbn [at_path] in H. destruct (list_eq_dec Z.eq_dec k l) as [->|D].
    + rewrite H3 in H. refine (IH _ _ p c H). destruct (child l (b_children b)) as [d|] eqn:E; [exact (wf_child _ _ _ W E)|apply wf_new].
    + rewrite H4 in H by exact D. apply (W (k :: p)). exact H.
Qed.

(** ** Removal *)
Lemma purge_eq : forall mt n v s cs, purge mt (Branch n v s cs) = Branch n v s (map (purge mt) (filter (fun c => negb (b_seen c <? mt)) cs)).
Proof.
  intros. cbn [purge]. f_equal. induction cs as [|c cs IH]; [reflexivity|]. cbn [filter]. destruct (b_seen c <? mt); cbn [negb map]; rewrite IH; reflexivity.
Qed.
Lemma purge_seen : forall mt b, b_name (purge mt b) = b_name b /\ b_seen (purge mt b) = b_seen b /\ b_value (purge mt b) = b_value b.
Proof. intros mt [n v s cs]. rewrite purge_eq. repeat split. Qed.
Lemma purge_names : forall mt cs, map b_name (map (purge mt) (filter (fun c => negb (b_seen c <? mt)) cs)) = map b_name (filter (fun c => negb (b_seen c <? mt)) cs).
Proof. intros. rewrite map_map. apply map_ext. intros c. apply purge_seen. Qed.
Lemma child_notin : forall n cs, ~ In n (map b_name cs) -> child n cs = None.
Proof.
  induction cs as [|c cs IH]; intros H; [reflexivity|]. rewrite child_cons. cbn [map In] in H. destruct (list_eq_dec Z.eq_dec (b_name c) n) as [E|E]; [contradiction H; left; exact E|].
  apply IH. intros C. apply H. right. exact C.
Qed.
Lemma filter_names : forall (f : branch -> bool) cs n, In n (map b_name (filter f cs)) -> In n (map b_name cs).
Proof. intros f cs n H. apply in_map_iff in H as (c & H1 & H2). apply filter_In in H2 as (H2 & _). apply in_map_iff. exists c. split; assumption. Qed.
Lemma child_purge : forall mt n cs, NoDup (map b_name cs) ->
  child n (map (purge mt) (filter (fun c => negb (b_seen c <? mt)) cs)) =
  match child n cs with Some c => if b_seen c <? mt then None else Some (purge mt c) | None => None end.
Proof.
  induction cs as [|c cs IH]; intros ND; [reflexivity|]. cbn [map] in ND. apply NoDup_cons_iff in ND as (ND1 & ND2). rewrite child_cons. cbn [filter].
  destruct (b_seen c <? mt) eqn:E; cbn [negb].
  - destruct (list_eq_dec Z.eq_dec (b_name c) n) as [F|F].
    + rewrite E. apply child_notin. rewrite purge_names. intros C. apply ND1. rewrite F. exact (filter_names _ _ _ C).
    + apply IH. exact ND2.
  - cbn [map]. rewrite child_cons. destruct (purge_seen mt c) as (-> & _ & _). destruct (list_eq_dec Z.eq_dec (b_name c) n) as [F|F]; [rewrite E; reflexivity|]. apply IH. exact ND2.
Qed.
Lemma nodup_filter_names : forall (f : branch -> bool) cs, NoDup (map b_name cs) -> NoDup (map b_name (filter f cs)).
Proof.
  induction cs as [|c cs IH]; intros ND; [exact ND|]. cbn [map] in ND. apply NoDup_cons_iff in ND as (ND1 & ND2). cbn [filter]. destruct (f c); [|auto].
  cbn [map]. apply NoDup_cons; [|auto]. intros C. apply ND1. exact (filter_names _ _ _ C).
Qed.
Lemma purge_wf : forall mt b, wf b -> wf (purge mt b).
Proof.
  intros mt b W p. revert b W. induction p as [|n p IH]; intros b W c H.
  - injection H as <-. destruct b as [m v s cs]. rewrite purge_eq. cbn [b_children]. rewrite purge_names. apply nodup_filter_names. exact (W [] _ eq_refl).
  - destruct b as [m v s cs]. rewrite purge_eq in H. cbn [at_path b_children] in H. rewrite child_purge in H by exact (W [] _ eq_refl).
    destruct (child n cs) as [d|] eqn:E; [|discriminate]. destruct (b_seen d <? mt); [discriminate|]. exact (IH d (wf_child (Branch m v s cs) n d W E) c H).
Qed.

Definition alive (mt : Z) (s : store) (p : list (list Z)) : bool := forallb (fun k => recent mt s (firstn k p)) (seq 0 (S (length p))).
Lemma alive_cons : forall mt b n p, alive mt (look b) (n :: p) =
  match child n (b_children b) with Some c => (mt <=? b_seen c) && alive mt (look c) p | None => false end.
Proof.
  intros. unfold alive. cbn [length]. remember (S (length p)) as len. cbn [seq forallb firstn]. cbn [recent]. cbn [andb].
  rewrite <- (seq_shift len 0). destruct (child n (b_children b)) as [c|] eqn:E.
  - subst len. cbn [seq map forallb firstn]. replace (recent mt (look b) [n]) with (mt <=? b_seen c) by (cbn [recent]; rewrite look_cons, E; reflexivity).
    cbn [recent]. rewrite <- (seq_shift (length p) 0), !map_map. cbn [andb]. f_equal.
    assert (G : forall l, forallb (fun k => recent mt (look b) (firstn k (n :: p))) (map (fun x => S (S x)) l) =
                 forallb (fun k => recent mt (look b) (n :: firstn k p)) (map S l)) by (induction l as [|x l IHl]; [reflexivity|cbn [map forallb firstn]; rewrite <- IHl; reflexivity]).
    rewrite G. clear G.
    assert (G : forall l, (forall x, In x l -> (x < length p)%nat) -> forallb (fun k => recent mt (look b) (n :: firstn k p)) (map S l) = forallb (fun k => recent mt (look c) (firstn k p)) (map S l)).
    { induction l as [|x l IHl]; intros B; [reflexivity|]. cbn [map forallb]. rewrite IHl by (intros y Hy; apply B; right; exact Hy). f_equal.
      specialize (B x (or_introl eq_refl)). destruct p as [|y p]; [cbn in B; lia|]. cbn [firstn recent]. rewrite look_cons, E. reflexivity. }
    apply G. intros x Hx. apply in_seq in Hx. lia.
  - subst len. cbn [seq map forallb firstn recent]. rewrite look_cons, E. reflexivity.
Qed.
Lemma purge_look : forall mt p b, wf b -> look (purge mt b) p = if alive mt (look b) p then look b p else None.
Proof.
  induction p as [|n p IH]; intros b W.
  - destruct b as [m v s cs]. rewrite purge_eq. reflexivity.
  - rewrite alive_cons. destruct b as [m v s cs]. rewrite purge_eq, !look_cons. cbn [b_children]. rewrite child_purge by exact (W [] _ eq_refl).
    destruct (child n cs) as [c|] eqn:E; [|reflexivity]. destruct (b_seen c <? mt) eqn:F.
    + replace (mt <=? b_seen c) with false by lia. reflexivity.
    + replace (mt <=? b_seen c) with true by lia. cbn [andb]. apply IH. exact (wf_child (Branch m v s cs) n c W E).
Qed.

(** ** Histories *)
Lemma insert_look : forall now path m b p, look (fst (insert now path m b)) p = insert_store now path m (look b) p.
Proof.
  intros. unfold insert, insert_store. destruct (zlen path <? 2) eqn:L; [reflexivity|]. rewrite insert_ins by lia. rewrite ins_look.
  replace (proper path) with (ok_path path); [reflexivity|]. unfold proper. replace (2 <=? zlen path) with true by lia. destruct path; [discriminate L|reflexivity].
Qed.
Lemma insert_wf : forall now path m b, wf b -> wf (fst (insert now path m b)).
Proof. intros. unfold insert. destruct (zlen path <? 2); [assumption|]. rewrite insert_ins by lia. apply ins_wf. assumption. Qed.
Lemma insert_ret : forall now path m b, snd (insert now path m b) = if proper path then OK else SOFT.
Proof.
  intros. unfold insert, proper. destruct (zlen path <? 2) eqn:L; [replace (2 <=? zlen path) with false by lia; reflexivity|].
  rewrite insert_ins by lia. rewrite ins_ret. replace (2 <=? zlen path) with true by lia. destruct path; [discriminate L|reflexivity].
Qed.
Definition same (s t : store) : Prop := forall p, s p = t p.
Lemma insert_store_same : forall now path m s t, same s t -> same (insert_store now path m s) (insert_store now path m t).
Proof. intros now path m s t E p. unfold insert_store. destruct (zlen path <? 2); [apply E|]. rewrite (E p). reflexivity. Qed.
Lemma purge_store_same : forall mt s t, same s t -> same (purge_store mt s) (purge_store mt t).
Proof.
  intros mt s t E p. unfold purge_store. rewrite (E p).
  assert (R : forall q, recent mt s q = recent mt t q) by (intros [|x q]; [reflexivity|cbn [recent]; rewrite (E (x :: q)); reflexivity]).
  assert (G : forall l, forallb (fun n => recent mt s (firstn n p)) l = forallb (fun n => recent mt t (firstn n p)) l) by (induction l as [|x l IHl]; [reflexivity|cbn [forallb]; rewrite R, IHl; reflexivity]).
  rewrite G. reflexivity.
Qed.
Lemma run_history : forall os b s, wf b -> same (look b) s -> same (look (run b os)) (history os s).
Proof.
  induction os as [|o os IH]; intros b s W E; [exact E|]. destruct o as [now path m|mt]; cbn [run step history].
  - apply IH; [apply insert_wf; exact W|]. intros p. rewrite insert_look. apply insert_store_same. exact E.
  - cbn [fst]. apply IH; [apply purge_wf; exact W|]. intros p. rewrite purge_look by exact W. apply (purge_store_same mt _ _ E p).
Qed.
Lemma tree_look : forall now, same (look (tree_init now)) (empty now).
Proof. intros now p. destruct p; reflexivity. Qed.
Lemma tree_holds : forall start os p, look (run (tree_init start) os) p = history os (empty start) p.
Proof. intros. apply run_history; [apply wf_new|apply tree_look]. Qed.

(** ** What is new stays *)
Lemma history_app : forall os1 os2 s, history (os1 ++ os2) s = history os2 (history os1 s).
Proof. induction os1 as [|[now path m|mt] os1 IH]; intros os2 s; [reflexivity|apply IH|apply IH]. Qed.
Lemma is_prefix_firstn : forall k ls, is_prefix (firstn k ls) ls = true.
Proof.
  intros. unfold is_prefix. destruct (level_dec (firstn k ls) (firstn (length (firstn k ls)) ls)) as [_|C]; [reflexivity|]. contradiction C.
  rewrite firstn_length. destruct (Nat.le_ge_cases k (length ls)) as [H|H].
  - rewrite Nat.min_l by exact H. reflexivity.
  - rewrite Nat.min_r by exact H. rewrite !firstn_all2 by lia. reflexivity.
Qed.
Definition fresh (now m : Z) (ls : list (list Z)) (s : store) : Prop :=
  (forall k, exists t v, s (firstn k ls) = Some (t, v) /\ now <= t) /\ message_of (s ls) = Some m.
Lemma fresh_keeps : forall os s now m ls,
  Forall (fun o => match o with Insert t path _ => now <= t /\ (levels path <> ls \/ proper path = false) | Purge mt => mt <= now end) os ->
  fresh now m ls s -> fresh now m ls (history os s).
Proof.
  induction os as [|o os IH]; intros s now m ls F H; [exact H|]. apply Forall_cons_iff in F as (F1 & F2). destruct H as (H1 & H2).
  destruct o as [t path m0|mt]; cbn [history]; (apply IH; [exact F2|]).
  - destruct F1 as (F0 & F1). unfold insert_store. destruct (zlen path <? 2); [split; assumption|]. split.
    + intros k. destruct (is_prefix (firstn k ls) (levels path)); [|apply H1]. eexists; eexists. split; [reflexivity|exact F0].
    + destruct (is_prefix ls (levels path)); [|exact H2]. cbn [message_of]. destruct (level_dec ls (levels path)) as [E|E]; [|exact H2].
      destruct F1 as [F1|F1]; [subst; contradiction F1; reflexivity|]. rewrite F1. exact H2.
  - assert (R : forall k, recent mt s (firstn k ls) = true).
    { intros k. destruct (H1 k) as (t & v & E & L). unfold recent. rewrite E. destruct (firstn k ls); [reflexivity|lia]. }
    assert (K : forall k, purge_store mt s (firstn k ls) = s (firstn k ls)).
    { intros k. unfold purge_store. replace (forallb _ _) with true; [reflexivity|]. symmetry. apply forallb_forall. intros n _. rewrite firstn_firstn. apply R. }
    split; [intros k; rewrite K; apply H1|]. rewrite <- (firstn_all ls), K, firstn_all. exact H2.
Qed.
Lemma tree_fresh : forall start os1 now path m os2,
  proper path = true ->
  Forall (fun o => match o with Insert t other _ => now <= t /\ (levels other <> levels path \/ proper other = false) | Purge mt => mt <= now end) os2 ->
  exists t, now <= t /\ look (run (tree_init start) (os1 ++ Insert now path m :: os2)) (levels path) = Some (t, Some m).
Proof.
  intros start os1 now path m os2 P F. rewrite tree_holds, history_app. cbn [history].
  assert (fresh now m (levels path) (history os2 (insert_store now path m (history os1 (empty start))))) as (A & B).
  { apply fresh_keeps; [exact F|]. unfold insert_store. rewrite P. unfold proper in P. replace (zlen path <? 2) with false by lia. split.
    - intros k. rewrite is_prefix_firstn. eexists; eexists. split; [reflexivity|lia].
    - rewrite <- (firstn_all (levels path)) at 1. rewrite is_prefix_firstn. cbn [message_of].
      destruct (level_dec (levels path) (levels path)) as [_|C]; [reflexivity|contradiction C; reflexivity]. }
  destruct (A (length (levels path))) as (t & v & E & L). rewrite firstn_all in E. exists t. split; [exact L|]. rewrite E in *. cbn [message_of] in B. rewrite B. reflexivity.
Qed.

(** ** What is old goes *)
Lemma seen_inserted : forall os s p t v, history os s p = Some (t, v) ->
  (exists path m, In (Insert t path m) os /\ is_prefix p (levels path) = true) \/ exists v0, s p = Some (t, v0).
Proof.
  induction os as [|o os IH]; intros s p t v H; [right; eexists; exact H|]. destruct o as [now path m|mt]; cbn [history] in H.
  - destruct (IH _ _ _ _ H) as [(q & m0 & A & B)|(v0 & E)]; [left; exists q, m0; split; [right; exact A|exact B]|]. unfold insert_store in E.
    destruct (zlen path <? 2); [right; eexists; exact E|]. destruct (is_prefix p (levels path)) eqn:P; [|right; eexists; exact E].
    injection E as <- _. left. exists path, m. split; [left; reflexivity|exact P].
  - destruct (IH _ _ _ _ H) as [(q & m0 & A & B)|(v0 & E)]; [left; exists q, m0; split; [right; exact A|exact B]|]. unfold purge_store in E.
    destruct (forallb _ _); [|discriminate]. right; eexists; exact E.
Qed.
Lemma tree_old : forall start os min_time p, p <> [] ->
  (forall t path m, In (Insert t path m) os -> is_prefix p (levels path) = true -> t < min_time) ->
  look (run (tree_init start) (os ++ [Purge min_time])) p = None.
Proof.
  intros start os mt p N H. rewrite tree_holds, history_app. cbn [history]. unfold purge_store. destruct (forallb _ _) eqn:F; [|reflexivity].
  rewrite forallb_forall in F. specialize (F (length p)). rewrite firstn_all in F.
  assert (R : recent mt (history os (empty start)) p = true) by (apply F; apply in_seq; lia). unfold recent in R. destruct p as [|x p]; [contradiction N; reflexivity|].
  destruct (history os (empty start) (x :: p)) as [[t v]|] eqn:E; [|discriminate R]. destruct (seen_inserted _ _ _ _ _ E) as [(q & m & A & B)|(v0 & C)]; [|discriminate C].
  specialize (H _ _ _ A B). lia.
Qed.
(** Nothing is held which was not given *)
Lemma message_given : forall os s p m, message_of (history os s p) = Some m ->
  (exists t path, In (Insert t path m) os /\ levels path = p /\ proper path = true) \/ message_of (s p) = Some m.
Proof.
  induction os as [|o os IH]; intros s p m H; [right; exact H|]. destruct o as [now path m0|mt]; cbn [history] in H.
  - destruct (IH _ _ _ H) as [(t & q & A & B)|E]; [left; exists t, q; split; [right; exact A|exact B]|]. unfold insert_store in E.
    destruct (zlen path <? 2); [right; exact E|]. destruct (is_prefix p (levels path)); [|right; exact E]. cbn [message_of] in E.
    destruct (level_dec p (levels path)) as [D|D]; [|right; exact E]. destruct (proper path) eqn:P; [|right; exact E]. injection E as ->.
    left. exists now, path. split; [left; reflexivity|]. split; [symmetry; exact D|exact P].
  - destruct (IH _ _ _ H) as [(t & q & A & B)|E]; [left; exists t, q; split; [right; exact A|exact B]|]. unfold purge_store in E.
    destruct (forallb _ _); [right; exact E|discriminate E].
Qed.
Lemma tree_given : forall start os p t m, look (run (tree_init start) os) p = Some (t, Some m) ->
  exists t0 path, In (Insert t0 path m) os /\ levels path = p /\ proper path = true.
Proof.
  intros start os p t m H. rewrite tree_holds in H. destruct (message_given os (empty start) p m) as [A|A]; [rewrite H; reflexivity|exact A|].
  destruct p; discriminate A.
Qed.

(** ** Leaves *)
Lemma branch_all : forall P : branch -> Prop, (forall n v s cs, Forall P cs -> P (Branch n v s cs)) -> forall b, P b.
Proof.
  intros P H. fix IH 1. intros [n v s cs]. apply H. induction cs as [|c cs IHc]; [apply Forall_nil|apply Forall_cons; [apply IH|exact IHc]].
Qed.
Lemma has_leaf_eq : forall name n v s cs, has_leaf name (Branch n v s cs) =
  match cs with [] => if list_eq_dec Z.eq_dec n name then true else false | _ => existsb (has_leaf name) cs end.
Proof.
  intros. cbn [has_leaf]. destruct cs as [|c0 cs]; [reflexivity|]. cbn [existsb]. destruct (has_leaf name c0); [reflexivity|]. cbn [orb].
  induction cs as [|c l IH]; [reflexivity|]. cbn [existsb]. rewrite IH. destruct (has_leaf name c); reflexivity.
Qed.
Lemma child_in : forall cs c, NoDup (map b_name cs) -> In c cs -> child (b_name c) cs = Some c.
Proof.
  induction cs as [|d cs IH]; intros c ND H; [destruct H|]. cbn [map] in ND. apply NoDup_cons_iff in ND as (ND1 & ND2). rewrite child_cons. destruct H as [->|H].
  - destruct (list_eq_dec Z.eq_dec (b_name c) (b_name c)) as [_|C]; [reflexivity|contradiction C; reflexivity].
  - destruct (list_eq_dec Z.eq_dec (b_name d) (b_name c)) as [E|E]; [|apply IH; assumption]. contradiction ND1. rewrite E. apply in_map. exact H.
Qed.
Lemma child_is_in : forall n cs c, child n cs = Some c -> In c cs.
Proof. intros n cs c H. unfold child in H. apply find_some in H. apply H. Qed.
Lemma has_leaf_path : forall name b, wf b -> has_leaf name b = true -> exists p c, at_path b p = Some c /\ b_children c = [] /\ b_name c = name.
Proof.
  intros name b. pattern b. apply branch_all. clear b. intros n v s cs F W H. rewrite has_leaf_eq in H. destruct cs as [|c0 cs].
  - exists [], (Branch n v s []). split; [reflexivity|]. split; [reflexivity|]. cbn [b_name]. destruct (list_eq_dec Z.eq_dec n name); [assumption|discriminate].
  - apply existsb_exists in H as (c & H1 & H2). rewrite Forall_forall in F. pose proof (child_in _ c (W [] _ eq_refl) H1) as C. cbn [b_children] in C.
    destruct (F c H1 (wf_child _ _ c W C) H2) as (p & d & A & B). exists (b_name c :: p), d. split; [|exact B]. cbn [at_path b_children]. rewrite C. exact A.
Qed.
Lemma path_has_leaf : forall name p b c, at_path b p = Some c -> b_children c = [] -> b_name c = name -> has_leaf name b = true.
Proof.
  induction p as [|n p IH]; intros [m v s cs] c A B N.
  - injection A as <-. cbn [b_children b_name] in *. subst cs m. rewrite has_leaf_eq. destruct (list_eq_dec Z.eq_dec name name) as [_|C]; [reflexivity|contradiction C; reflexivity].
  - cbn [at_path b_children] in A. destruct (child n cs) as [d|] eqn:E; [|discriminate]. specialize (IH _ _ A B N). apply child_is_in in E. rewrite has_leaf_eq.
    destruct cs as [|c0 cs]; [destruct E|]. apply existsb_exists. exists d. split; assumption.
Qed.
Lemma at_path_app : forall p b n, at_path b (p ++ [n]) = match at_path b p with Some c => child n (b_children c) | None => None end.
Proof.
  induction p as [|k p IH]; intros b n; cbn [app at_path]; [destruct (child n (b_children b)); reflexivity|]. destruct (child k (b_children b)); [apply IH|reflexivity].
Qed.
Lemma at_path_name : forall p b c, at_path b p = Some c -> b_name c = last p (b_name b).
Proof.
  induction p as [|n p IH]; intros b c H; [injection H as <-; reflexivity|]. cbn [at_path] in H. destruct (child n (b_children b)) as [d|] eqn:E; [|discriminate].
  rewrite (IH _ _ H), (child_name _ _ _ E). destruct p as [|x p]; [reflexivity|]. cbn [last]. clear. revert x. induction p as [|y p IHp]; intros x; [reflexivity|]. cbn [last]. apply IHp.
Qed.
Lemma no_children : forall c, b_children c = [] <-> forall n, child n (b_children c) = None.
Proof.
  intros c. split; [intros -> n; reflexivity|]. intros H. destruct (b_children c) as [|d cs]; [reflexivity|]. specialize (H (b_name d)). rewrite child_cons in H.
  destruct (list_eq_dec Z.eq_dec (b_name d) (b_name d)) as [_|C]; [discriminate H|contradiction C; reflexivity].
Qed.
Lemma run_wf : forall os b, wf b -> wf (run b os).
Proof. induction os as [|[now path m|mt] os IH]; intros b W; [exact W| |]; cbn [run step fst]; apply IH; [apply insert_wf|apply purge_wf]; exact W. Qed.
Lemma run_name : forall os b, b_name (run b os) = b_name b.
Proof.
  induction os as [|[now path m|mt] os IH]; intros b; [reflexivity| |]; cbn [run step fst]; rewrite IH.
  - unfold insert. destruct (zlen path <? 2); [reflexivity|]. rewrite insert_ins by lia. apply ins_name.
  - apply purge_seen.
Qed.
Lemma tree_leaf : forall start os name,
  has_leaf name (run (tree_init start) os) = true <->
  exists p, last p [114; 114; 114] = name /\ history os (empty start) p <> None /\ forall n, history os (empty start) (p ++ [n]) = None.
Proof.
  intros start os name. pose proof (run_wf os (tree_init start) (wf_new _ _ _)) as W. pose proof (run_name os (tree_init start)) as N.
  pose proof (tree_holds start os) as T. set (b := run (tree_init start) os) in *. cbn [tree_init b_name] in N.
  assert (L : forall p c, at_path b p = Some c -> (b_children c = [] <-> forall n, history os (empty start) (p ++ [n]) = None)).
  { intros p c A. rewrite no_children. split; intros H n; specialize (H n).
    - rewrite <- T. unfold look. rewrite at_path_app, A, H. reflexivity.
    - rewrite <- T in H. unfold look in H. rewrite at_path_app, A in H. destruct (child n (b_children c)); [discriminate|reflexivity]. }
  split.
  - intros H. destruct (has_leaf_path name b W H) as (p & c & A & B & C). exists p. rewrite <- N, <- (at_path_name _ _ _ A). split; [exact C|]. split; [|apply (L p c A); exact B].
    rewrite <- T. unfold look. rewrite A. discriminate.
  - intros (p & E & H1 & H2). rewrite <- T in H1. unfold look in H1. destruct (at_path b p) as [c|] eqn:A; [|contradiction H1; reflexivity].
    apply (path_has_leaf name p b c A); [apply (L p c A); exact H2|]. rewrite (at_path_name _ _ _ A), N. exact E.
Qed.
(** A tree with one message *)
Lemma tree_one : forall start now path m name, proper path = true ->
  has_leaf name (run (tree_init start) [Insert now path m]) = true <-> last (levels path) [114; 114; 114] = name.
Proof.
  intros start now path m name P. rewrite tree_leaf. cbn [history]. unfold insert_store. rewrite P. unfold proper in P. replace (zlen path <? 2) with false by lia. split.
  - intros (p & E & H1 & H2). destruct (is_prefix p (levels path)) eqn:I.
    + rewrite <- E. f_equal. unfold is_prefix in I. destruct (level_dec p (firstn (length p) (levels path))) as [F|F]; [|discriminate].
      destruct (skipn (length p) (levels path)) as [|x r] eqn:K; [rewrite <- (firstn_skipn (length p) (levels path)), K, app_nil_r; symmetry; exact F|].
      specialize (H2 x). assert (is_prefix (p ++ [x]) (levels path) = true) as G; [|rewrite G in H2; discriminate H2].
      replace (p ++ [x]) with (firstn (S (length p)) (levels path)); [apply is_prefix_firstn|].
      rewrite <- (firstn_skipn (length p) (levels path)), K, <- F. rewrite firstn_app, firstn_all2 by lia. replace (S (length p) - length p)%nat with 1%nat by lia. reflexivity.
    + destruct p; [discriminate I|]. contradiction H1. reflexivity.
  - intros E. exists (levels path). split; [exact E|]. split.
    + rewrite <- (firstn_all (levels path)) at 1. rewrite is_prefix_firstn. discriminate.
    + intros n. replace (is_prefix (levels path ++ [n]) (levels path)) with false; [destruct (levels path); reflexivity|].
      symmetry. unfold is_prefix. destruct (level_dec _ _) as [C|_]; [|reflexivity]. apply (f_equal (@length _)) in C. rewrite firstn_length, app_length in C. cbn [length] in C. lia.
Qed.
