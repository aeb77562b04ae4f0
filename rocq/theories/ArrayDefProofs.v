From Coq Require Import Strings.String.
From Coq Require Import ZArith List Bool Lia.
From Verif Require Import Common Dec TypeModel ParseModel ParseSpec ParseProofs ConfigSpec ConfigProofs CondModel CondSpec CondProofs CondEval CondProps ArrayTreeModel ArrayTreeSpec ArrayDefModel ArrayDefSpec.
Import ListNotations.
Open Scope Z_scope.
Notation len := Datatypes.length.
Notation bind := ParseModel.bind.
Notation number := CondSpec.number.
Notation name_char := CondSpec.name_char.

(** ** Characters *)
Lemma is_tag_iff c : is_tag c = true <-> name_char c.
Proof. unfold is_tag, is_letter, is_number, name_char, digit. lia. Qed.
Lemma is_number_iff c : is_number c = true <-> digit c.
Proof. unfold is_number, digit. lia. Qed.
Lemma blanks_iff c : is_spaces c = true <-> c = 32 \/ c = 9 \/ c = 13 \/ c = 10.
Proof. unfold is_spaces, is_space_tab, is_newline. lia. Qed.

Lemma span_app f a b : Forall (fun c => f c = true) a -> match b with [] => True | c :: _ => f c = false end -> span f (a ++ b) = (a, b).
Proof.
  intros HF HB. induction HF as [|c a Hc HF IH]; cbn [app].
  - destruct b; cbn [span]; [reflexivity|]. rewrite HB. reflexivity.
  - cbn [span]. rewrite Hc, IH. reflexivity.
Qed.
Lemma span_spec f s : forall a b, span f s = (a, b) -> s = a ++ b /\ Forall (fun c => f c = true) a /\ match b with [] => True | c :: _ => f c = false end.
Proof.
  induction s as [|c s IH]; intros a b; cbn [span].
  - intros E. injection E as <- <-. split; [reflexivity|]. split; [constructor|exact I].
  - destruct (f c) eqn:Ec.
    + destruct (span f s) as [a' b']. intros E. injection E as <- <-. destruct (IH a' b' eq_refl) as (-> & HF & HB). split; [reflexivity|]. split; [constructor; assumption|exact HB].
    + intros E. injection E as <- <-. split; [reflexivity|]. split; [constructor|exact Ec].
Qed.

(** ** One value: what is written is read *)
Definition softly (s : list Z) : Prop := match s with [] => True | c :: _ => is_tag c = false /\ c <> 123 end.
Lemma name_tag n : is_name n -> Forall (fun c => is_tag c = true) n.
Proof. intros [_ H]. apply (Forall_impl _ (P := name_char)); [|exact H]. intros c. apply is_tag_iff. Qed.
Lemma size_tag_ok n r : is_name n -> size_tag (n ++ 125 :: r) = inl (n, r).
Proof.
  intros Hn. unfold size_tag. rewrite (span_app is_tag n (125 :: r)); [|apply name_tag; exact Hn|reflexivity]. destruct n; [destruct Hn as [[] _]; reflexivity|reflexivity].
Qed.
Lemma digits_ok s n r : decimal s n -> match r with [] => True | c :: _ => is_number c = false end -> n < 2^64 -> unsigned_integer_10 (s ++ r) = Some (n, r).
Proof.
  intros (HN & HF & ->) Hr Hlt. unfold unsigned_integer_10.
  assert (HD : forall d, digit d -> is_white d = false /\ d <> 45 /\ d <> 43) by (intros d; unfold digit, is_white; lia).
  assert (E1 : span is_white (s ++ r) = ([], s ++ r)).
  { apply (span_app is_white [] (s ++ r)); [constructor|]. destruct s as [|c s]; [congruence|]. inversion HF as [|? ? Hc _]. apply HD. exact Hc. }
  rewrite E1. cbn [snd].
  assert (E2 : match s ++ r with 45 :: q => (true, q) | 43 :: q => (false, q) | _ => (false, s ++ r) end = (false, s ++ r)).
  { destruct s as [|c s]; [congruence|]. inversion HF as [|? ? Hc _]. destruct (HD c Hc) as (_ & H1 & H2). cbn [app]. clear -H1 H2.
    destruct c as [|c|c]; try reflexivity. destruct (Pos.eq_dec c 45) as [->|]; [congruence|]. destruct (Pos.eq_dec c 43) as [->|]; [congruence|].
    repeat (destruct c as [c|c|]; try reflexivity; try congruence). }
  rewrite E2. rewrite (span_app is_number s r); [|apply (Forall_impl _ (P := digit)); [intros c; apply is_number_iff|exact HF]|exact Hr].
  destruct (dec_number s HF) as (E3 & H0 & _). destruct s as [|c s]; [congruence|]. change (fold_left (fun a d => a * 10 + (d - 48)) (c :: s) 0) with (dec_val (c :: s)).
  rewrite E3 in *. replace (2^64 <=? dec_val (c :: s)) with false by lia. reflexivity.
Qed.

Lemma count_head max n ref s : count_text max n ref s -> s = [] \/ exists r, s = 64 :: r.
Proof. intros [|s' n' _ _ _|n' _ _]; eauto. Qed.
Lemma tag_head tag s : tag_text tag s -> s = [] \/ exists r, s = 35 :: r.
Proof. intros [|n _]; eauto. Qed.
Lemma tail_head max n ref s3 tag s4 : count_text max n ref s3 -> tag_text tag s4 -> s3 ++ s4 = [] \/ (exists r, s3 ++ s4 = 64 :: r) \/ exists r, s3 ++ s4 = 35 :: r.
Proof.
  intros H3 H4. destruct (count_head _ _ _ _ H3) as [->|(r & ->)]; [|cbn [app]; eauto]. cbn [app]. destruct (tag_head _ _ H4) as [->|(r & ->)]; eauto.
Qed.
Lemma tag_ok tag s : tag_text tag s -> tag_part s = inl tag.
Proof.
  intros [|n Hn]; [reflexivity|]. unfold tag_part. replace (forallb is_tag n) with true; [destruct n; [destruct Hn as [[] _]; reflexivity|reflexivity]|].
  symmetry. rewrite forallb_forall. pose proof (name_tag n Hn) as H. rewrite Forall_forall in H. exact H.
Qed.
Lemma count_ok ty n ref s tag s4 : count_text (type_max_length ty) n ref s -> tag_text tag s4 -> count_part ty (s ++ s4) = inl (n, ref, s4).
Proof.
  intros H H4. pose proof (tag_head _ _ H4) as HT. destruct H as [|s n HD Hn HM|n HM Hn].
  - cbn [app]. destruct HT as [->|(r & ->)]; reflexivity.
  - cbn [app]. unfold count_part. assert (Hne : exists c r, s = c :: r /\ c <> 123).
    { destruct HD as (H1 & H2 & _). destruct s as [|c r]; [congruence|]. inversion H2 as [|? ? Hc _]. exists c, r. split; [reflexivity|]. unfold digit in Hc. lia. }
    destruct Hne as (c & r & E & Hc). destruct (s ++ s4) as [|c' r'] eqn:E'; [subst s; discriminate|]. assert (c' = c) by (subst s; cbn [app] in E'; congruence). subst c'.
    replace (c =? 123) with false by lia. rewrite <- E'. rewrite (digits_ok s n s4 HD); [|destruct HT as [->|(q & ->)]; [exact I|reflexivity]|lia].
    replace (n =? 0) with false by lia. unfold LENGTH_MAX. replace (2^32 - 1 <? n) with false by lia.
    destruct (type_max_length ty =? 0) eqn:EM; [replace (1 <? n) with false by lia; reflexivity|]. rewrite andb_false_r. reflexivity.
  - unfold count_part. cbn [app]. rewrite <- app_assoc. cbn [app]. replace (123 =? 123) with true by reflexivity. cbv iota. rewrite size_tag_ok by exact Hn.
    replace (1 =? 0) with false by reflexivity. change (LENGTH_MAX <? 1) with false. cbv iota. cbn [orb]. replace (type_max_length ty =? 0) with false by lia. rewrite andb_false_r. reflexivity.
Qed.
Lemma allows_iff ty : allows_sign ty = true <-> In ty [TYPE_BE; TYPE_H; TYPE_LE].
Proof. unfold allows_sign. cbn [In]. lia. Qed.
Lemma sign_max ty : allows_sign ty = true -> type_max_length ty = 8.
Proof. unfold allows_sign, type_max_length. intros H. replace ((ty =? TYPE_LE) || (ty =? TYPE_BE) || (ty =? TYPE_H)) with true by lia. reflexivity. Qed.

Lemma size_ok ty n nref s1 flags s2 rest : 0 <= type_max_length ty < 2^32 -> size_text (type_max_length ty) n nref s1 -> sign_text ty flags s2 ->
  (type_max_length ty = 0 -> s2 = []) ->
  rest = [] \/ (exists r, rest = 64 :: r) \/ (exists r, rest = 35 :: r) ->
  size_part ty (s1 ++ s2 ++ rest) = inl (n, nref, flags, rest).
Proof.
  intros HB H1 H2 H0 HR. unfold size_part.
  assert (SIGN : forall n (nref : option (list Z)), match s2 ++ rest return (Z * option (list Z) * Z * list Z) + Z with
            | [] => inl (n, nref, 0, [])
            | c :: r' => if (c =? 115) || (c =? 83) || (c =? 117) || (c =? 85) then
                  if allows_sign ty then inl (n, nref, if (c =? 115) || (c =? 83) then 1 else 0, r') else inr TREE_SOFT
                else inl (n, nref, 0, s2 ++ rest)
            end = inl (n, nref, flags, rest)).
  { intros n' nref'. destruct H2 as [|c Hty Hc|c Hty Hc]; cbn [app].
    - destruct HR as [->|[(r & ->)|(r & ->)]]; reflexivity.
    - apply allows_iff in Hty. rewrite Hty. destruct Hc as [->| ->]; reflexivity.
    - apply allows_iff in Hty. rewrite Hty. destruct Hc as [->| ->]; reflexivity. }
  destruct H1 as [E|s n HD Hn|nm Hm Hn].
  - rewrite (H0 E). replace (0 <? type_max_length ty) with false by lia. cbn [app]. rewrite (H0 E) in H2. assert (flags = 0) by (inversion H2; reflexivity). subst flags.
    destruct HR as [->|[(r & ->)|(r & ->)]]; reflexivity.
  - replace (0 <? type_max_length ty) with true by lia.
    assert (Hne : exists c r, s = c :: r /\ c <> 123).
    { destruct HD as (Q1 & Q2 & _). destruct s as [|c r]; [congruence|]. inversion Q2 as [|? ? Hc _]. exists c, r. split; [reflexivity|]. unfold digit in Hc. lia. }
    destruct Hne as (c & r & E & Hc). destruct (s ++ s2 ++ rest) as [|c' r'] eqn:E'; [subst s; discriminate|]. assert (c' = c) by (subst s; cbn [app] in E'; congruence). subst c'.
    replace (c =? 123) with false by lia. rewrite <- E'. rewrite (digits_ok s n (s2 ++ rest) HD).
    + unfold LENGTH_MAX. replace (2^32 - 1 <? n) with false by lia. replace (n =? 0) with false by lia. apply SIGN.
    + destruct H2 as [|d _ Hd|d _ Hd]; cbn [app]; [destruct HR as [->|[(q & ->)|(q & ->)]]; [exact I|reflexivity|reflexivity]|destruct Hd as [->| ->]; reflexivity|destruct Hd as [->| ->]; reflexivity].
    + lia.
  - replace (0 <? type_max_length ty) with true by lia. cbn [app]. change (123 =? 123) with true. cbv iota.
    rewrite <- app_assoc. cbn [app]. rewrite size_tag_ok by exact Hn. apply SIGN.
Qed.

Lemma names_types id ty : In (id, ty) names -> 0 <= type_max_length ty < 2^32.
Proof. intros H. cbn [names In] in H. repeat (destruct H as [H|H]; [injection H as <- <-; vm_compute; split; congruence|]). contradiction. Qed.
Lemma type_ok id ty r : In (id, ty) names -> match r with [] => True | c :: _ => c <> 100 end -> type_parse (str_bytes id ++ r) = Some (ty, r).
Proof.
  intros H Hr. cbn [names In] in H.
  repeat (destruct H as [H|H]; [injection H as <- <-; try reflexivity|]); [|contradiction].
  change (str_bytes "h" ++ r) with (104 :: r). destruct r as [|c r]; [reflexivity|].
  unfold type_parse, identifiers. cbn [find fst]. change (begins (str_bytes "be") (104 :: c :: r)) with false. cbv iota.
  replace (begins (str_bytes "hdlc") (104 :: c :: r)) with false; [reflexivity|].
  change (begins (str_bytes "hdlc") (104 :: c :: r)) with ((100 =? c) && begins (str_bytes "lc") r). replace (100 =? c) with false by lia. reflexivity.
Qed.
Lemma single_ok d s : writes d s -> single_definition s = inl d.
Proof.
  intros [id ty n nref flags count cref tag s1 s2 s3 s4 HI H1 H2 H3 H4]. unfold single_definition.
  pose proof (names_types id ty HI) as HB.
  assert (H0 : type_max_length ty = 0 -> s2 = []).
  { intros E. destruct H2 as [|c Hty _|c Hty _]; [reflexivity| |]; apply allows_iff in Hty; rewrite (sign_max ty Hty) in E; discriminate. }
  pose proof (tail_head _ _ _ _ _ _ H3 H4) as HT.
  rewrite (type_ok id ty (s1 ++ s2 ++ s3 ++ s4) HI).
  2:{ destruct H1 as [E|sn n1 HD Hn|nm Hm Hn].
      - rewrite (H0 E). cbn [app]. destruct HT as [->|[(r & ->)|(r & ->)]]; [exact I| |]; discriminate.
      - destruct HD as (Q1 & Q2 & _). destruct sn as [|c r]; [congruence|]. inversion Q2 as [|? ? Hc _]. cbn [app]. unfold digit in Hc. lia.
      - cbn [app]. discriminate. }
  rewrite (size_ok ty n nref s1 flags s2 (s3 ++ s4) HB H1 H2 H0 HT).
  rewrite (count_ok ty count cref s3 tag s4 H3 H4). rewrite (tag_ok tag s4 H4).
  replace (type_max_length ty <? n) with false; [reflexivity|]. destruct H1; lia.
Qed.

(** ** One value: what is accepted *)
Lemma size_tag_sound s n r : size_tag s = inl (n, r) -> is_name n.
Proof.
  unfold size_tag. destruct (span is_tag s) as [a b] eqn:E. apply span_spec in E. destruct E as (_ & HF & _). destruct a as [|c a]; [discriminate|].
  intros E. assert (n = c :: a) by (destruct b as [|x b]; [discriminate|]; repeat (destruct x as [|x|x]; try discriminate); congruence). subst n.
  split; [discriminate|]. apply (Forall_impl _ (P := fun x => is_tag x = true)); [intros x; apply is_tag_iff|exact HF].
Qed.
Lemma identifiers_names s n ty : find (fun it => begins (fst it) s) identifiers = Some (n, ty) -> exists id, In (id, ty) names.
Proof.
  intros H. apply find_some in H. destruct H as [H _]. unfold identifiers in H. cbn [In] in H.
  repeat (destruct H as [H|H]; [injection H as <- <-; unfold names; eexists; cbn [In]; repeat (first [left; reflexivity|right])|]); contradiction.
Qed.
Lemma unsigned_nonneg s n r : unsigned_integer_10 s = Some (n, r) -> 0 <= n.
Proof.
  unfold unsigned_integer_10. destruct (match snd (span is_white s) with 45 :: r => (true, r) | 43 :: r => (false, r) | _ => _ end) as [neg s'].
  destruct (span is_number s') as [ds rest] eqn:E. apply span_spec in E. destruct E as (_ & HF & _). destruct ds as [|d ds]; [discriminate|].
  assert (H : 0 <= dec_val (d :: ds)).
  { apply (dec_number (d :: ds)). apply (Forall_impl _ (P := fun c => is_number c = true)); [intros c; apply is_number_iff|exact HF]. }
  cbv zeta. change (fold_left (fun a c => a * 10 + (c - 48)) (d :: ds) 0) with (dec_val (d :: ds)). revert H. generalize (dec_val (d :: ds)). intros x H E.
  assert (E' : n = if 2^64 <=? x then 2^64 - 1 else if neg then u64 (- x) else x) by congruence. rewrite E'. clear E E'. destruct (2^64 <=? x); [lia|]. destruct neg; [|lia]. unfold u64. apply Z.mod_pos_bound. lia.
Qed.
Lemma size_sound ty s n nref flags r : 0 <= type_max_length ty -> size_part ty s = inl (n, nref, flags, r) ->
  (flags = 0 \/ flags = 1 /\ In ty [TYPE_BE; TYPE_H; TYPE_LE]) /\
  match nref with Some m => is_name m /\ n = 0 /\ 0 < type_max_length ty | None => if type_max_length ty =? 0 then n = 0 else 1 <= n end.
Proof.
  intros HB. unfold size_part. destruct (0 <? type_max_length ty) eqn:EM.
  - destruct s as [|c s']; [discriminate|]. cbv zeta.
    set (sized := if c =? 123 then _ else _).
    assert (HS : forall m ref q, sized = inl (m, ref, q) -> match ref with Some k => is_name k /\ m = 0 /\ 0 < type_max_length ty | None => if type_max_length ty =? 0 then m = 0 else 1 <= m end).
    { intros m ref q. unfold sized. destruct (c =? 123).
      - destruct (size_tag s') as [[k q']|e] eqn:ET; [|discriminate]. intros E. injection E as <- <- <-. apply size_tag_sound in ET. split; [exact ET|lia].
      - destruct (unsigned_integer_10 (c :: s')) as [[k q']|] eqn:ET; [|discriminate]. apply unsigned_nonneg in ET. destruct (LENGTH_MAX <? k); [discriminate|]. destruct (k =? 0) eqn:EK; [discriminate|].
        intros E. injection E as <- <- <-. replace (type_max_length ty =? 0) with false by lia. lia. }
    destruct sized as [[[m ref] q]|e]; [|discriminate]. specialize (HS m ref q eq_refl).
    destruct q as [|x q].
    + intros E. injection E as <- <- <- <-. auto.
    + destruct ((x =? 115) || (x =? 83) || (x =? 117) || (x =? 85)).
      * destruct (allows_sign ty) eqn:EA; [|discriminate]. apply allows_iff in EA. intros E. injection E as <- <- <- <-. split; [destruct ((x =? 115) || (x =? 83)); auto|exact HS].
      * intros E. injection E as <- <- <- <-. auto.
  - replace (type_max_length ty =? 0) with true by lia. destruct s as [|c s']; [intros E; injection E as <- <- <- <-; auto|]. destruct ((c =? 35) || (c =? 64)); [|discriminate]. intros E; injection E as <- <- <- <-; auto.
Qed.
Lemma count_sound ty s n ref r : 0 <= type_max_length ty -> count_part ty s = inl (n, ref, r) ->
  match ref with Some m => is_name m /\ n = 1 /\ 0 < type_max_length ty | None => 1 <= n < 2^32 /\ (type_max_length ty = 0 -> n = 1) end.
Proof.
  intros HB. unfold count_part. assert (D : (exists q, s = 64 :: q) \/ match s with 64 :: q => False | _ => True end).
  { destruct s as [|c s]; [right; exact I|]. destruct (Z.eq_dec c 64) as [->|H]; [left; eauto|right]. destruct c as [|c|c]; try exact I. repeat (destruct c as [c|c|]; try exact I; try congruence). }
  destruct D as [(q & ->)|D].
  2:{ assert (E : forall A (x : list Z -> A) (y : A), match s with 64 :: r => x r | _ => y end = y).
      { intros A x y. destruct s as [|c s]; [reflexivity|]. destruct c as [|c|c]; try reflexivity. repeat (destruct c as [c|c|]; try reflexivity; try contradiction). }
      rewrite E. intros H. injection H as <- <- <-. lia. }
  destruct q as [|c q]; [discriminate|]. cbv zeta. set (counted := if c =? 123 then _ else _).
  assert (HS : forall m k z, counted = inl (m, k, z) -> match k with Some j => is_name j /\ m = 1 | None => 0 <= m end).
  { intros m k z. unfold counted. destruct (c =? 123).
    - destruct (size_tag q) as [[j y]|e] eqn:ET; [|discriminate]. intros E. injection E as <- <- <-. apply size_tag_sound in ET. auto.
    - destruct (unsigned_integer_10 (c :: q)) as [[j y]|] eqn:ET; [|discriminate]. apply unsigned_nonneg in ET. intros E. injection E as <- <- <-. exact ET. }
  destruct counted as [[[m k] z]|e]; [|discriminate]. specialize (HS m k z eq_refl).
  destruct (m =? 0) eqn:E0; [discriminate|]. destruct (LENGTH_MAX <? m) eqn:E1; [discriminate|]. unfold LENGTH_MAX in E1.
  destruct (((1 <? m) || match k with Some _ => true | None => false end) && (type_max_length ty =? 0)) eqn:E2; [discriminate|]. intros E. injection E as <- <- <-.
  destruct k as [j|]; [rewrite orb_true_r in E2; cbn [andb] in E2; destruct HS; split; [assumption|split; [assumption|lia]]|]. rewrite orb_false_r in E2. lia.
Qed.
Ltac split_all := repeat match goal with |- context [match ?X with _ => _ end] => lazymatch X with context [match _ with _ => _ end] => fail | _ => destruct X end end.
Lemma single_err s e : single_definition s = inr e -> e = 2.
Proof.
  unfold single_definition. destruct (type_parse s) as [[ty s1]|]; [|intros E; injection E as <-; reflexivity].
  destruct (size_part ty s1) as [[[[n nref] flags] s2]|x] eqn:E1.
  2:{ intros E. injection E as <-. revert E1. unfold size_part, size_tag. split_all; intros E; try discriminate E; injection E as <-; reflexivity. }
  destruct (count_part ty s2) as [[[count cref] s3]|x] eqn:E2.
  2:{ intros E. injection E as <-. revert E2. unfold count_part, size_tag. split_all; intros E; try discriminate E; injection E as <-; reflexivity. }
  destruct (tag_part s3) as [tag|x] eqn:E3.
  2:{ intros E. injection E as <-. revert E3. unfold tag_part. split_all; intros E; try discriminate E; injection E as <-; reflexivity. }
  destruct (type_max_length ty <? n); [intros E; injection E as <-; reflexivity|discriminate].
Qed.
Lemma single_sound s d : single_definition s = inl d -> accepted d.
Proof.
  unfold single_definition, type_parse. destruct (find _ identifiers) as [[nm ty]|] eqn:EF; [|discriminate]. apply identifiers_names in EF. destruct EF as (id & HI).
  pose proof (names_types id ty HI) as HB. destruct (size_part ty _) as [[[[n nref] flags] s1]|e] eqn:ES; [|discriminate]. apply size_sound in ES; [|lia].
  destruct (count_part ty s1) as [[[count cref] s2]|e] eqn:EC; [|discriminate]. apply count_sound in EC; [|lia].
  destruct (tag_part s2) as [tag|e] eqn:ET; [|discriminate]. destruct (type_max_length ty <? n) eqn:EL; [discriminate|]. intros E. injection E as <-.
  unfold accepted. cbn [d_value d_length_ref d_count_ref v_data v_type v_flags v_tag v_import_length v_elements].
  assert (HT : Forall name_char tag).
  { unfold tag_part in ET. destruct s2 as [|c s2]; [injection ET as <-; constructor|].
    assert (D : c = 35 /\ forallb is_tag s2 = true /\ tag = s2).
    { repeat (destruct c as [|c|c]; try discriminate). destruct (forallb is_tag s2); [|discriminate]. destruct s2; [discriminate|]. injection ET as <-. auto. }
    destruct D as (_ & D & ->). rewrite forallb_forall in D. apply Forall_forall. intros x Hx. apply is_tag_iff. apply D. exact Hx. }
  destruct ES as [ES1 ES2]. split; [reflexivity|]. split; [exists id; exact HI|]. split; [exact ES1|]. split; [exact HT|]. split; [|exact EC].
  destruct nref as [m|]; [exact ES2|]. destruct (type_max_length ty =? 0); lia.
Qed.

(** ** Any text: nothing undefined, and what is accepted *)
Definition onwards (t : text) (p p' : pos) : Prop := located t p' /\ p_pos p <= p_pos p'.
Lemma onwards_refl t p : located t p -> onwards t p p.
Proof. intros L. split; [exact L|lia]. Qed.
Lemma onwards_trans t a b c : onwards t a b -> onwards t b c -> onwards t a c.
Proof. intros [_ H1] [L H2]. split; [exact L|lia]. Qed.
Lemma stops_leading l : stops l -> leading is_spaces l = [].
Proof. destruct l as [|c l]; cbn [stops leading]; [reflexivity|]. intros ->. reflexivity. Qed.
Lemma leading_stops f l : match skipn (len (leading f l)) l with [] => True | c :: _ => f c = false end.
Proof. induction l as [|c l IH]; cbn [leading]; [exact I|]. destruct (f c) eqn:E; cbn [len skipn]; [exact IH|exact E]. Qed.
Lemma spaces_safe t p : located t p -> exists p', ignore_spaces t p = Ok p' /\ onwards t p p' /\ stops (at_ t p').
Proof.
  intros L. pose proof (loc_range _ _ L) as Hp. destruct (ignore_ok t is_spaces p eq_refl Hp) as (p' & R & P & L'). exists p'. split; [exact R|].
  pose proof (leading_len is_spaces (at_ t p)). split; [split; [auto|lia]|].
  pose proof (leading_split is_spaces (at_ t p)) as Sp. rewrite P. rewrite (from_app t (p_pos p) _ _ ltac:(lia) Sp). apply (leading_stops is_spaces).
Qed.
Lemma spaces_none t p : located t p -> stops (at_ t p) -> ignore_spaces t p = Ok p.
Proof.
  intros L HS. destruct (spaces_at t p [] (at_ t p) L eq_refl) as (p' & R & _ & L' & P); [constructor|exact HS|]. rewrite R. f_equal. apply (loc_unique t); auto. change (zlen (@nil Z)) with 0 in P. lia.
Qed.
Lemma word_safe t w p : located t p -> no_newline w -> w <> [] -> exists b p', match_word t w p = Ok (b, p') /\ onwards t p p' /\ (b = true -> p_pos p < p_pos p') /\ (b = false -> p' = p).
Proof.
  intros L N HN. rewrite (word_starts t w p L). destruct (starts w (at_ t p)) eqn:E.
  - apply starts_iff in E. destruct E as (r & E). destruct (located_word t p w r L E N) as [L' _]. exists true, (set_pos p (p_pos p + zlen w)). split; [reflexivity|]. unfold onwards. cbn [p_pos set_pos] in *.
    assert (0 < zlen w) by (destruct w; [congruence|rewrite zlen_cons; pose proof (zlen_nonneg _ w); lia]). repeat split; try apply L'; try lia; try discriminate.
  - exists false, p. split; [reflexivity|]. split; [apply onwards_refl; exact L|]. split; [discriminate|reflexivity].
Qed.
Lemma plain_word s : forallb (fun c => negb (is_newline c)) (str_bytes s) = true -> no_newline (str_bytes s).
Proof. intros H. apply Forall_forall. intros c Hc. rewrite forallb_forall in H. specialize (H c Hc). destruct (is_newline c); [discriminate|reflexivity]. Qed.
Ltac pw := first [apply plain_word; reflexivity|discriminate].

Lemma keyword_safe t p : located t p -> exists b, keyword t p = Ok b.
Proof.
  intros L. unfold keyword. rewrite !word_starts by exact L. cbn [bind].
  destruct (starts (str_bytes "IF") (at_ t p)); [eauto|]. destruct (starts (str_bytes "ELSIF") (at_ t p)); [eauto|]. destruct (starts (str_bytes "ELSE") (at_ t p)); [eauto|]. destruct (starts (str_bytes "REWIND") (at_ t p)); eauto.
Qed.
Lemma plain_step t p c : located t p -> eof t p = false -> rd t (p_pos p) = Ok c -> is_newline c = false -> onwards t p (set_pos p (p_pos p + 1)).
Proof.
  intros L E R N. pose proof (loc_range _ _ L). unfold eof in E. assert (Hat : at_ t p = c :: from t (p_pos p + 1)).
  { rewrite from_cons by lia. rewrite rd_in in R by lia. congruence. }
  destruct (located_word t p [c] (from t (p_pos p + 1)) L Hat) as [L' _]; [repeat constructor; exact N|]. change (zlen [c]) with 1 in L'. split; [exact L'|cbn [p_pos set_pos]; lia].
Qed.
Lemma rd_safe t p : located t p -> eof t p = false -> exists c, rd t (p_pos p) = Ok c /\ at_ t p = c :: from t (p_pos p + 1).
Proof.
  intros L E. pose proof (loc_range _ _ L). unfold eof in E. exists (nth (Z.to_nat (p_pos p)) (t_data t) 0). rewrite rd_in by lia. rewrite from_cons by lia. auto.
Qed.
Lemma check_end_safe t p : located t p -> exists e p', check_end t p = Ok (e, p') /\ onwards t p p' /\ (e_comma e = true -> p_pos p < p_pos p') /\
  (e_eof e || e_semicolon e || e_special e || e_comma e = false -> eof t p' = false).
Proof.
  intros L. unfold check_end. destruct (spaces_safe t p L) as (p1 & R1 & O1 & S1). rewrite R1. cbn [bind]. cbv zeta. pose proof O1 as [L1 _].
  destruct (eof t p1) eqn:E1.
  { rewrite spaces_none by assumption. cbn [bind]. eexists _, _. split; [reflexivity|]. cbn [e_eof e_semicolon e_special e_comma orb]. split; [exact O1|]. split; discriminate. }
  destruct (keyword_safe t p1 L1) as (b & ->). cbn [bind]. destruct b.
  { rewrite spaces_none by assumption. cbn [bind]. eexists _, _. split; [reflexivity|]. cbn [e_eof e_semicolon e_special e_comma orb]. split; [exact O1|]. split; discriminate. }
  destruct (rd_safe t p1 L1 E1) as (c & R & A). rewrite R. cbn [bind].
  destruct (c =? 44) eqn:E44.
  - pose proof (plain_step t p1 c L1 E1 R) as [L2 H2]; [unfold is_newline; lia|]. destruct (spaces_safe t (set_pos p1 (p_pos p1 + 1)) L2) as (p3 & R3 & O3 & S3). rewrite R3. cbn [bind].
    pose proof O3 as [L3 H3]. cbn [p_pos set_pos] in H2, H3. destruct O1 as [_ H1].
    destruct (eof t p3) eqn:E3.
    + rewrite spaces_none by assumption. cbn [bind]. eexists _, _. split; [reflexivity|]. cbn [e_eof e_semicolon e_special e_comma orb]. split; [split; [exact L3|lia]|]. split; [lia|discriminate].
    + destruct (keyword_safe t p3 L3) as (b & ->). cbn [bind]. rewrite spaces_none by assumption. cbn [bind]. eexists _, _. split; [reflexivity|]. cbn [e_eof e_semicolon e_special e_comma orb]. split; [split; [exact L3|lia]|]. split; [lia|]. rewrite orb_true_r. discriminate.
  - destruct (c =? 59) eqn:E59.
    + pose proof (plain_step t p1 c L1 E1 R) as [L2 H2]; [unfold is_newline; lia|]. destruct (spaces_safe t (set_pos p1 (p_pos p1 + 1)) L2) as (p3 & R3 & O3 & S3). rewrite R3. cbn [bind].
      destruct O3 as [L3 H3]. cbn [p_pos set_pos] in H2, H3. destruct O1 as [_ H1].
      eexists _, _. split; [reflexivity|]. cbn [e_eof e_semicolon e_special e_comma orb]. split; [split; [exact L3|lia]|]. split; discriminate.
    + rewrite spaces_none by assumption. cbn [bind]. eexists _, _. split; [reflexivity|]. cbn [e_eof e_semicolon e_special e_comma orb]. split; [exact O1|]. split; [discriminate|]. intros _. exact E1.
Qed.

Lemma definition_char c : match_char F_DEFINITION c = is_comma c || is_space_tab c || is_newline c || is_null c.
Proof. unfold match_char. change (Z.testbit F_DEFINITION F_SPACE_TAB) with true. change (Z.testbit F_DEFINITION F_COMMAS) with true. change (Z.testbit F_DEFINITION F_LETTERS) with false. change (Z.testbit F_DEFINITION F_HEX) with false.
  change (Z.testbit F_DEFINITION F_NUMBERS) with false. change (Z.testbit F_DEFINITION F_NEWLINES) with true. change (Z.testbit F_DEFINITION F_NULL) with true. change (Z.testbit F_DEFINITION F_DASH) with false. change (Z.testbit F_DEFINITION F_CONTROL) with false.
  cbn [andb orb]. rewrite !orb_false_r. destruct (is_comma c), (is_space_tab c), (is_newline c), (is_null c); reflexivity. Qed.
Lemma until_safe t p : located t p -> eof t p = false -> exists n, let s := leading (fun c => negb (match_char F_DEFINITION c)) (at_ t p) in n = zlen s /\
  match_until t p F_DEFINITION = Ok (p_pos p, p_pos p + n - 1, set_pos p (p_pos p + n)) /\ onwards t p (set_pos p (p_pos p + n)).
Proof.
  intros L E. pose proof (loc_range _ _ L). unfold eof in E. eexists. cbv zeta. split; [reflexivity|]. rewrite match_until_ok by lia. cbv zeta. change (Z.testbit F_DEFINITION F_END) with true.
  replace (p_pos p <? t_size t) with true by lia. rewrite orb_true_r. split; [reflexivity|].
  pose proof (leading_len (fun c => negb (match_char F_DEFINITION c)) (at_ t p)). split; [|cbn [p_pos set_pos]; lia].
  apply leading_plain; [exact L|]. intros c Hc. rewrite definition_char, Hc. rewrite orb_true_r. reflexivity.
Qed.

Lemma node_safe t : forall fuel p semi, located t p -> t_size t - p_pos p < Z.of_nat fuel -> exists r, node_loop fuel t p semi = Ok r /\
  match r with inl (ds, _, p') => onwards t p p' /\ Forall accepted ds | inr e => e = 2 end.
Proof.
  induction fuel as [|fuel IH]; intros p semi L Hf; [apply loc_range in L; lia|]. cbn [node_loop].
  destruct (eof t p) eqn:E0; [eexists; split; [reflexivity|]; split; [apply onwards_refl; exact L|constructor]|].
  destruct (check_end_safe t p L) as (e & p1 & R1 & O1 & C1 & N1). rewrite R1. cbn [bind].
  destruct (e_eof e || e_semicolon e || e_special e || e_comma e); [eexists; split; [reflexivity|]; split; [exact O1|constructor]|]. specialize (N1 eq_refl). pose proof O1 as [L1 H1].
  destruct (until_safe t p1 L1 N1) as (n & Hn & R2 & O2). rewrite R2. cbn [bind].
  destruct (_ <? p_pos p1) eqn:ELT; [eexists; split; [reflexivity|]; split; [exact (onwards_trans _ _ _ _ O1 O2)|constructor]|].
  destruct (p_pos p1 + n - 1 =? p_pos p1) eqn:EQ; [eexists; split; [reflexivity|reflexivity]|].
  destruct (64 <? p_pos p1 + n - 1 - p_pos p1); [eexists; split; [reflexivity|reflexivity]|].
  destruct O2 as [L2 H2]. cbn [p_pos set_pos] in H2. unfold name_length. rewrite ELT. cbn [bind]. pose proof (loc_range _ _ L1) as B1. pose proof (loc_range _ _ L2) as B2. cbn [p_pos set_pos] in B2.
  rewrite copy_ok by lia. cbn [bind]. cbv zeta.
  set (tmp := str_trim _). destruct (zlen tmp - 1 <? 2); [eexists; split; [reflexivity|reflexivity]|].
  destruct (single_definition tmp) as [d|x] eqn:ED.
  2:{ exists (inr x). split; [reflexivity|]. apply single_err in ED. exact ED. }
  apply single_sound in ED. destruct (check_end_safe t _ L2) as (e2 & p3 & R3 & O3 & C3 & N3). rewrite R3. cbn [bind]. pose proof O3 as [L3 H3]. cbn [p_pos set_pos] in H3.
  destruct (e_eof e2 || e_semicolon e2 || e_special e2); [eexists; split; [reflexivity|]; split; [split; [exact L3|lia]|constructor; [exact ED|constructor]]|].
  destruct (e_comma e2) eqn:EC; cbn [negb]; [|eexists; split; [reflexivity|reflexivity]]. specialize (C3 eq_refl). cbn [p_pos set_pos] in C3.
  destruct (IH p3 (e_semicolon e2) L3 ltac:(lia)) as (r & -> & HR). unfold dbind. cbn [bind]. destruct r as [[[ds s2] p4]|x]; [|exists (inr x); split; [reflexivity|exact HR]].
  destruct HR as [[L4 H4] HA]. eexists. split; [reflexivity|]. split; [split; [exact L4|lia]|constructor; assumption].
Qed.

Lemma rewind_safe t p : located t p -> exists r, interpret_rewind t p = Ok r /\ match r with inl (k, p') => onwards t p p' /\ 0 <= k < 2^32 | inr e => e = 2 end.
Proof.
  intros L. unfold interpret_rewind. destruct (spaces_safe t p L) as (p1 & R1 & O1 & S1). rewrite R1. cbn [bind]. pose proof O1 as [L1 H1].
  destruct (eof t p1) eqn:E1; [eexists; split; [reflexivity|reflexivity]|].
  destruct (letters_safe t p1 F_NUMBERS_ L1) as (R2 & L2 & r & A & A2).
  { intros c Hc. rewrite flags_num in Hc. unfold is_number in Hc. unfold is_newline. lia. }
  rewrite R2. cbn [bind]. set (s := leading (match_char F_NUMBERS_) (at_ t p1)) in *. unfold name_length.
  destruct (p_pos p1 + zlen s - 1 <? p_pos p1) eqn:EL; [eexists; split; [reflexivity|reflexivity]|]. cbn [bind]. destruct (12 <? _); [eexists; split; [reflexivity|reflexivity]|].
  pose proof (loc_range _ _ L1) as B1. replace (p_pos p1 + zlen s - 1 - p_pos p1 + 1) with (zlen s) by lia. rewrite (copy_from t (p_pos p1) s r B1 A). cbn [bind]. cbv zeta.
  change (fold_left (fun a c => a * 10 + (c - 48)) s 0) with (dec_val s). pose proof (leading_num (at_ t p1)) as HN. fold s in HN. pose proof (dec_number s HN) as (_ & H0 & _). revert H0. generalize (dec_val s). intros k H0.
  unfold LENGTH_MAX. destruct (2^32 - 1 <? k) eqn:EK; [eexists; split; [reflexivity|reflexivity]|]. eexists. split; [reflexivity|]. split; [|lia]. split; [exact L2|]. pose proof (zlen_nonneg _ s). cbn [p_pos set_pos]. lia.
Qed.

Definition made (ds : list vdef) (ks : list Z) (cs : list (list carrier)) : Prop := Forall accepted ds /\ Forall (fun k => 0 <= k < 2^32) ks /\ Forall (Forall carrier_ok) cs.
Definition made_tree (u : tree) : Prop := made (defs u) (rewinds u) (conds u).
Definition made_branches (b : branches) : Prop := made (defs_b b) (rewinds_b b) (conds_b b).
Lemma made_app a b c a' b' c' : made a b c -> made a' b' c' -> made (a ++ a') (b ++ b') (c ++ c').
Proof. intros (H1 & H2 & H3) (H1' & H2' & H3'). split; [|split]; apply Forall_app; auto. Qed.
Lemma made_cond c a b cs : Forall carrier_ok c -> made a b cs -> made a b (c :: cs).
Proof. intros H (H1 & H2 & H3). split; [exact H1|]. split; [exact H2|constructor; assumption]. Qed.
Lemma made_add ds u : Forall accepted ds -> made_tree u -> made_tree (add_values ds u).
Proof. intros H (H1 & H2 & H3). destruct ds as [|d ds]; [split; [|split]; assumption|]. unfold made_tree. cbn [add_values defs rewinds conds]. split; [apply Forall_app; auto|auto]. Qed.
Lemma made_end : made_tree TEnd.
Proof. split; [|split]; constructor. Qed.
Definition rest_ok (f : tree -> tree) : Prop := forall u, made_tree u -> made_tree (f u).
Definition codes (e : Z) : Prop := e = 1 \/ e = 2.

Lemma tree_loop_S f t p : tree_loop (S f) t p =
      (if eof t p then fail TREE_SOFT
      else bind (ignore_spaces t p) (fun p1 =>
      if eof t p1 then fail TREE_SOFT
      else bind (rd t (p_pos p1)) (fun c =>
      if c =? 59 then good (TEnd, set_pos p1 (p_pos p1 + 1))
      else
        dbind (bind (match_word t (str_bytes "IF") p1) (fun '(b, p) =>
               if b : bool then
                 bind (CondModel.interpret t p) (fun '(ret, c, p) =>
                 if negb (ret =? 0) then fail ret
                 else dbind (tree_loop f t p) (fun '(u, p) =>
                 dbind (branches_loop f t p) (fun '(more, p) => good (TIf c u more, p))))
               else bind (match_word t (str_bytes "REWIND") p) (fun '(b, p) =>
               if b : bool then dbind (interpret_rewind t p) (fun '(k, p) => good (TRewind k, p))
               else good (fun rest => rest, p)))) (fun '(node, p2) =>
        dbind (interpret_node t p2) (fun '(ds, semi, p3) =>
        if semi : bool then good (node (add_values ds TEnd), p3)
        else if p_pos p3 =? p_pos p then fail TREE_SOFT
        else dbind (tree_loop f t p3) (fun '(rest, p) => good (node (add_values ds rest), p))))))).
Proof. reflexivity. Qed.
Lemma branches_loop_S f t p : branches_loop (S f) t p =
      bind (ignore_spaces t p) (fun p =>
      bind (if eof t p then Ok (false, p) else match_word t (str_bytes "ELSIF") p) (fun '(b, p) =>
      if b : bool then
        bind (CondModel.interpret t p) (fun '(ret, c, p) =>
        if negb (ret =? 0) then fail ret
        else dbind (tree_loop f t p) (fun '(u, p) =>
        dbind (branches_loop f t p) (fun '(more, p) => good (BElsif c u more, p))))
      else bind (match_word t (str_bytes "ELSE") p) (fun '(b, p) =>
        if b : bool then dbind (tree_loop f t p) (fun '(u, p) => good (BElse u, p))
        else good (BEnd, p)))).
Proof. reflexivity. Qed.

Lemma interpret_node_safe t p : located t p -> exists r, interpret_node t p = Ok r /\
  match r with inl (ds, _, p') => onwards t p p' /\ Forall accepted ds | inr e => codes e end.
Proof.
  intros L. unfold interpret_node. destruct (node_safe t (S (len (t_data t))) p false L) as (r & -> & H); [apply loc_range in L; unfold t_size, zlen in *; lia|].
  exists r. split; [reflexivity|]. destruct r as [[[ds s] p']|e]; [exact H|right; exact H].
Qed.

Lemma tree_safe t : forall fuel,
  (forall p, located t p -> t_size t - p_pos p < Z.of_nat fuel -> exists r, tree_loop fuel t p = Ok r /\
     match r with inl (u, p') => onwards t p p' /\ made_tree u | inr e => codes e end) /\
  (forall p, located t p -> t_size t - p_pos p < Z.of_nat fuel -> exists r, branches_loop fuel t p = Ok r /\
     match r with inl (u, p') => onwards t p p' /\ made_branches u | inr e => codes e end).
Proof.
  induction fuel as [|fuel [IHt IHb]]; [split; intros p L Hf; apply loc_range in L; lia|].
  split; intros p L Hf.
  - rewrite tree_loop_S. destruct (eof t p) eqn:E0; [eexists; split; [reflexivity|right; reflexivity]|].
    destruct (spaces_safe t p L) as (p1 & R1 & O1 & S1). rewrite R1. cbn [bind]. pose proof O1 as [L1 H1].
    destruct (eof t p1) eqn:E1; [eexists; split; [reflexivity|right; reflexivity]|].
    destruct (rd_safe t p1 L1 E1) as (c & R & A). rewrite R. cbn [bind].
    destruct (c =? 59) eqn:E59.
    { pose proof (plain_step t p1 c L1 E1 R ltac:(unfold is_newline; lia)) as O2. eexists. split; [reflexivity|]. split; [exact (onwards_trans _ _ _ _ O1 O2)|exact made_end]. }
    match goal with |- exists r, dbind ?X _ = _ /\ _ => set (special := X) end.
    assert (SP : exists r, special = Ok r /\ match r with inl (f, p') => onwards t p p' /\ rest_ok f | inr e => codes e end).
    { unfold special. destruct (word_safe t (str_bytes "IF") p1 L1) as (b & p2 & R2 & O2 & T2 & F2); [pw|pw|]. rewrite R2. cbn [bind]. pose proof O2 as [L2 H2]. destruct b.
      - specialize (T2 eq_refl). destruct (CondEval.interpret_safe t p2 L2) as (ret & cs & p3 & R3 & HR & L3 & H3 & _ & HC). rewrite R3. cbn [bind].
        destruct (ret =? 0) eqn:ER; cbn [negb]; [|exists (inr ret); split; [reflexivity|unfold codes; lia]].
        destruct (IHt p3 L3 ltac:(lia)) as (r & -> & Hr). unfold dbind at 1. cbn [bind]. destruct r as [[u p4]|e]; [|exists (inr e); split; [reflexivity|exact Hr]]. destruct Hr as [[L4 H4] M4].
        destruct (IHb p4 L4 ltac:(lia)) as (r & -> & Hr). unfold dbind at 1. cbn [bind]. destruct r as [[more p5]|e]; [|exists (inr e); split; [reflexivity|exact Hr]]. destruct Hr as [[L5 H5] M5].
        eexists. split; [reflexivity|]. split; [split; [exact L5|lia]|]. intros rest Hrest. unfold made_tree. cbn [defs rewinds conds]. apply made_cond; [exact HC|]. repeat apply made_app; assumption.
      - specialize (F2 eq_refl). subst p2. destruct (word_safe t (str_bytes "REWIND") p1 L1) as (b & p3 & R3 & O3 & T3 & F3); [pw|pw|]. rewrite R3. cbn [bind]. pose proof O3 as [L3 H3]. destruct b.
        + destruct (rewind_safe t p3 L3) as (r & -> & Hr). unfold dbind. cbn [bind]. destruct r as [[k p4]|e]; [|exists (inr e); split; [reflexivity|right; exact Hr]]. destruct Hr as [[L4 H4] Hk].
          eexists. split; [reflexivity|]. split; [split; [exact L4|lia]|]. intros rest (M1 & M2 & M3). unfold made_tree. cbn [defs rewinds conds]. split; [exact M1|]. split; [constructor; assumption|exact M3].
        + eexists. split; [reflexivity|]. split; [exact (onwards_trans _ _ _ _ O1 O3)|]. intros rest Hrest. exact Hrest. }
    destruct SP as (r & -> & Hr). unfold dbind at 1. cbn [bind]. destruct r as [[node p2]|e]; [|exists (inr e); split; [reflexivity|exact Hr]]. destruct Hr as [[L2 H2] HN].
    destruct (interpret_node_safe t p2 L2) as (r & -> & Hr). unfold dbind at 1. cbn [bind]. destruct r as [[[ds semi] p3]|e]; [|exists (inr e); split; [reflexivity|exact Hr]]. destruct Hr as [[L3 H3] HA].
    destruct semi.
    { eexists. split; [reflexivity|]. split; [split; [exact L3|lia]|]. apply HN. apply made_add; [exact HA|exact made_end]. }
    destruct (p_pos p3 =? p_pos p) eqn:EQ; [eexists; split; [reflexivity|right; reflexivity]|].
    destruct (IHt p3 L3 ltac:(lia)) as (r & -> & Hr). unfold dbind at 1. cbn [bind]. destruct r as [[u p4]|e]; [|exists (inr e); split; [reflexivity|exact Hr]]. destruct Hr as [[L4 H4] M4].
    eexists. split; [reflexivity|]. split; [split; [exact L4|lia]|]. apply HN. apply made_add; assumption.
  - rewrite branches_loop_S. destruct (spaces_safe t p L) as (p1 & R1 & O1 & S1). rewrite R1. cbn [bind]. pose proof O1 as [L1 H1].
    assert (W : exists b p2, (if eof t p1 then Ok (false, p1) else match_word t (str_bytes "ELSIF") p1) = Ok (b, p2) /\ onwards t p1 p2 /\ (b = true -> p_pos p1 < p_pos p2) /\ (b = false -> p2 = p1)).
    { destruct (eof t p1); [exists false, p1; split; [reflexivity|]; split; [apply onwards_refl; exact L1|]; split; [discriminate|reflexivity]|]. apply word_safe; [exact L1|pw|pw]. }
    destruct W as (b & p2 & -> & [L2 H2] & T2 & F2). cbn [bind]. destruct b.
    + specialize (T2 eq_refl). destruct (CondEval.interpret_safe t p2 L2) as (ret & cs & p3 & R3 & HR & L3 & H3 & _ & HC). rewrite R3. cbn [bind].
      destruct (ret =? 0) eqn:ER; cbn [negb]; [|exists (inr ret); split; [reflexivity|unfold codes; lia]].
      destruct (IHt p3 L3 ltac:(lia)) as (r & -> & Hr). unfold dbind at 1. cbn [bind]. destruct r as [[u p4]|e]; [|exists (inr e); split; [reflexivity|exact Hr]]. destruct Hr as [[L4 H4] M4].
      destruct (IHb p4 L4 ltac:(lia)) as (r & -> & Hr). unfold dbind at 1. cbn [bind]. destruct r as [[more p5]|e]; [|exists (inr e); split; [reflexivity|exact Hr]]. destruct Hr as [[L5 H5] M5].
      eexists. split; [reflexivity|]. split; [split; [exact L5|lia]|]. unfold made_branches. cbn [defs_b rewinds_b conds_b]. apply made_cond; [exact HC|]. apply made_app; assumption.
    + specialize (F2 eq_refl). subst p2. destruct (word_safe t (str_bytes "ELSE") p1 L1) as (b & p3 & R3 & O3 & T3 & F3); [pw|pw|]. rewrite R3. cbn [bind]. pose proof O3 as [L3 H3]. destruct b.
      * specialize (T3 eq_refl). destruct (IHt p3 L3 ltac:(lia)) as (r & -> & Hr). unfold dbind. cbn [bind]. destruct r as [[u p4]|e]; [|exists (inr e); split; [reflexivity|exact Hr]]. destruct Hr as [[L4 H4] M4].
        eexists. split; [reflexivity|]. split; [split; [exact L4|lia]|]. exact M4.
      * eexists. split; [reflexivity|]. split; [exact (onwards_trans _ _ _ _ O1 O3)|]. exact made_end.
Qed.

Lemma raw_safe t : exists r, interpret_raw t = Ok r /\ match r with inl u => made_tree u | inr e => codes e end.
Proof.
  unfold interpret_raw, interpret_tree. destruct (tree_safe t (S (len (t_data t)))) as [H _]. destruct (H pos_init (located_init t)) as (r & -> & Hr); [change (p_pos pos_init) with 0; unfold t_size, zlen; lia|].
  unfold dbind. cbn [bind]. destruct r as [[u p]|e]; [|exists (inr e); split; [reflexivity|exact Hr]]. destruct Hr as [[L _] M].
  pose proof (loc_range _ _ L) as Hp. destruct (ignore_ok t is_space_tab p eq_refl Hp) as (p1 & R1 & P1 & L1). unfold ignore_space_and_tab. rewrite R1. cbn [bind]. specialize (L1 L).
  destruct (word_safe t (str_bytes ";") p1 L1) as (b & p2 & R2 & [L2 _] & _ & _); [pw|pw|]. rewrite R2. cbn [bind].
  pose proof (loc_range _ _ L2) as Hp2. destruct (ignore_ok t is_space_tab p2 eq_refl Hp2) as (p3 & R3 & P3 & L3). rewrite R3. cbn [bind].
  destruct (eof t p3); eexists; (split; [reflexivity|]); [exact M|left; reflexivity].
Qed.
