From Coq Require Import Strings.String.
From Coq Require Import ZArith List Bool Lia.
From Verif Require Import Common ParseModel ParseSpec ParseProofs ConfigProofs DiscernModel DiscernSpec DiscernProofs.
Import ListNotations.
Open Scope Z_scope.

(** ** Storage *)
Lemma string_in_app v r : ~ In 0 v -> string_in (v ++ 0 :: r) = Some v.
Proof.
  induction v as [ | c v IH ]; cbn [app string_in In]; intros H; [ reflexivity | ]. destruct (Z.eqb_spec c 0); [ tauto | ]. rewrite IH by tauto. reflexivity.
Qed.
Lemma string_in_more l x s : string_in l = Some s -> string_in (l ++ x) = Some s.
Proof.
  revert s. induction l as [ | c l IH ]; cbn [string_in app]; intros s H; [ discriminate | ]. destruct (c =? 0); [ exact H | ].
  destruct (string_in l) as [ s0 | ]; [ | discriminate ]. rewrite (IH s0 eq_refl). exact H.
Qed.
Lemma string_at_more st x i s : string_at st i = Some s -> string_at (st ++ x) i = Some s.
Proof.
  unfold string_at. destruct (i <? 0); [ discriminate | ]. intros H. rewrite skipn_app. apply string_in_more. exact H.
Qed.
Lemma string_at_new st v : ~ In 0 v -> string_at (st ++ v ++ [0]) (zlen st) = Some v.
Proof.
  intros H. unfold string_at. pose proof (zlen_nonneg _ st). replace (zlen st <? 0) with false by lia.
  replace (Z.to_nat (zlen st)) with (List.length st) by (unfold zlen; lia). rewrite skipn_app, skipn_all, Nat.sub_diag. cbn [app skipn]. now apply string_in_app.
Qed.

(** ** Elements and instructions *)
Definition stored (st : list Z) (v : val) (d : list Z) : Prop := string_at st (v_pos v) = Some d /\ v_size v = zlen d + 1 /\ d <> [] /\ v_value v = first_last d.
Definition compiled (st : list Z) (e : elem) (i : instr) : Prop :=
  match i with
  | Topic f => e_type e = ETopic /\ e_op e = OPush /\ stored st (e_val e) f
  | Has t => e_type e = ETag /\ e_op e = OPush /\ stored st (e_val e) t
  | Dest d => e_type e = EDest /\ e_op e = OPush /\ stored st (e_val e) d
  | Const b => e_type e = EBool /\ e_op e = OPush /\ v_value (e_val e) = b2z b /\ v_size (e_val e) = 0
  | And => e_type e = ENone /\ e_op e = OAnd | Or => e_type e = ENone /\ e_op e = OOr | Not => e_type e = ENone /\ e_op e = ONot
  | Apply => e_type e = ENone /\ e_op e = OApply | Pop => e_type e = ENone /\ e_op e = OPop | Bail => e_type e = ENone /\ e_op e = OBail
  end.
Definition on_stack (st : list Z) (e : elem) : Prop :=
  (e_type e = EBool /\ v_size (e_val e) = 0) \/ (e_type e = EDest /\ exists d, stored st (e_val e) d).
Definition kind_of (e : elem) : kind := if is_dest (e_type e) then KName else KTruth.
Definition kinds (l : list elem) : list kind := map kind_of l.
Definition inv (s : pstate) (is : list instr) : Prop :=
  Forall2 (compiled (s_values s)) (s_list s) is /\ Forall (on_stack (s_values s)) (s_stack s) /\ zlen (s_stack s) <= 63.
Definition strings_ok (i : instr) : Prop := match i with Topic v | Has v | Dest v => v <> [] /\ ~ In 0 v | _ => True end.

Lemma stored_more st x v d : stored st v d -> stored (st ++ x) v d.
Proof. intros (A & B). split; [ now apply string_at_more | exact B ]. Qed.
Lemma compiled_more st x e i : compiled st e i -> compiled (st ++ x) e i.
Proof. destruct i; cbn [compiled]; try tauto; intros (A & B & C); (split; [ exact A | split; [ exact B | now apply stored_more ] ]). Qed.
Lemma compiled_all_more st x l is : Forall2 (compiled st) l is -> Forall2 (compiled (st ++ x)) l is.
Proof. induction 1; constructor; [ now apply compiled_more | assumption ]. Qed.
Lemma on_stack_more st x e : on_stack st e -> on_stack (st ++ x) e.
Proof. intros [ A | (A & d & B) ]; [ now left | right; split; [ exact A | exists d; now apply stored_more ] ]. Qed.

Lemma make_data st v : v <> [] -> ~ In 0 v -> make_value st (PData (v ++ [0])) = Ok (mk_val (zlen v + 1) (zlen st) (first_last v), st ++ v ++ [0]).
Proof.
  intros N Z0. unfold make_value, storage_push. rewrite string_at_new by auto. destruct v as [ | c r ]; [ congruence | ]. rewrite zlen_app. reflexivity.
Qed.
Lemma on_stack_bool st x : on_stack st (bool_elem x).
Proof. left. split; reflexivity. Qed.
Lemma kinds_len l : zlen (kinds l) = zlen l.
Proof. apply zlen_map. Qed.

(** One instruction: [node] is the new element *)
Definition step_result (k : option (list kind)) (st : list Z) (r : res (Z * fault * list elem)) : Prop :=
  match k with
  | Some k' =>
      if zlen k' <=? 63 then exists ret stack, r = Ok (ret, FOk, stack) /\ (ret = 0 \/ ret = BAIL) /\ kinds stack = k' /\ Forall (on_stack st) stack
      else exists x stack, r = Ok (1, x, stack)
  | None => exists x stack, r = Ok (1, x, stack)
  end.
Definition finish (r : res (Z * fault * list elem)) : res (Z * fault * list elem) :=
  bind r (fun '(ret, f, stack) =>
    if negb (ret =? 0) then Ok (ret, f, stack)
    else if STACK_MAX <? zlen stack then Bug
    else if zlen stack =? STACK_MAX then Ok (1, FOverflow, stack)
    else Ok (0, FOk, stack)).
Lemma finish_good st stack k : Forall (on_stack st) stack -> kinds stack = k -> zlen k <= 64 -> step_result (Some k) st (finish (Ok (0, FOk, stack))).
Proof.
  intros F K L. pose proof (kinds_len stack) as Q. rewrite K in Q. unfold finish, step_result. cbn [bind]. change (negb (0 =? 0)) with false. cbv iota. unfold STACK_MAX. replace (64 <? zlen stack) with false by lia.
  destruct (zlen k <=? 63) eqn:E.
  - replace (zlen stack =? 64) with false by lia. exists 0, stack. auto.
  - replace (zlen stack =? 64) with true by lia. eauto.
Qed.
Lemma bool_top st e : on_stack st e -> is_bool (e_type e) = match kind_of e with KTruth => true | KName => false end.
Proof. intros [ (A & _) | (A & _) ]; unfold kind_of; rewrite A; reflexivity. Qed.
Lemma dest_top st e : on_stack st e -> is_dest (e_type e) = match kind_of e with KTruth => false | KName => true end.
Proof. intros [ (A & _) | (A & _) ]; unfold kind_of; rewrite A; reflexivity. Qed.
Lemma step_ok st stack node i : Forall (on_stack st) stack -> zlen stack <= 63 -> compiled st node i ->
  step_result (effect i (kinds stack)) st (parse_execute_step stack node st).
Proof.
  intros F L C. pose proof (kinds_len stack) as Q.
  assert (P : forall s st, parse_execute_step s node st = if zlen s <? op_args (e_op node) then Ok (1, FStackCount, s) else
     finish (match e_op node with
          | OPush => execute_op_push s node st
          | OAnd => execute_op_two op_and s
          | OOr => execute_op_two op_or s
          | OApply => execute_op_apply s
          | ONot => execute_op_one op_not s
          | OPop => match s with [] => Bug | _ :: r => Ok (0, FOk, r) end
          | OBail =>
              bind (execute_op_one op_bail s) (fun '(ret, f, stack) =>
              if negb (ret =? 0) then Ok (ret, f, stack)
              else match stack with
                   | [] => Bug
                   | a :: r => if truth (v_value (e_val a)) then Ok (BAIL, FOk, r) else Ok (0, FOk, r)
                   end)
          end)) by reflexivity.
  rewrite P. clear P.
  assert (PB : forall x, step_result (Some (KTruth :: kinds stack)) st (finish (Ok (0, FOk, bool_elem x :: stack)))).
  { intros x. apply finish_good; [ apply Forall_cons; [ apply on_stack_bool | exact F ] | reflexivity | rewrite zlen_cons; lia ]. }
  assert (NN : zlen stack <? 0 = false) by (pose proof (zlen_nonneg _ stack); lia).
  assert (TW : forall ev, step_result (match kinds stack with KTruth :: KTruth :: r => Some (KTruth :: r) | _ => None end) st
      (if zlen stack <? 2 then Ok (1, FStackCount, stack) else finish (execute_op_two ev stack))).
  { intros ev. destruct stack as [ | a [ | b r ] ]; cbn [kinds map]; [ cbn; eauto | | ].
    - rewrite zlen_cons, zlen_nil. change (1 + 0 <? 2) with true. destruct (kind_of a); cbn; eauto.
    - apply Forall_cons_iff in F as (Fa & F). apply Forall_cons_iff in F as (Fb & F). rewrite !zlen_cons in *. pose proof (zlen_nonneg _ r). replace (1 + (1 + zlen r) <? 2) with false by lia.
      unfold execute_op_two. rewrite (bool_top st a Fa), (bool_top st b Fb). destruct (kind_of a); cbn [negb]; [ | cbn; eauto ]. destruct (kind_of b); cbn [negb]; [ | cbn; eauto ].
      apply finish_good; [ apply Forall_cons; [ apply on_stack_bool | exact F ] | reflexivity | rewrite zlen_cons; unfold kinds; rewrite zlen_map; lia ]. }
  assert (DATA : forall d, stored st (e_val node) d -> make_value st (if 0 <? v_size (e_val node) then PStored (v_pos (e_val node)) (v_size (e_val node)) else PNumber (v_value (e_val node)))
      = Ok (mk_val (v_size (e_val node)) (v_pos (e_val node)) (first_last d), st)).
  { intros d (A & B & N & V). rewrite B. pose proof (zlen_nonneg _ d). replace (0 <? zlen d + 1) with true by lia. unfold make_value. rewrite A. destruct d; [ congruence | reflexivity ]. }
  destruct i as [ x | x | b | x | | | | | | ]; cbn [compiled] in C.
  - destruct C as (Ct & Co & C). rewrite Co. cbn [op_args effect]. rewrite NN. unfold execute_op_push. rewrite Ct. apply PB.
  - destruct C as (Ct & Co & C). rewrite Co. cbn [op_args effect]. rewrite NN. unfold execute_op_push. rewrite Ct. apply PB.
  - destruct C as (Ct & Co & C & Cs). rewrite Co. cbn [op_args effect]. rewrite NN. unfold execute_op_push. rewrite Ct, Cs. change (0 <? 0) with false. cbv iota. cbn [make_value bind].
    apply finish_good; [ apply Forall_cons; [ left; cbn; auto | exact F ] | reflexivity | rewrite zlen_cons; lia ].
  - destruct C as (Ct & Co & C). rewrite Co. cbn [op_args effect]. rewrite NN. unfold execute_op_push. rewrite Ct. cbv zeta. rewrite (DATA x C). cbn [bind].
    apply finish_good; [ apply Forall_cons; [ right; split; [ reflexivity | exists x ] | exact F ] | reflexivity | rewrite zlen_cons; lia ].
    destruct C as (A & B & N & V). split; [ exact A | ]. split; [ exact B | ]. split; [ exact N | reflexivity ].
  - destruct C as (_ & Co). rewrite Co. apply TW.
  - destruct C as (_ & Co). rewrite Co. apply TW.
  - destruct C as (_ & Co). rewrite Co. cbn [op_args effect]. destruct stack as [ | a r ]; cbn [kinds map]; [ cbn; eauto | ].
    apply Forall_cons_iff in F as (Fa & F). rewrite !zlen_cons in *. pose proof (zlen_nonneg _ r). replace (1 + zlen r <? 1) with false by lia.
    unfold execute_op_one. rewrite (bool_top st a Fa). destruct (kind_of a); cbn [negb]; [ | cbn; eauto ].
    apply finish_good; [ apply Forall_cons; [ apply on_stack_bool | exact F ] | reflexivity | rewrite zlen_cons; unfold kinds; rewrite zlen_map; lia ].
  - destruct C as (_ & Co). rewrite Co. cbn [op_args effect]. destruct stack as [ | a [ | b r ] ]; cbn [kinds map]; [ cbn; eauto | | ].
    + rewrite zlen_cons, zlen_nil. change (1 + 0 <? 2) with true. destruct (kind_of a); cbn; eauto.
    + apply Forall_cons_iff in F as (Fa & F). apply Forall_cons_iff in F as (Fb & F). rewrite !zlen_cons in *. pose proof (zlen_nonneg _ r). replace (1 + (1 + zlen r) <? 2) with false by lia.
      unfold execute_op_apply. rewrite (bool_top st b Fb), (dest_top st a Fa). destruct (kind_of b) eqn:Kb; cbn [negb]; [ | destruct (kind_of a); cbn; eauto ]. destruct (kind_of a) eqn:Ka; cbn [negb]; [ cbn; eauto | ].
      destruct Fa as [ (Fa & _) | (Fa & d & A & B & _) ]; [ unfold kind_of in Ka; rewrite Fa in Ka; discriminate Ka | ]. rewrite B. pose proof (zlen_nonneg _ d). replace (zlen d + 1 <=? 0) with false by lia.
      apply finish_good; [ apply Forall_cons; assumption | cbn [kinds map]; now rewrite Kb | rewrite zlen_cons; unfold kinds; rewrite zlen_map; lia ].
  - destruct C as (_ & Co). rewrite Co. cbn [op_args effect]. destruct stack as [ | a r ]; cbn [kinds map]; [ cbn; eauto | ].
    apply Forall_cons_iff in F as (Fa & F). rewrite !zlen_cons in *. pose proof (zlen_nonneg _ r). replace (1 + zlen r <? 1) with false by lia.
    apply finish_good; [ exact F | reflexivity | unfold kinds; rewrite zlen_map; lia ].
  - destruct C as (_ & Co). rewrite Co. cbn [op_args effect]. destruct stack as [ | a r ]; cbn [kinds map]; [ cbn; eauto | ].
    apply Forall_cons_iff in F as (Fa & F). rewrite !zlen_cons in *. pose proof (zlen_nonneg _ r). replace (1 + zlen r <? 1) with false by lia.
    unfold execute_op_one. rewrite (bool_top st a Fa). destruct (kind_of a); cbn [negb bind]; [ | cbn; eauto ]. change (negb (0 =? 0)) with false. cbv iota.
    destruct (truth (v_value (e_val (bool_elem (op_bail (v_value (e_val a))))))).
    + unfold step_result, finish. fold (kinds r). rewrite kinds_len. replace (zlen r <=? 63) with true by lia. exists BAIL, r. cbn [bind]. auto.
    + apply finish_good; [ exact F | reflexivity | unfold kinds; rewrite zlen_map; lia ].
Qed.

Definition inv_values (s s' : pstate) : Prop := exists x, s_values s' = s_values s ++ x.
Lemma push_compiled s i : strings_ok i -> exists e o d v x, push_instr s i = push s e o d /\ make_value (s_values s) d = Ok (v, s_values s ++ x) /\ compiled (s_values s ++ x) (mk_elem e o v) i.
Proof.
  intros Hs. destruct i as [ w | w | b | w | | | | | | ]; cbn [strings_ok push_instr] in *;
    try (do 3 eexists; exists (mk_val 0 0 0), []; rewrite app_nil_r; split; [ reflexivity | split; [ reflexivity | split; reflexivity ] ]).
  1, 2, 4: do 3 eexists; exists (mk_val (zlen w + 1) (zlen (s_values s)) (first_last w)), (w ++ [0]); destruct Hs as (N & Z0);
    (split; [ reflexivity | ]); (split; [ now apply make_data | ]); (split; [ reflexivity | split; [ reflexivity | ] ]);
    (split; [ now apply string_at_new | split; [ reflexivity | split; [ exact N | reflexivity ] ] ]).
  do 3 eexists. exists (mk_val 0 0 (b2z b)), []. rewrite app_nil_r. split; [ reflexivity | ]. split; [ reflexivity | ]. cbn. auto.
Qed.
Definition push_result (k : option (list kind)) (is : list instr) (i : instr) (r : res next) : Prop :=
  match k with
  | Some k' =>
      if zlen k' <=? 63 then exists s', r = Ok (match k' with [] => Done s' | _ => Again s' end) /\ inv s' (is ++ [i]) /\ kinds (s_stack s') = k'
      else exists x, r = Ok (Failed 1 x)
  | None => exists x, r = Ok (Failed 1 x)
  end.
Lemma push_ok s is i : inv s is -> strings_ok i -> push_result (effect i (kinds (s_stack s))) is i (push_instr s i).
Proof.
  intros (C & F & L) Hs. destruct (push_compiled s i Hs) as (e & o & d & v & x & P & M & N). rewrite P. unfold push. rewrite M. cbn [bind]. cbv zeta.
  assert (F' : Forall (on_stack (s_values s ++ x)) (s_stack s)) by (eapply Forall_impl; [ | exact F ]; intros; now apply on_stack_more).
  pose proof (step_ok (s_values s ++ x) (s_stack s) (mk_elem e o v) i F' L N) as R. unfold step_result, push_result in *.
  destruct (effect i (kinds (s_stack s))) as [ k' | ].
  - destruct (zlen k' <=? 63) eqn:Z1.
    + destruct R as (ret & stack & -> & Ret & K & Fs). cbn [bind].
      replace (negb (ret =? 0) && negb (ret =? BAIL)) with false by (destruct Ret as [ -> | -> ]; reflexivity).
      exists (mk_pstate (s_list s ++ [mk_elem e o v]) stack (s_values s ++ x)). split.
      * rewrite <- K. destruct stack; reflexivity.
      * split; [ | exact K ]. split; cbn [s_list s_stack s_values]; [ | split; [ exact Fs | ] ].
        -- apply Forall2_app; [ | apply Forall2_cons; [ exact N | apply Forall2_nil ] ]. now apply compiled_all_more.
        -- rewrite <- kinds_len, K. lia.
    + destruct R as (f & stack & ->). cbn [bind]. eexists. reflexivity.
  - destruct R as (f & stack & ->). cbn [bind]. eexists. reflexivity.
Qed.

(** ** The loop *)
Lemma token_strings s i : token s i -> strings_ok i.
Proof.
  intros T. assert (N : forall (P : Z -> Prop) v, Forall P v -> ~ P 0 -> ~ In 0 v) by (intros P v F N X; rewrite Forall_forall in F; apply N; now apply F).
  destruct T as [ i w H | b f B Nb F | b v B Nb Nv F | k b v K B Nb Nv F ]; cbn [strings_ok].
  - destruct i; try discriminate H; exact I.
  - destruct F as (F1 & F2 & _). split; [ intros ->; now apply F2 | ]. apply (N _ _ F1). lia.
  - split; [ exact Nv | ]. apply (N _ _ F). unfold tag_char. lia.
  - split; [ exact Nv | ]. apply (N _ _ F). unfold name_char, tag_char. lia.
Qed.
Lemma token_nonempty s i : token s i -> (0 < List.length s)%nat.
Proof.
  destruct 1 as [ i w H | | | k b v [ -> | -> ] ]; try (cbn; lia). destruct i as [ | | [ | ] | | | | | | | ]; try discriminate H; injection H as <-; cbn; lia.
Qed.
Lemma skip_shorter l r : lexeme l = LSkip r -> (List.length r < List.length l)%nat.
Proof.
  intros H. destruct (skip_sound l r H) as [ (-> & b & tx & _ & ->) | (b & tx & nl & b2 & -> & _) ]; repeat (rewrite ?app_length; cbn [List.length]); lia.
Qed.
Lemma instr_shorter l i r : bytes l -> lexeme l = LInstr i r -> (List.length r < List.length l)%nat.
Proof.
  intros B H. destruct (lex_sound l i r B H) as (b & s & -> & _ & T & _). apply token_nonempty in T. rewrite !app_length. lia.
Qed.
Lemma bytes_from t p : bytes (t_data t) -> bytes (at_ t p).
Proof. apply bytes_skipn. Qed.
Lemma gap_blanks b g : blanks b -> gap g -> gap (b ++ g).
Proof.
  intros B G. destruct G as [ b' B' | b' tx nl g B' T N G ].
  - apply G_blanks. apply Forall_app. auto.
  - rewrite app_assoc. apply G_comment; auto. apply Forall_app. auto.
Qed.
Lemma written_gap b tx nl b2 s is : blanks b -> blanks b2 -> newline nl -> Forall (fun c => ~ newline c) tx -> is <> [] -> written s is ->
  written (b ++ 35 :: tx ++ nl :: b2 ++ s) is.
Proof.
  intros B B2 N T Ni W. destruct W as [ | g s i rest is G Tk En W ]; [ congruence | ].
  replace (b ++ 35 :: tx ++ nl :: b2 ++ g ++ s ++ rest) with ((b ++ 35 :: tx ++ nl :: b2 ++ g) ++ s ++ rest) by (repeat (rewrite <- ?app_assoc; cbn [app]); reflexivity).
  apply W_cons; auto. apply G_comment; auto. now apply gap_blanks.
Qed.
Lemma empty_gap b tx nl b2 l : blanks b -> blanks b2 -> newline nl -> Forall (fun c => ~ newline c) tx -> empty_text l -> empty_text (b ++ 35 :: tx ++ nl :: b2 ++ l).
Proof.
  intros B B2 N T (g & G & E). exists (b ++ 35 :: tx ++ nl :: b2 ++ g). split; [ apply G_comment; auto; now apply gap_blanks | ].
  destruct E as [ -> | (tx' & ->) ]; [ now left | right; exists tx' ]. repeat (rewrite <- ?app_assoc; cbn [app]). reflexivity.
Qed.
Lemma effect_last i k : effect i k = Some [] -> i = Pop \/ i = Bail.
Proof.
  destruct i; cbn [effect]; intros H; auto; try discriminate H; exfalso;
    (destruct k as [ | [ | ] [ | [ | ] k ] ]; discriminate H).
Qed.
Lemma legal_some k is : legal k is -> is <> [].
Proof. destruct 1; discriminate. Qed.

Lemma loop_ok t : t_nul t = true -> bytes (t_data t) -> forall fuel p st pre, inv st pre -> located t p -> (List.length (at_ t p) < fuel)%nat ->
  exists ret x st' p', parse_loop fuel t p st = Ok (ret, x, st', p') /\ located t p' /\ (ret = 0 \/ ret = 1) /\
    (ret = 0 -> x = FOk /\ lexeme (at_ t p) <> LError /\
       ((exists s is, at_ t p = s ++ at_ t p' /\ written s is /\ legal (kinds (s_stack st)) is /\ inv st' (pre ++ is) /\ s_stack st' = []) \/
        (at_ t p' = [] /\ (s_stack st' <> [] \/ (st' = st /\ empty_text (at_ t p)))))).
Proof.
  intros T By. induction fuel as [ | f IH ]; intros p st pre I L Hf; [ lia | ]. pose proof (bytes_from t p By) as Bp.
  pose proof (round t p st f T L) as R. destruct (lexeme (at_ t p)) as [ | | r | i r ] eqn:X.
  - destruct R as (p' & R & L' & A'). exists 0, FOk, st, p'. split; [ exact R | ]. split; [ exact L' | ]. split; [ now left | ]. intros _. split; [ reflexivity | ]. split; [ congruence | ]. right. split; [ exact A' | right ].
    split; [ reflexivity | ]. exists (at_ t p). split; [ | now left ]. apply G_blanks. now apply end_sound.
  - destruct R as (x & p' & R & L'). exists 1, x, st, p'. split; [ exact R | ]. split; [ exact L' | ]. split; [ now right | ]. discriminate.
  - destruct R as (p1 & R & L1 & A1). pose proof (skip_shorter _ _ X) as Sh.
    destruct (IH p1 st pre I L1 ltac:(rewrite A1; lia)) as (ret & x & st' & p' & R' & L' & Rt & S). exists ret, x, st', p'. split; [ congruence | ]. split; [ exact L' | ]. split; [ exact Rt | ].
    intros R0. destruct (S R0) as (Sx & S1 & S2). split; [ exact Sx | ]. split; [ congruence | ]. rewrite A1 in *.
    destruct (skip_sound _ _ X) as [ (-> & b & tx & B & E) | (b & tx & nl & b2 & E & B & B2 & N & Tx) ].
    + destruct S2 as [ (s & is & E2 & W & Lg & _) | (A' & S2) ].
      * exfalso. symmetry in E2. apply app_eq_nil in E2 as (-> & _). inversion W as [ E0 | g s0 i0 rest is0 G0 T0 En0 W0 E0 ]; subst; [ now apply legal_some in Lg | ].
        apply token_nonempty in T0. apply app_eq_nil in E0 as (_ & E0). apply app_eq_nil in E0 as (-> & _). cbn in T0. lia.
      * right. split; [ exact A' | ]. destruct S2 as [ S2 | (S2 & _) ]; [ now left | right ]. split; [ exact S2 | ]. exists b. split; [ now apply G_blanks | ]. right. eauto.
    + destruct S2 as [ (s & is & E2 & W & Lg & I' & K') | (A' & S2) ].
      * left. exists (b ++ 35 :: tx ++ nl :: b2 ++ s), is. split; [ rewrite E, E2; repeat (rewrite <- ?app_assoc; cbn [app]); reflexivity | ].
        split; [ apply written_gap; auto; now apply legal_some in Lg | auto ].
      * right. split; [ exact A' | ]. destruct S2 as [ S2 | (S2 & Em) ]; [ now left | right ]. split; [ exact S2 | ]. rewrite E. now apply empty_gap.
  - destruct R as (p1 & R & L1 & A1). pose proof (instr_shorter _ _ _ Bp X) as Sh. destruct (lex_sound _ _ _ Bp X) as (b & s & E & B & Tk & Ne).
    pose proof (push_ok st pre i I (token_strings _ _ Tk)) as P. unfold push_result in P.
    assert (FAIL : (exists x, push_instr st i = Ok (Failed 1 x)) -> exists ret x st' p', parse_loop (S f) t p st = Ok (ret, x, st', p') /\ located t p' /\ (ret = 0 \/ ret = 1) /\ (ret = 0 -> x = FOk /\ LInstr i r <> LError /\
       ((exists s is, at_ t p = s ++ at_ t p' /\ written s is /\ legal (kinds (s_stack st)) is /\ inv st' (pre ++ is) /\ s_stack st' = []) \/
        (at_ t p' = [] /\ (s_stack st' <> [] \/ (st' = st /\ empty_text (at_ t p))))))).
    { intros (x & Px). rewrite Px in R. exists 1, x, st, p1. split; [ exact R | ]. split; [ exact L1 | ]. split; [ now right | ]. discriminate. }
    destruct (effect i (kinds (s_stack st))) as [ k' | ] eqn:Ef; [ | now apply FAIL ]. destruct (zlen k' <=? 63) eqn:Zk; [ | now apply FAIL ]. clear FAIL.
    destruct P as (s1 & P & I1 & K1). rewrite P in R. destruct k' as [ | k0 k' ].
    + exists 0, FOk, s1, p1. split; [ exact R | ]. split; [ exact L1 | ]. split; [ now left | ]. intros _. split; [ reflexivity | ]. split; [ discriminate | ]. left. exists (b ++ s), [i]. split; [ rewrite A1, E; now rewrite <- app_assoc | ]. split.
      * rewrite <- (app_nil_r s). apply W_cons; [ now apply G_blanks | exact Tk | | apply W_nil ]. destruct (effect_last _ _ Ef) as [ -> | -> ]; exact Logic.I.
      * split; [ now apply L_last | ]. split; [ exact I1 | ]. destruct (s_stack s1); [ reflexivity | discriminate K1 ].
    + destruct (IH p1 s1 (pre ++ [i]) I1 L1 ltac:(rewrite A1; lia)) as (ret & x & st' & p' & R' & L' & Rt & S). exists ret, x, st', p'. split; [ exact (eq_trans R R') | ]. split; [ exact L' | ]. split; [ exact Rt | ].
      intros R0. destruct (S R0) as (Sx & S1 & S2). split; [ exact Sx | ]. split; [ discriminate | ]. rewrite A1 in *.
      destruct S2 as [ (s' & is & E2 & W & Lg & I' & K') | (A' & S2) ].
      * left. exists (b ++ s ++ s'), (i :: is). split; [ rewrite E, E2; now rewrite <- !app_assoc | ].
        assert (En : ended i r) by (apply upgrade; auto; rewrite <- A1; now apply bytes_from).
        split; [ apply W_cons; [ now apply G_blanks | exact Tk | | exact W ] | ].
        -- assert (Ns : s' <> []).
           { intros ->. inversion W as [ E0 | g s0 i0 rest is0 G0 T0 En0 W0 E0 ]; subst; [ now apply legal_some in Lg | ]. apply token_nonempty in T0. apply app_eq_nil in E0 as (_ & E0). apply app_eq_nil in E0 as (-> & _). cbn in T0. lia. }
           rewrite E2 in En. destruct s' as [ | c s' ]; [ congruence | ]. destruct i; cbn [ended] in *; try exact Logic.I; destruct En as (c' & r' & E3 & Hc); injection E3 as -> _; eauto.
        -- split; [ eapply L_step; [ exact Ef | discriminate | lia | now rewrite <- K1 ] | ]. rewrite <- app_assoc in I'. auto.
      * right. split; [ exact A' | left ]. destruct S2 as [ S2 | (-> & _) ]; [ exact S2 | ]. destruct (s_stack s1); [ discriminate K1 | discriminate ].
Qed.

(** ** Definitions written as they should be are accepted *)
Lemma gap_rounds t : t_nul t = true -> forall g, gap g -> forall p st fuel x, located t p -> after is_spaces (at_ t p) = after is_spaces (g ++ x) -> (List.length (at_ t p) < fuel)%nat ->
  exists b p' fuel', blanks b /\ located t p' /\ after is_spaces (at_ t p') = after is_spaces (b ++ x) /\ (List.length (at_ t p') < fuel')%nat /\ parse_loop fuel t p st = parse_loop fuel' t p' st.
Proof.
  intros T. induction 1 as [ b B | b tx nl g B Tx N G IH ]; intros p st fuel x L A Hf.
  - exists b, p, fuel. auto.
  - destruct fuel as [ | f ]; [ lia | ]. pose proof (round t p st f T L) as R.
    assert (X : lexeme (at_ t p) = LSkip (after is_spaces (g ++ x))).
    { rewrite <- lexeme_after, A, lexeme_after. replace ((b ++ 35 :: tx ++ nl :: g) ++ x) with (b ++ 35 :: tx ++ nl :: (g ++ x)) by (repeat (rewrite <- ?app_assoc; cbn [app]); reflexivity). now apply lex_comment. }
    pose proof (skip_shorter _ _ X) as Sh. rewrite X in R. destruct R as (p1 & R & L1 & A1).
    destruct (IH p1 st f x L1 ltac:(rewrite A1; apply after_idem) ltac:(rewrite A1; lia)) as (b' & p' & f' & B' & L' & A' & Hf' & R').
    exists b', p', f'. split; [ exact B' | ]. split; [ exact L' | ]. split; [ exact A' | ]. split; [ exact Hf' | congruence ].
Qed.
Lemma ended_more i rest x : ended i rest -> ended i (rest ++ x).
Proof. destruct i; cbn [ended]; try tauto; intros (c & r & -> & H); exists c, (r ++ x); auto. Qed.
Lemma accept t tail : t_nul t = true -> bytes (t_data t) -> forall k is, legal k is -> forall s st pre p fuel, written s is -> inv st pre -> kinds (s_stack st) = k ->
  located t p -> after is_spaces (at_ t p) = after is_spaces (s ++ tail) -> (List.length (at_ t p) < fuel)%nat ->
  exists st' p', parse_loop fuel t p st = Ok (0, FOk, st', p') /\ located t p' /\ at_ t p' = tail /\ inv st' (pre ++ is) /\ s_stack st' = [].
Proof.
  intros T By. induction 1 as [ i k Ef | i k k' is Ef Nk Zk Lg IH ]; intros s st pre p fuel W I K L A Hf.
  - inversion W as [ | g s0 i0 rest is0 G Tk En W0 ]; subst. inversion W0; subst. rewrite app_nil_r in *.
    rewrite <- app_assoc in A. destruct (gap_rounds t T g G p st fuel _ L A Hf) as (b & p1 & f1 & B & L1 & A1 & Hf1 & R1). rewrite R1.
    destruct f1 as [ | f1 ]; [ lia | ]. pose proof (round t p1 st f1 T L1) as R.
    assert (X : lexeme (at_ t p1) = LInstr i tail) by (rewrite <- lexeme_after, A1, lexeme_after; apply lex_token; auto; now apply (ended_more i [])).
    rewrite X in R. destruct R as (p2 & R & L2 & A2). pose proof (push_ok st pre i I (token_strings _ _ Tk)) as P. rewrite Ef in P. unfold push_result in P. change (zlen (@nil kind) <=? 63) with true in P. cbv iota in P.
    destruct P as (s' & P & I' & K'). rewrite P in R. exists s', p2. split; [ exact R | ]. split; [ exact L2 | ]. split; [ exact A2 | ]. split; [ exact I' | ]. destruct (s_stack s'); [ reflexivity | discriminate K' ].
  - inversion W as [ | g s0 i0 rest is0 G Tk En W0 ]; subst. rewrite <- !app_assoc in A.
    destruct (gap_rounds t T g G p st fuel _ L A Hf) as (b & p1 & f1 & B & L1 & A1 & Hf1 & R1). rewrite R1.
    destruct f1 as [ | f1 ]; [ lia | ]. pose proof (round t p1 st f1 T L1) as R.
    assert (X : lexeme (at_ t p1) = LInstr i (rest ++ tail)) by (rewrite <- lexeme_after, A1, lexeme_after; apply lex_token; auto; now apply ended_more).
    pose proof (instr_shorter _ _ _ (bytes_from t p1 By) X) as Sh. rewrite X in R. destruct R as (p2 & R & L2 & A2). pose proof (push_ok st pre i I (token_strings _ _ Tk)) as P. rewrite Ef in P. unfold push_result in P. replace (zlen k' <=? 63) with true in P by lia.
    destruct P as (s' & P & I' & K'). destruct k' as [ | k0 k' ]; [ congruence | ]. rewrite P in R.
    destruct (IH rest s' (pre ++ [i]) p2 f1 W0 I' K' L2 ltac:(now rewrite A2) ltac:(rewrite A2; lia)) as (st' & p' & R' & L' & A' & I2 & K2).
    exists st', p'. split; [ exact (eq_trans R R') | ]. split; [ exact L' | ]. split; [ exact A' | ]. split; [ | exact K2 ]. rewrite <- app_assoc in I2. exact I2.
Qed.

Lemma control_after t p : located t p -> exists p', ignore_control t p = Ok p' /\ located t p' /\ at_ t p' = after is_control (at_ t p).
Proof.
  intros L. destruct (ignore_ok t is_control p eq_refl (loc_range _ _ L)) as (p' & R & P & L'). exists p'. split; [ exact R | ]. split; [ auto | ]. rewrite P. now apply at_after.
Qed.
Lemma inv_start : inv (mk_pstate [] [] []) [].
Proof. split; [ constructor | ]. split; [ constructor | cbn; lia ]. Qed.
(** A text which begins with a control character is skipped up to the first other one *)
Lemma after_control s : forall c0 x, Forall (fun c => 0 <= c <= 31) c0 -> written s x -> x <> [] -> forall tail, exists s', written s' x /\ after is_control (c0 ++ s ++ tail) = s' ++ tail.
Proof.
  intros c0 x C W N tail.
  assert (Q : forall b y, blanks b -> stops y -> match y with [] => True | c :: _ => 31 < c end -> exists b', blanks b' /\ after is_control (c0 ++ b ++ y) = b' ++ y).
  { intros b y B Sy Hy. assert (Z1 : after is_control (c0 ++ b ++ y) = after is_control (b ++ y)).
    { clear - C. induction C as [ | c c0 Hc C IH ]; [ reflexivity | ]. cbn [app]. unfold after. cbn [leading]. replace (is_control c) with true by (unfold is_control; lia). cbn [List.length skipn]. exact IH. }
    rewrite Z1. clear Z1. induction B as [ | c b Hc B IH ].
    - exists []. split; [ constructor | ]. cbn [app]. apply after_id. destruct y; [ exact I | ]. unfold is_control. lia.
    - cbn [app]. destruct (is_control c) eqn:Ic.
      + destruct IH as (b' & B' & E). exists b'. split; [ exact B' | ]. unfold after. cbn [leading]. rewrite Ic. cbn [List.length skipn]. exact E.
      + exists (c :: b). split; [ now constructor | ]. apply (after_id is_control (c :: b ++ y)). exact Ic. }
  assert (TH : forall s i, token s i -> exists c r, s = c :: r /\ 32 < c).
  { intros s1 i Tk. destruct Tk as [ i w H | | | k b v [ -> | -> ] ]; try (do 2 eexists; split; [ reflexivity | vm_compute; reflexivity ]).
    destruct i as [ | | [ | ] | | | | | | | ]; try discriminate H; injection H as <-; do 2 eexists; (split; [ reflexivity | vm_compute; reflexivity ]). }
  destruct W as [ | g s i rest is G Tk En W ]; [ congruence | ]. destruct (TH _ _ Tk) as (ch & rs & Es & Hch).
  destruct G as [ b B | b tx nl g B Tx Nl G ].
  - destruct (Q b (s ++ rest ++ tail) B) as (b' & B' & E); [ subst s; cbn; unfold is_spaces, is_space_tab, is_newline; lia | subst s; cbn; lia | ].
    exists (b' ++ s ++ rest). split; [ apply W_cons; auto; now apply G_blanks | ]. rewrite <- !app_assoc. exact E.
  - destruct (Q b (35 :: tx ++ nl :: g ++ s ++ rest ++ tail) B) as (b' & B' & E); [ reflexivity | cbn; lia | ].
    exists ((b' ++ 35 :: tx ++ nl :: g) ++ s ++ rest). split; [ apply W_cons; auto; now apply G_comment | ]. repeat (rewrite <- ?app_assoc in *; cbn [app] in * ). exact E.
Qed.

Definition means (d : dstack) (is : list instr) : Prop := Forall2 (compiled (d_values d)) (d_list d) is.
Lemma fuel_all t p : located t p -> (List.length (at_ t p) < S (List.length (t_data t)))%nat.
Proof. intros L. unfold from. rewrite skipn_length. lia. Qed.
Lemma interpret_accepts t p c0 s is tail : t_nul t = true -> bytes (t_data t) -> located t p -> at_ t p = c0 ++ s ++ tail ->
  Forall (fun c => 0 <= c <= 31) c0 -> written s is -> definition is ->
  exists d p', interpret t p = Ok (0, FOk, Some d, p') /\ located t p' /\ at_ t p' = tail /\ means d is.
Proof.
  intros T By L A C W D. unfold interpret. destruct (control_after t p L) as (p1 & R1 & L1 & A1). rewrite R1. cbn [bind].
  destruct (after_control s c0 is C W (legal_some _ _ D) tail) as (s' & W' & E). rewrite A, E in A1.
  assert (Ne : eof t p1 = false).
  { rewrite (eof_at _ _ L1), A1. inversion W' as [ E0 | g s0 i0 rest is0 G0 T0 En0 W0 E0 ]; subst; [ now apply legal_some in D | ].
    apply token_nonempty in T0. destruct g; [ | reflexivity ]. destruct s0; [ cbn in T0; lia | reflexivity ]. }
  rewrite Ne. destruct (accept t tail T By [] is D s' (mk_pstate [] [] []) [] p1 _ W' inv_start eq_refl L1 ltac:(now rewrite A1) (fuel_all t p1 L1)) as (st' & p' & R & L' & A' & (I' & _) & K').
  rewrite R. cbn [bind]. change (negb (0 =? 0)) with false. cbv iota. rewrite K'. eexists _, p'. split; [ reflexivity | ]. split; [ exact L' | ]. split; [ exact A' | ]. exact I'.
Qed.
Lemma interpret_total t p : t_nul t = true -> bytes (t_data t) -> located t p ->
  exists ret x d p', interpret t p = Ok (ret, x, d, p') /\ located t p' /\ (ret = 0 \/ ret = 1) /\ (ret = 0 <-> d <> None) /\
  (forall d0, d = Some d0 -> x = FOk /\ exists c0 s is, at_ t p = c0 ++ s ++ at_ t p' /\ Forall (fun c => 0 <= c <= 31) c0 /\ means d0 is /\
     ((written s is /\ definition is) \/ (is = [] /\ at_ t p' = [] /\ s <> [] /\ empty_text s))).
Proof.
  intros T By L. unfold interpret. destruct (control_after t p L) as (p1 & R1 & L1 & A1). rewrite R1. cbn [bind].
  rewrite (eof_at _ _ L1). destruct (at_ t p1) as [ | c1 l1 ] eqn:E1.
  { exists 1, FEndMissing, None, p1. split; [ reflexivity | ]. split; [ exact L1 | ]. split; [ now right | ]. split; [ split; congruence | discriminate ]. }
  destruct (loop_ok t T By _ p1 (mk_pstate [] [] []) [] inv_start L1 (fuel_all t p1 L1)) as (ret & x & st' & p' & R & L' & Rt & S). rewrite R. cbn [bind].
  destruct Rt as [ -> | -> ].
  2: { change (negb (1 =? 0)) with true. cbv iota. exists 1, x, None, p'. split; [ reflexivity | ]. split; [ exact L' | ]. split; [ now right | ]. split; [ split; congruence | discriminate ]. }
  change (negb (0 =? 0)) with false. cbv iota. destruct (S eq_refl) as (-> & _ & S2). destruct (s_stack st') as [ | e0 r0 ] eqn:K.
  2: { exists 1, FStackCount, None, p'. split; [ reflexivity | ]. split; [ exact L' | ]. split; [ now right | ]. split; [ split; congruence | discriminate ]. }
  eexists 0, FOk, _, p'. split; [ reflexivity | ]. split; [ exact L' | ]. split; [ now left | ]. split; [ split; [ discriminate | reflexivity ] | ].
  intros d0 E. injection E as <-. split; [ reflexivity | ]. exists (leading is_control (at_ t p)).
  assert (Cc : Forall (fun c => 0 <= c <= 31) (leading is_control (at_ t p))).
  { pose proof (bytes_from t p By) as Bp. rewrite (after_split is_control (at_ t p)) in Bp. apply bytes_app in Bp as (Bp & _). pose proof (ParseProofs.leading_all is_control (at_ t p)) as Q.
    clear - Bp Q. induction Bp as [ | c l Hc Bp IH ]; [ constructor | ]. inversion Q; subst. constructor; [ unfold byte, is_control in *; lia | auto ]. }
  destruct S2 as [ (s & is & E2 & W & Lg & (I' & _) & _) | (A' & [ X | (-> & Em) ]) ]; [ | now destruct X | ].
  - exists s, is. split; [ rewrite <- E2, E1, A1; apply after_split | ]. split; [ exact Cc | ]. split; [ exact I' | ]. left. auto.
  - exists (at_ t p1), []. rewrite A', app_nil_r. split; [ rewrite E1, A1; apply after_split | ]. split; [ exact Cc | ]. split; [ constructor | ]. right. split; [ reflexivity | ]. split; [ reflexivity | ]. split; [ congruence | exact Em ].
Qed.
