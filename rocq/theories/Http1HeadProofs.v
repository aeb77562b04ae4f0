(** Lemmas about the receiving of HTTP/1 messages: the header as a whole. *)
From Coq Require Import Strings.String.
From Coq Require Import ZArith List Bool Lia.
From Verif Require Import Common MsgModel ReadModel Base64Model Dec HttpUtilModel HttpUtilSpec HttpUtilProofs HttpUriProofs Http1Model Http1Spec Http1Proofs.
Import ListNotations.
Open Scope Z_scope.
Notation len := Datatypes.length.

(** ** One field *)

(** The octet after the line does not continue the field *)
Definition new_line (r : list Z) : Prop := match r with c :: _ => ~ blank c /\ c <> 44 /\ c <> 59 | [] => True end.

Lemma hd_value v : value_text v -> exists c w, v = c :: w /\ ~ blank c.
Proof. intros (N & _ & H & _). destruct v as [|c w]; [ congruence | ]. exists c, w. split; [ reflexivity | exact H ]. Qed.
Lemma value_no_cr v : value_text v -> no_cr v.
Proof. intros (_ & H & _). eapply Forall_impl; [ | exact H ]. cbn. intros c [A _]. exact A. Qed.
Lemma blanks_no_cr sp : Forall blank sp -> no_cr sp.
Proof. intros H. eapply Forall_impl; [ | exact H ]. unfold blank. cbn. lia. Qed.
Lemma strchr_none c l : Forall (fun x => x <> c) l -> strchr l c = None.
Proof. intros H. apply find_at_none. eapply Forall_impl; [ | exact H ]. cbn. intros x. lia. Qed.
Lemma plain_strchr v c : plain_text v -> c = 44 \/ c = 59 \/ c = 61 -> strchr v c = None.
Proof. intros H C. apply strchr_none. eapply Forall_impl; [ | exact H ]. cbn. intros x. lia. Qed.

Lemma subvalue_value fl sp v r (nowhite : bool) : Forall blank sp -> value_text v -> f_angled fl = false ->
  ((f_nopairs fl = true /\ f_multi fl = false) \/ plain_text v) ->
  (if nowhite then sp = [] /\ plain_text v else sp <> []) ->
  parse_subvalue fl nowhite (sp ++ v ++ 13 :: 10 :: r) = Ok (ROk, zlen sp + zlen v + 2, Some (v, [])).
Proof.
  intros B V A P W. destruct (hd_value v V) as (c & w & Ev & Hc). pose proof (value_ne v V) as NV. pose proof (zlen_nonneg _ v) as NN.
  unfold parse_subvalue.
  assert (S0 : count_while (fun c => (c =? 59) || (c =? 44)) (sp ++ v ++ 13 :: 10 :: r) = 0).
  { destruct nowhite.
    - destruct W as [-> W]. rewrite Ev in *. apply Forall_inv in W. cbn [app count_while]. replace ((c =? 59) || (c =? 44)) with false by lia. reflexivity.
    - destruct sp as [|x sp]; [ congruence | ]. apply Forall_inv in B. unfold blank in B. cbn [app count_while]. replace ((x =? 59) || (x =? 44)) with false by lia. reflexivity. }
  rewrite S0. rewrite drop_0. cbv zeta.
  assert (W0 : count_whsp (sp ++ v ++ 13 :: 10 :: r) = zlen sp) by (apply count_whsp_app; [ exact B | rewrite Ev; exact Hc ]).
  rewrite W0.
  assert (C0 : negb nowhite && (zlen sp =? 0) = false).
  { destruct nowhite; [ reflexivity | ]. destruct sp; [ congruence | ]. pose proof (zlen_pos z sp). cbn [negb andb]. lia. }
  rewrite C0. assert (Hp : 0 + (if nowhite then 0 else zlen sp) = zlen sp).
  { destruct nowhite; [ destruct W as [-> _]; reflexivity | lia ]. }
  rewrite Hp. rewrite drop_app. rewrite (crlf_found v r (value_no_cr v V)).
  assert (S1 : count_while (Z.eqb 32) (v ++ 13 :: 10 :: r) = 0).
  { rewrite Ev. cbn [app count_while]. unfold blank in Hc. replace (32 =? c) with false by lia. reflexivity. }
  rewrite S1. replace (zlen v - 0) with (zlen v) by lia. rewrite Z.add_0_r. rewrite drop_app, take_app. rewrite A. cbn [andb]. rewrite drop_0.
  replace (zlen v =? 0) with false by lia.
  assert (Eq : (if f_nopairs fl then None else option_map (Z.add 0) (strchr v 61)) = None).
  { destruct P as [[-> _]|P]; [ reflexivity | ]. rewrite plain_strchr by auto. destruct (f_nopairs fl); reflexivity. }
  assert (Se : (if f_nopairs fl then None else option_map (Z.add 0) (strchr v 59)) = None).
  { destruct P as [[-> _]|P]; [ reflexivity | ]. rewrite plain_strchr by auto. destruct (f_nopairs fl); reflexivity. }
  assert (Co : (if f_multi fl then option_map (Z.add 0) (strchr v 44) else None) = None).
  { destruct P as [[_ ->]|P]; [ reflexivity | ]. rewrite plain_strchr by auto. destruct (f_multi fl); reflexivity. }
  rewrite Eq, Se, Co. cbn [first_position]. replace (zlen v <=? 0) with false by lia. rewrite Z.eqb_refl. rewrite take_all. reflexivity.
Qed.
Lemma subvalue_none fl r : new_line r -> parse_subvalue fl false r = Ok (ROk, 0, None).
Proof.
  intros H. unfold parse_subvalue. destruct r as [|c r]; [ reflexivity | ]. destruct H as (B & C1 & C2).
  cbn [count_while]. replace ((c =? 59) || (c =? 44)) with false by lia. rewrite drop_0. unfold count_whsp. cbn [count_while]. rewrite (lwsp_not _ B). reflexivity.
Qed.
Lemma subvalues_eq fuel fl nowhite l pos fs : parse_subvalues fuel fl nowhite l pos fs =
  match parse_subvalue fl nowhite l with
  | Bug => Bug | Ub => Ub
  | Ok (r, n, f) =>
      match r with
      | ROk =>
          let fs' := fs ++ match f with Some x => [x] | None => [] end in
          let l' := drop n l in
          match l' with
          | [] => Ok (RIncomplete, 0, false, fs')
          | c :: rest =>
              if c =? 44 then Ok (ROk, pos + n, true, fs')
              else if c =? 59 then
                match rest with
                | [] => Ok (RIncomplete, 0, false, fs')
                | d :: _ =>
                    if d =? 44 then Ok (ROk, pos + n + 1, true, fs')
                    else
                      let bad := negb ((d =? 32) || (d =? 9) || (d =? 13)) in
                      match f, fuel with
                      | Some _, S k => parse_subvalues k fl bad l' (pos + n) fs'
                      | _, _ => Ok (ROk, pos + n, false, fs')
                      end
                end
              else
                match f, fuel with
                | Some _, S k => parse_subvalues k fl false l' (pos + n) fs'
                | _, _ => Ok (ROk, pos + n, false, fs')
                end
          end
      | _ => Ok (r, 0, false, fs)
      end
  end.
Proof. destruct fuel; reflexivity. Qed.
Lemma subvalues_value fuel fl sp v r (nowhite : bool) : Forall blank sp -> value_text v -> f_angled fl = false ->
  ((f_nopairs fl = true /\ f_multi fl = false) \/ plain_text v) ->
  (if nowhite then sp = [] /\ plain_text v else sp <> []) -> new_line r -> (0 < fuel)%nat ->
  parse_subvalues fuel fl nowhite (sp ++ v ++ 13 :: 10 :: r) 0 [] =
  match r with [] => Ok (RIncomplete, 0, false, [(v, [])]) | _ => Ok (ROk, zlen sp + zlen v + 2, false, [(v, [])]) end.
Proof.
  intros B V A P W L F. rewrite subvalues_eq. rewrite (subvalue_value fl sp v r nowhite B V A P W). cbv zeta. cbn [app].
  assert (D : drop (zlen sp + zlen v + 2) (sp ++ v ++ 13 :: 10 :: r) = r).
  { replace (sp ++ v ++ 13 :: 10 :: r) with ((sp ++ v ++ [13; 10]) ++ r) by (rewrite <- !app_assoc; reflexivity).
    apply drop_at. rewrite (zlen_app _ sp), (zlen_app _ v). change (zlen [13; 10]) with 2. lia. }
  rewrite D. destruct r as [|c r]; [ reflexivity | ]. pose proof L as (L1 & L2 & L3).
  replace (c =? 44) with false by lia. replace (c =? 59) with false by lia. destruct fuel as [|k]; [ lia | ].
  rewrite subvalues_eq. rewrite (subvalue_none fl (c :: r) L). cbv zeta. rewrite drop_0. replace (c =? 44) with false by lia. replace (c =? 59) with false by lia.
  cbn [app]. rewrite Z.add_0_r. reflexivity.
Qed.

Lemma line_shape f : field_line f = (sf_name f ++ [58] ++ sf_space f ++ sf_value f) ++ CRLF.
Proof. unfold field_line. rewrite <- !app_assoc. reflexivity. Qed.
Lemma line_no_cr f : simple_field f -> no_cr (sf_name f ++ [58] ++ sf_space f ++ sf_value f).
Proof.
  intros (N & T & B & V & _). unfold no_cr. apply Forall_app. split.
  - eapply Forall_impl; [ | exact T ]. cbn. intros c H. apply token_facts in H. lia.
  - apply Forall_cons; [ lia | ]. apply Forall_app. split; [ apply blanks_no_cr, B | apply value_no_cr, V ].
Qed.
Lemma name_no_colon f : simple_field f -> Forall (fun c => c <> 58) (sf_name f).
Proof. intros (N & T & _). eapply Forall_impl; [ | exact T ]. cbn. intros c H. apply token_facts in H. lia. Qed.
Lemma line_len f : zlen (field_line f) = zlen (sf_name f) + 1 + zlen (sf_space f) + zlen (sf_value f) + 2.
Proof. rewrite line_shape, (zlen_app _ _ CRLF), (zlen_app _ (sf_name f)), (zlen_app _ [58]), (zlen_app _ (sf_space f)). change (zlen [58]) with 1. change (zlen CRLF) with 2. lia. Qed.

Lemma field_loop_eq fuel name missing empty l pos vstart acc : field_loop fuel name missing empty l pos vstart acc =
  match field_create name l with
  | (ROk, n, h) =>
      let l1 := drop n l in
      match l1 with
      | [] => Ok (RSoft, 0, 0, [])
      | _ =>
          let vstart' := match name with None => pos + n | Some _ => vstart end in
          match whitespace_check l1 with
          | (ROk, k, m) =>
              let missing' := missing || m in
              match parse_subvalues (len l) (flags_of (h_def h)) missing' (drop k l1) 0 [] with
              | Bug => Bug | Ub => Ub
              | Ok (r, j, more, fs) =>
                  match r with
                  | ROk =>
                      let empty' := if j =? 0 then empty + 1 else empty in
                      if (j =? 0) && (empty' =? 4) then Ok (RSoft, 0, 0, [])
                      else
                        match parse_value (set_fields h fs) with
                        | Bug => Bug | Ub => Ub
                        | Ok None => Ok (RSoft, 0, 0, [])
                        | Ok (Some h') =>
                            match more, fuel with
                            | true, S f => field_loop f (Some (h_name h)) missing' empty' (drop (k + j) l1) (pos + n + k + j) vstart' (acc ++ [h'])
                            | _, _ => Ok (ROk, pos + n + k + j, vstart', acc ++ [h'])
                            end
                        end
                  | RIncomplete => Ok (RIncomplete, 0, 0, [])
                  | _ => Ok (RSoft, 0, 0, [])
                  end
              end
          | (r, _, _) => Ok (r, 0, 0, [])
          end
      end
  | (r, _, _) => Ok (r, 0, 0, [])
  end.
Proof. destruct fuel; reflexivity. Qed.
Lemma field_create_line f r : simple_field f -> field_create None (field_line f ++ r) = (ROk, zlen (sf_name f) + 1, new_field (sf_name f)).
Proof.
  intros S0. unfold field_create. rewrite line_shape, <- app_assoc. change (CRLF ++ r) with (13 :: 10 :: r).
  rewrite (crlf_found _ r (line_no_cr f S0)). set (t := sf_name f ++ [58] ++ sf_space f ++ sf_value f).
  assert (0 < zlen t).
  { subst t. rewrite (zlen_app _ (sf_name f)), (zlen_app _ [58]). change (zlen [58]) with 1. pose proof (zlen_nonneg _ (sf_name f)). pose proof (zlen_nonneg _ (sf_space f ++ sf_value f)). lia. }
  replace (zlen t <=? 0) with false by lia. rewrite take_app. subst t. unfold strchr. change ([58] ++ sf_space f ++ sf_value f) with (58 :: sf_space f ++ sf_value f).
  rewrite (find_at_app _ (sf_name f) 58).
  - rewrite <- app_assoc. rewrite take_app. reflexivity.
  - eapply Forall_impl; [ | exact (name_no_colon f S0) ]. cbn beta. intros c Hc. apply Z.eqb_neq. congruence.
  - reflexivity.
Qed.
Lemma whitespace_line sp v r : Forall blank sp -> value_text v -> whitespace_check (sp ++ v ++ 13 :: 10 :: r) = (ROk, 0, zlen sp =? 0).
Proof.
  intros B V. destruct (hd_value v V) as (c & w & Ev & Hc). pose proof (value_ne v V) as NV. pose proof (zlen_nonneg _ v).
  unfold whitespace_check. assert (C : find_crlf (sp ++ v ++ 13 :: 10 :: r) = Some (zlen (sp ++ v))).
  { rewrite app_assoc. apply crlf_found. apply Forall_app. split; [ apply blanks_no_cr, B | apply value_no_cr, V ]. }
  rewrite C. cbv zeta.
  assert (T : take (zlen (sp ++ v)) (sp ++ v ++ 13 :: 10 :: r) = sp ++ v) by (rewrite app_assoc; apply take_app).
  rewrite T, (count_whsp_app sp v B) by (rewrite Ev; exact Hc). rewrite (zlen_app _ sp v). replace (zlen sp =? zlen sp + zlen v) with false by lia.
  rewrite drop_0, C. reflexivity.
Qed.
Lemma field_loop_line f r : simple_field f -> new_line r ->
  field_loop (len (field_line f ++ r)) None false 0 (field_line f ++ r) 0 0 [] =
  match r with [] => Ok (RIncomplete, 0, 0, []) | _ => Ok (ROk, zlen (field_line f), zlen (sf_name f) + 1, [parsed_field f]) end.
Proof.
  intros S0 L. pose proof (simple_def f S0) as (A & P & _). pose proof S0 as (N & T & B & V & W & _).
  rewrite field_loop_eq, (field_create_line f r S0). cbv zeta.
  assert (D : drop (zlen (sf_name f) + 1) (field_line f ++ r) = sf_space f ++ sf_value f ++ 13 :: 10 :: r).
  { unfold field_line. replace ((sf_name f ++ [58] ++ sf_space f ++ sf_value f ++ CRLF) ++ r) with ((sf_name f ++ [58]) ++ sf_space f ++ sf_value f ++ 13 :: 10 :: r)
      by (unfold CRLF; rewrite <- !app_assoc; reflexivity).
    apply drop_at. rewrite (zlen_app _ (sf_name f)). reflexivity. }
  rewrite D. rewrite (whitespace_line _ _ _ B V). rewrite drop_0. cbn [orb].
  destruct (sf_space f ++ sf_value f ++ 13 :: 10 :: r) as [|x0 y0] eqn:E0; [ destruct (sf_space f); [ destruct (sf_value f); discriminate E0 | discriminate E0 ] | ].
  rewrite <- E0. clear x0 y0 E0 D.
  assert (H1 : if zlen (sf_space f) =? 0 then sf_space f = [] /\ plain_text (sf_value f) else sf_space f <> []).
  { destruct (Z.eqb_spec (zlen (sf_space f)) 0) as [E|E].
    - assert (sf_space f = []) as E' by (destruct (sf_space f); [ reflexivity | pose proof (zlen_pos z l); lia ]). split; [ exact E' | ].
      destruct W as [W|[W _]]; [ exact W | congruence ].
    - intros E'. rewrite E' in E. apply E. reflexivity. }
  cbn [new_field h_def].
  rewrite (subvalues_value _ _ (sf_space f) (sf_value f) r (zlen (sf_space f) =? 0) B V A P H1 L).
  2: { rewrite line_shape, <- app_assoc. rewrite app_length. cbn [CRLF app len]. rewrite !app_length. cbn [len]. lia. }
  destruct r as [|c r]; [ reflexivity | ].
  pose proof (value_ne _ V). pose proof (zlen_nonneg _ (sf_value f)). pose proof (zlen_nonneg _ (sf_space f)).
  replace (zlen (sf_space f) + zlen (sf_value f) + 2 =? 0) with false by lia. cbn [andb].
  rewrite (parse_value_simple f S0). rewrite line_len.
  replace (0 + (zlen (sf_name f) + 1) + 0 + (zlen (sf_space f) + zlen (sf_value f) + 2)) with (zlen (sf_name f) + 1 + zlen (sf_space f) + zlen (sf_value f) + 2) by lia.
  replace (0 + (zlen (sf_name f) + 1)) with (zlen (sf_name f) + 1) by lia. reflexivity.
Qed.
Lemma field_parse_line f r : simple_field f -> new_line r -> zlen (field_line f ++ r) < 2^32 ->
  field_parse (field_line f ++ r) = match r with [] => Ok (RIncomplete, 0, []) | _ => Ok (ROk, zlen (field_line f), [stored f]) end.
Proof.
  intros S0 L Z0. unfold field_parse. replace (2^32 - 1 <? zlen (field_line f ++ r)) with false by lia.
  rewrite (field_loop_line f r S0 L). destruct r as [|c r]; [ reflexivity | ]. cbv zeta.
  pose proof S0 as (N & T & B & V & _).
  assert (R : take (zlen (field_line f) - (zlen (sf_name f) + 1)) (drop (zlen (sf_name f) + 1) (field_line f ++ c :: r)) = sf_space f ++ sf_value f ++ CRLF).
  { unfold field_line at 2. replace ((sf_name f ++ [58] ++ sf_space f ++ sf_value f ++ CRLF) ++ c :: r) with ((sf_name f ++ [58]) ++ (sf_space f ++ sf_value f ++ CRLF) ++ c :: r)
      by (rewrite <- !app_assoc; reflexivity).
    rewrite drop_at by (rewrite (zlen_app _ (sf_name f)); reflexivity). apply take_at. rewrite line_len, (zlen_app _ (sf_space f)), (zlen_app _ (sf_value f)). change (zlen CRLF) with 2. lia. }
  rewrite R. rewrite count_whsp_app; [ | exact B | destruct (hd_value _ V) as (x & w & E & Hx); rewrite E; exact Hx ].
  rewrite drop_app. rewrite trim_right_id; [ reflexivity | apply V | | ].
  - destruct V as (Nv & Nc & _ & Lb). assert (In (last (sf_value f) 0) (sf_value f)) as I0 by (destruct (exists_last Nv) as (w & x & Ew); rewrite Ew, last_last; apply in_or_app; right; left; reflexivity).
    rewrite Forall_forall in Nc. specialize (Nc _ I0). unfold blank in Lb. lia.
  - unfold CRLF. apply Forall_cons; [ reflexivity | apply Forall_cons; [ reflexivity | constructor ] ].
Qed.

(** ** All fields *)

Lemma lines_cons f fs : field_lines (f :: fs) = field_line f ++ field_lines fs.
Proof. reflexivity. Qed.
Lemma lines_app a b : field_lines (a ++ b) = field_lines a ++ field_lines b.
Proof. unfold field_lines. rewrite map_app, concat_app. reflexivity. Qed.
Lemma line_start f r : simple_field f -> exists c w, field_line f ++ r = c :: w /\ ~ blank c /\ c <> 44 /\ c <> 59.
Proof.
  intros (N & T & _). unfold field_line. destruct (sf_name f) as [|c n]; [ congruence | ]. exists c, ((n ++ [58] ++ sf_space f ++ sf_value f ++ CRLF) ++ r).
  split; [ rewrite <- !app_assoc; reflexivity | ]. apply Forall_inv, token_facts in T. repeat split; apply T.
Qed.
Lemma lines_new_line fs r : Forall simple_field fs -> new_line (field_lines fs ++ CRLF ++ r).
Proof.
  intros H. destruct H as [|f fs Hf H]; [ cbn; unfold blank; lia | ]. rewrite lines_cons, <- app_assoc.
  destruct (line_start f (field_lines fs ++ CRLF ++ r) Hf) as (c & w & -> & A). exact A.
Qed.
Lemma prefix_new_line q l : prefix_of q l -> new_line l -> new_line q.
Proof. intros [r ->]. destruct q; [ intros _; exact I | exact (fun H => H) ]. Qed.
Lemma line_crlf f r : simple_field f -> find_crlf (field_line f ++ r) = Some (zlen (field_line f) - 2) /\ 0 < zlen (field_line f) - 2.
Proof.
  intros S0. rewrite line_len. rewrite line_shape, <- app_assoc. change (CRLF ++ r) with (13 :: 10 :: r). rewrite (crlf_found _ r (line_no_cr f S0)).
  rewrite (zlen_app _ (sf_name f)), (zlen_app _ [58]), (zlen_app _ (sf_space f)). change (zlen [58]) with 1. split; [ f_equal; lia | ].
  pose proof (zlen_nonneg _ (sf_name f)). pose proof (zlen_nonneg _ (sf_space f)). pose proof (zlen_nonneg _ (sf_value f)). lia.
Qed.
Lemma fields_eq fuel l total hs : header_fields_parse fuel l total hs =
  match find_crlf l with
  | None => Ok (RIncomplete, total, hs)
  | Some crlf =>
      if crlf =? 0 then Ok (ROk, total + 2, hs)
      else
        match field_parse l with
        | Bug => Bug | Ub => Ub
        | Ok (ROk, n, new) =>
            let k := if n =? crlf then n + 2 else n in
            match fuel with
            | S f => header_fields_parse f (drop k l) (total + k) (hs ++ new)
            | O => Ok (RIncomplete, total + k, hs ++ new)
            end
        | Ok (r, _, _) => Ok (r, total, hs)
        end
  end.
Proof. destruct fuel; reflexivity. Qed.
(** One line with something after it *)
Lemma fields_line fuel f r total hs : simple_field f -> new_line r -> r <> [] -> zlen (field_line f ++ r) < 2^32 ->
  header_fields_parse (S fuel) (field_line f ++ r) total hs = header_fields_parse fuel r (total + zlen (field_line f)) (hs ++ [stored f]).
Proof.
  intros S0 L N Z0. rewrite fields_eq. destruct (line_crlf f r S0) as [-> C]. replace (zlen (field_line f) - 2 =? 0) with false by lia.
  rewrite (field_parse_line f r S0 L Z0). destruct r as [|c r]; [ congruence | ]. cbv zeta.
  replace (zlen (field_line f) =? zlen (field_line f) - 2) with false by lia. rewrite drop_app. reflexivity.
Qed.
Lemma fields_alone fuel f total hs : simple_field f -> zlen (field_line f) < 2^32 -> header_fields_parse fuel (field_line f) total hs = Ok (RIncomplete, total, hs).
Proof.
  intros S0 Z0. rewrite fields_eq. pose proof (line_crlf f [] S0) as [C1 C2]. rewrite app_nil_r in C1. rewrite C1. replace (zlen (field_line f) - 2 =? 0) with false by lia.
  pose proof (field_parse_line f [] S0 I) as H. rewrite app_nil_r in H. rewrite (H Z0). reflexivity.
Qed.
Lemma line_pos f : (1 <= len (field_line f))%nat.
Proof. unfold field_line. rewrite !app_length. cbn. lia. Qed.
Lemma fields_complete fs : forall fuel r total hs, Forall simple_field fs -> (len (field_lines fs) <= fuel)%nat -> zlen (field_lines fs ++ CRLF ++ r) < 2^32 ->
  header_fields_parse fuel (field_lines fs ++ CRLF ++ r) total hs = Ok (ROk, total + zlen (field_lines fs) + 2, hs ++ map stored fs).
Proof.
  induction fs as [|f fs IH]; intros fuel r total hs H F Z0.
  - rewrite fields_eq. change (field_lines [] ++ CRLF ++ r) with ([] ++ 13 :: 10 :: r). rewrite (crlf_found [] r) by constructor. cbn. rewrite app_nil_r. f_equal. f_equal. f_equal. lia.
  - inversion H as [|? ? Hf H']; subst. rewrite lines_cons, app_length in F. pose proof (line_pos f). destruct fuel as [|fuel]; [ lia | ].
    rewrite lines_cons, <- app_assoc in Z0 |- *. rewrite (fields_line fuel f _ total hs Hf (lines_new_line fs r H')); [ | destruct (field_lines fs); discriminate | exact Z0 ].
    rewrite (zlen_app _ (field_line f)) in Z0 |- *. pose proof (zlen_nonneg _ (field_line f)).
    rewrite IH; [ | exact H' | lia | lia ]. rewrite <- app_assoc. cbn [app map]. f_equal. f_equal. f_equal. lia.
Qed.
(** Part of the header only.  What remains is such that nothing can be taken from it. *)
Definition stuck (q : list Z) : Prop := forall fuel total hs, header_fields_parse fuel q total hs = Ok (RIncomplete, total, hs).
Lemma fields_part fs : forall fuel q total hs, Forall simple_field fs -> (len q <= fuel)%nat -> prefix_of q (field_lines fs ++ CRLF) ->
  zlen q < zlen (field_lines fs) + 2 -> zlen (field_lines fs ++ CRLF) < 2^32 ->
  exists a b q', fs = a ++ b /\ q = field_lines a ++ q' /\ stuck q' /\
    header_fields_parse fuel q total hs = Ok (RIncomplete, total + zlen (field_lines a), hs ++ map stored a).
Proof.
  induction fs as [|f fs IH]; intros fuel q total hs H F P L Z0.
  - exists [], [], q. split; [ reflexivity | split; [ reflexivity | ] ].
    assert (St : stuck q).
    { intros k t h. rewrite fields_eq. rewrite (crlf_short [] q); [ reflexivity | constructor | exact P | exact L ]. }
    split; [ exact St | ]. rewrite St. change (zlen (field_lines [])) with 0. cbn [map]. rewrite app_nil_r, Z.add_0_r. reflexivity.
  - inversion H as [|? ? Hf H']; subst. rewrite lines_cons, <- app_assoc in P. rewrite lines_cons, (zlen_app _ (field_line f)) in L.
    rewrite lines_cons, <- app_assoc, (zlen_app _ (field_line f)) in Z0. pose proof (zlen_nonneg _ (field_lines fs ++ CRLF)). pose proof (zlen_nonneg _ (field_line f)).
    destruct (Z.le_gt_cases (zlen q) (zlen (field_line f))) as [C|C].
    + exists [], (f :: fs), q. split; [ reflexivity | split; [ reflexivity | ] ].
      assert (St : stuck q).
      { pose proof (prefix_short _ _ _ P C) as P'. destruct (Z.eq_dec (zlen q) (zlen (field_line f))) as [E|E].
        - rewrite (prefix_eq _ _ P') by lia. intros k t h. apply fields_alone; [ exact Hf | lia ].
        - intros k t h. rewrite fields_eq. rewrite line_shape in P'. rewrite (crlf_short _ q (line_no_cr f Hf) P'); [ reflexivity | ].
          rewrite line_shape, (zlen_app _ _ CRLF) in C, E. change (zlen CRLF) with 2 in C, E. lia. }
      split; [ exact St | ]. rewrite St. change (zlen (field_lines [])) with 0. cbn [map]. rewrite app_nil_r, Z.add_0_r. reflexivity.
    + destruct (prefix_cut _ _ _ P) as (r & -> & Pr); [ lia | ]. rewrite (zlen_app _ (field_line f) r) in L, C. rewrite app_length in F. pose proof (line_pos f). destruct fuel as [|fuel]; [ lia | ].
      assert (r <> []) as Nr by (intros ->; change (zlen (@nil Z)) with 0 in C; lia).
      assert (Lr : new_line r) by (eapply prefix_new_line; [ exact Pr | ]; rewrite <- (app_nil_r CRLF); apply lines_new_line, H').
      pose proof (prefix_len _ _ Pr).
      rewrite (fields_line fuel f r total hs Hf Lr Nr) by (rewrite (zlen_app _ (field_line f) r); lia).
      destruct (IH fuel r (total + zlen (field_line f)) (hs ++ [stored f]) H') as (a & b & q' & -> & -> & St & E); [ lia | exact Pr | lia | lia | ].
      exists (f :: a), b, q'. split; [ reflexivity | ]. split; [ rewrite lines_cons, <- app_assoc; reflexivity | ]. split; [ exact St | ].
      rewrite E. rewrite lines_cons, (zlen_app _ (field_line f)), <- app_assoc. cbn [app map]. f_equal. f_equal. f_equal. lia.
Qed.
