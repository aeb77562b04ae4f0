(** C35: the text parsing helpers. *)
From Coq Require Import Strings.String.
From Coq Require Import ZArith List Bool Lia.
From Verif Require Import Common ParseModel ParseSpec ParseProofs.
Import ListNotations.
Open Scope Z_scope.

Definition txt (s : string) : text := mk_text (str_bytes s) true.
Definition nl : list Z := [10].
Definition sample : text := mk_text (str_bytes "# hello" ++ [13; 10] ++ str_bytes " name-1 =" ++ [9] ++ str_bytes "value x" ++ nl ++ nl ++ str_bytes "End") true.

(** Any sequence of parsing operations, on any text with a zero octet after it, stays inside
    the text, only goes forward and keeps the line number and line beginning right. *)
Theorem parse_in_bounds : forall t os, t_nul t = true -> Forall counts os ->
  match exec_all t pos_init os with
  | Ok p => 0 <= p_pos p <= t_size t /\ p_line p = 1 + lines_before (t_data t) (p_pos p) /\ p_begin p = line_begin (t_data t) (p_pos p)
  | Ub => False
  | Bug => exists o, In o os /\ may_abort o = true
  end.
Proof. intros t os Ht F. pose proof (exec_all_ok t Ht os pos_init (located_init t) F) as H. destruct (exec_all t pos_init os); [ exact (proj2 H) | exact H | exact H ]. Qed.
Print Assumptions parse_in_bounds.
Example parse_in_bounds_ex :
  exec_all sample pos_init [OComment; OName 61; OSpaceTab; ONonNewline; OSpaces; OWordCase (str_bytes "eND"); OSpaces] = Ok (mk_pos 31 4 28) /\
  Forall counts [OComment; OName 61; OSpaceTab; ONonNewline; OSpaces; OWordCase (str_bytes "eND"); OSpaces].
Proof.
  split; [ vm_compute; reflexivity | ].
  repeat constructor; cbn [counts]; try (vm_compute; reflexivity).
  vm_compute. intuition discriminate.
Qed.

(** No operation moves backwards. *)
Theorem parse_goes_forward : forall t p o p', t_nul t = true -> located t p -> counts o -> exec t p o = Ok p' -> p_pos p <= p_pos p' /\ located t p'.
Proof.
  intros t p o p' Ht L C E. destruct (exec_ok t p o Ht L C) as [ (p2 & E2 & H) | (E2 & _) ]; rewrite E in E2; [ injection E2 as <-; exact H | discriminate ].
Qed.
Print Assumptions parse_goes_forward.
Example parse_goes_forward_ex : exec sample pos_init OComment = Ok (mk_pos 10 2 9).
Proof. vm_compute. reflexivity. Qed.

(** Skipping passes exactly the leading run of octets to skip; it needs no zero octet after
    the text. *)
Theorem parse_skip_exact : forall t p, 0 <= p_pos p <= t_size t ->
  (exists p', ignore_spaces t p = Ok p' /\ p_pos p' = p_pos p + zlen (leading is_spaces (from t (p_pos p))) /\ (located t p -> located t p')) /\
  (exists p', ignore_space_and_tab t p = Ok p' /\ p_pos p' = p_pos p + zlen (leading is_space_tab (from t (p_pos p))) /\ (located t p -> located t p')) /\
  (exists p', ignore_control t p = Ok p' /\ p_pos p' = p_pos p + zlen (leading is_control (from t (p_pos p))) /\ (located t p -> located t p')).
Proof. intros t p Hp. split; [ | split ]; apply ignore_ok; auto. Qed.
Print Assumptions parse_skip_exact.
Example parse_skip_exact_ex :
  ignore_spaces (mk_text [32; 10; 13; 10; 13; 9; 65] false) pos_init = Ok (mk_pos 6 4 5).
Proof. vm_compute. reflexivity. Qed.

(** A comment ends with its line; blanks and empty lines after it are passed too. *)
Theorem parse_comment_exact : forall t p, 0 <= p_pos p <= t_size t -> t_nul t = true ->
  exists p', comment t p = Ok p' /\
    (let j := p_pos p + zlen (leading (fun c => negb (is_newline c)) (from t (p_pos p))) in
     p_pos p' = j + zlen (leading is_spaces (from t j))) /\ (located t p -> located t p').
Proof. exact comment_ok. Qed.
Print Assumptions parse_comment_exact.
Example parse_comment_exact_ex : comment (mk_text (str_bytes "# a" ++ nl ++ nl ++ str_bytes "  b") true) pos_init = Ok (mk_pos 7 3 5).
Proof. vm_compute. reflexivity. Qed.

(** A word is matched when and only when it is there, and nothing is passed otherwise. *)
Theorem parse_word_exact : forall t w p, 0 <= p_pos p <= t_size t ->
  (exists r, from t (p_pos p) = w ++ r) /\ match_word t w p = Ok (true, set_pos p (p_pos p + zlen w)) \/
  (forall r, from t (p_pos p) <> w ++ r) /\ match_word t w p = Ok (false, p).
Proof. exact word_exact. Qed.
Print Assumptions parse_word_exact.
Example parse_word_exact_ex :
  match_word (txt "DEFAULT") (str_bytes "DEF") pos_init = Ok (true, mk_pos 3 1 0) /\
  match_word (mk_text (str_bytes "DE") false) (str_bytes "DEF") pos_init = Ok (false, pos_init).
Proof. split; vm_compute; reflexivity. Qed.

Theorem parse_word_case_exact : forall t w p, 0 <= p_pos p <= t_size t -> ~ In 0 w ->
  (exists l r, from t (p_pos p) = l ++ r /\ map lower l = map lower w) /\ match_word_case t w p = Ok (true, set_pos p (p_pos p + zlen w)) \/
  (forall l r, map lower l = map lower w -> from t (p_pos p) <> l ++ r) /\ match_word_case t w p = Ok (false, p).
Proof. exact word_case_exact. Qed.
Print Assumptions parse_word_case_exact.
Example parse_word_case_exact_ex : match_word_case (txt "deFault") (str_bytes "DEF") pos_init = Ok (true, mk_pos 3 1 0).
Proof. vm_compute. reflexivity. Qed.

(** The octets of a kind which follow: first and last position, and the position after. *)
Theorem parse_letters_exact : forall t p flags, 0 <= p_pos p <= t_size t ->
  match_letters t p flags = let n := zlen (leading (match_char flags) (from t (p_pos p))) in
    Ok (p_pos p, p_pos p + n - 1, set_pos p (p_pos p + n)).
Proof. exact match_letters_ok. Qed.
Print Assumptions parse_letters_exact.
Example parse_letters_exact_ex : match_letters (mk_text (str_bytes "ab_9-z =") false) pos_init MATCH_NAME = Ok (0, 5, mk_pos 6 1 0).
Proof. vm_compute. reflexivity. Qed.

(** The octets before one of a kind: nothing is passed if there is none, unless the end of
    the text counts. *)
Theorem parse_until_exact : forall t p flags, 0 <= p_pos p <= t_size t -> (p_pos p < t_size t \/ t_nul t = true) ->
  match_until t p flags = let n := zlen (leading (fun c => negb (match_char flags c)) (from t (p_pos p))) in
    let found := (p_pos p + n <? t_size t) || (Z.testbit flags F_END && (p_pos p <? t_size t)) in
    let p' := if found then set_pos p (p_pos p + n) else p in Ok (p_pos p, p_pos p' - 1, p').
Proof. exact match_until_ok. Qed.
Print Assumptions parse_until_exact.
Example parse_until_exact_ex :
  match_until (txt "ab,c") pos_init (2^1) = Ok (0, 1, mk_pos 2 1 0) /\ match_until (txt "abc") pos_init (2^1) = Ok (0, -1, pos_init) /\
  match_until (txt "abc") pos_init (2^1 + 2^7) = Ok (0, 2, mk_pos 3 1 0).
Proof. split; [ | split ]; vm_compute; reflexivity. Qed.

(** The rest of the line. *)
Theorem parse_line_exact : forall t p, 0 <= p_pos p <= t_size t -> (p_pos p < t_size t \/ t_nul t = true) ->
  non_newline t p = let n := zlen (leading (fun c => negb (is_newline c)) (from t (p_pos p))) in
    Ok (p_pos p, p_pos p + n - 1, set_pos p (p_pos p + n)).
Proof. exact non_newline_ok. Qed.
Print Assumptions parse_line_exact.
Example parse_line_exact_ex : non_newline (mk_text (str_bytes "a b" ++ nl ++ str_bytes "c") false) pos_init = Ok (0, 2, mk_pos 3 1 0).
Proof. vm_compute. reflexivity. Qed.

(** A name between blanks and before the end character is extracted, ... *)
Theorem parse_name_complete : forall t p e b1 nm b2 rest,
  0 <= p_pos p <= t_size t -> is_spaces e = false -> name_octet e = false ->
  from t (p_pos p) = b1 ++ nm ++ b2 ++ e :: rest ->
  Forall (fun c => is_spaces c = true) b1 -> Forall (fun c => name_octet c = true) nm -> nm <> [] -> Forall (fun c => is_spaces c = true) b2 ->
  exists p', extract_name t p e = Ok (0, Some nm, p') /\ p_pos p' = p_pos p + zlen b1 + zlen nm + zlen b2 + 1 /\ (located t p -> located t p').
Proof. intros t p e b1 nm b2 rest Hp He1 He2 E F1 F2 Hn F3. apply name_complete with rest; auto. - now rewrite name_octet_eq. - now apply name_octets. Qed.
Print Assumptions parse_name_complete.
Example parse_name_complete_ex : extract_name (mk_text (nl ++ str_bytes " name-1 =x") false) pos_init 61 = Ok (0, Some (str_bytes "name-1"), mk_pos 10 2 1).
Proof. vm_compute. reflexivity. Qed.

(** ... and nothing else is. *)
Theorem parse_name_sound : forall t p e ret nm p', 0 <= p_pos p <= t_size t -> is_newline e = false -> extract_name t p e = Ok (ret, Some nm, p') ->
  ret = 0 /\ exists b1 b2 rest, from t (p_pos p) = b1 ++ nm ++ b2 ++ e :: rest /\ nm <> [] /\ Forall (fun c => name_octet c = true) nm /\
    Forall (fun c => is_spaces c = true) b1 /\ Forall (fun c => is_spaces c = true) b2 /\ from t (p_pos p') = rest.
Proof.
  intros t p e ret nm p' Hp He R. destruct (name_sound t p e ret nm p' Hp He R) as (H & b1 & b2 & rest & E & Hn & F & F1 & F2 & Hr).
  split; [ exact H | ]. exists b1, b2, rest. apply name_octets in F. auto 10.
Qed.
Print Assumptions parse_name_sound.
Example parse_name_sound_ex : extract_name (txt "a b=") pos_init 61 = Ok (1, None, mk_pos 2 1 0).
Proof. vm_compute. reflexivity. Qed.

(** Splitting at a character loses nothing: the elements have no such character and joined
    they are the string.  More elements than asked for are an error, and only that is. *)
Theorem parse_split_exact : forall s chr max, 0 <= max ->
  match str_split s chr max with
  | Some ls => (s = [] /\ ls = []) \/ (s <> [] /\ s = join chr ls /\ ls <> [] /\ Forall (fun l => ~ In chr l) ls /\ zlen ls <= max)
  | None => s <> [] /\ max < 1 + zlen (filter (Z.eqb chr) s)
  end.
Proof. exact str_split_ok. Qed.
Print Assumptions parse_split_exact.
Example parse_split_exact_ex :
  str_split (str_bytes "a::bc:") 58 4 = Some [str_bytes "a"; []; str_bytes "bc"; []] /\ str_split (str_bytes "a::bc:") 58 3 = None.
Proof. split; vm_compute; reflexivity. Qed.

(** The part before a character. *)
Theorem parse_extract_until_exact : forall s e, e <> 0 ->
  match str_extract_until s e with
  | Some m => exists r, s = m ++ e :: r /\ ~ In e m
  | None => ~ In e s
  end.
Proof. exact extract_until_ok. Qed.
Print Assumptions parse_extract_until_exact.
Example parse_extract_until_exact_ex : str_extract_until (str_bytes "ab:c:") 58 = Some (str_bytes "ab").
Proof. vm_compute. reflexivity. Qed.

(** Removing line ends removes line ends and nothing else. *)
Theorem parse_strip_exact : forall s, strip_newlines s = filter (fun c => negb (is_newline c)) s.
Proof. exact strip_ok. Qed.
Print Assumptions parse_strip_exact.
Example parse_strip_exact_ex : strip_newlines [10; 13; 65; 10; 66; 67; 13; 13; 68; 10] = [65; 66; 67; 68].
Proof. vm_compute. reflexivity. Qed.

(** Trimming removes the blanks at the end and nothing else. *)
Theorem parse_trim_exact : forall s, exists b, s = str_trim s ++ b /\ Forall (fun c => is_spaces c = true) b /\
  (str_trim s = [] \/ exists s' c, str_trim s = s' ++ [c] /\ is_spaces c = false).
Proof. exact trim_ok. Qed.
Print Assumptions parse_trim_exact.
Example parse_trim_exact_ex : str_trim [32; 65; 32; 66; 9; 10; 32] = [32; 65; 32; 66].
Proof. vm_compute. reflexivity. Qed.

(** An error message shows the line of the position (at most 128 octets of it, tabulators as
    blanks), its number and the column, for any position reached. *)
Theorem parse_location_exact : forall t p, t_nul t = true -> located t p -> t_size t < 2^32 ->
  let line := leading (fun c => negb (is_newline c)) (from t (line_begin (t_data t) (p_pos p))) in
  let shown := match line with [] => [32] | _ => firstn (Z.to_nat 128) line end in
  let col := Z.min (p_pos p - line_begin (t_data t) (p_pos p)) (zlen shown - 1) in
  location_message t p = Ok (mk_location (1 + lines_before (t_data t) (p_pos p)) (col + 1) (map (fun c => if c =? 9 then 32 else c) shown) (zlen shown =? 128) col).
Proof. exact location_ok. Qed.
Print Assumptions parse_location_exact.
Example parse_location_exact_ex :
  location_message sample (mk_pos 19 2 9) = Ok (mk_location 2 11 (str_bytes " name-1 = value x") false 10) /\ located sample (mk_pos 19 2 9).
Proof. split; [ vm_compute; reflexivity | ]. split; [ | split ]; vm_compute; try reflexivity. split; discriminate. Qed.

(** * Findings *)

(** When no zero octet follows the text (environment files), a comment which is not ended by
    a line end makes the octet after the buffer be read. *)
Theorem parse_comment_overread_refuted : forall d, d <> [] -> Forall (fun c => is_newline c = false) d -> comment (mk_text d false) pos_init = Ub.
Proof.
  intros d Hd F. set (t := mk_text d false).
  assert (L : forall fuel p, 0 <= p_pos p < t_size t -> (Z.to_nat (t_size t - p_pos p) < fuel)%nat -> forall c, is_newline c = false -> comment_loop fuel t c p = Ub).
  { induction fuel as [ | f IH ]; intros p Hp Hf c Hc; [ lia | ]. cbn [comment_loop].
    unfold is_newline in Hc. apply orb_false_iff in Hc. destruct Hc as (-> & ->). replace (p_pos p <? t_size t) with true by lia. cbn [negb andb set_pos p_pos].
    destruct (Z.eq_dec (p_pos p + 1) (t_size t)) as [ E | E ].
    - unfold rd. rewrite E. replace ((0 <=? t_size t) && (t_size t <? t_size t)) with false by lia. cbn [t_nul t]. rewrite andb_false_r. reflexivity.
    - rewrite rd_in by lia. cbn [bind]. apply IH; unfold set_pos; cbn [p_pos]; [ lia | lia | ].
      rewrite Forall_forall in F. apply F. apply nth_In. clear IH; unfold t_size, zlen, t in *; cbn [t_data] in *; lia. }
  unfold comment. unfold pos_init. cbn [p_pos].
  assert (S : 0 < t_size t) by (unfold t_size, t; cbn [t_data]; destruct d; [ congruence | rewrite zlen_cons; pose proof (zlen_nonneg _ d); lia ]).
  replace (t_size t <=? 0) with false by lia. rewrite rd_in by lia. cbn [bind].
  rewrite L; [ reflexivity | cbn [p_pos]; lia | apply full_fuel; cbn [p_pos]; lia | ].
  rewrite Forall_forall in F. apply F. apply nth_In. unfold t_size, zlen, t in *; cbn [t_data] in *; lia.
Qed.
Print Assumptions parse_comment_overread_refuted.
Example parse_comment_overread_refuted_ex : comment (mk_text (str_bytes "# comment") false) pos_init = Ub.
Proof. vm_compute. reflexivity. Qed.

(** Likewise the rest of the line, at the end of a text without zero octet. *)
Theorem parse_end_overread_refuted : forall d flags, let t := mk_text d false in let p := mk_pos (t_size t) 1 0 in
  non_newline t p = Ub /\ non_control t p = Ub /\ match_until t p flags = Ub.
Proof.
  intros d flags t p. assert (E : rd t (p_pos p) = Ub).
  { unfold rd, p. cbn [p_pos]. replace ((0 <=? t_size t) && (t_size t <? t_size t)) with false by lia. cbn [t_nul t]. now rewrite andb_false_r. }
  unfold non_newline, non_control, match_until. rewrite E. auto.
Qed.
Print Assumptions parse_end_overread_refuted.

(** An empty name with subscript syntax, as in a configuration file with [[]], aborts the
    program. *)
Theorem parse_subscript_abort_refuted : forall cb t p sub e rest, 0 <= p_pos p <= t_size t -> name_octet e = false -> is_spaces e = false ->
  from t (p_pos p) = e :: rest -> extract_name_with_subscript cb t p sub e = Bug.
Proof.
  intros cb t p sub e rest Hp He Hs E. unfold extract_name_with_subscript. cbn [subscript_loop].
  assert (Lt : p_pos p < t_size t).
  { destruct (Z.eq_dec (p_pos p) (t_size t)) as [ Q | ]; [ | lia ]. rewrite from_end in E by lia. discriminate. }
  assert (I : ignore_spaces t p = Ok p).
  { destruct (ignore_ok t is_spaces p eq_refl Hp) as (p' & R & P & _). unfold ignore_spaces. rewrite R. f_equal.
    unfold ignore in R. replace (t_size t <=? p_pos p) with false in R by lia.
    rewrite rd_in in R by lia. rewrite from_cons in E by lia. injection E as E _. cbn [bind] in R. rewrite E in R. cbn [ignore_loop] in R. rewrite Hs in R. cbn [andb] in R. congruence. }
  rewrite I. cbn [bind]. unfold eof. replace (t_size t <=? p_pos p) with false by lia.
  rewrite match_letters_ok by lia. rewrite E. cbn [leading]. change (match_char MATCH_NAME e) with (name_char e). rewrite name_octet_eq, He. cbv zeta.
  rewrite zlen_nil. cbn [bind]. replace (set_pos p (p_pos p + 0)) with p by (destruct p; unfold set_pos; cbn; f_equal; lia).
  rewrite I. cbn [bind]. rewrite rd_in by lia. cbn [bind]. rewrite from_cons in E by lia. injection E as E _. rewrite E.
  replace (t_size t <=? p_pos p) with false by lia. rewrite Z.eqb_refl. cbn [negb andb orb]. unfold name_length.
  replace (p_pos p + 0 - 1 <? p_pos p) with true by lia. reflexivity.
Qed.
Print Assumptions parse_subscript_abort_refuted.
Example parse_subscript_abort_refuted_ex : extract_name_with_subscript (fun _ _ => 0) (txt "]") pos_init 91 93 = Bug.
Proof. vm_compute. reflexivity. Qed.

(** Text which is not ASCII is taken for control characters: nothing is matched. *)
Theorem parse_non_control_utf8_refuted : forall t p c r, 0 <= p_pos p < t_size t -> from t (p_pos p) = c :: r -> 128 <= c <= 255 ->
  non_control t p = Ok (p_pos p, p_pos p - 1, p).
Proof.
  intros t p c r Hp E Hc. rewrite from_cons in E by lia. injection E as E _. unfold non_control. rewrite rd_in by lia. cbn [bind]. rewrite E.
  cbn [until_loop]. unfold eof. replace (t_size t <=? p_pos p) with false by lia. unfold is_control, signed. replace (c <? 128) with false by lia.
  replace (c - 256 <=? 31) with true by lia. reflexivity.
Qed.
Print Assumptions parse_non_control_utf8_refuted.
Example parse_non_control_utf8_refuted_ex : non_control (mk_text [195; 165] true) pos_init = Ok (0, -1, pos_init).
Proof. vm_compute. reflexivity. Qed.
