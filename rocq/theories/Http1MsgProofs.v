(** Lemmas about the receiving of HTTP/1 messages: requests and responses with a known length. *)
From Coq Require Import Strings.String.
From Coq Require Import ZArith List Bool Lia.
From Verif Require Import Common MsgModel ReadModel Base64Model Dec HttpUtilModel HttpUtilSpec HttpUtilProofs HttpUriProofs Http1Model Http1Spec Http1Proofs Http1HeadProofs Http1RecvProofs Http1FrameProofs.
Import ListNotations.
Open Scope Z_scope.

(** ** Looking up fields *)

Definition usable (s : string) : bool :=
  same_text (map lower (str_bytes s)) (str_bytes s) &&
  match lookup definitions (str_bytes s) with Some (_, PNone) | None => false | Some _ => true end.
Lemma usable_ok s : In s ["content-type"; "content-length"; "transfer-encoding"; "connection"]%string -> usable s = true.
Proof. revert s. apply forallb_forall. reflexivity. Qed.
Lemma named_case s f : usable s = true -> (same_case (map lower (sf_name f)) (str_bytes s) = true <-> named s f).
Proof.
  intros U. apply andb_true_iff in U. destruct U as [U _]. apply same_text_iff in U. rewrite same_case_iff, U, map_lower_idem. unfold named. change small with lower. tauto.
Qed.
Lemma stored_name f : h_name (stored f) = map lower (sf_name f) /\ h_def (stored f) = definition_get (sf_name f) /\ h_full (stored f) = Some (sf_value f).
Proof.
  unfold stored, parsed_field, new_field. generalize (definition_get (sf_name f)) as d. intros d. destruct d as [[fl []]|]; split; try reflexivity; split; reflexivity.
Qed.
Lemma get_none s fs : usable s = true -> without s fs -> header_get (map stored fs) (str_bytes s) = Ok None.
Proof.
  intros U H. induction H as [|f fs Hf H IH]; [ reflexivity | ]. cbn [map header_get]. rewrite (proj1 (stored_name f)).
  destruct (same_case (map lower (sf_name f)) (str_bytes s)) eqn:E; [ apply (named_case s f U) in E; tauto | exact IH ].
Qed.
Lemma get_some s a f b : usable s = true -> without s a -> named s f -> header_get (map stored (a ++ f :: b)) (str_bytes s) = Ok (Some (stored f)).
Proof.
  intros U H N. rewrite map_app. induction H as [|g a Hg H IH]; cbn [map app header_get].
  - destruct (stored_name f) as (A & B & _). rewrite A, (proj2 (named_case s f U) N), B. rewrite definition_lookup.
    apply andb_true_iff in U. destruct U as [_ U]. unfold named in N. change small with lower in N. rewrite N. destruct (lookup definitions (str_bytes s)) as [[fl []]|]; try discriminate U; reflexivity.
  - rewrite (proj1 (stored_name g)). destruct (same_case (map lower (sf_name g)) (str_bytes s)) eqn:E; [ apply (named_case s g U) in E; tauto | exact IH ].
Qed.
Lemma decide_named s fs : without s fs \/ exists a f b, fs = a ++ f :: b /\ without s a /\ named s f.
Proof.
  induction fs as [|f fs IH]; [ left; constructor | ]. destruct (list_eq_dec Z.eq_dec (map small (sf_name f)) (str_bytes s)) as [E|E].
  - right. exists [], f, fs. split; [ reflexivity | split; [ constructor | exact E ] ].
  - destruct IH as [IH|(a & g & b & -> & H & N)]; [ left; constructor; assumption | ]. right. exists (f :: a), g, b. split; [ reflexivity | split; [ constructor; assumption | exact N ] ].
Qed.
Lemma get_any s fs : usable s = true -> exists y, header_get (map stored fs) (str_bytes s) = Ok y /\ (without s fs -> y = None).
Proof.
  intros U. destruct (decide_named s fs) as [H|(a & f & b & -> & H & N)].
  - exists None. split; [ apply get_none; assumption | reflexivity ].
  - exists (Some (stored f)). split; [ apply get_some; assumption | ]. intros W. apply Forall_app in W. destruct W as [_ W]. apply Forall_inv in W. tauto.
Qed.
Lemma length_value f : named "content-length" f -> h_unsigned (stored f) = decimal (sf_value f).
Proof.
  intros N. unfold stored, parsed_field. rewrite definition_lookup. unfold named in N. change small with lower in N. rewrite N. reflexivity.
Qed.
Lemma text_value s f : In s ["transfer-encoding"; "connection"]%string -> named s f -> h_value (stored f) = Some (sf_value f).
Proof.
  intros I0 N. unfold stored, parsed_field. rewrite definition_lookup. unfold named in N. change small with lower in N. rewrite N.
  destruct I0 as [<-|[<-|[]]]; reflexivity.
Qed.
Lemma value_is_iff s t f : In s ["transfer-encoding"; "connection"]%string -> named s f -> same_text (map lower t) t = true -> (value_is (stored f) t = true <-> map small (sf_value f) = t).
Proof. intros I0 N L. unfold value_is. rewrite (text_value s f I0 N). apply same_text_iff in L. rewrite same_case_iff, L. reflexivity. Qed.

Lemma ver_iff v : In v versions -> (match ver v with V10 => false | V11 => true end = true <-> v = str_bytes "HTTP/1.1").
Proof. intros [<-|[<-|[]]]; vm_compute; split; try reflexivity; discriminate. Qed.
Lemma connection_ok p v fs : In v versions -> p_version p = ver v -> p_headers p = map stored fs -> exists k, connection_set p = Ok (set_keepalive p k) /\ persists v fs k.
Proof.
  intros Iv Ev Eh. unfold connection_set. rewrite Eh, Ev. assert (U : usable "connection" = true) by reflexivity.
  assert (I0 : In "connection"%string ["transfer-encoding"; "connection"]%string) by (right; left; reflexivity).
  pose proof (ver_iff v Iv) as Vi. destruct (decide_named "connection" fs) as [H|(a & f & b & -> & H & N)].
  - rewrite (get_none _ _ U H). eexists. split; [ reflexivity | ]. left. split; [ exact H | exact Vi ].
  - rewrite (get_some _ a f b U H N). pose proof (value_is_iff _ (str_bytes "close") f I0 N eq_refl) as V1.
    pose proof (value_is_iff _ (str_bytes "keep-alive") f I0 N eq_refl) as V2. pose proof (value_is_iff _ (str_bytes "upgrade") f I0 N eq_refl) as V3.
    destruct (value_is (stored f) (str_bytes "close")).
    + eexists. split; [ reflexivity | ]. right. exists a, f, b. repeat (split; [ assumption || reflexivity | ]). left. split; [ apply V1; reflexivity | reflexivity ].
    + destruct (value_is (stored f) (str_bytes "keep-alive")); [ | destruct (value_is (stored f) (str_bytes "upgrade")) ].
      * eexists. split; [ reflexivity | ]. right. exists a, f, b. repeat (split; [ assumption || reflexivity | ]). right. left. split; [ left; symmetry; apply V2; reflexivity | reflexivity ].
      * eexists. split; [ reflexivity | ]. right. exists a, f, b. repeat (split; [ assumption || reflexivity | ]). right. left. split; [ right; left; symmetry; apply V3; reflexivity | reflexivity ].
      * eexists. split; [ reflexivity | ]. right. exists a, f, b. repeat (split; [ assumption || reflexivity | ]). right. right. split; [ | exact Vi ].
        intros [E|[E|[E|[]]]]; symmetry in E; [ apply V1 in E | apply V2 in E | apply V3 in E ]; discriminate E.
Qed.
(** The fields as the user sees them *)
Definition shown (p : part) : list (list Z * option (list Z)) := map (fun h => (h_name h, h_full h)) (p_headers p).
Lemma shown_stored fs p : p_headers p = map stored fs -> shown p = map (fun f => (map small (sf_name f), Some (sf_value f))) fs.
Proof.
  intros E. unfold shown. rewrite E, map_map. apply map_ext. intros f. destruct (stored_name f) as (A & _ & B). rewrite A, B. reflexivity.
Qed.

(** The verdict once the header is there *)
Lemma loop_now fuel base request p buf pos r p' t n : part_parse base request p buf pos = Ok (r, p', t, n) -> r <> RIncomplete -> parse_loop fuel base request p buf pos = Ok (Some (r, p', t, u64 (pos + n))).
Proof. intros E N. rewrite parse_loop_eq, E. cbv zeta. destruct r; try reflexivity. congruence. Qed.

(** ** Requests *)

Definition request_start (m u v : list Z) : part := set_request new_part m u (ver v) (zlen (request_line m u v)).
Lemma request_fresh m u v : fresh (request_start m u v) (zlen (request_line m u v)).
Proof. repeat split. Qed.
Lemma request_full m u v : In m methods -> uri_text u -> In v versions -> zlen u < 2^32 ->
  forall base r, part_parse base true new_part (request_line m u v ++ r) 0 = parse_header base true (request_start m u v) (request_line m u v ++ r) 0 (zlen (request_line m u v)).
Proof. intros M U V L base r. unfold part_parse. change (p_chunked new_part) with false. change (p_app new_part) with false. cbv iota. rewrite drop_0, (request_first m u v r M U L V). reflexivity. Qed.
Lemma request_less m u v : In m methods -> uri_text u -> In v versions -> zlen (request_line m u v) <= 65536 ->
  forall base q, prefix_of q (request_line m u v) -> zlen q < zlen (request_line m u v) -> part_parse base true new_part q 0 = Ok (RIncomplete, new_part, 0, 0).
Proof.
  intros M U V B base q P L. unfold part_parse. change (p_chunked new_part) with false. change (p_app new_part) with false. cbv iota. rewrite drop_0, (request_short m u v q M U V P L).
  replace (1024 * 1024 <? zlen q) with false by lia. reflexivity.
Qed.
Lemma line_pos1 m u v : 0 < zlen (request_line m u v) /\ zlen u <= zlen (request_line m u v).
Proof. unfold request_line. rewrite !zlen_app. change (zlen [32]) with 1. change (zlen CRLF) with 2. pose proof (zlen_nonneg _ m). pose proof (zlen_nonneg _ u). pose proof (zlen_nonneg _ v). lia. Qed.
Lemma head_bounds line fs : zlen (head line fs) = zlen line + zlen (field_lines fs) + 2 /\ zlen line <= zlen (head line fs).
Proof. unfold head. rewrite (zlen_app _ line), (zlen_app _ (field_lines fs)). change (zlen CRLF) with 2. pose proof (zlen_nonneg _ (field_lines fs)). lia. Qed.

Definition told (fs : list sfield) (h : option hfield) (n : Z) : Prop := match h with Some x => h_unsigned x = n | None => n = 0 end.
Lemma length_get fs n : body_length fs n -> exists h, header_get (map stored fs) (str_bytes "content-length") = Ok h /\ told fs h n.
Proof.
  assert (U : usable "content-length" = true) by reflexivity.
  intros [(a & f & b & -> & Ha & Hb & N & D)|[W Z0]].
  - exists (Some (stored f)). split; [ apply get_some; assumption | ]. unfold told. rewrite (length_value f N). exact D.
  - exists None. split; [ apply get_none; assumption | exact Z0 ].
Qed.
Lemma bodyless_method m x : In m methods -> method_of m = Some x -> (In m bodyless <-> match x with MGet | MOptions | MHead | MDelete => True | _ => False end).
Proof.
  intros M E.
  assert (K : (if in_dec (list_eq_dec Z.eq_dec) m bodyless then true else false) = match method_of m with Some (MGet | MOptions | MHead | MDelete) => true | _ => false end).
  { assert (G : forallb (fun m => Bool.eqb (if in_dec (list_eq_dec Z.eq_dec) m bodyless then true else false) match method_of m with Some (MGet | MOptions | MHead | MDelete) => true | _ => false end) methods = true) by (vm_compute; reflexivity).
    rewrite forallb_forall in G. apply Bool.eqb_prop. apply G. exact M. }
  rewrite E in K. destruct (in_dec (list_eq_dec Z.eq_dec) m bodyless) as [I0|I0]; destruct x; try discriminate K; tauto.
Qed.

(** The framing of a message the length of which is told *)
Lemma framing_request base p fs buf pos total n : p_headers p = map stored fs -> without "transfer-encoding" fs -> body_length fs n -> 0 <= n ->
  0 <= p_headroom p + p_header p -> p_headroom p + p_header p + n < 2^64 ->
  body_framing base true p buf pos total = Ok (ROk, set_data p n, p_headroom p + p_header p + n, total).
Proof.
  intros Eh W B N0 P0 P1. unfold body_framing. rewrite Eh. destruct (length_get fs n B) as (h & E & T). rewrite E.
  rewrite (get_none "transfer-encoding" fs eq_refl W). destruct h as [x|]; cbn [told] in T.
  - rewrite T, u64_small by lia. reflexivity.
  - cbn [orb]. rewrite T, u64_small by lia. f_equal. f_equal. f_equal. lia.
Qed.

Section Request.
  Variables (m u v : list Z) (fs : list sfield).
  Hypothesis M : In m methods.
  Hypothesis U : uri_text u.
  Hypothesis V : In v versions.
  Hypothesis Hfs : Forall simple_field fs.
  Let line := request_line m u v.
  Hypothesis Hlen : zlen (head line fs) <= 65536.

  Lemma req_line_len : zlen line <= 65536 /\ zlen u < 2^32 /\ 0 < zlen line.
  Proof. destruct (head_bounds line fs) as [_ H]. destruct (line_pos1 m u v) as [A B]. fold line in A, B. lia. Qed.
  Lemma req_full : forall base r, part_parse base true new_part (line ++ r) 0 = parse_header base true (request_start m u v) (line ++ r) 0 (zlen line).
  Proof. apply request_full; try assumption. apply req_line_len. Qed.
  Lemma req_short : forall base q, prefix_of q line -> zlen q < zlen line -> part_parse base true new_part q 0 = Ok (RIncomplete, new_part, 0, 0).
  Proof. apply request_less; try assumption. apply req_line_len. Qed.

  Lemma request_incomplete fuel arrivals : prefix_of (octets_of arrivals) (head line fs) -> zlen (octets_of arrivals) < zlen (head line fs) -> (1 <= fuel)%nat ->
    exists p, receive fuel true (new_part, 0) [] arrivals = Ok (Some (NeedMore, p)).
  Proof.
    intros P L F. apply (receive_short true line (request_start m u v) fs Hfs Hlen (proj2 (proj2 req_line_len)) (request_fresh m u v) req_full req_short); try assumption.
    apply inv_start. apply req_line_len.
  Qed.
  (** What is known of the part *)
  Definition request_part (p : part) (n : Z) : Prop :=
    p_method_str p = m /\ p_uri p = u /\ p_version p = ver v /\ p_headers p = map stored fs /\ p_headroom p + p_header p = zlen (head line fs) /\
    p_chunked p = false /\ p_data p = n /\ exists k, p_keepalive p = Some k /\ persists v fs k.

  Lemma request_after base buf pos total n : without "transfer-encoding" fs -> body_length fs n -> 0 <= n < 2^63 ->
    exists p, request_part p n /\ p_method p = method_of m /\
      after true (request_start m u v) fs base buf pos total = Ok (ROk, p, zlen (head line fs) + n, total).
  Proof.
    intros W B N. unfold after. change (p_method_str (request_start m u v)) with m. destruct (methods_facts m M) as (_ & _ & _ & x & X). rewrite X.
    destruct (get_any "content-type" fs eq_refl) as (y & -> & _). set (p2 := set_method (done (request_start m u v) fs) (Some x)).
    destruct (connection_ok p2 v fs V eq_refl eq_refl) as (k & K & Pk). rewrite K.
    assert (HL : p_headroom (set_keepalive p2 k) + p_header (set_keepalive p2 k) = zlen (head line fs)).
    { cbn. fold line. destruct (head_bounds line fs) as [H1 _]. rewrite H1. pose proof (zlen_nonneg _ (field_lines fs)). pose proof (zlen_nonneg _ line). rewrite u64_small; lia. }
    pose proof (zlen_nonneg _ (head line fs)).
    rewrite (framing_request base (set_keepalive p2 k) fs buf pos total n eq_refl W B); [ | lia | lia | rewrite HL; lia ]. rewrite HL.
    eexists. split; [ | split; [ | reflexivity ] ]; [ | reflexivity ].
    unfold request_part. split; [ reflexivity | split; [ reflexivity | split; [ reflexivity | split; [ reflexivity | split; [ exact HL | split; [ reflexivity | split; [ reflexivity | ] ] ] ] ] ] ].
    exists k. split; [ reflexivity | exact Pk ].
  Qed.
  Lemma request_validate p n : request_part p n -> p_method p = method_of m -> body_length fs n -> without "transfer-encoding" fs ->
    (In m bodyless -> n = 0 /\ without "content-type" fs) -> validate_request p = Ok true.
  Proof.
    intros (_ & _ & _ & Eh & _) Em B W G. unfold validate_request. rewrite Eh, Em. destruct (length_get fs n B) as (h & E & T). rewrite E.
    rewrite (get_none "transfer-encoding" fs eq_refl W). destruct (methods_facts m M) as (_ & _ & _ & x & X). rewrite X.
    destruct (get_any "content-type" fs eq_refl) as (y & -> & Y0).
    assert (Y : In m bodyless -> y = None) by (intros I0; apply Y0, G, I0).
    pose proof (bodyless_method m x M X) as BM.
    assert (BL : match x with MGet | MOptions | MHead | MDelete => True | _ => False end -> negb (is_some y || is_some (@None hfield) || match h with Some h0 => negb (h_unsigned h0 =? 0) | None => false end) = true).
    { intros Q. apply BM in Q. destruct (G Q) as [N0 _]. rewrite (Y Q). cbn [is_some orb]. destruct h as [z|]; [ | reflexivity ]. cbn [told] in T. replace (h_unsigned z =? 0) with true by lia. reflexivity. }
    destruct x; try (rewrite BL by exact I); reflexivity.
  Qed.
  (** A method without body has one *)
  Lemma request_refuse p n : request_part p n -> p_method p = method_of m -> body_length fs n -> without "transfer-encoding" fs ->
    In m bodyless -> n <> 0 -> validate_request p = Ok false.
  Proof.
    intros (_ & _ & _ & Eh & _) Em B W G N. unfold validate_request. rewrite Eh, Em. destruct (length_get fs n B) as (h & E & T). rewrite E.
    rewrite (get_none "transfer-encoding" fs eq_refl W). destruct (methods_facts m M) as (_ & _ & _ & x & X). rewrite X.
    destruct (get_any "content-type" fs eq_refl) as (y & -> & _).
    apply (bodyless_method m x M X) in G. destruct h as [z|]; cbn [told] in T; [ | lia ].
    assert (K : negb (is_some y || is_some (@None hfield) || negb (h_unsigned z =? 0)) = false) by (replace (h_unsigned z =? 0) with false by lia; rewrite orb_true_r; reflexivity).
    destruct x; try destruct G; rewrite K; reflexivity.
  Qed.
  Lemma request_complete fuel arrivals n : without "transfer-encoding" fs -> body_length fs n -> 0 <= n < 2^63 ->
    prefix_of (head line fs) (octets_of arrivals) -> Forall is_arrival arrivals -> (1 <= fuel)%nat ->
    (In m bodyless -> n = 0 /\ without "content-type" fs) ->
    exists p, request_part p n /\ receive fuel true (new_part, 0) [] arrivals = Ok (Some (Message (zlen (head line fs) + n), p)).
  Proof.
    intros W B N P A F G.
    destruct (receive_head true line (request_start m u v) fs Hfs Hlen (proj2 (proj2 req_line_len)) (request_fresh m u v) req_full req_short fuel arrivals (new_part, 0) []
      (inv_start line (request_start m u v) fs (proj2 (proj2 req_line_len))) P F A) as (s' & before & base & d & aft & I1 & _ & [r Er] & _ & Ld & _ & _ & R).
    rewrite R. clear R.
    destruct (step_full true line (request_start m u v) fs Hfs Hlen (proj2 (proj2 req_line_len)) (request_fresh m u v) req_full req_short base s' before d r I1 Er Ld) as (p1 & total & Ep & S0 & T0 & ST & PP).
    destruct (request_after base (head line fs ++ r) (snd s') total n W B N) as (p & RP & Em & Af). rewrite Af in PP.
    exists p. split; [ exact RP | ]. unfold get_target_size. cbn [andb] in Ep |- *. rewrite Ep.
    rewrite (loop_now fuel base true p1 _ _ _ _ _ _ PP) by discriminate. rewrite (request_validate p n RP Em B W G). reflexivity.
  Qed.
  Lemma request_refused fuel arrivals n : without "transfer-encoding" fs -> body_length fs n -> 0 <= n < 2^63 ->
    prefix_of (head line fs) (octets_of arrivals) -> Forall is_arrival arrivals -> (1 <= fuel)%nat ->
    In m bodyless -> n <> 0 ->
    exists p, receive fuel true (new_part, 0) [] arrivals = Ok (Some (BadRequest (zlen (head line fs)), p)).
  Proof.
    intros W B N P A F G N1.
    destruct (receive_head true line (request_start m u v) fs Hfs Hlen (proj2 (proj2 req_line_len)) (request_fresh m u v) req_full req_short fuel arrivals (new_part, 0) []
      (inv_start line (request_start m u v) fs (proj2 (proj2 req_line_len))) P F A) as (s' & before & base & d & aft & I1 & _ & [r Er] & _ & Ld & _ & _ & R).
    rewrite R. clear R.
    destruct (step_full true line (request_start m u v) fs Hfs Hlen (proj2 (proj2 req_line_len)) (request_fresh m u v) req_full req_short base s' before d r I1 Er Ld) as (p1 & total & Ep & S0 & T0 & ST & PP).
    destruct (request_after base (head line fs ++ r) (snd s') total n W B N) as (p & RP & Em & Af). rewrite Af in PP.
    exists new_part. unfold get_target_size. cbn [andb] in Ep |- *. rewrite Ep.
    rewrite (loop_now fuel base true p1 _ _ _ _ _ _ PP) by discriminate. rewrite (request_refuse p n RP Em B W G N1).
    destruct RP as (_ & _ & _ & _ & HL & _). rewrite HL. pose proof (zlen_nonneg _ (head line fs)). rewrite u64_small by lia. reflexivity.
  Qed.
  Lemma request_body_ok base p body : request_part p (zlen body) -> request_body base p (head line fs ++ body) = Ok (Some body).
  Proof.
    intros (_ & _ & _ & _ & HL & Ch & D & _). unfold request_body, chunks_merge. rewrite Ch. cbn [negb]. rewrite HL, D. unfold region.
    pose proof (zlen_nonneg _ (head line fs)). pose proof (zlen_nonneg _ body). rewrite (zlen_app _ (head line fs) body).
    replace ((zlen (head line fs) <? 0) || (zlen body <? 0) || (zlen (head line fs) + zlen body <? zlen (head line fs) + zlen body)) with false by lia.
    rewrite drop_app, take_all. reflexivity.
  Qed.
End Request.

(** ** Responses *)

Definition response_start (v c ph : list Z) : part := set_response new_part (ver v) (decimal c) (zlen (status_line v c ph)).
Section Response.
  Variables (v c ph : list Z) (fs : list sfield).
  Hypothesis V : In v versions.
  Hypothesis C : status_code c.
  Hypothesis Ph : no_cr ph.
  Hypothesis Hfs : Forall simple_field fs.
  Let line := status_line v c ph.
  Hypothesis Hlen : zlen (head line fs) <= 65536.

  Lemma resp_line_len : zlen line <= 65536 /\ 0 < zlen line.
  Proof.
    destruct (head_bounds line fs) as [_ H]. split; [ lia | ]. subst line. unfold status_line. rewrite !zlen_app. change (zlen [32]) with 1.
    pose proof (zlen_nonneg _ v). pose proof (zlen_nonneg _ c). pose proof (zlen_nonneg _ ph). change (zlen CRLF) with 2. lia.
  Qed.
  Lemma resp_full : forall base r, part_parse base false new_part (line ++ r) 0 = parse_header base false (response_start v c ph) (line ++ r) 0 (zlen line).
  Proof. intros base r. unfold part_parse. change (p_chunked new_part) with false. change (p_app new_part) with false. cbv iota. rewrite drop_0. subst line. rewrite (status_first v c ph r V C Ph). reflexivity. Qed.
  Lemma resp_short : forall base q, prefix_of q line -> zlen q < zlen line -> part_parse base false new_part q 0 = Ok (RIncomplete, new_part, 0, 0).
  Proof.
    intros base q P L. pose proof resp_line_len as [B _]. unfold part_parse. change (p_chunked new_part) with false. change (p_app new_part) with false. cbv iota. rewrite drop_0, (status_short v c ph q V C Ph P L).
    replace (1024 * 1024 <? zlen q) with false by lia. reflexivity.
  Qed.
  Lemma resp_fresh : fresh (response_start v c ph) (zlen line).
  Proof. repeat split. Qed.
  Lemma response_incomplete fuel arrivals : prefix_of (octets_of arrivals) (head line fs) -> zlen (octets_of arrivals) < zlen (head line fs) -> (1 <= fuel)%nat ->
    exists p, receive fuel false (new_part, 0) [] arrivals = Ok (Some (NeedMore, p)).
  Proof.
    intros P L F. apply (receive_short false line (response_start v c ph) fs Hfs Hlen (proj2 resp_line_len) resp_fresh resp_full resp_short); try assumption.
    apply inv_start. apply resp_line_len.
  Qed.
  Definition response_part (p : part) (n : Z) : Prop :=
    p_code p = decimal c /\ p_version p = ver v /\ p_headers p = map stored fs /\ p_headroom p + p_header p = zlen (head line fs) /\
    p_chunks p = [] /\ p_data p = n /\ exists k, p_keepalive p = Some k /\ persists v fs k.
  (** Before the body is considered *)
  Lemma response_before : exists k, connection_set (done (response_start v c ph) fs) = Ok (set_keepalive (done (response_start v c ph) fs) k) /\ persists v fs k /\
    p_headroom (done (response_start v c ph) fs) + p_header (done (response_start v c ph) fs) = zlen (head line fs).
  Proof.
    destruct (connection_ok (done (response_start v c ph) fs) v fs V eq_refl eq_refl) as (k & K & Pk). exists k. split; [ exact K | split; [ exact Pk | ] ].
    cbn. fold line. destruct (head_bounds line fs) as [H1 _]. rewrite H1. pose proof (zlen_nonneg _ (field_lines fs)). pose proof (zlen_nonneg _ line). rewrite u64_small; lia.
  Qed.
  Definition no_body_code : Prop := c = str_bytes "204" \/ c = str_bytes "101".
  Lemma code_number : no_body_code <-> decimal c = 204 \/ decimal c = 101.
  Proof.
    unfold no_body_code. split; [ intros [->| ->]; [ left | right ]; reflexivity | ]. destruct C as [L D]. destruct c as [|x [|y [|z [|w q]]]]; try (cbn in L; discriminate L).
    2: { rewrite !zlen_cons in L. pose proof (zlen_nonneg _ q). lia. }
    inversion D as [|? ? Dx D1]; subst. inversion D1 as [|? ? Dy D2]; subst. inversion D2 as [|? ? Dz D3]; subst. unfold digit in *.
    unfold decimal. cbn [fold_left]. intros [E|E]; [ left | right ].
    - assert (x = 50 /\ y = 48 /\ z = 52) as (-> & -> & ->) by lia. reflexivity.
    - assert (x = 49 /\ y = 48 /\ z = 49) as (-> & -> & ->) by lia. reflexivity.
  Qed.
  Lemma response_complete fuel arrivals n : without "transfer-encoding" fs -> has_length fs n \/ (without "content-length" fs /\ no_body_code /\ n = 0) -> 0 <= n < 2^63 ->
    prefix_of (head line fs) (octets_of arrivals) -> Forall is_arrival arrivals -> (1 <= fuel)%nat ->
    exists p, response_part p n /\ receive fuel false (new_part, 0) [] arrivals = Ok (Some (Message (zlen (head line fs) + n), p)).
  Proof.
    intros W B N P A F. destruct response_before as (k & K & Pk & HL). pose proof (zlen_nonneg _ (head line fs)) as NN.
    destruct (receive_head false line (response_start v c ph) fs Hfs Hlen (proj2 resp_line_len) resp_fresh resp_full resp_short fuel arrivals (new_part, 0) []
      (inv_start line (response_start v c ph) fs (proj2 resp_line_len)) P F A) as (s' & before & base & d & aft & I1 & _ & [r Er] & _ & Ld & _ & _ & R).
    rewrite R. clear R.
    destruct (step_full false line (response_start v c ph) fs Hfs Hlen (proj2 resp_line_len) resp_fresh resp_full resp_short base s' before d r I1 Er Ld) as (p1 & total & Ep & S0 & T0 & ST & PP).
    set (p := set_data (set_keepalive (done (response_start v c ph) fs) k) n).
    assert (Af : after false (response_start v c ph) fs base (head line fs ++ r) (snd s') total = Ok (ROk, p, zlen (head line fs) + n, total)).
    { unfold after. rewrite K. unfold body_framing. change (p_headers (set_keepalive (done (response_start v c ph) fs) k)) with (map stored fs).
      change (p_headroom (set_keepalive (done (response_start v c ph) fs) k)) with (p_headroom (done (response_start v c ph) fs)).
      change (p_header (set_keepalive (done (response_start v c ph) fs) k)) with (p_header (done (response_start v c ph) fs)). rewrite HL.
      rewrite (get_none "transfer-encoding" fs eq_refl W). destruct B as [(a & f & b & E & Ha & Hb & Nf & D)|(Wc & Nb & ->)].
      - rewrite E at 1. rewrite (get_some "content-length" a f b eq_refl Ha Nf). rewrite (length_value f Nf), D, u64_small by lia. reflexivity.
      - rewrite (get_none "content-length" fs eq_refl Wc). change (p_code (set_keepalive (done (response_start v c ph) fs) k)) with (decimal c).
        apply code_number in Nb. replace (false || (decimal c =? 204) || (decimal c =? 101)) with true by lia. rewrite u64_small by lia. rewrite Z.add_0_r. reflexivity. }
    rewrite Af in PP. exists p. split.
    - unfold response_part. split; [ reflexivity | split; [ reflexivity | split; [ reflexivity | split; [ exact HL | split; [ reflexivity | split; [ reflexivity | ] ] ] ] ] ]. exists k. split; [ reflexivity | exact Pk ].
    - unfold get_target_size. cbn [andb] in Ep |- *. rewrite Ep. rewrite (loop_now fuel base false p1 _ _ _ _ _ _ PP) by discriminate. reflexivity.
  Qed.
  Lemma response_until_close fuel arrivals : without "transfer-encoding" fs -> without "content-length" fs -> ~ no_body_code ->
    prefix_of (head line fs) (octets_of arrivals) -> Forall is_arrival arrivals -> (1 <= fuel)%nat ->
    exists p, response_part p 0 /\ receive fuel false (new_part, 0) [] arrivals = Ok (Some (UntilClose, p)).
  Proof.
    intros W Wc Nb P A F. destruct response_before as (k & K & Pk & HL). pose proof (zlen_nonneg _ (head line fs)) as NN.
    destruct (receive_head false line (response_start v c ph) fs Hfs Hlen (proj2 resp_line_len) resp_fresh resp_full resp_short fuel arrivals (new_part, 0) []
      (inv_start line (response_start v c ph) fs (proj2 resp_line_len)) P F A) as (s' & before & base & d & aft & I1 & _ & [r Er] & _ & Ld & _ & _ & R).
    rewrite R. clear R.
    destruct (step_full false line (response_start v c ph) fs Hfs Hlen (proj2 resp_line_len) resp_fresh resp_full resp_short base s' before d r I1 Er Ld) as (p1 & total & Ep & S0 & T0 & ST & PP).
    set (p := set_unknown (set_keepalive (done (response_start v c ph) fs) k)).
    assert (Af : after false (response_start v c ph) fs base (head line fs ++ r) (snd s') total = Ok (RIncomplete, p, 0, total)).
    { unfold after. rewrite K. unfold body_framing. change (p_headers (set_keepalive (done (response_start v c ph) fs) k)) with (map stored fs).
      rewrite (get_none "transfer-encoding" fs eq_refl W), (get_none "content-length" fs eq_refl Wc). change (p_code (set_keepalive (done (response_start v c ph) fs) k)) with (decimal c).
      replace (false || (decimal c =? 204) || (decimal c =? 101)) with false; [ reflexivity | ]. destruct (Z.eqb_spec (decimal c) 204); [ exfalso; apply Nb, code_number; left; assumption | ].
      destruct (Z.eqb_spec (decimal c) 101); [ exfalso; apply Nb, code_number; right; assumption | reflexivity ]. }
    rewrite Af in PP. exists p. split.
    - unfold response_part. split; [ reflexivity | split; [ reflexivity | split; [ reflexivity | split; [ exact HL | split; [ reflexivity | split; [ reflexivity | ] ] ] ] ] ]. exists k. split; [ reflexivity | exact Pk ].
    - unfold get_target_size. cbn [andb] in Ep |- *. rewrite Ep. rewrite parse_loop_eq, PP. cbv zeta. replace (total =? 0) with false by lia. destruct fuel as [|fuel]; [ lia | ].
      rewrite parse_loop_eq. unfold part_parse. change (p_chunked p) with false. change (p_app p) with true. cbv iota. unfold parse_header. change (p_complete p) with true. cbv iota.
      change (0 =? 0) with true. cbv iota zeta. change (p_unknown p) with true. reflexivity.
  Qed.
  Lemma response_body_ok base p body : response_part p (zlen body) -> 0 <= base -> base + zlen (head line fs ++ body) < 2^64 -> chunks_iterate base p (head line fs ++ body) = Ok body.
  Proof.
    intros (_ & _ & _ & HL & Ch & D & _) B0 B1. rewrite (zlen_app _ (head line fs) body) in B1. unfold chunks_iterate, offset. rewrite Ch, HL, D.
    pose proof (zlen_nonneg _ (head line fs)). pose proof (zlen_nonneg _ body). rewrite !u64_small by lia.
    replace (base + zlen (head line fs) - base) with (zlen (head line fs)) by lia. replace (base + (zlen (head line fs) + zlen body) - base) with (zlen (head line fs) + zlen body) by lia.
    replace (zlen (head line fs) + zlen body <? zlen (head line fs)) with false by lia. unfold region. rewrite (zlen_app _ (head line fs) body).
    replace (zlen (head line fs) + zlen body - zlen (head line fs)) with (zlen body) by lia.
    replace ((zlen (head line fs) <? 0) || (zlen body <? 0) || (zlen (head line fs) + zlen body <? zlen (head line fs) + zlen body)) with false by lia.
    rewrite drop_app, take_all. reflexivity.
  Qed.
  Lemma response_body_lost base p body : response_part p 0 -> 0 <= base -> base + zlen (head line fs ++ body) < 2^64 -> chunks_iterate base p (head line fs ++ body) = Ok [].
  Proof.
    intros (_ & _ & _ & HL & Ch & D & _) B0 B1. rewrite (zlen_app _ (head line fs) body) in B1. unfold chunks_iterate, offset. rewrite Ch, HL, D.
    pose proof (zlen_nonneg _ (head line fs)). pose proof (zlen_nonneg _ body). rewrite !u64_small by lia. rewrite Z.add_0_r.
    replace (base + zlen (head line fs) - base) with (zlen (head line fs)) by lia. rewrite Z.ltb_irrefl. unfold region. rewrite (zlen_app _ (head line fs) body), Z.sub_diag.
    replace ((zlen (head line fs) <? 0) || (0 <? 0) || (zlen (head line fs) + zlen body <? zlen (head line fs) + 0)) with false by lia. reflexivity.
  Qed.
End Response.
