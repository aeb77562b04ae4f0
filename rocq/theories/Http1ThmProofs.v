(** Lemmas about the receiving of HTTP/1 messages made of chunks: requests and responses. *)
From Coq Require Import Strings.String.
From Coq Require Import ZArith List Bool Lia.
From Verif Require Import Common MsgModel ReadModel Base64Model Dec HttpUtilModel HttpUtilSpec HttpUtilProofs HttpUriProofs Http1Model Http1Spec Http1Proofs Http1HeadProofs Http1RecvProofs Http1FrameProofs Http1MsgProofs Http1ChunkProofs Http1BodyProofs.
Import ListNotations.
Open Scope Z_scope.

Lemma framing_chunked base request p fs buf pos total : p_headers p = map stored fs -> has_chunks fs ->
  body_framing base request p buf pos total =
  match parse_chunked base p buf (u64 (pos + total)) with
  | Ok (r, p', t, n) => Ok (r, p', t, u64 (total + n))
  | Bug => Bug | Ub => Ub
  end.
Proof.
  intros E (W & a & f & b & -> & H & N & V). unfold body_framing. rewrite E, (get_none "content-length" _ eq_refl W), (get_some "transfer-encoding" a f b eq_refl H N).
  assert (K : value_is (stored f) (str_bytes "chunked") = true) by (apply (value_is_iff "transfer-encoding"); [ left; reflexivity | exact N | reflexivity | exact V ]).
  rewrite K. reflexivity.
Qed.

Section Response.
  Variables (v c ph : list Z) (fs : list sfield) (cs : list (list Z * list Z)) (zero : list Z).
  Hypothesis V : In v versions.
  Hypothesis C : status_code c.
  Hypothesis Ph : no_cr ph.
  Hypothesis Hfs : Forall simple_field fs.
  Let line := status_line v c ph.
  Hypothesis Hlen : zlen (head line fs) <= 65536.
  Hypothesis Hc : has_chunks fs.
  Hypothesis Hcs : Forall chunk cs.
  Hypothesis Hz : hex_number zero 0 /\ zlen zero <= 63.
  Let full := head line fs ++ chunked_text cs zero.
  Hypothesis Hfull : zlen full < 2^63.

  Lemma response_chunked fuel arrivals : (len cs + 1 < fuel)%nat -> Forall (placed (zlen full)) arrivals ->
    (prefix_of (octets_of arrivals) full -> zlen (octets_of arrivals) < zlen full -> exists p, receive fuel false (new_part, 0) [] arrivals = Ok (Some (NeedMore, p))) /\
    (prefix_of full (octets_of arrivals) -> exists p, receive fuel false (new_part, 0) [] arrivals = Ok (Some (Message (zlen full), p)) /\
       p_code p = decimal c /\ p_headers p = map stored fs /\ (exists k, p_keepalive p = Some k /\ persists v fs k) /\
       forall base, 0 <= base -> base + zlen full < 2^64 -> chunks_iterate base p full = Ok (chunked_body cs)).
  Proof.
    intros Fu A. destruct (response_before v c ph fs V Hlen) as (k & K & Pk & HL). fold line in HL.
    set (pk := set_keepalive (done (response_start v c ph) fs) k). pose proof (zlen_nonneg _ line) as Nl. pose proof (zlen_nonneg _ (field_lines fs)) as Nf.
    assert (Hpk : p_chunks pk = [] /\ p_headroom pk + p_header pk = zlen (head line fs) /\ 0 <= p_headroom pk /\ 0 <= p_header pk).
    { split; [ reflexivity | split; [ exact HL | split; [ exact Nl | ] ] ]. unfold pk, done, set_headers, set_keepalive. cbn [p_header]. unfold u64. apply Z.mod_pos_bound. reflexivity. }
    assert (Haf : forall base buf pos total, after false (response_start v c ph) fs base buf pos total =
      match parse_chunked base pk buf (u64 (pos + total)) with
      | Ok (r, p', t, n) => Ok (r, p', t, u64 (total + n))
      | Bug => Bug | Ub => Ub
      end).
    { intros base buf pos total. unfold after. rewrite K. apply (framing_chunked base false pk fs buf pos total eq_refl Hc). }
    destruct (receive_chunked false line (response_start v c ph) fs cs zero pk Hfs Hlen (proj2 (resp_line_len v c ph fs Hlen)) (resp_fresh v c ph) (resp_full v c ph V C Ph)
      (resp_short v c ph fs V C Ph Hlen) Hcs Hz Hfull Hpk eq_refl Haf ltac:(discriminate) fuel arrivals Fu A) as [R1 R2].
    split; [ exact R1 | ]. intros P. specialize (R2 P). eexists. split; [ exact R2 | ]. split; [ reflexivity | split; [ reflexivity | split; [ exists k; split; [ reflexivity | exact Pk ] | ] ] ].
    intros base B0 B1. apply iterate_ok; [ exact HL | exact B0 | exact B1 ].
  Qed.
End Response.

Section Request.
  Variables (m u v : list Z) (fs : list sfield) (cs : list (list Z * list Z)) (zero : list Z).
  Hypothesis M : In m methods.
  Hypothesis Mb : ~ In m bodyless.
  Hypothesis U : uri_text u.
  Hypothesis V : In v versions.
  Hypothesis Hfs : Forall simple_field fs.
  Let line := request_line m u v.
  Hypothesis Hlen : zlen (head line fs) <= 65536.
  Hypothesis Hc : has_chunks fs.
  Hypothesis Hcs : Forall chunk cs.
  Hypothesis Hz : hex_number zero 0 /\ zlen zero <= 63.
  Let full := head line fs ++ chunked_text cs zero.
  Hypothesis Hfull : zlen full < 2^63.

  Lemma request_chunked fuel arrivals : (len cs + 1 < fuel)%nat -> Forall (placed (zlen full)) arrivals ->
    (prefix_of (octets_of arrivals) full -> zlen (octets_of arrivals) < zlen full -> exists p, receive fuel true (new_part, 0) [] arrivals = Ok (Some (NeedMore, p))) /\
    (prefix_of full (octets_of arrivals) -> exists p, receive fuel true (new_part, 0) [] arrivals = Ok (Some (Message (zlen full), p)) /\
       p_method_str p = m /\ p_uri p = u /\ p_headers p = map stored fs /\ (exists k, p_keepalive p = Some k /\ persists v fs k) /\
       forall base, 0 <= base -> base + zlen full < 2^64 -> request_body base p full = Ub).
  Proof.
    intros Fu A. destruct (methods_facts m M) as (_ & _ & _ & x & X).
    set (p2 := set_method (done (request_start m u v) fs) (Some x)). destruct (connection_ok p2 v fs V eq_refl eq_refl) as (k & K & Pk).
    set (pk := set_keepalive p2 k). destruct (req_line_len m u v fs Hlen) as (L1 & L2 & L3). fold line in L1, L3. pose proof (zlen_nonneg _ (field_lines fs)) as Nf.
    destruct (head_bounds line fs) as [H1 _].
    assert (HL : p_headroom pk + p_header pk = zlen (head line fs)).
    { unfold pk, p2, done, set_headers, set_method, set_keepalive. cbn [p_header p_headroom]. change (p_headroom (request_start m u v)) with (zlen line). change (p_header (request_start m u v)) with 0. rewrite H1. rewrite u64_small; lia. }
    assert (Hpk : p_chunks pk = [] /\ p_headroom pk + p_header pk = zlen (head line fs) /\ 0 <= p_headroom pk /\ 0 <= p_header pk).
    { split; [ reflexivity | split; [ exact HL | split; [ change (p_headroom pk) with (zlen line); lia | ] ] ]. unfold pk, p2, done, set_headers, set_method, set_keepalive. cbn [p_header]. unfold u64. apply Z.mod_pos_bound. reflexivity. }
    assert (Haf : forall base buf pos total, after true (request_start m u v) fs base buf pos total =
      match parse_chunked base pk buf (u64 (pos + total)) with
      | Ok (r, p', t, n) => Ok (r, p', t, u64 (total + n))
      | Bug => Bug | Ub => Ub
      end).
    { intros base buf pos total. unfold after. change (p_method_str (request_start m u v)) with m. rewrite X. destruct (get_any "content-type" fs eq_refl) as (y & -> & _).
      fold p2. rewrite K. apply (framing_chunked base true pk fs buf pos total eq_refl Hc). }
    assert (Hval : true = true -> validate_request (final (head line fs) cs zero pk) = Ok true).
    { intros _. unfold validate_request. change (p_headers (final (head line fs) cs zero pk)) with (map stored fs). change (p_method (final (head line fs) cs zero pk)) with (Some x).
      destruct (get_any "content-type" fs eq_refl) as (y1 & -> & _). destruct (get_any "content-length" fs eq_refl) as (y2 & -> & _). destruct (get_any "transfer-encoding" fs eq_refl) as (y3 & -> & _).
      pose proof (bodyless_method m x M X) as BM. destruct x; try (exfalso; apply Mb, BM; exact I); reflexivity. }
    destruct (receive_chunked true line (request_start m u v) fs cs zero pk Hfs Hlen L3 (request_fresh m u v) (req_full m u v fs M U V Hlen)
      (req_short m u v fs M U V Hlen) Hcs Hz Hfull Hpk eq_refl Haf Hval fuel arrivals Fu A) as [R1 R2].
    split; [ exact R1 | ]. intros P. specialize (R2 P). eexists. split; [ exact R2 | ]. split; [ reflexivity | split; [ reflexivity | split; [ reflexivity | split; [ exists k; split; [ reflexivity | exact Pk ] | ] ] ] ].
    intros base B0 B1. apply merge_bad; [ exact HL | exact B0 | exact B1 | ]. fold line. destruct (head_bounds line fs). lia.
  Qed.
End Request.

(** ** A response which is parsed without end *)

Definition crlf_line (s : string) : list Z := str_bytes s ++ CRLF.
Definition lines (l : list string) : list Z := concat (map crlf_line l).
Definition endless_text : list Z := lines ["HTTP/1.1 200 OK"; "Transfer-Encoding: chunked"; ""; "1"; "xFFFFFFFFFFFFFFEA"; "0"]%string.
Definition endless_base : Z := 2^32.
Lemma endless_chunk1 cs : last_chunk cs = Some (50, 1) -> parse_chunk endless_base endless_text 50 cs = Ok (RIncomplete, 19, cs ++ [(69, 2^64 - 22)]).
Proof. intros H. unfold parse_chunk. rewrite H. vm_compute. reflexivity. Qed.
Lemma endless_chunk2 cs : last_chunk cs = Some (69, 2^64 - 22) -> parse_chunk endless_base endless_text 69 cs = Ok (RIncomplete, 2^64 - 19, cs ++ [(50, 1)]).
Proof. intros H. unfold parse_chunk. rewrite H. vm_compute. reflexivity. Qed.
Lemma last_snoc (cs : list (Z * Z)) x : last_chunk (cs ++ [x]) = Some x.
Proof. unfold last_chunk. rewrite rev_app_distr. reflexivity. Qed.
Lemma endless fuel : forall p, p_chunked p = true ->
  (last_chunk (p_chunks p) = Some (50, 1) -> parse_loop fuel endless_base false p endless_text 50 = Ok None) /\
  (last_chunk (p_chunks p) = Some (69, 2^64 - 22) -> parse_loop fuel endless_base false p endless_text 69 = Ok None).
Proof.
  induction fuel as [|fuel IH]; intros p C; (split; intros L; rewrite parse_loop_eq; unfold part_parse; rewrite C; unfold parse_chunked;
    [ rewrite (endless_chunk1 _ L) | rewrite (endless_chunk2 _ L) ]; cbv zeta).
  - reflexivity.
  - reflexivity.
  - change (19 =? 0) with false. cbv iota. change (u64 (50 + 19)) with 69. apply IH; [ reflexivity | apply last_snoc ].
  - change (2^64 - 19 =? 0) with false. cbv iota. change (u64 (69 + (2^64 - 19))) with 50. apply IH; [ reflexivity | apply last_snoc ].
Qed.
Lemma endless_part : exists p n, part_parse endless_base false new_part endless_text 0 = Ok (RIncomplete, p, 0, n) /\ u64 (0 + n) = 50 /\ (n =? 0) = false /\ p_chunked p = true /\ last_chunk (p_chunks p) = Some (50, 1).
Proof. eexists. eexists. split; [ vm_compute; reflexivity | ]. repeat split. Qed.
Lemma endless_receive fuel : receive fuel false (new_part, 0) [] [(endless_base, endless_text)] = Ok None.
Proof.
  cbn [receive app]. unfold get_target_size. cbn [fst snd andb]. destruct endless_part as (p & n & E & P & N & C & L). rewrite parse_loop_eq, E. cbv zeta. rewrite N, P.
  destruct fuel as [|fuel]; [ reflexivity | ]. rewrite (proj1 (endless fuel p C) L). reflexivity.
Qed.

(** ** A test for simple fields, for the examples *)

Definition token_charb (c : Z) : bool := (65 <=? c) && (c <=? 90) || (97 <=? c) && (c <=? 122) || (48 <=? c) && (c <=? 57) || existsb (Z.eqb c) (str_bytes "!#$%&'*+-.^_`|~").
Definition namedb (s : string) (f : sfield) : bool := same_text (map small (sf_name f)) (str_bytes s).
Definition blankb (c : Z) : bool := (c =? 32) || (c =? 9).
Definition numberb (ds : list Z) : bool := negb (zlen ds =? 0) && forallb (fun c => (48 <=? c) && (c <=? 57)) ds && (same_text ds [48] || negb (hd 0 ds =? 48)) && (decimal ds <? 2^64).
Definition simple_fieldb (f : sfield) : bool :=
  negb (zlen (sf_name f) =? 0) && forallb token_charb (sf_name f) && forallb blankb (sf_space f) &&
  (negb (zlen (sf_value f) =? 0) && forallb (fun c => negb (c =? 13) && negb (c =? 10)) (sf_value f) && negb (blankb (hd 0 (sf_value f))) && negb (blankb (last (sf_value f) 0))) &&
  (forallb (fun c => negb (c =? 44) && negb (c =? 59) && negb (c =? 61)) (sf_value f) || negb (zlen (sf_space f) =? 0) && existsb (fun s => namedb s f) whole_fields) &&
  (negb (namedb "content-length" f) || numberb (sf_value f)) && negb (namedb "content-type" f) &&
  negb (namedb "link" f) && negb (namedb "alt-svc" f) && negb (namedb "sec-websocket-key" f) && negb (namedb "sec-websocket-accept" f).
Lemma namedb_not s f : negb (namedb s f) = true -> ~ named s f.
Proof. unfold namedb, named. intros H E. apply same_text_iff in E. rewrite E in H. discriminate. Qed.
Lemma zlen_some (l : list Z) : negb (zlen l =? 0) = true -> l <> [].
Proof. intros H ->. discriminate. Qed.
Lemma blankb_iff c : blankb c = true <-> blank c.
Proof. unfold blankb, blank. lia. Qed.
Lemma token_charb_ok c : token_charb c = true -> token_char c.
Proof.
  unfold token_charb, token_char, letter, digit. intros H. apply orb_true_iff in H. destruct H as [H|H]; [ lia | ]. right. right.
  apply existsb_exists in H. destruct H as (y & I & E). apply Z.eqb_eq in E. subst y. exact I.
Qed.
Lemma numberb_ok ds : numberb ds = true -> number ds.
Proof.
  unfold numberb, number. rewrite !andb_true_iff. intros [[[A B] C] D]. split; [ now apply zlen_some | ]. split; [ | split; [ | lia ] ].
  - apply Forall_forall. intros c I. rewrite forallb_forall in B. specialize (B c I). unfold digit. lia.
  - apply orb_true_iff in C. destruct C as [C|C]; [ left; now apply same_text_iff in C | right; lia ].
Qed.
Lemma simple_fieldb_ok f : simple_fieldb f = true -> simple_field f.
Proof.
  unfold simple_fieldb, simple_field, value_text, plain_text. rewrite !andb_true_iff. intros [[[[[[[[[[A B] C] [[[D1 D2] D3] D4]] E] F] G] H] I] J] K].
  rewrite forallb_forall in B, C, D2. split; [ now apply zlen_some | ]. split; [ apply Forall_forall; intros c X; apply token_charb_ok, B, X | ].
  split; [ apply Forall_forall; intros c X; apply blankb_iff, C, X | ]. split.
  { split; [ now apply zlen_some | ]. split; [ apply Forall_forall; intros c X; specialize (D2 c X); lia | ]. rewrite <- !blankb_iff. split; [ destruct (blankb (hd 0 (sf_value f))) | destruct (blankb (last (sf_value f) 0)) ]; easy. }
  split. { apply orb_true_iff in E. destruct E as [E|E].
    - left. apply Forall_forall. intros c X. rewrite forallb_forall in E. specialize (E c X). lia.
    - right. apply andb_true_iff in E. destruct E as [E1 E2]. split; [ now apply zlen_some | ]. apply existsb_exists in E2. destruct E2 as (s & X & N). exists s. split; [ exact X | now apply same_text_iff in N ]. }
  split. { intros N. apply numberb_ok. apply orb_true_iff in F. destruct F as [F|F]; [ | exact F ]. now apply namedb_not in F. }
  split. { intros N. now apply namedb_not in G. }
  repeat split; now apply namedb_not.
Qed.
Lemma fieldsb_ok fs : forallb simple_fieldb fs = true -> Forall simple_field fs.
Proof. intros H. rewrite forallb_forall in H. apply Forall_forall. intros f I. apply simple_fieldb_ok, H, I. Qed.
Lemma withoutb_ok s fs : forallb (fun f => negb (namedb s f)) fs = true -> without s fs.
Proof. intros H. rewrite forallb_forall in H. apply Forall_forall. intros f I. apply namedb_not, H, I. Qed.
