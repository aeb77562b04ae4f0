(** Properties C05 and C06: HDLC framing. *)
From Coq Require Import ZArith List Bool Lia.
From Verif Require Import Common HdlcModel HdlcSpec HdlcProofs.
Import ListNotations.
Open Scope Z_scope.

(** C05. Exported data, after any noise and any number of extra opening flags,
    parses back to the data, and parsing stops right after the closing flag. *)
Theorem hdlc_roundtrip : forall noise k data rest,
  ~ In 126 noise -> data <> [] -> hdlc_export_length data <> None ->
  hdlc_parse hdlc_init (noise ++ repeat 126 k ++ hdlc_export data ++ rest)
  = (HOk, {| h_flag := HDone; h_result := data |}, rest).
Proof.
  intros noise k data rest HN Hne HE. apply framed_parse; auto.
  - apply export_framed; auto.
  - pose proof (count_ge data). unfold hdlc_export_length in HE.
    destruct (Z.ltb_spec HDLC_MAX (hdlc_count data + 2)); [ congruence | lia ].
Qed.
Print Assumptions hdlc_roundtrip.

Example hdlc_roundtrip_ex :
  ~ In 126 [1; 125; 3] /\ hdlc_export_length [126; 125; 0; 94] = Some 8 /\
  hdlc_parse hdlc_init ([1; 125; 3] ++ repeat 126 2 ++ hdlc_export [126; 125; 0; 94] ++ [7; 7])
  = (HOk, {| h_flag := HDone; h_result := [126; 125; 0; 94] |}, [7; 7]).
Proof. vm_compute. repeat split. intros [H|[H|[H|[]]]]; discriminate. Qed.

(** C05. The exporter writes exactly the announced number of octets, and the
    stuffed payload contains no flag octet. *)
Theorem hdlc_export_exact : forall data n,
  bytes data -> hdlc_export_length data = Some n ->
  zlen (hdlc_export data) = n /\
  exists body, hdlc_export data = [126] ++ body ++ [126] /\ stuffed body data /\ ~ In 126 body.
Proof.
  intros data n HB H. split; [ apply export_length_written; auto | ].
  exists (hdlc_escape data). split; [ reflexivity | ]. split; [ apply escape_stuffed | apply escape_no_flag; auto ].
Qed.
Print Assumptions hdlc_export_exact.

Example hdlc_export_exact_ex :
  hdlc_export_length [126; 1; 125] = Some 7 /\ hdlc_export [126; 1; 125] = [126; 125; 94; 1; 125; 93; 126].
Proof. split; reflexivity. Qed.

(** C05. A sequence of frames with noise and flags in between is delivered
    completely and in order. *)
Theorem hdlc_frames_in_order : forall (frames : list (list Z * nat * list Z)) rest,
  Forall (fun '(noise, k, data) => ~ In 126 noise /\ data <> [] /\ hdlc_export_length data <> None) frames ->
  hdlc_parse_many (length frames)
    (concat (map (fun '(noise, k, data) => noise ++ repeat 126 k ++ hdlc_export data) frames) ++ rest)
  = (map snd frames, rest).
Proof. exact parse_many_frames. Qed.
Print Assumptions hdlc_frames_in_order.

Example hdlc_frames_in_order_ex :
  hdlc_parse_many 3 ([9] ++ hdlc_export [1; 126] ++ hdlc_export [2] ++ [126] ++ hdlc_export [3] ++ [4])
  = ([[1; 126]; [2]; [3]], [4]).
Proof. reflexivity. Qed.

(** C05. Exact characterisation: the parser succeeds precisely on framed
    streams whose payload is non-empty and fits the buffer. *)
Theorem hdlc_parse_iff_framed : forall stream data rest,
  hdlc_parse hdlc_init stream = (HOk, {| h_flag := HDone; h_result := data |}, rest)
  <-> framed stream data rest /\ data <> [] /\ zlen data <= 4095.
Proof.
  intros stream data rest. split.
  - intros H. apply parse_sound in H. exact H.
  - intros (H1 & H2 & H3). apply framed_parse; auto.
Qed.
Print Assumptions hdlc_parse_iff_framed.

Example hdlc_parse_iff_framed_ex : framed [5; 126; 126; 125; 93; 8; 126; 1] [125; 8] [1].
Proof.
  exists [5], 1%nat, [125; 93; 8]. split; [ intros [H|[]]; discriminate | ]. split; [ | reflexivity ].
  apply (stuffed_esc 93). apply stuffed_plain; try discriminate. constructor.
Qed.

(** C05, finding: two frames sharing one flag octet (legal HDLC) are not both
    delivered: the payload of the second is skipped as noise. *)
Theorem hdlc_shared_flag_refuted :
  exists d1 d2, d1 <> [] /\ d2 <> [] /\
    hdlc_parse_many 2 ([126] ++ hdlc_escape d1 ++ [126] ++ hdlc_escape d2 ++ [126]) = ([d1], hdlc_escape d2 ++ [126]) /\
    hdlc_parse hdlc_init (hdlc_escape d2 ++ [126]) = (HIncomplete, {| h_flag := HFrame; h_result := [] |}, []).
Proof. exists [1], [2]. repeat split; discriminate. Qed.
Print Assumptions hdlc_shared_flag_refuted.

(** C06. Parsing pieces one after the other equals parsing the whole: while
    the parser asks for more data, continuing with the next piece gives the result
    of the concatenation; once it has an answer, later data is untouched. *)
Theorem hdlc_chunking : forall s a b,
  hdlc_parse s (a ++ b) =
  match hdlc_parse s a with
  | (HIncomplete, s', _) => hdlc_parse s' b
  | (r, s', rest) => (r, s', rest ++ b)
  end.
Proof. intros. apply parse_app. Qed.
Print Assumptions hdlc_chunking.

(** C06. Any number of pieces. *)
Fixpoint parse_pieces (s : hdlc_state) (pieces : list (list Z)) : hdlc_ret * hdlc_state * list Z :=
  match pieces with
  | [] => (HIncomplete, s, [])
  | p :: ps =>
      match hdlc_parse s p with
      | (HIncomplete, s', _) => parse_pieces s' ps
      | (r, s', rest) => (r, s', rest ++ concat ps)
      end
  end.
Theorem hdlc_chunking_all : forall pieces s,
  parse_pieces s pieces = hdlc_parse s (concat pieces).
Proof.
  induction pieces as [|p ps IH]; intros s; [ reflexivity | ].
  cbn [parse_pieces concat]. rewrite parse_app.
  destruct (hdlc_parse s p) as [[[] s'] rest]; auto.
Qed.
Print Assumptions hdlc_chunking_all.

Example hdlc_chunking_ex :
  parse_pieces hdlc_init [[1]; [126; 125]; []; [94; 2]; [126; 9]]
  = (HOk, {| h_flag := HDone; h_result := [126; 2] |}, [9]).
Proof. reflexivity. Qed.

(** C06. No stream makes the parser write outside its result buffer. *)
Theorem hdlc_no_overflow : forall pieces,
  let '(r, s, _) := parse_pieces hdlc_init pieces in
  r <> HOverflow /\ zlen (h_result s) <= 4095.
Proof.
  intros pieces. rewrite hdlc_chunking_all.
  pose proof (parse_inv (concat pieces) hdlc_init ltac:(unfold hdlc_inv; cbn; lia)) as H.
  destruct (hdlc_parse hdlc_init (concat pieces)) as [[r s] rest]. exact H.
Qed.
Print Assumptions hdlc_no_overflow.

(** A stream that would overflow ends in a soft error with a full buffer. *)
Example hdlc_no_overflow_ex :
  let '(r, s, rest) := hdlc_parse hdlc_init (126 :: repeat 1 4100) in
  r = HSoftError /\ zlen (h_result s) = 4095 /\ zlen rest = 5.
Proof. vm_compute. repeat split. Qed.
