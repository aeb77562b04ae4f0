(** Properties C63 to C65: websocket connections. *)
From Coq Require Import Strings.String.
From Coq Require Import ZArith List Bool Lia.
From Verif Require Import Common MsgModel ReadModel ReadSpec WsModel WsSpec WsProofs.
Import ListNotations.
Open Scope Z_scope.

(** ** C63: messages arrive as sent *)

(** Missing from the full statement: control frames between the fragments of a message
    ([ws_interleaved_refuted]), the data of pings in the answers ([ws_pong_data_refuted]) and
    messages with fragments of 4 GB.  For everything else which may be sent, however it is masked
    and fragmented, and however the stream is cut: the owner is given exactly the messages sent, in
    order, every ping is answered by a pong, and nothing of the messages is kept. *)
Theorem ws_receive_partial : forall p ws ss ev a is fss lss cb now s,
  p_framer p = Some ws_framer -> Forall (world_ok p) ws -> run p [] ws = Ok (ss, ev) -> ~ waiting a ss ->
  Forall2 sent is fss -> Forall2 (Forall2 wire) fss lss -> small is -> received a [] ev = concat (concat lss) ->
  (forall m, cb m = 0) ->
  exists s', receive_frames cb now s (map with_header (delivered a [] ev)) = Ok (0, s', messages is) /\
    w_queue s' = w_queue s ++ map (fun _ => mk_frame 10 (w_client s) []) (pings is) /\
    w_waiting s' = w_waiting s && forallb (fun i => match i with Pong _ => false | _ => true end) is /\
    (is <> [] -> w_fragments s' = None).
Proof.
  intros p ws ss ev a is fss lss cb now s PF W R NW S WI M RC CB.
  assert (WC : Forall2 wire (concat fss) (concat lss)) by (clear - WI; induction WI; cbn [concat]; auto using Forall2_app).
  rewrite (frames_arrive p ws ss ev a (concat fss) (concat lss) PF W R NW WC (sent_sizes is fss S M) RC).
  destruct (items_ok cb now is fss lss s S WI M) as (s' & E & _ & _ & Q & Wt & Fr); [ apply Forall_forall; auto | ]. exists s'. auto.
Qed.
Print Assumptions ws_receive_partial.

(** What is sent from the queue is, octet by octet, one frame after the other of the standard. *)
Fixpoint keyed (keys : Z -> Z) (i : Z) (fs : list frame) : list (list Z) :=
  match fs with [] => [] | f :: r => frame_bytes (keys i) f :: keyed keys (i + 1) r end.
Theorem ws_send_standard : forall keys i fs, (forall j, 0 <= keys j < 2^32) ->
  Forall (fun f => 0 <= f_opcode f < 16 /\ zlen (f_payload f) < 2^63) fs ->
  exists ls wfs, send_frames keys i fs = concat ls /\ Forall2 wire wfs ls /\
    map (fun w => (wf_fin w, wf_op w, wf_data w)) wfs = map (fun f => (true, f_opcode f, f_payload f)) fs /\
    map has_key wfs = map f_mask fs.
Proof.
  intros keys i fs K F. exists (keyed keys i fs). revert i. induction F as [ | f fs (H1 & H2) _ IH ]; intros i; cbn [send_frames keyed concat map]; [ exists []; repeat split; constructor | ].
  destruct (IH (i + 1)) as (wfs & E1 & E2 & E3 & E4). exists (mk_wframe true 0 (f_opcode f) (if f_mask f then Some (keys i) else None) (f_payload f) :: wfs). rewrite E1. split; [ reflexivity | ].
  split; [ constructor; [ now apply frame_wire | exact E2 ] | ]. cbn [map wf_fin wf_op wf_data]. rewrite E3, E4. split; [ reflexivity | ]. f_equal. unfold has_key. cbn [wf_key]. now destruct (f_mask f).
Qed.
Print Assumptions ws_send_standard.

(** Messages put into the queue of one end arrive at the other. *)
Theorem ws_round_trip : forall p ws ss ev a keys cb now s fs,
  p_framer p = Some ws_framer -> Forall (world_ok p) ws -> run p [] ws = Ok (ss, ev) -> ~ waiting a ss ->
  (forall j, 0 <= keys j < 2^32) -> Forall (fun f => (f_opcode f = 1 \/ f_opcode f = 2) /\ zlen (f_payload f) < 2^32) fs ->
  received a [] ev = send_frames keys 0 fs -> (forall m, cb m = 0) ->
  exists s', receive_frames cb now s (map with_header (delivered a [] ev)) = Ok (0, s', map (fun f => (f_opcode f, f_payload f)) fs).
Proof.
  intros p ws ss ev a keys cb now s fs PF W R NW K F RC CB.
  destruct (ws_send_standard keys 0 fs K) as (ls & wfs & E & WI & M1 & M2); [ eapply Forall_impl; [ | exact F ]; cbn; intros f Hf; lia | ]. rewrite E in RC.
  assert (C : exists is, Forall2 sent is (map (fun w => [w]) wfs) /\ small is /\ messages is = map (fun f => (f_opcode f, f_payload f)) fs).
  { clear - F M1. revert wfs M1. induction F as [ | f fs (H1 & H2) _ IH ]; intros [ | w wfs ] M1; try discriminate M1; [ exists []; repeat split; constructor | ].
    cbn [map] in M1. injection M1 as Q1 Q2 Q3 Q4. destruct (IH wfs Q4) as (is & A1 & A2 & A3).
    exists (Data (f_opcode f =? 2) [f_payload f] :: is). cbn [map]. split; [ constructor; [ | exact A1 ]; cbn; repeat split; auto; rewrite Q2; unfold opcode; destruct H1 as [ -> | -> ]; reflexivity | ].
    split; [ constructor; [ | exact A2 ]; cbn [concat]; rewrite app_nil_r; split; [ auto | lia ] | ]. unfold messages in *. cbn [flat_map]. rewrite A3. cbn [concat app]. rewrite app_nil_r. f_equal. f_equal. destruct H1 as [ -> | -> ]; reflexivity. }
  destruct C as (is & A1 & A2 & A3).
  destruct (ws_receive_partial p ws ss ev a is (map (fun w => [w]) wfs) (map (fun l => [l]) ls) cb now s PF W R NW A1) as (s' & E' & _); auto.
  - clear - WI. induction WI; cbn [map]; auto.
  - rewrite RC. f_equal. clear. induction ls as [ | l ls IH ]; cbn [map concat app]; [ reflexivity | now rewrite <- IH ].
  - exists s'. now rewrite <- A3.
Qed.
Print Assumptions ws_round_trip.

(** Text "ab" in two fragments, a ping and a masked binary message, in three chunks *)
Definition ws_p : params := mk_params 2 64 0 (Some ws_framer) true.
Definition fresh : WsModel.state := mk_state None 0 0 0 false false [].
Definition chunk (t : Z) (d : list Z) : world := mk_world 7 (1700000000000000 + t) 0 d 0 false.
Definition ex_items : list item := [Data false [[97]; [98]]; Ping [1]; Data true [[5; 6; 7; 8; 9]]].
Definition ex_frames : list (list wframe) :=
  [[mk_wframe false 0 1 None [97]; mk_wframe true 0 0 None [98]]; [mk_wframe true 0 9 None [1]]; [mk_wframe true 0 2 (Some 67305985) [5; 6; 7; 8; 9]]].
Definition ex_wires : list (list (list Z)) :=
  [[[1; 1; 97]; [128; 1; 98]]; [[137; 1; 1]]; [[130; 133; 4; 3; 2; 1; 1; 5; 5; 9; 13]]].
Example ws_receive_ex : Forall2 sent ex_items ex_frames /\ Forall2 (Forall2 wire) ex_frames ex_wires /\ small ex_items /\
  match run ws_p [] [chunk 0 [1]; chunk 1 [1; 97; 128; 1; 98; 137; 1]; chunk 2 []; chunk 2 []; chunk 3 [1; 130; 133; 4; 3]; chunk 3 []; chunk 4 [2; 1; 1; 5; 5; 9; 13]] with
  | Ok (ss, ev) => received 7 [] ev = concat (concat ex_wires) /\ Forall (fun s => s_over s = None) ss /\
      receive_frames (fun _ => 0) 9 fresh (map with_header (delivered 7 [] ev)) = Ok (0, mk_state None 2 9 0 false false [mk_frame 10 false []], [(1, [97; 98]); (2, [5; 6; 7; 8; 9])])
  | _ => False end.
Proof.
  split; [ repeat constructor; try (vm_compute; congruence); eexists; split; [ reflexivity | auto ] | ]. split.
  { repeat constructor; [ exists 1, [], [], [97] | exists 1, [], [], [98] | exists 1, [], [], [1] | exists 5, [], [4; 3; 2; 1], [1; 5; 5; 9; 13] ]; (split; [ left; repeat split | ]).
    1-3: repeat split; vm_compute; congruence.
    split; [ | repeat split; vm_compute; congruence ]. cbn [wf_key]. split; [ split; vm_compute; congruence | ]. split; [ vm_compute; reflexivity | ]. apply masked_iff; [ vm_compute; congruence | vm_compute; reflexivity ]. }
  split; [ repeat constructor; vm_compute; congruence | ]. vm_compute. split; [ reflexivity | ]. split; [ repeat constructor | reflexivity ].
Qed.

(** FINDING: a ping between the fragments of a message, which the standard allows, makes the message
    vanish: the first fragment is thrown away and the last is taken for a ping. *)
Theorem ws_interleaved_refuted : exists l1 l2 l3,
  wire (mk_wframe false 0 1 None [97]) l1 /\ wire (mk_wframe true 0 9 None []) l2 /\ wire (mk_wframe true 0 0 None [98]) l3 /\
  receive_frames (fun _ => 0) 9 fresh (map with_header [l1; l2; l3]) = Ok (0, mk_state None 9 9 0 false false [mk_frame 10 false []; mk_frame 10 false []], []).
Proof.
  exists [1; 1; 97], [137; 0], [128; 1; 98]. split; [ exists 1, [], [], [97]; split; [ left; repeat split | repeat split; vm_compute; congruence ] | ].
  split; [ exists 0, [], [], []; split; [ left; repeat split | repeat split; vm_compute; congruence ] | ]. split; [ exists 1, [], [], [98]; split; [ left; repeat split | repeat split; vm_compute; congruence ] | ]. vm_compute. reflexivity.
Qed.
Print Assumptions ws_interleaved_refuted.

(** FINDING: the answer to a ping has no data, while it has to have that of the ping. *)
Theorem ws_pong_data_refuted : exists l, wire (mk_wframe true 0 9 None [1; 2]) l /\
  exists s', receive_frames (fun _ => 0) 9 fresh (map with_header [l]) = Ok (0, s', []) /\ w_queue s' = [mk_frame 10 false []].
Proof. exists [137; 2; 1; 2]. split; [ exists 2, [], [], [1; 2]; split; [ left; repeat split | repeat split; vm_compute; congruence ] | eexists; split; vm_compute; reflexivity ]. Qed.
Print Assumptions ws_pong_data_refuted.

(** FINDING: a continuation of no message is given to the owner as a message, of the type of the
    message before. *)
Theorem ws_stray_continuation_refuted : exists l1 l2, wire (mk_wframe true 0 1 None [97]) l1 /\ wire (mk_wframe true 0 0 None [98]) l2 /\
  exists s', receive_frames (fun _ => 0) 9 fresh (map with_header [l1; l2]) = Ok (0, s', [(1, [97]); (1, [98])]).
Proof.
  exists [129; 1; 97], [128; 1; 98]. split; [ exists 1, [], [], [97]; split; [ left; repeat split | repeat split; vm_compute; congruence ] | ].
  split; [ exists 1, [], [], [98]; split; [ left; repeat split | repeat split; vm_compute; congruence ] | ]. eexists. vm_compute. reflexivity.
Qed.
Print Assumptions ws_stray_continuation_refuted.

(** ** C64: frames cannot break the receiver *)

(** Missing from the full statement: lengths with the first bit set ([ws_length_abort_refuted],
    [ws_length_corrupt_refuted]).  A frame with any other header, whatever the rest of it and the
    state are, has a size which is not 0, lies behind its header and is handled within the
    memory of the frame. *)
Theorem ws_frame_safe_partial : forall buf h cb s, bytes buf -> get_header buf = Some h -> h_payload h < 2^63 ->
  ws_framer buf = FError READ_SOFT \/
  exists n, ws_framer buf = FSize n false /\ h_len h <= n /\ 0 < n /\ (n <= zlen buf -> exists r, interpret_step cb s h (firstn (Z.to_nat n) buf) = Ok r).
Proof.
  intros buf h cb s B G P. assert (HL : 2 <= h_len h <= 14 /\ 0 <= h_payload h).
  { unfold get_header in G. destruct (zlen buf <? 2) eqn:Q2; [ discriminate | ].
    assert (NN : forall o n, 0 <= be_field buf o n).
    { intros o n. unfold be_field. assert (bytes (sub_mem buf o n)) as Bs by (unfold sub_mem, bytes in *; match goal with |- Forall _ (firstn ?i (skipn ?j ?l)) => rewrite <- (firstn_skipn j l) in B; apply Forall_app in B; destruct B as (_ & B); rewrite <- (firstn_skipn i (skipn j l)) in B; apply Forall_app in B; apply B end). pose proof (be_dec_bound _ Bs). lia. }
    assert (LN : 0 <= Z.land (be_field buf 0 2) 127) by (apply Z.land_nonneg; auto).
    destruct (Z.land (be_field buf 0 2) 127 =? 126); [ destruct (zlen buf <? 4); [ discriminate | ] | destruct (Z.land (be_field buf 0 2) 127 =? 127); [ destruct (zlen buf <? 10); [ discriminate | ] | ] ];
      (destruct (Z.odd _); [ match type of G with (if ?c then _ else _) = _ => destruct c; [ discriminate | ] end | ]); injection G as <-; cbn [h_len h_payload]; split; auto; lia. }
  destruct HL as (HL & HP). unfold ws_framer. rewrite G. assert (U : u64 (h_len h + h_payload h) = h_len h + h_payload h) by (unfold u64; rewrite Z.mod_small; lia). rewrite U.
  destruct (SSIZE_MAX <? h_len h + h_payload h); [ now left | right ]. exists (h_len h + h_payload h). split; [ reflexivity | ]. split; [ lia | ]. split; [ lia | ]. intros ZB.
  assert (ZF : zlen (firstn (Z.to_nat (h_len h + h_payload h)) buf) = h_len h + h_payload h) by (unfold zlen in *; rewrite firstn_length; lia).
  unfold interpret_step. rewrite ZF. replace (h_len h + h_payload h - h_len h) with (h_payload h) by lia. replace (u64 (h_payload h)) with (h_payload h) by (unfold u64; rewrite Z.mod_small; lia).
  rewrite Z.eqb_refl. cbn [negb]. rewrite andb_false_r.
  repeat match goal with |- context [if ?c then _ else _] => destruct c end; eexists; reflexivity.
Qed.
Print Assumptions ws_frame_safe_partial.
Example ws_frame_safe_ex : exists h, get_header [130; 254; 255; 255; 1; 2; 3; 4; 9] = Some h /\ h_payload h = 65535 /\ ws_framer [130; 254; 255; 255; 1; 2; 3; 4; 9] = FSize 65543 false.
Proof. eexists. split; [ vm_compute; reflexivity | ]. split; vm_compute; reflexivity. Qed.

(** FINDING: a length of 2^64 - 10 in ten octets from the network aborts the program. *)
Theorem ws_length_abort_refuted : exists w, world_ok ws_p w /\ w_data w = [130; 127; 255; 255; 255; 255; 255; 255; 255; 246] /\ run ws_p [] [w] = Bug.
Proof. exists (chunk 0 [130; 127; 255; 255; 255; 255; 255; 255; 255; 246]). split; [ repeat split; vm_compute; congruence | ]. split; vm_compute; reflexivity. Qed.
Print Assumptions ws_length_abort_refuted.

(** FINDING: a length of 2^64 - 1 in a masked frame of fourteen octets from the network makes the
    program unmask, that is change, all memory after its buffer. *)
Theorem ws_length_corrupt_refuted : exists w ss ev h m,
  let data := [130; 255; 255; 255; 255; 255; 255; 255; 255; 255; 1; 2; 3; 4] in
  world_ok ws_p w /\ w_data w = data /\ run ws_p [] [w] = Ok (ss, ev) /\ delivered 7 [] ev = [m] /\ get_header data = Some h /\
  forall cb s, interpret_step cb s h m = Ub.
Proof.
  exists (chunk 0 [130; 255; 255; 255; 255; 255; 255; 255; 255; 255; 1; 2; 3; 4]). do 4 eexists. cbv zeta. split; [ repeat split; vm_compute; congruence | ]. split; [ reflexivity | ].
  split; [ vm_compute; reflexivity | ]. split; [ vm_compute; reflexivity | ]. split; [ vm_compute; reflexivity | ]. intros cb s. reflexivity.
Qed.
Print Assumptions ws_length_corrupt_refuted.

(** Frames which the standard forbids are refused: unknown opcodes, control frames which are too
    long or fragmented, and a continuation as the first frame of all. *)
Theorem ws_refuses : forall cb now s f l, wire f l -> zlen (wf_data f) < 2^32 ->
  (~ In (wf_op f) [0; 1; 2; 8; 9; 10]) \/ (In (wf_op f) [8; 9; 10] /\ (125 < zlen (wf_data f) \/ wf_fin f = false)) \/ (wf_op f = 0 /\ w_opcode s = 0) ->
  exists s', receive_frames cb now s [with_header l] = Ok (READ_SOFT, s', []).
Proof.
  intros cb now s f l W D H. cbn [receive_frames]. unfold with_header at 1. change (match get_header l with Some h => h | None => mk_header false 0 false 0 0 0 end) with (fst (with_header l)). rewrite (interpret_wire cb _ f l W D).
  destruct H as [ H | [ (H & H2) | (H & H2) ] ].
  - cbn [In] in H. replace (wf_op f =? 0) with false by lia. replace (control (wf_op f)) with false by (unfold control, OP_CLOSE, OP_PING, OP_PONG; lia). replace ((wf_op f =? OP_TEXT) || (wf_op f =? OP_BINARY)) with false by (unfold OP_TEXT, OP_BINARY; lia). cbn. eexists. reflexivity.
  - cbn [In] in H. replace (wf_op f =? 0) with false by lia. replace (control (wf_op f)) with true by (unfold control, OP_CLOSE, OP_PING, OP_PONG; lia).
    replace ((125 <? zlen (wf_data f)) || negb (wf_fin f)) with true by (destruct H2 as [ H2 | -> ]; [ lia | symmetry; apply orb_true_r ]). cbn. eexists. reflexivity.
  - rewrite H. unfold fragmentation_step. cbn [w_opcode]. rewrite H2. cbn. eexists. reflexivity.
Qed.
Print Assumptions ws_refuses.
Example ws_refuses_ex : wire (mk_wframe true 0 3 None [1]) [131; 1; 1].
Proof. exists 1, [], [], [1]. split; [ left; repeat split | repeat split; vm_compute; congruence ]. Qed.

(** FINDING: reserved bits, and frames from a client which are not masked, are accepted; the
    standard demands to close the connection. *)
Theorem ws_reserved_refuted : exists l, wire (mk_wframe true 7 1 None [97]) l /\
  exists s', receive_frames (fun _ => 0) 9 fresh [with_header l] = Ok (0, s', [(1, [97])]).
Proof. exists [241; 1; 97]. split; [ exists 1, [], [], [97]; split; [ left; repeat split | repeat split; vm_compute; congruence ] | eexists; vm_compute; reflexivity ]. Qed.
Print Assumptions ws_reserved_refuted.

(** A close frame ends the connection with EOF. *)
Theorem ws_close_ends : forall cb now s f l, wire f l -> wf_op f = 8 -> wf_fin f = true -> zlen (wf_data f) <= 125 ->
  exists s', receive_frames cb now s [with_header l] = Ok (READ_EOF, s', []) /\ w_queue s' = w_queue s.
Proof.
  intros cb now s f l W O F D. cbn [receive_frames]. unfold with_header at 1. change (match get_header l with Some h => h | None => mk_header false 0 false 0 0 0 end) with (fst (with_header l)). rewrite (interpret_wire cb _ f l W ltac:(lia)).
  rewrite O, F. change (8 =? 0) with false. change (control 8) with true. replace (125 <? zlen (wf_data f)) with false by lia. cbn. eexists. split; reflexivity.
Qed.
Print Assumptions ws_close_ends.
Example ws_close_ex : wire (mk_wframe true 0 8 (Some 0) [3; 232]) [136; 130; 0; 0; 0; 0; 3; 232].
Proof. exists 2, [], [0; 0; 0; 0], [3; 232]. split; [ left; repeat split | ]. split; [ cbn [wf_key]; split; [ split; vm_compute; congruence | ]; split; [ vm_compute; reflexivity | ]; apply masked_iff; [ vm_compute; congruence | vm_compute; reflexivity ] | repeat split; vm_compute; congruence ]. Qed.

(** ** C65: silent connections *)

(** Missing from the full statement: limits of 4295 seconds and more ([ws_timeout_refuted]).  A
    connection times out exactly when nothing has been received for the time given. *)
Theorem ws_timeout_partial : forall now timeout s, 0 < timeout < 4295 -> timeout * 1000000 <= now < 2^64 -> 0 < w_received s <= now ->
  (fst (check_timeout now timeout s) = 1 <-> w_received s + timeout * 1000000 <= now) /\ snd (check_timeout now timeout s) = s /\
  fst (check_timeout now 0 s) = 0.
Proof.
  intros now timeout s T N R. unfold check_timeout. replace (timeout =? 0) with false by lia. replace (w_received s =? 0) with false by lia. cbn [fst snd Z.eqb].
  replace (u64 (now - u32 (timeout * 1000 * 1000))) with (now - timeout * 1000000) by (unfold u64, u32; rewrite (Z.mod_small (timeout * 1000 * 1000)) by lia; rewrite Z.mod_small by lia; lia).
  split; [ destruct (now - timeout * 1000000 <? w_received s) eqn:Q; lia | ]. split; [ now destruct s | reflexivity ].
Qed.
Print Assumptions ws_timeout_partial.
(** Pings are sent exactly when the time has passed since the last one and it has been answered. *)
Theorem ws_ping_partial : forall now interval s, 0 < interval < 4295 -> interval * 1000000 <= now < 2^64 -> 0 < w_ping s <= now ->
  let s' := ping_if_needed now interval s in
  if (w_ping s + interval * 1000000 <=? now) && negb (w_waiting s)
  then w_queue s' = w_queue s ++ [mk_frame 9 (w_client s) []] /\ w_ping s' = now /\ w_waiting s' = true /\ w_fragments s' = w_fragments s /\ w_opcode s' = w_opcode s /\ w_received s' = w_received s
  else s' = s.
Proof.
  intros now t s T N R. cbv zeta. unfold ping_if_needed. replace (t =? 0) with false by lia. replace (w_ping s =? 0) with false by lia.
  replace (u64 (now - u32 (t * 1000 * 1000))) with (now - t * 1000000) by (unfold u64, u32; rewrite (Z.mod_small (t * 1000 * 1000)) by lia; rewrite Z.mod_small by lia; lia).
  replace (now - t * 1000000 <? w_ping s) with (negb (w_ping s + t * 1000000 <=? now)) by lia. destruct (w_ping s + t * 1000000 <=? now), (w_waiting s); cbn; repeat split.
Qed.
Print Assumptions ws_ping_partial.
Example ws_times_ex :
  let s := mk_state None 1 1700000000000000 1700000000000000 false true [] in
  fst (check_timeout 1700000029999999 30 s) = 0 /\ fst (check_timeout 1700000030000000 30 s) = 1 /\
  ping_if_needed 1700000004999999 5 s = s /\ w_queue (ping_if_needed 1700000005000000 5 s) = [mk_frame 9 true []].
Proof. vm_compute. auto. Qed.

(** FINDING: with a limit of 4295 seconds a connection times out after less than a tenth of a
    second, as the microseconds are counted in 32 bits. *)
Theorem ws_timeout_refuted : fst (check_timeout 1700000000032704 4295 (mk_state None 1 1700000000000000 0 false true [])) = 1.
Proof. vm_compute. reflexivity. Qed.
Print Assumptions ws_timeout_refuted.
