(** C29, C30: reassembly of messages from chunks, and the memory of its buffers. *)
From Coq Require Import Strings.String ZArith List Bool Lia.
From Verif Require Import Common MsgModel MsgProofs ReadModel ReadSpec ReadProofs.
Import ListNotations.
Open Scope Z_scope.

(** Sample arguments: messages which start with their length, without the first octet;
    length 250 is skipped, 251 an error, 252 lasts until the end. *)
Definition ex_framer (b : list Z) : framing :=
  match b with
  | [] => FIncomplete
  | n :: _ => if n =? 250 then FSkip 1 else if n =? 251 then FError READ_SOFT
              else if n =? 252 then FToEnd else FSize (1 + Z.abs n) true
  end.
Definition ex_p (limit : Z) : params := mk_params 1 8 limit (Some ex_framer) true.
Definition at_time (t : Z) (d : list Z) : world := mk_world 7 (1700000000000000 + t) 0 d 0 false.
Lemma ex_params_ok : forall limit, params_ok (ex_p limit).
Proof.
  intro limit. unfold params_ok, ex_p, framer_of. cbn [p_framer]. split; [ | split; [ | discriminate ] ].
  - intros [ | n r ] q H _; [ congruence | ]. unfold ex_framer. cbn [app].
    destruct (n =? 250), (n =? 251), (n =? 252); cbn; reflexivity.
  - intros [ | n r ] H; [ congruence | ]. unfold ex_framer.
    destruct (n =? 250); [ rewrite zlen_cons; pose proof (zlen_nonneg _ r); lia | ].
    destruct (n =? 251); [ unfold READ_SOFT, READ_OK, READ_INCOMPLETE; lia | ]. destruct (n =? 252); [ exact I | lia ].
Qed.
Ltac worlds := repeat constructor; vm_compute; congruence.

(** C30. Whatever the arguments, the framing function, the times, senders, codes and
    octets: as long as the read function gives no more octets than asked for, nothing
    is copied outside of an allocation. *)
Theorem read_no_overflow : forall p ws,
  Forall (fun w => zlen (w_data w) <= p_step p) ws -> run p [] ws <> Ub.
Proof. intros p ws H. apply (proj1 (run_bounds p ws [] (Forall_nil _) H)). Qed.
Print Assumptions read_no_overflow.
Example read_no_overflow_ex :
  Forall (fun w => zlen (w_data w) <= p_step (ex_p 0)) [at_time 0 [9; 1; 2; 3; 4; 5; 6; 7]; at_time 1 [8; 9; 2; 1; 1; 3; 1]] /\
  exists ss ev, run (ex_p 0) [] [at_time 0 [9; 1; 2; 3; 4; 5; 6; 7]; at_time 1 [8; 9; 2; 1; 1; 3; 1]] = Ok (ss, ev).
Proof. split; [ worlds | eexists _, _; vm_compute; reflexivity ]. Qed.

(** C29. At any point of any history the messages given to the owner are exactly those
    which the framing function cuts from the octets received from that sender (since its
    session was last removed), in order; what is not yet cut is the rest; and unless the
    sender has a message waiting, nothing more can be cut from the rest. *)
Theorem read_reassembles : forall p ws ss ev, params_ok p -> Forall (world_ok p) ws ->
  run p [] ws = Ok (ss, ev) ->
  forall a, exists rest, parse (framer_of p) (received a [] ev) (delivered a [] ev) rest /\
    (~ waiting a ss -> stuck (framer_of p) rest).
Proof.
  intros p ws ss ev (H1 & H2 & H3) W R a.
  assert (I : inv (framer_of p) ss ([] ++ ev)) by (eapply run_inv; eauto using inv_init).
  destruct (inv_parse _ _ _ a I) as (rest & P & S & _). exists rest. auto.
Qed.
Print Assumptions read_reassembles.
Example read_reassembles_ex :
  let ws := [at_time 0 [2; 1; 1; 250; 3; 9]; at_time 1 [8]; at_time 1 [8]; at_time 2 [8; 7; 5; 1]] in
  Forall (world_ok (ex_p 0)) ws /\
  match run (ex_p 0) [] ws with
  | Ok (ss, ev) => received 7 [] ev = [2; 1; 1; 250; 3; 9; 8; 7; 5; 1] /\ delivered 7 [] ev = [[2; 1; 1]; [3; 9; 8; 7]] /\
      Forall (fun s => s_over s = Some [5; 1]) ss
  | _ => False end.
Proof. cbv zeta. split; [ worlds | vm_compute; repeat constructor ]. Qed.

(** C29. The chunks do not matter: two histories in which the same octets came from a
    sender, and in which nothing of the sender is waiting, have delivered the same
    messages. *)
Theorem read_chunking_independent : forall p ws1 ws2 ss1 ss2 ev1 ev2 a, params_ok p ->
  Forall (world_ok p) ws1 -> Forall (world_ok p) ws2 ->
  run p [] ws1 = Ok (ss1, ev1) -> run p [] ws2 = Ok (ss2, ev2) ->
  ~ waiting a ss1 -> ~ waiting a ss2 -> received a [] ev1 = received a [] ev2 ->
  delivered a [] ev1 = delivered a [] ev2.
Proof.
  intros p ws1 ws2 ss1 ss2 ev1 ev2 a H W1 W2 R1 R2 N1 N2 E.
  destruct (read_reassembles p ws1 ss1 ev1 H W1 R1 a) as (r1 & P1 & S1).
  destruct (read_reassembles p ws2 ss2 ev2 H W2 R2 a) as (r2 & P2 & S2).
  rewrite <- E in P2. eapply (parse_det _ _ _ _ P1 (S1 N1)); eauto.
Qed.
Print Assumptions read_chunking_independent.
Definition ex_flat : list world := [at_time 0 [2; 1; 1; 3; 9; 8; 7]; at_time 1 []].
Definition ex_cut : list world := [at_time 0 [2]; at_time 5 [1; 1; 3]; at_time 6 []; at_time 7 [9; 8]; at_time 8 [7]].
Example read_chunking_independent_ex :
  Forall (world_ok (ex_p 0)) ex_flat /\ Forall (world_ok (ex_p 0)) ex_cut /\
  match run (ex_p 0) [] ex_flat, run (ex_p 0) [] ex_cut with
  | Ok (ss1, ev1), Ok (ss2, ev2) =>
      Forall (fun s => s_over s = None) ss1 /\ Forall (fun s => s_over s = None) ss2 /\
      received 7 [] ev1 = [2; 1; 1; 3; 9; 8; 7] /\ received 7 [] ev2 = [2; 1; 1; 3; 9; 8; 7] /\
      delivered 7 [] ev2 = [[2; 1; 1]; [3; 9; 8; 7]]
  | _, _ => False end.
Proof. split; [ worlds | split; [ worlds | vm_compute; repeat constructor ] ]. Qed.

(** C29. A call takes all octets which the read function gives, once; it does not ask for
    octets while a message is waiting. *)
Theorem read_takes_all : forall p ss w ss' c e, read_call p false ss w = Ok (ss', c, e) -> w_ret w = 0 ->
  reads e = match with_overshoot ss with
            | Some _ => []
            | None => if zlen (w_data w) =? 0 then [] else [Recv (w_addr w) (w_data w)]
            end.
Proof. exact call_recv. Qed.
Print Assumptions read_takes_all.
Example read_takes_all_ex :
  match read_call (ex_p 0) false [] (at_time 0 [1; 2; 1]) with
  | Ok (ss, c, e) => reads e = [Recv 7 [1; 2; 1]] /\ exists s, with_overshoot ss = Some s
  | _ => False end.
Proof. vm_compute. eauto. Qed.

(** C29. A session is only ever removed for one of the listed reasons. *)
Theorem read_drops_justified : forall p ws ss ev w ss' code e a c, params_ok p ->
  Forall (world_ok p) ws -> run p [] ws = Ok (ss, ev) -> world_ok p w ->
  read_call p false ss w = Ok (ss', code, e) -> In (Drop a c) e -> drop_reason p ss ev w a c.
Proof.
  intros p ws ss ev w ss' code e a c (H1 & H2 & H3) W R Ww C I.
  assert (J : inv (framer_of p) ss ([] ++ ev)) by (eapply run_inv; eauto using inv_init).
  eapply drop_reason_ok; eauto.
Qed.
Print Assumptions read_drops_justified.
Example read_drops_justified_ex :
  match run (ex_p 0) [] [at_time 0 [1; 2; 3; 3]] with
  | Ok (ss, ev) =>
      match run (ex_p 0) ss [at_time 1 []] with
      | Ok (ss, _) => match read_call (ex_p 0) false ss (at_time 31000000 [251]) with
                      | Ok (_, _, e) => In (Drop 7 None) e /\ In (Drop 7 (Some READ_SOFT)) e
                      | _ => False end
      | _ => False end
  | _ => False end.
Proof. vm_compute. auto. Qed.

(** C29. The time of a session is that of the call which last read octets from its sender (or
    that which made it), sessions are not lost without being reported as removed, and removed
    ones are gone. *)
Theorem read_time_exact : forall p ss w ss' code e, read_call p false ss w = Ok (ss', code, e) ->
  (forall s, In s ss' -> (s_addr s = w_addr w /\ s_time s = w_time w) \/ exists s0, In s0 ss /\ s_addr s0 = s_addr s /\ s_time s0 = s_time s) /\
  (forall s d, In s ss' -> In (Recv (s_addr s) d) e -> s_time s = w_time w) /\
  (forall s, In s ss -> (exists s', In s' ss' /\ s_addr s' = s_addr s) \/ exists c, In (Drop (s_addr s) c) e).
Proof. exact call_time. Qed.
Print Assumptions read_time_exact.
Example read_time_exact_ex :
  match read_call (ex_p 0) false [] (at_time 5 [2; 1]) with Ok (ss, _, e) => map s_time ss = [w_time (at_time 5 [])] /\ e = [Recv 7 [2; 1]] | _ => False end.
Proof. vm_compute. auto. Qed.

(** C29. No call aborts the process if no header announces a message of no octets. *)
Theorem read_never_aborts : forall p ws, params_ok p -> (forall r e, r <> [] -> framer_of p r <> FSize 0 e) ->
  Forall (world_ok p) ws -> exists ss ev, run p [] ws = Ok (ss, ev).
Proof. intros p ws (H1 & H2 & H3) NZ W. eapply run_ok; eauto using inv_init. Qed.
Print Assumptions read_never_aborts.
Example read_never_aborts_ex : params_ok (ex_p 0) /\ (forall r e, r <> [] -> framer_of (ex_p 0) r <> FSize 0 e).
Proof.
  split; [ apply ex_params_ok | ]. intros [ | n r ] e H; [ congruence | ]. unfold framer_of, ex_p, ex_framer. cbn [p_framer].
  destruct (n =? 250), (n =? 251), (n =? 252); try discriminate. intro K. assert (1 + Z.abs n = 0) by congruence. lia.
Qed.

(** C29. And that is the only way in which a call can abort. *)
Theorem read_aborts_only_on_zero : forall p ws ss ev w flush, params_ok p -> Forall (world_ok p) ws ->
  run p [] ws = Ok (ss, ev) -> world_ok p w -> read_call p flush ss w = Bug -> zero_size p ss ev w.
Proof.
  intros p ws ss ev w flush (H1 & H2 & H3) W R Ww C.
  assert (J : inv (framer_of p) ss ([] ++ ev)) by (eapply run_inv; eauto using inv_init).
  destruct (call_ok p H1 H2 H3 flush ss _ w J Ww) as [ [_ K] | (ss' & code & e & K & _) ]; [ exact K | congruence ].
Qed.
Print Assumptions read_aborts_only_on_zero.

(** C29 finding: a header with a correct checksum whose size is 0 aborts the process of
    the receiver. *)
Definition zero_header : list Z := checksum_and_to_network (mk_msg 0 0 2 0 0) [].
Definition msg_p : params := mk_params 18 4096 0 (Some msg_framer) false.
Lemma msg_params_ok : params_ok msg_p.
Proof. split; [ exact msg_framer_stable | split; [ exact msg_framer_ok | discriminate ] ]. Qed.
Theorem read_zero_size_refuted : exists w, world_ok msg_p w /\ w_data w = zero_header /\ run msg_p [] [w] = Bug.
Proof. exists (at_time 0 zero_header). split; [ vm_compute; repeat split; congruence | ]. split; vm_compute; reflexivity. Qed.
Print Assumptions read_zero_size_refuted.

(** C29. With the flush option one call gives all complete messages: if it returns OK no
    sender has a message waiting ([ws] answers for enough messages, and the framing
    function does not skip). *)
Theorem read_flush_gives_all : forall p ws0 ss ev w, params_ok p -> (forall r k, framer_of p r <> FSkip k) ->
  Forall (world_ok p) ws0 -> run p [] ws0 = Ok (ss, ev) -> world_ok p w ->
  exists n, forall ws ss' e, Forall (world_ok p) ws -> n < zlen ws ->
    read_message p true ss w ws = Ok (ss', READ_OK, e) -> forall a, ~ waiting a ss'.
Proof.
  intros p ws0 ss ev w (H1 & H2 & H3) NS W R Ww.
  assert (J : inv (framer_of p) ss ([] ++ ev)) by (eapply run_inv; eauto using inv_init).
  destruct (read_message_flush p H1 H2 H3 NS ss _ w J Ww) as (n & K). exists n.
  intros ws ss' e F L M a (s & Is & _ & O). apply O. specialize (K ws ss' e F L M).
  rewrite with_overshoot_none in K. apply K. exact Is.
Qed.
Print Assumptions read_flush_gives_all.
Example read_flush_gives_all_ex :
  let p := mk_params 2 8 0 None false in
  match read_message p true [] (at_time 0 [1; 2; 3; 4; 5; 6; 7]) (repeat (at_time 1 []) 9) with
  | Ok (ss, c, e) => c = READ_OK /\ delivered 7 [] e = [[1; 2]; [3; 4]; [5; 6]]
  | _ => False end.
Proof. vm_compute. auto. Qed.

(** C29. Clean EOF is reported only if no octet of the sender is lost: all were delivered
    as messages, or the rest, which is a message that lasts until the end, is delivered
    whole.  Required: the sender has not been silent for 30 seconds (see below). *)
Theorem read_eof_complete : forall p ws ss ev w ss' e, params_ok p -> (forall r, framer_of p r <> FError READ_EOF) ->
  Forall (world_ok p) ws -> run p [] ws = Ok (ss, ev) -> world_ok p w -> w_code w <> READ_EOF ->
  30 * 1000 * 1000 <= w_time w < 2^64 -> (forall s, In s ss -> s_addr s = w_addr w -> w_time w <= s_time s + 30 * 1000 * 1000) ->
  read_call p false ss w = Ok (ss', READ_EOF, e) ->
  let a := w_addr w in
  exists rest, parse (framer_of p) (received a [] ev) (delivered a [] ev) rest /\
    ((rest = [] /\ (forall m, ~ In (Msg a m) e)) \/
     (rest <> [] /\ framer_of p rest = FToEnd /\
      exists e0, e = e0 ++ [Msg a rest; Drop a (Some READ_EOF)] /\ forall m, ~ In (Msg a m) e0)).
Proof.
  intros p ws ss ev w ss' e (H1 & H2 & H3) NE W R Ww NC T NX C.
  assert (NX' : forall s, In s ss -> s_addr s = w_addr w -> expired (w_time w) s = false).
  { intros s I A. specialize (NX s I A). unfold expired, CLIENT_TIMEOUT, u64. rewrite Z.mod_small by lia. lia. }
  assert (J : inv (framer_of p) ss ([] ++ ev)) by (eapply run_inv; eauto using inv_init).
  eapply (eof_ok p H1 H2 H3); eauto.
Qed.
Print Assumptions read_eof_complete.
Example read_eof_complete_ex :
  match run (ex_p 0) [] [at_time 0 [2; 1; 1]] with
  | Ok (ss, _) => match read_call (ex_p 0) false ss (mk_world 7 1700000000000009 READ_EOF [] 0 false) with
                  | Ok (_, c, e) => c = READ_EOF /\ e = [Drop 7 (Some READ_EOF)] | _ => False end
  | _ => False end /\
  match run (ex_p 0) [] [at_time 0 [2; 1; 1; 252; 4]; at_time 1 []] with
  | Ok (ss, _) => match read_call (ex_p 0) false ss (mk_world 7 1700000000000009 READ_EOF [] 0 false) with
                  | Ok (_, c, e) => c = READ_EOF /\ e = [Msg 7 [252; 4]; Drop 7 (Some READ_EOF)] | _ => False end
  | _ => False end.
Proof. vm_compute. auto. Qed.

(** C29, C10. Messages sent one after the other over a stream arrive, however the stream
    is cut, as the same messages. *)
Theorem read_messages : forall p ws ss ev a ms after, p_framer p = Some msg_framer ->
  Forall (world_ok p) ws -> run p [] ws = Ok (ss, ev) -> ~ waiting a ss ->
  Forall mm_ok ms -> received a [] ev = concat (map msg_msg_to_network ms) ->
  map (fun b => receive b after) (delivered a [] ev) = map (fun m => MsgModel.Ok (DMsg (mm_clear_crc m))) ms.
Proof.
  intros p ws ss ev a ms after Hf W R NW F E.
  assert (P : params_ok p).
  { unfold params_ok, framer_of. rewrite Hf. split; [ exact msg_framer_stable | split; [ exact msg_framer_ok | discriminate ] ]. }
  destruct (read_reassembles p ws ss ev P W R a) as (rest & P1 & S1). rewrite E in P1.
  unfold framer_of in P1, S1. rewrite Hf in P1, S1.
  assert (P2 : parse msg_framer (concat (map msg_msg_to_network ms)) (map msg_msg_to_network ms) []).
  { apply parse_messages. clear -F. induction F as [ | m ms M F IH ]; cbn [map]; constructor; [ | exact IH ].
    pose proof M as (Ht & Hs & Hmax & Hv & Hts & Htc & Hver & Htl & Htl2 & HB & HC & HT & HU).
    assert (HBt : bytes (msg_msg_tail_bytes m)).
    { unfold msg_msg_tail_bytes. repeat (apply bytes_app; split); auto using be_enc_bytes.
      - apply bytes_cons; split; [ auto | constructor ].
      - apply bytes_cons; split; [ auto | constructor ]. }
    unfold msg_msg_to_network. destruct (cn_fields (mm_head m) (msg_msg_tail_bytes m) HBt) as (K & _).
    { unfold head_ok. rewrite mm_tail_len. pose proof (zlen_nonneg _ (mm_data m)). unfold T_MESSAGE in *.
      repeat split; try lia. }
    rewrite cn_len, K, mm_tail_len. pose proof (zlen_nonneg _ (mm_data m)). repeat split; try lia. }
  assert (S2 : stuck msg_framer []) by (left; reflexivity).
  destruct (parse_det _ _ _ _ P1 (S1 NW) _ _ P2 S2) as [ -> _ ].
  rewrite map_map. apply map_ext_in. intros m I. apply mm_receive. rewrite Forall_forall in F. auto.
Qed.
Print Assumptions read_messages.
Example read_messages_ex :
  let m := mk_mm (mk_msg 5 34 2 77 8) 12345 21 3 2 (str_bytes "xy" ++ [1; 2]) in
  let b := msg_msg_to_network m in
  match run msg_p [] [at_time 0 (firstn 3 b); at_time 1 (skipn 3 b ++ firstn 20 b); at_time 2 []; at_time 3 (skipn 20 b)] with
  | Ok (ss, ev) => received 7 [] ev = b ++ b /\ delivered 7 [] ev = [b; b] /\ Forall (fun s => s_over s = None) ss
  | _ => False end.
Proof. vm_compute. repeat constructor. Qed.

(** C29 findings.  A sender which pauses for 30 seconds within a message loses what it
    sent before, and the rest is taken for the start of a message: no error is given. *)
Theorem read_pause_refuted : exists p w1 w2 ss ev, params_ok p /\ world_ok p w1 /\ world_ok p w2 /\
  w_addr w1 = 7 /\ w_addr w2 = 7 /\ w_ret w1 = 0 /\ w_ret w2 = 0 /\
  run p [] [w1; w2] = Ok (ss, ev) /\
  parse (framer_of p) (w_data w1 ++ w_data w2) [w_data w1 ++ w_data w2] [] /\
  In (Msg 7 (w_data w2)) ev /\ ~ In (Msg 7 (w_data w1 ++ w_data w2)) ev.
Proof.
  exists (ex_p 0), (at_time 0 [5; 1; 1]), (at_time 30000001 [2; 9; 9]). eexists _, _.
  split; [ apply ex_params_ok | ].
  do 6 (split; [ vm_compute; repeat split; congruence | ]).
  split; [ vm_compute; reflexivity | ]. split; [ | split ].
  - apply (parse_msg (framer_of (ex_p 0)) [5; 1; 1; 2; 9; 9] 6 true [] []); [ reflexivity | vm_compute; split; congruence | apply parse_stop ].
  - vm_compute. auto.
  - vm_compute. intuition discriminate.
Qed.
Print Assumptions read_pause_refuted.

(** And if the connection is closed after the pause, this is reported as clean. *)
Theorem read_truncated_eof_refuted : exists p w1 w2 ss ev ss' e, params_ok p /\ world_ok p w1 /\ world_ok p w2 /\
  w_addr w1 = w_addr w2 /\ run p [] [w1] = Ok (ss, ev) /\
  received (w_addr w1) [] ev <> [] /\ delivered (w_addr w1) [] ev = [] /\ w_ret w2 = READ_EOF /\
  read_call p false ss w2 = Ok (ss', READ_EOF, e) /\ forall m, ~ In (Msg (w_addr w1) m) e.
Proof.
  exists (ex_p 0), (at_time 0 [5; 1; 1]), (mk_world 7 (1700000000000000 + 30000001) READ_EOF [] 0 false). eexists _, _, _, _.
  split; [ apply ex_params_ok | ].
  do 2 (split; [ vm_compute; repeat split; congruence | ]).
  split; [ reflexivity | ]. split; [ vm_compute; reflexivity | ].
  split; [ vm_compute; discriminate | ]. split; [ vm_compute; reflexivity | ]. split; [ reflexivity | ].
  split; [ vm_compute; reflexivity | ]. intro m; vm_compute; intuition discriminate.
Qed.
Print Assumptions read_truncated_eof_refuted.

(** With a size limit the chunks do matter: two small messages which come at once are
    dropped, the same messages one by one are accepted. *)
Theorem read_limit_refuted : exists p ws1 ws2 ss1 ss2 ev1 ev2, params_ok p /\
  Forall (world_ok p) ws1 /\ Forall (world_ok p) ws2 /\
  Forall (fun w => w_addr w = 7 /\ w_ret w = 0) (ws1 ++ ws2) /\
  concat (map w_data ws1) = concat (map w_data ws2) /\
  run p [] ws1 = Ok (ss1, ev1) /\ run p [] ws2 = Ok (ss2, ev2) /\
  (exists m1 m2, ev1 = [Recv 7 m1; Msg 7 m1; Recv 7 m2; Msg 7 m2] /\ zlen m1 < p_max p /\ zlen m2 < p_max p) /\
  (forall m, ~ In (Msg 7 m) ev2).
Proof.
  exists (ex_p 5), [at_time 0 [2; 1; 1]; at_time 0 [3; 1; 1; 1]], [at_time 0 [2; 1; 1; 3; 1; 1; 1]]. eexists _, _, _, _.
  split; [ apply ex_params_ok | ]. split; [ worlds | ]. split; [ worlds | ]. split; [ repeat constructor | ].
  split; [ reflexivity | ]. split; [ vm_compute; reflexivity | ]. split; [ vm_compute; reflexivity | ].
  split; [ | intro m; vm_compute; intuition discriminate ].
  exists [2; 1; 1], [3; 1; 1; 1]. vm_compute. auto.
Qed.
Print Assumptions read_limit_refuted.

(** A message which lasts until the connection is closed is cut short when the read
    function gives no octets without an error, as it does when a non-blocking socket has
    nothing to read: the rest of the message is treated as something new. *)
Theorem read_until_closed_refuted : exists p ws ss ev, params_ok p /\ Forall (world_ok p) ws /\
  Forall (fun w => w_addr w = 7 /\ w_ret w = 0) ws /\
  framer_of p (concat (map w_data ws)) = FToEnd /\ run p [] ws = Ok (ss, ev) /\
  In (Msg 7 [252; 1]) ev /\ In (Msg 7 [1; 2]) ev /\ concat (map w_data ws) = [252; 1; 1; 2].
Proof.
  exists (ex_p 0), [at_time 0 [252; 1]; at_time 1 []; at_time 2 [1; 2]]. eexists _, _.
  split; [ apply ex_params_ok | ]. split; [ worlds | ]. split; [ repeat constructor | ]. split; [ reflexivity | ].
  split; [ vm_compute; reflexivity | ]. vm_compute. auto 9.
Qed.
Print Assumptions read_until_closed_refuted.
