(** MQTT packets: writing, reading, arbitrary input. *)
From Coq Require Import Strings.String.
From Coq Require Import ZArith List Bool Lia.
From Verif Require Import Common TopicSpec MqttModel MqttSpec MqttGoodProofs MqttReadProofs MqttPacketProofs MqttConnProofs MqttSendProofs MqttSafeProofs MqttCheckProofs.
Import ListNotations.
Open Scope Z_scope.

(** A conversation: CONNECT of version 5 with a will, SUBSCRIBE, PUBLISH, PUBACK, DISCONNECT *)
Definition ex_connect : packet := mk_packet 1 0 5
  (BConnect 5 206 60 [mk_prop 17 (VInt 3600); mk_prop 38 (VPair (str_bytes "key") (str_bytes "value"))] (Some (str_bytes "client"))
     (Some (mk_will [mk_prop 1 (VInt 1)] (str_bytes "gone/client") [1; 0; 255])) (Some (str_bytes "user")) (Some (str_bytes "secret"))).
Definition ex_subscribe : packet := mk_packet 8 2 5
  (BSub 7 [mk_prop 11 (VInt 300)] [mk_sub (str_bytes "a/+") 2 0 0 1; mk_sub (str_bytes "b/#") 0 0 0 2]).
Definition ex_publish : packet := mk_packet 3 13 5 (BPublish (str_bytes "a/b") 4660 [mk_prop 2 (VInt 5)] (Some [0; 10; 255])).
Definition ex_puback : packet := mk_packet 4 0 5 (BAck 4660 16 []).
Definition ex_disconnect : packet := mk_packet 14 0 5 (BDisconnect 4 []).
Definition ex_talk : list packet := [ex_connect; ex_subscribe; ex_publish; ex_puback; ex_disconnect].

Ltac asc := apply ascii_legal; [reflexivity|cbn; lia].
Ltac plegal := repeat apply conj; [repeat (apply Forall_cons; [eexists; split; [reflexivity|cbn [val_legal pr_val]; try asc; unfold VINT_MAX; try lia]|]); try apply Forall_nil|cbn; unfold VINT_MAX; lia|lia].
Lemma ex_connect_ok : readable ex_connect /\ writable ex_connect.
Proof.
  assert (L : packet_legal ex_connect).
  { split; [|split; [cbn; lia|vm_compute; discriminate]]. cbn [ex_connect pk_body pk_ver pk_type pk_flags body_legal].
    assert (P : props_legal 5 [mk_prop 17 (VInt 3600); mk_prop 38 (VPair (str_bytes "key") (str_bytes "value"))]).
    { split; [|split; [vm_compute; discriminate|lia]]. apply Forall_cons; [exists TFour; split; [reflexivity|cbn; lia]|].
      apply Forall_cons; [exists T2Utf8; split; [reflexivity|cbn [val_legal pr_val]; split; asc]|constructor]. }
    assert (P2 : props_legal 5 [mk_prop 1 (VInt 1)]).
    { split; [|split; [vm_compute; discriminate|lia]]. apply Forall_cons; [exists TOne; split; [reflexivity|cbn; lia]|constructor]. }
    split; [reflexivity|]. split; [reflexivity|]. split; [reflexivity|]. split; [auto|]. split; [unfold byte; lia|]. split; [reflexivity|].
    split; [discriminate|]. split; [intros [_ X]; discriminate|]. split; [intros X; lia|]. split; [lia|]. split; [exact P|].
    split; [cbn [opt_legal]; asc|]. split; [reflexivity|]. split.
    { split; [exact P2|]. split.
      - split; [asc|]. split; [discriminate|]. split; cbn; intuition lia.
      - split; [repeat (apply Forall_cons; [unfold byte; lia|]); constructor|cbn; lia]. }
    split; [reflexivity|]. split; [cbn [opt_legal]; asc|]. split; [reflexivity|]. cbn [opt_legal].
    split; [|cbn; lia]. assert (S : string_legal (str_bytes "secret")) by asc. apply S. }
  split; (split; [exact L|]).
  - cbn [ex_connect pk_body body_readable opt_legal]. split; [repeat (apply Forall_cons; [unfold not_blob; cbn; discriminate|]); constructor|].
    split; [discriminate|]. split; [repeat (apply Forall_cons; [unfold not_blob; cbn; discriminate|]); constructor|].
    split; [discriminate|]. split; [asc|discriminate].
  - cbn [ex_connect pk_body body_writable opt_legal]. unfold nonempty.
    split; [split; [repeat (apply Forall_cons; [cbn; repeat split; discriminate|]); constructor|vm_compute; discriminate]|].
    split; [discriminate|]. split; [split; [split; [repeat (apply Forall_cons; [exact I|]); constructor|vm_compute; discriminate]|discriminate]|].
    split; discriminate.
Qed.
Lemma ex_subscribe_ok : readable ex_subscribe /\ writable ex_subscribe.
Proof.
  assert (F1 : filter_legal (str_bytes "a/+")).
  { split; [asc|]. split; [discriminate|]. exists [[97]; [43]]. split; [split; [discriminate|repeat (apply Forall_cons; [split; cbn; intuition lia|]); constructor]|].
    split; [reflexivity|]. apply LF_lit; [split; cbn; intuition lia|]. apply (LF_plus []). constructor. }
  assert (F2 : filter_legal (str_bytes "b/#")).
  { split; [asc|]. split; [discriminate|]. exists [[98]; [35]]. split; [split; [discriminate|repeat (apply Forall_cons; [split; cbn; intuition lia|]); constructor]|].
    split; [reflexivity|]. apply LF_lit; [split; cbn; intuition lia|]. apply LF_hash. }
  assert (L : packet_legal ex_subscribe).
  { split; [|split; [cbn; lia|vm_compute; discriminate]]. cbn [ex_subscribe pk_body pk_ver pk_type pk_flags body_legal].
    split; [auto|]. split; [reflexivity|]. split; [lia|]. split.
    { split; [|split; [vm_compute; discriminate|lia]]. apply Forall_cons; [exists TVint; split; [reflexivity|cbn; unfold VINT_MAX; lia]|constructor]. }
    split; [discriminate|].
    apply Forall_cons; [|apply Forall_cons; [|constructor]]; (split; [auto|cbn; lia]). }
  assert (N : Forall (fun s => sb_nl s = 0 /\ sb_rap s = 0) [mk_sub (str_bytes "a/+") 2 0 0 1; mk_sub (str_bytes "b/#") 0 0 0 2])
    by (repeat (apply Forall_cons; [split; reflexivity|]); constructor).
  split; (split; [exact L|]).
  - cbn [ex_subscribe pk_body body_readable]. split; [repeat (apply Forall_cons; [unfold not_blob; cbn; discriminate|]); constructor|].
    split; [exact N|]. split; [|cbn; lia]. cbn [map sb_filter]. constructor; [cbn; intros [X|[]]; discriminate|]. constructor; [intros []|constructor].
  - cbn [ex_subscribe pk_body body_writable]. split; [|exact N]. split; [repeat (apply Forall_cons; [exact I|]); constructor|vm_compute; discriminate].
Qed.
Lemma ex_others_ok : Forall (fun p => readable p /\ writable p) [ex_publish; ex_puback; ex_disconnect].
Proof.
  apply Forall_cons; [|apply Forall_cons; [|apply Forall_cons; [|constructor]]].
  - assert (L : packet_legal ex_publish).
    { split; [|split; [cbn; lia|vm_compute; discriminate]]. cbn [ex_publish pk_body pk_ver pk_type pk_flags body_legal].
      split; [reflexivity|]. split; [lia|]. split; [cbn; lia|]. split; [cbn; lia|]. split; [lia|].
      split; [split; [asc|]; split; [discriminate|]; split; cbn; intuition lia|].
      split; [split; [|split; [vm_compute; discriminate|lia]]; apply Forall_cons; [exists TFour; split; [reflexivity|cbn; lia]|constructor]|].
      split; [repeat (apply Forall_cons; [unfold byte; lia|]); constructor|discriminate]. }
    split; (split; [exact L|]); cbn [ex_publish pk_body body_readable body_writable].
    + repeat (apply Forall_cons; [unfold not_blob; cbn; discriminate|]); constructor.
    + split; [repeat (apply Forall_cons; [exact I|]); constructor|vm_compute; discriminate].
  - assert (L : packet_legal ex_puback).
    { split; [|split; [cbn; lia|vm_compute; discriminate]]. cbn [ex_puback pk_body pk_ver pk_type pk_flags body_legal].
      split; [lia|]. split; [reflexivity|]. split; [lia|]. split; [split; [constructor|split; [vm_compute; discriminate|lia]]|cbn; auto]. }
    split; (split; [exact L|]); cbn [ex_puback pk_body body_readable body_writable]; [constructor|].
    split; [constructor|vm_compute; discriminate].
  - assert (L : packet_legal ex_disconnect).
    { split; [|split; [cbn; lia|vm_compute; discriminate]]. cbn [ex_disconnect pk_body pk_ver pk_type pk_flags body_legal].
      split; [reflexivity|]. split; [reflexivity|]. split; [split; [constructor|split; [vm_compute; discriminate|lia]]|cbn; unfold byte; lia]. }
    split; (split; [exact L|]); cbn [ex_disconnect pk_body body_readable body_writable]; [constructor|reflexivity].
Qed.
Lemma ex_talk_ok : Forall (fun p => readable p /\ writable p) ex_talk.
Proof. apply Forall_cons; [exact ex_connect_ok|]. apply Forall_cons; [exact ex_subscribe_ok|]. exact ex_others_ok. Qed.

(** C78. What is written for a packet is what the standard says. *)
Theorem mqtt_write_standard : forall p, writable p -> send_packet p = AOk (wire p).
Proof. exact send_ok. Qed.
Print Assumptions mqtt_write_standard.

Example mqtt_write_standard_ex :
  writable ex_publish /\
  send_packet ex_publish = AOk [61; 16; 0; 3; 97; 47; 98; 18; 52; 5; 2; 0; 0; 0; 5; 0; 10; 255].
Proof.
  split; [|reflexivity]. pose proof ex_others_ok as H. inversion H as [|? ? [_ A] ?]; exact A.
Qed.

(** C78. Packets in the form the standard gives them (or allows, [wires]) are handed on as they
    are, each once and in order, in whatever pieces their octets arrive. *)
Theorem mqtt_read_standard : forall ver ps ws chunks,
  Forall readable ps -> sequence ver ps -> Forall2 wires ps ws -> concat chunks = concat ws ->
  conn_recv_all (conn_init ver) chunks = (Some (conn_init (ver_end ver ps)), map EPacket ps).
Proof. exact recv_all. Qed.
Print Assumptions mqtt_read_standard.

(** Abbreviated acknowledgement and DISCONNECT of version 5, octet by octet *)
Example mqtt_read_standard_ex :
  wires (mk_packet 6 2 5 (BAck 9 0 [])) [98; 2; 0; 9] /\ wires (mk_packet 14 0 5 (BDisconnect 0 [])) [224; 0] /\
  conn_recv_all (conn_init (Some 5)) [[98]; [2]; [0]; [9]; [224]; [0]] =
    (Some (conn_init (Some 5)), [EPacket (mk_packet 6 2 5 (BAck 9 0 [])); EPacket (mk_packet 14 0 5 (BDisconnect 0 []))]).
Proof. split; [apply W_ack|]. split; [apply W_disconnect0|]. vm_compute. reflexivity. Qed.

(** C78. What is written is read as it was, in whatever pieces it arrives. *)
Theorem mqtt_round_trip : forall ver ps chunks,
  Forall readable ps -> Forall writable ps -> sequence ver ps ->
  concat chunks = flat_map (fun p => match send_packet p with AOk l => l | _ => [] end) ps ->
  conn_recv_all (conn_init ver) chunks = (Some (conn_init (ver_end ver ps)), map EPacket ps).
Proof.
  intros ver ps chunks R W S E. apply (recv_all ver ps (map wire ps)); auto.
  - clear. induction ps; cbn [map]; constructor; auto. apply W_full.
  - rewrite E. clear -W. induction W as [|p ps Wp W IH]; auto. cbn [flat_map map concat]. rewrite send_ok by auto. rewrite IH. reflexivity.
Qed.
Print Assumptions mqtt_round_trip.

Example mqtt_round_trip_ex :
  Forall readable ex_talk /\ Forall writable ex_talk /\ sequence None ex_talk /\
  let sent := flat_map (fun p => match send_packet p with AOk l => l | _ => [] end) ex_talk in
  conn_recv_all (conn_init None) [firstn 30 sent; firstn 100 (skipn 30 sent); skipn 130 sent] =
    (Some (conn_init (Some 5)), map EPacket ex_talk).
Proof.
  pose proof ex_talk_ok as H.
  split; [eapply Forall_impl; [|exact H]; intros p [A _]; exact A|]. split; [eapply Forall_impl; [|exact H]; intros p [_ A]; exact A|].
  split; [cbn; tauto|]. vm_compute. reflexivity.
Qed.

(** C78. If only the beginning has arrived, the packets of which all has arrived have been handed
    on, and nothing else; the connection stays. *)
Theorem mqtt_read_prefix : forall ver ps ws chunks rest,
  Forall readable ps -> sequence ver ps -> Forall2 wires ps ws -> concat chunks ++ rest = concat ws ->
  exists ps1 ps2 ws1 ws2 buf' s', ps = ps1 ++ ps2 /\ ws = ws1 ++ ws2 /\ concat chunks = concat ws1 ++ buf' /\
    (match ws2 with [] => buf' = [] | w :: _ => zlen buf' < zlen w end) /\
    conn_recv_all (conn_init ver) chunks = (Some (mk_conn (ver_end ver ps1) s' buf'), map EPacket ps1).
Proof. exact recv_prefix. Qed.
Print Assumptions mqtt_read_prefix.

Example mqtt_read_prefix_ex :
  snd (conn_recv_all (conn_init None) [wire ex_connect ++ wire ex_subscribe ++ firstn 9 (wire ex_publish)]) =
    [EPacket ex_connect; EPacket ex_subscribe].
Proof. vm_compute. reflexivity. Qed.

(** If a SUBSCRIBE has the same filter twice, the last one counts. *)
Example mqtt_read_repeated_ex :
  wires (mk_packet 8 2 4 (BSub 7 [] [mk_sub [97] 0 0 0 2; mk_sub [98] 0 0 0 1]))
    [130; 14; 0; 7; 0; 1; 97; 1; 0; 1; 98; 1; 0; 1; 97; 2] /\
  snd (conn_recv_all (conn_init (Some 4)) [[130; 14; 0; 7; 0; 1; 97; 1; 0; 1; 98; 1; 0; 1; 97; 2]]) =
    [EPacket (mk_packet 8 2 4 (BSub 7 [] [mk_sub [97] 0 0 0 2; mk_sub [98] 0 0 0 1]))].
Proof.
  split; [|vm_compute; reflexivity].
  assert (F : forall c, c = 97 \/ c = 98 -> filter_legal [c]).
  { intros c H. split; [destruct H as [-> | ->]; asc|]. split; [discriminate|]. exists [[c]].
    split; [split; [discriminate|repeat (apply Forall_cons; [split; cbn; intuition lia|]); constructor]|].
    split; [reflexivity|]. apply LF_lit; [split; cbn; intuition lia|constructor]. }
  refine (W_repeated 8 2 4 7 [] [mk_sub [97] 0 0 0 1; mk_sub [98] 0 0 0 1; mk_sub [97] 0 0 0 2] _ _ _); [| |vm_compute; discriminate].
  - repeat (apply Forall_cons; [split; [apply F; auto|cbn; lia]|]). constructor.
  - repeat (apply Forall_cons; [split; reflexivity|]). constructor.
Qed.

(** FINDING: packets with Correlation Data or Authentication Data are legal but not read:
    [__rrr_mqtt_parse_property_blob] counts the length of the data twice.  Here the PUBLISH is of
    the standard, has correlation data [1; 2], and closes the connection. *)
Theorem mqtt_read_blob_refuted : exists p, packet_legal p /\ pk_ver p = 5 /\
  snd (conn_recv_all (conn_init (Some 5)) [wire p]) = [EClose].
Proof.
  exists (mk_packet 3 0 5 (BPublish [97] 0 [mk_prop 9 (VData [1; 2])] (Some [49]))). split; [|split; [reflexivity|vm_compute; reflexivity]].
  split; [|split; [cbn; lia|vm_compute; discriminate]]. cbn [pk_body pk_ver pk_type pk_flags body_legal].
  split; [reflexivity|]. split; [lia|]. split; [cbn; lia|]. split; [cbn; lia|]. split; [cbn; lia|].
  split; [split; [asc|]; split; [discriminate|]; split; cbn; intuition lia|].
  split; [split; [|split; [vm_compute; discriminate|lia]]|].
  - apply Forall_cons; [exists TBlob; split; [reflexivity|]|constructor]. cbn [val_legal pr_val].
    split; [repeat (apply Forall_cons; [unfold byte; lia|]); constructor|cbn; lia].
  - split; [repeat (apply Forall_cons; [unfold byte; lia|]); constructor|discriminate].
Qed.
Print Assumptions mqtt_read_blob_refuted.

(** C79. Whatever octets arrive, in whatever pieces: the packets handed on are those the octets
    are divided into by the lengths in them, in order, each of the type and with the flags given
    there, and then the connection stays, keeping what is left, or is closed, once.  The program
    is aborted only if a SUBSCRIBE (first octet 130) follows on a connection of version 5.
    Partial: the full statement has no aborting; it is refuted below. *)
Theorem mqtt_receive_any_partial : forall ver chunks, bytes (concat chunks) -> exists ps ws rest,
  Forall2 frame ps ws /\ concat chunks = concat ws ++ rest /\
  ((exists s, conn_recv_all (conn_init ver) chunks = (Some (mk_conn (ver_of ver ps) s rest), map EPacket ps)) \/
   conn_recv_all (conn_init ver) chunks = (None, map EPacket ps ++ [EClose]) \/
   (conn_recv_all (conn_init ver) chunks = (None, map EPacket ps ++ [EAbort]) /\
    (exists v, ver_of ver ps = Some v /\ 5 <= v) /\ hd_error rest = Some 130)).
Proof.
  intros ver chunks B. destruct (recv_safe chunks ver psess_init [] (Forall_nil _) B (sess_init_ok [])) as (ps & ws & F & H).
  cbn [app] in H. exists ps, ws. fold (conn_init ver) in H. destruct H as [([v' s' b'] & H1 & H2 & _ & _ & H3)|(rest & H1 & [H|[H A]])].
  - cbn [cn_buf cn_ver] in *. exists b'. rewrite <- H2. split; [exact F|]. split; [exact H3|]. left. exists s'. exact H1.
  - exists rest. split; [exact F|]. split; [exact H1|]. right. left. exact H.
  - exists rest. split; [exact F|]. split; [exact H1|]. right. right. split; [exact H|exact A].
Qed.
Print Assumptions mqtt_receive_any_partial.

(** A CONNECT and a PINGREQ, then octets which are no packet (reserved flags set) *)
Example mqtt_receive_any_ex :
  conn_recv_all (conn_init None) [wire ex_connect ++ [192]; [0; 193]; [1; 2; 3]] =
    (None, [EPacket ex_connect; EPacket (mk_packet 12 0 5 BPing); EClose]).
Proof. vm_compute. reflexivity. Qed.

(** C79: for any octets, in any pieces, every packet handed on has type, flags, identifier, topics,
    filters and codes which the standard allows (see [vetted] in MqttSpec.v). *)
Theorem mqtt_receive_vetted_partial : forall ver chunks, bytes (concat chunks) ->
  forall p, In (EPacket p) (snd (conn_recv_all (conn_init ver) chunks)) -> vetted p.
Proof.
  intros ver chunks B p H. pose proof (recv_vet chunks (conn_init ver) B (SI_init ver []) (Forall_nil _)) as V.
  rewrite Forall_forall in V. exact (V _ H).
Qed.
Print Assumptions mqtt_receive_vetted_partial.
(** A PUBLISH, a ping and the PUBACK of a message are handed on; a PUBLISH of QoS 3, flags in a
    CONNACK and a SUBACK with the code 3 close the connection. *)
Example mqtt_receive_vetted_ex :
  snd (conn_recv_all (conn_init (Some 4)) [[50; 6; 0; 1; 97; 0]; [7; 49; 192; 0; 64]; [2; 0; 7]; [54; 6; 0; 1; 97; 0; 7; 49]]) =
    [EPacket (mk_packet 3 2 4 (BPublish [97] 7 [] (Some [49]))); EPacket (mk_packet 12 0 4 BPing);
     EPacket (mk_packet 4 0 4 (BAck 7 0 [])); EClose] /\
  snd (conn_recv_all (conn_init (Some 4)) [[32; 2; 2; 0]]) = [EClose] /\
  snd (conn_recv_all (conn_init (Some 4)) [[144; 3; 0; 7; 3]]) = [EClose].
Proof. vm_compute. auto. Qed.

(** FINDING: a PUBACK with the reason "Packet identifier not found", which the standard does not
    give to PUBACK, is handed on. *)
Theorem mqtt_puback_code_refuted : exists p, ~ In 146 puback_codes /\ pk_type p = 4 /\
  pk_body p = BAck 7 146 [] /\
  snd (conn_recv_all (conn_init (Some 5)) [[64; 4; 0; 7; 146; 0]]) = [EPacket p].
Proof.
  exists (mk_packet 4 0 5 (BAck 7 146 [])). split; [cbn; intuition lia|]. split; [reflexivity|]. split; [reflexivity|]. vm_compute. reflexivity.
Qed.
Print Assumptions mqtt_puback_code_refuted.

(** FINDING: a client of version 5 aborts the broker: a SUBSCRIBE with the legal option No Local
    (or Retain As Published) makes [rrr_mqtt_subscription_new] call [RRR_BUG]. *)
Theorem mqtt_receive_abort_refuted : exists p, packet_legal p /\ pk_ver p = 5 /\
  snd (conn_recv_all (conn_init (Some 5)) [wire p]) = [EAbort].
Proof.
  exists (mk_packet 8 2 5 (BSub 1 [] [mk_sub [97] 0 0 1 0])). split; [|split; [reflexivity|vm_compute; reflexivity]].
  split; [|split; [cbn; lia|vm_compute; discriminate]]. cbn [pk_body pk_ver pk_type pk_flags body_legal].
  split; [auto|]. split; [reflexivity|]. split; [lia|]. split; [split; [constructor|split; [vm_compute; discriminate|lia]]|].
  split; [discriminate|]. apply Forall_cons; [|constructor]. split; [|cbn; lia]. cbn [sb_filter].
  split; [asc|]. split; [discriminate|]. exists [[97]]. split; [split; [discriminate|apply Forall_cons; [split; cbn; intuition lia|constructor]]|].
  split; [reflexivity|]. apply LF_lit; [split; cbn; intuition lia|]. apply LF_nil.
Qed.
Print Assumptions mqtt_receive_abort_refuted.

(** FINDING: what is accepted depends on how the octets arrive.  A SUBSCRIBE of which the last
    octet (the options) is missing takes the first octet of the next packet in its stead, if that
    has arrived, and closes the connection otherwise: integers are only checked against what has
    been received, not against the end of the packet. *)
Theorem mqtt_read_pieces_refuted : exists a b,
  snd (conn_recv_all (conn_init (Some 4)) [a ++ b]) <> snd (conn_recv_all (conn_init (Some 4)) [a; b]).
Proof.
  exists [130; 5; 0; 1; 0; 1; 97], [0; 0]. vm_compute. discriminate.
Qed.
Print Assumptions mqtt_read_pieces_refuted.

(** FINDING: a property may run past the end of the properties: here their length is 1, the
    property takes 5 octets, and the packet is handed on. *)
Theorem mqtt_read_props_end_refuted :
  snd (conn_recv_all (conn_init (Some 5)) [[48; 10; 0; 1; 97; 1; 2; 0; 0; 0; 9; 49]]) =
    [EPacket (mk_packet 3 0 5 (BPublish [97] 0 [mk_prop 2 (VInt 9)] (Some [49])))].
Proof. vm_compute. reflexivity. Qed.
Print Assumptions mqtt_read_props_end_refuted.

(** FINDING: a legal PUBLISH with an empty property (here Content Type) is handed on, but the
    packet made of it to be sent to a subscriber aborts the program. *)
Theorem mqtt_forward_empty_refuted : exists p, packet_legal p /\ pk_ver p = 5 /\
  snd (conn_recv_all (conn_init (Some 5)) [wire p]) = [EPacket p] /\ send_packet p = AAbort.
Proof.
  exists (mk_packet 3 0 5 (BPublish [97] 0 [mk_prop 3 (VData [])] (Some [49]))).
  split; [|split; [reflexivity|split; vm_compute; reflexivity]].
  split; [|split; [cbn; lia|vm_compute; discriminate]]. cbn [pk_body pk_ver pk_type pk_flags body_legal].
  split; [reflexivity|]. split; [lia|]. split; [cbn; lia|]. split; [cbn; lia|]. split; [cbn; lia|].
  split; [split; [asc|]; split; [discriminate|]; split; cbn; intuition lia|].
  split; [split; [|split; [vm_compute; discriminate|lia]]|].
  - apply Forall_cons; [exists TUtf8; split; [reflexivity|]|constructor]. cbn [val_legal pr_val]. asc.
  - split; [repeat (apply Forall_cons; [unfold byte; lia|]); constructor|discriminate].
Qed.
Print Assumptions mqtt_forward_empty_refuted.

(** FINDING: the password is binary data by the standard, but a CONNECT of which it is not UTF-8
    closes the connection. *)
Theorem mqtt_read_password_refuted : exists p, packet_legal p /\
  snd (conn_recv_all (conn_init None) [wire p]) = [EClose].
Proof.
  exists (mk_packet 1 0 4 (BConnect 4 194 60 [] (Some [99]) None (Some [117]) (Some [255]))).
  split; [|vm_compute; reflexivity].
  split; [|split; [cbn; lia|vm_compute; discriminate]]. cbn [pk_body pk_ver pk_type pk_flags body_legal].
  split; [reflexivity|]. split; [reflexivity|]. split; [reflexivity|]. split; [auto|]. split; [unfold byte; lia|]. split; [reflexivity|].
  split; [intros _; split; [|split]; reflexivity|]. split; [intros [X _]; discriminate|]. split; [intros _ _; reflexivity|]. split; [lia|].
  split; [split; [constructor|split; [vm_compute; discriminate|auto]]|].
  split; [cbn [opt_legal]; asc|]. split; [reflexivity|]. split; [exact I|].
  split; [reflexivity|]. split; [cbn [opt_legal]; asc|]. split; [reflexivity|]. cbn [opt_legal].
  split; [apply Forall_cons; [unfold byte; lia|constructor]|cbn; lia].
Qed.
Print Assumptions mqtt_read_password_refuted.
