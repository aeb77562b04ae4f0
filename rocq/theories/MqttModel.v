(** Model of the MQTT packet parser and assembler: src/lib/mqtt/mqtt_parse.c,
    mqtt_assemble.c, mqtt_payload_buf.c, and the parts of mqtt_property.c,
    mqtt_packet.c, mqtt_subscription.c and mqtt_connection.c which they use.

    What has been received so far is the list [buf]; positions in it are integers, as
    the pointers [start] and [end] of the code minus [session->buf].  [tgt] is
    [session->target_size]. *)
From Coq Require Import Strings.String.
From Coq Require Import ZArith List Bool Lia.
From Verif Require Import Common Utf8Model TopicModel.
Import ListNotations.
Open Scope Z_scope.

(** Outcome of a parse function: RRR_MQTT_OK with the value and the new position,
    RRR_MQTT_INCOMPLETE, RRR_MQTT_SOFT_ERROR, or a call of RRR_BUG, which aborts. *)
Inductive pres (A : Type) : Type :=
| POk (a : A) (pos : Z)
| PInc
| PSoft
| PAbort.
Arguments POk {A} _ _.
Arguments PInc {A}.
Arguments PSoft {A}.
Arguments PAbort {A}.
Definition parser (A : Type) : Type := list Z -> Z -> pres A.
Definition pret {A} (a : A) : parser A := fun _ pos => POk a pos.
Definition psoft {A} : parser A := fun _ _ => PSoft.
Definition pbind {A B} (p : parser A) (f : A -> parser B) : parser B :=
  fun buf pos => match p buf pos with
                 | POk a pos' => f a buf pos'
                 | PInc => PInc
                 | PSoft => PSoft
                 | PAbort => PAbort
                 end.
(** [if (...) { return RRR_MQTT_SOFT_ERROR; }] *)
Definition pcheck {B} (ok : bool) (p : parser B) : parser B := if ok then p else psoft.

(** The octets from a position. *)
Definition zsub (buf : list Z) (pos n : Z) : list Z := firstn (Z.to_nat n) (skipn (Z.to_nat pos) buf).

(** mqtt_parse.c:127-130 [PARSE_PREPARE_RAW]: [n] octets, if they have been received. *)
Definition p_take (n : Z) : parser (list Z) :=
  fun buf pos => if zlen buf <? pos + n then PInc else POk (zsub buf pos n) (pos + n).
(** mqtt_parse.c:135-137 [PARSE_U8_RAW], 139-141 [PARSE_U16_RAW] *)
Definition p_u8 : parser Z := pbind (p_take 1) (fun b => pret (be_dec b)).
Definition p_u16 : parser Z := pbind (p_take 2) (fun b => pret (be_dec b)).

(** mqtt_parse.c:115-124 [PARSE_PACKET_ID] *)
Definition p_pid : parser Z := pbind p_u16 (fun i => pcheck (negb (i =? 0)) (pret i)).

(** mqtt_parse.c:387-423 [__rrr_mqtt_parse_variable_int]: at most four octets, [k] of them left. *)
Fixpoint vint_loop (k : nat) (result exponent : Z) : parser Z :=
  fun buf pos =>
  match k with
  | O => PSoft
  | S k =>
      match p_take 1 buf pos with
      | POk b pos' =>
          let current := be_dec b in
          let result' := u32 (result + Z.land current 127 * exponent) in
          if Z.land current 128 =? 0 then POk result' pos'
          else vint_loop k result' (u32 (exponent * 128)) buf pos'
      | PInc => PInc
      | PSoft => PSoft
      | PAbort => PAbort
      end
  end.
Definition p_vint : parser Z := vint_loop 4 0 1.

(** mqtt_parse.c:425-463 [__rrr_mqtt_parse_blob], 466-499 [__rrr_mqtt_parse_blob_nullsafe]:
    two octets of length and the data, which may not pass the end of the packet. *)
Definition p_blob (tgt : Z) : parser (list Z) :=
  pbind p_u16 (fun n buf pos => if tgt <? pos + n then PSoft else p_take n buf pos).

(** mqtt_parse.c:505-513 [__rrr_mqtt_parse_utf8_validate_callback] *)
Definition mqtt_utf8_cb (st : unit) (c : Z) : Z * unit :=
  if (c =? 0) || ((55296 <=? c) && (c <=? 57343)) then (1, st) else (0, st).
(** mqtt_parse.c:515-535 [__rrr_mqtt_parse_utf8_validate] *)
Definition mqtt_utf8_ok (s : list Z) (min : Z) : bool :=
  if zlen s <? min then false
  else match utf8_validate_and_iterate mqtt_utf8_cb tt s with
       | Some (ret, _) => ret =? 0
       | None => false
       end.
(** mqtt_parse.c:537-555 [__rrr_mqtt_parse_utf8] *)
Definition p_utf8 (tgt min : Z) : parser (list Z) :=
  pbind (p_blob tgt) (fun s => pcheck (mqtt_utf8_ok s min) (pret s)).

(** *** Properties *)
(** mqtt_property.h:28-34 *)
Inductive ptype : Type := TOne | TTwo | TFour | TVint | TBlob | TUtf8 | T2Utf8.
(** mqtt_property.c:33-62 [property_definitions] with 64-72 [rrr_mqtt_property_get_definition] *)
Definition property_definitions : list (Z * ptype) :=
  [(1, TOne); (2, TFour); (3, TUtf8); (8, TUtf8); (9, TBlob); (11, TVint); (17, TFour);
   (18, TUtf8); (19, TTwo); (21, TUtf8); (22, TBlob); (23, TOne); (24, TFour); (25, TOne);
   (26, TUtf8); (28, TUtf8); (31, TUtf8); (33, TTwo); (34, TTwo); (35, TTwo); (36, TOne);
   (37, TOne); (38, T2Utf8); (39, TFour); (40, TOne); (41, TOne); (42, TOne)].
Fixpoint lookup_definition (l : list (Z * ptype)) (id : Z) : option ptype :=
  match l with
  | [] => None
  | (i, t) :: r => if i =? id then Some t else lookup_definition r id
  end.
Definition get_definition (id : Z) : option ptype := lookup_definition property_definitions id.

(** The value of a property: a 32 bit integer, data, or two strings (the property and
    its sibling). *)
Inductive pval : Type :=
| VInt (n : Z)
| VData (d : list Z)
| VPair (k v : list Z).
Record prop : Type := mk_prop { pr_id : Z; pr_val : pval }.

(** mqtt_parse.c:561-597 [__rrr_mqtt_parse_property_integer] and 599-641, the integers *)
Definition p_prop_int (n : Z) : parser pval := pbind (p_take n) (fun b => pret (VInt (be_dec b))).
(** mqtt_parse.c:644-659 [__rrr_mqtt_parse_property_vint] *)
Definition p_prop_vint : parser pval := pbind p_vint (fun n => pret (VInt n)).
(** mqtt_parse.c:661-687 [__rrr_mqtt_parse_property_blob]: [__rrr_mqtt_parse_blob] has
    counted the data already, line 682 counts it once more. *)
Definition p_prop_blob (tgt : Z) : parser pval :=
  fun buf pos => match p_blob tgt buf pos with
                 | POk d pos' => POk (VData d) (pos' + zlen d)
                 | PInc => PInc
                 | PSoft => PSoft
                 | PAbort => PAbort
                 end.
(** mqtt_parse.c:689-707 [__rrr_mqtt_parse_property_utf8] *)
Definition p_prop_utf8 (tgt : Z) : parser pval := pbind (p_utf8 tgt 0) (fun s => pret (VData s)).
(** mqtt_parse.c:709-733 [__rrr_mqtt_parse_property_2utf8] *)
Definition p_prop_2utf8 (tgt : Z) : parser pval :=
  pbind (p_utf8 tgt 0) (fun k => pbind (p_utf8 tgt 0) (fun v => pret (VPair k v))).
(** mqtt_parse.c:735-745 [property_parsers] *)
Definition p_prop_val (tgt : Z) (t : ptype) : parser pval :=
  match t with
  | TOne => p_prop_int 1
  | TTwo => p_prop_int 2
  | TFour => p_prop_int 4
  | TVint => p_prop_vint
  | TBlob => p_prop_blob tgt
  | TUtf8 => p_prop_utf8 tgt
  | T2Utf8 => p_prop_2utf8 tgt
  end.
(** mqtt_parse.c:776-800, one round of the loop *)
Definition p_prop (tgt : Z) : parser prop :=
  pbind p_u8 (fun id =>
    match get_definition id with
    | None => psoft
    | Some t => pbind (p_prop_val tgt t) (fun v => pret (mk_prop id v))
    end).
(** mqtt_parse.c:776-800 [while (end < properties_body_end)].  Every round moves on by
    one octet at least, the fuel given is never used up. *)
Fixpoint p_prop_loop (fuel : nat) (tgt body_end : Z) (acc : list prop) : parser (list prop) :=
  fun buf pos =>
  if pos <? body_end then
    match fuel with
    | O => PAbort
    | S fuel =>
        match p_prop tgt buf pos with
        | POk p pos' => p_prop_loop fuel tgt body_end (acc ++ [p]) buf pos'
        | PInc => PInc
        | PSoft => PSoft
        | PAbort => PAbort
        end
    end
  else POk acc pos.
(** mqtt_parse.c:747-813 [__rrr_mqtt_parse_properties] *)
Definition p_props (tgt : Z) : parser (list prop) :=
  pbind p_vint (fun n buf pos => p_prop_loop (Z.to_nat n) tgt (pos + n) [] buf pos).
(** mqtt_parse.c:206-218 [PARSE_PROPERTIES_IF_V5] *)
Definition p_props_v5 (tgt ver : Z) : parser (list prop) :=
  if 5 <=? ver then p_props tgt else pret [].

(** *** Reasons *)
(** mqtt_packet.c:252-303 [rrr_mqtt_p_reason_map]: the reason of version 5, of version
    3.1, and for which packets it is. *)
Record reason : Type := mk_reason {
  r_v5 : Z; r_v31 : Z;
  r_connack : bool; r_disconnect : bool; r_puback_pubrec : bool; r_pubrel_pubcomp : bool;
  r_suback : bool; r_unsuback : bool }.
Definition R (v5 v31 a b c d e f : Z) : reason :=
  mk_reason v5 v31 (a =? 1) (b =? 1) (c =? 1) (d =? 1) (e =? 1) (f =? 1).
Definition reason_map : list reason :=
  [R 0 0 1 1 1 1 1 1; R 132 1 1 0 0 0 0 0; R 133 2 1 0 0 0 0 0; R 134 4 1 0 0 0 0 0;
   R 135 5 1 0 1 0 1 1; R 136 3 1 0 0 0 0 0;
   R 1 0 0 0 0 0 1 0; R 2 0 0 0 0 0 1 0; R 4 255 0 1 0 0 0 0; R 16 255 0 0 1 0 0 0;
   R 17 255 0 0 0 0 0 1;
   R 128 254 1 1 1 0 1 1; R 129 254 1 1 0 0 0 0; R 130 254 1 1 0 0 0 0; R 131 254 1 1 1 0 1 1;
   R 137 3 1 1 0 0 0 0; R 138 254 1 0 0 0 0 0; R 139 255 0 1 0 0 0 0; R 140 254 1 0 0 0 0 0;
   R 141 255 0 1 0 0 0 0; R 142 255 0 1 0 0 0 0; R 143 255 0 1 0 0 1 1;
   R 144 254 1 0 1 0 0 0; R 145 255 0 0 1 0 1 1; R 146 255 0 0 1 1 0 0; R 147 255 0 1 0 0 0 0;
   R 148 255 0 1 0 0 0 0; R 149 254 1 0 0 0 0 0; R 150 255 0 1 0 0 0 0; R 151 254 1 0 1 0 1 0;
   R 152 255 0 1 0 0 0 0; R 153 254 1 0 1 0 0 0; R 154 254 1 0 0 0 0 0; R 155 254 1 0 0 0 0 0;
   R 156 3 1 0 0 0 0 0; R 157 3 1 0 0 0 0 0; R 158 255 0 0 0 0 1 0; R 159 3 1 0 0 0 0 0;
   R 160 255 0 1 0 0 0 0; R 161 255 0 1 0 0 1 0; R 162 255 0 1 0 0 1 0].
(** mqtt_packet.c:448-463 [rrr_mqtt_p_reason_get_v5] *)
Fixpoint find_v5 (l : list reason) (v : Z) : option reason :=
  match l with
  | [] => None
  | r :: l => if r_v5 r =? v then Some r else find_v5 l v
  end.
Definition reason_get_v5 (v : Z) : option reason := find_v5 reason_map v.
(** mqtt_packet.c:465-482 [rrr_mqtt_p_reason_get_v31]: stops at the first which has no
    reason of version 3.1. *)
Fixpoint find_v31 (l : list reason) (v : Z) : option reason :=
  match l with
  | [] => None
  | r :: l => if 5 <? r_v31 r then None else if r_v31 r =? v then Some r else find_v31 l v
  end.
Definition reason_get_v31 (v : Z) : option reason := find_v31 reason_map v.
(** mqtt_parse.c:142-166 [__rrr_mqtt_parse_save_and_check_reason] *)
Definition reason_get (ver v : Z) : option reason :=
  if 5 <=? ver then reason_get_v5 v else reason_get_v31 v.

(** *** Packets *)
(** mqtt_subscription.h: a subscription.  The topic filter is a C string. *)
Record sub : Type := mk_sub { sb_filter : list Z; sb_retain : Z; sb_rap : Z; sb_nl : Z; sb_qos : Z }.

(** What the variable header of a packet gives.  Strings which the code keeps as [char *]
    only are cut at a NUL. *)
Inductive hdr : Type :=
| HConnect (ver cflags keep : Z) (props : list prop)
| HConnack (ack_flags reason : Z) (props : list prop)
| HPublish (topic : list Z) (pid : Z) (props : list prop)
| HAck (pid reason : Z) (props : list prop)
| HSub (pid : Z) (props : list prop)
| HSuback (pid : Z) (props : list prop)
| HPing
| HDisconnect (reason : Z) (props : list prop).

(** The will of a CONNECT: properties, topic, message. *)
Record will : Type := mk_will { w_props : list prop; w_topic : list Z; w_msg : list Z }.

(** Packets, mqtt_packet.h:210-440.  The packet identifier of a PUBLISH is 0 if its quality
    of service is 0; fields of a CONNECT which are not there are [None].  The payload of a
    PUBLISH is [None] if it is empty. *)
Inductive body : Type :=
| BConnect (ver cflags keep : Z) (props : list prop) (cid : option (list Z)) (w : option will)
    (user pass : option (list Z))
| BConnack (ack_flags reason : Z) (props : list prop)
| BPublish (topic : list Z) (pid : Z) (props : list prop) (payload : option (list Z))
| BAck (pid reason : Z) (props : list prop)
| BSub (pid : Z) (props : list prop) (subs : list sub)
| BSuback (pid : Z) (props : list prop) (acks : list Z)
| BPing
| BDisconnect (reason : Z) (props : list prop).
Record packet : Type := mk_packet { pk_type : Z; pk_flags : Z; pk_ver : Z; pk_body : body }.

(** mqtt_packet.c:234-250 [rrr_mqtt_p_type_properties]: the flags, if they are reserved. *)
Definition reserved_flags (type : Z) : option Z :=
  if type =? 3 then None
  else if (type =? 6) || (type =? 8) || (type =? 10) then Some 2
  else Some 0.

(** mqtt_packet.h: flags *)
Definition bit (x n : Z) : Z := Z.land (Z.shiftr x n) 1.
Definition two_bits (x n : Z) : Z := Z.land (Z.shiftr x n) 3.
Definition publish_qos (flags : Z) : Z := two_bits flags 1.
Definition publish_dup (flags : Z) : Z := bit flags 3.
Definition publish_retain (flags : Z) : Z := bit flags 0.
Definition c_will (f : Z) : bool := bit f 2 =? 1.
Definition c_will_qos (f : Z) : Z := two_bits f 3.
Definition c_will_retain (f : Z) : Z := bit f 5.
Definition c_pass (f : Z) : bool := bit f 6 =? 1.
Definition c_user (f : Z) : bool := bit f 7 =? 1.

(** mqtt_packet.c:40-45 [protocol_versions] *)
Definition version_name (id : Z) : option (list Z) :=
  if id =? 3 then Some (str_bytes "MQISDP")
  else if (id =? 4) || (id =? 5) then Some (str_bytes "MQTT")
  else None.
(** mqtt_parse.c:815-842 [__rrr_mqtt_parse_protocol_version_validate_name].  [toupper] in
    the C locale. *)
Definition toupper (c : Z) : Z := if (97 <=? c) && (c <=? 122) then c - 32 else c.

Definition blt (a b : Z) : bool := a <? b.
(** mqtt_parse.c:843-912: CONNECT up to the payload *)
Definition p_connect_hdr (tgt : Z) : parser hdr :=
  pbind p_u16 (fun nlen =>
  pcheck (nlen <=? 6) (
  pbind (p_take nlen) (fun name =>
  pbind p_u8 (fun ver =>
  match version_name ver with
  | None => psoft
  | Some vname =>
      pcheck (str_same vname (map toupper (cstr name))) (
      pbind p_u8 (fun cf =>
      pcheck (bit cf 0 =? 0) (
      pcheck (c_will cf || ((c_will_qos cf =? 0) && (c_will_retain cf =? 0))) (
      pcheck ((5 <=? ver) || negb (c_pass cf) || c_user cf) (
      pcheck (c_will_qos cf <=? 2) (
      pbind p_u16 (fun keep =>
      pbind (p_props_v5 tgt ver) (fun props =>
      pret (HConnect ver cf keep props))))))))) 
  end)))).

(** mqtt_parse.c:947-966: CONNACK.  Version 3.1 reasons are stored as those of version 5. *)
Definition p_connack_hdr (tgt ver : Z) : parser hdr :=
  pbind p_u8 (fun ack =>
  pcheck (Z.shiftr ack 1 =? 0) (
  pbind p_u8 (fun code =>
  match reason_get ver code with
  | None => psoft
  | Some r =>
      pcheck (r_connack r) (
      pbind (p_props_v5 tgt ver) (fun props => pret (HConnack ack (r_v5 r) props)))
  end))).

(** mqtt_parse.c:972-1018: PUBLISH *)
Definition name_ok (s : list Z) : bool := match name_validate s with Some 0 => true | _ => false end.
Definition filter_ok (s : list Z) : bool := match filter_validate s with Some 0 => true | _ => false end.
Definition p_publish_hdr (tgt ver flags : Z) : parser hdr :=
  pcheck (publish_qos flags <=? 2) (
  pcheck (negb ((publish_qos flags =? 0) && negb (publish_dup flags =? 0))) (
  pbind (p_utf8 tgt 1) (fun topic =>
  pcheck (name_ok (cstr topic)) (
  pbind (if 0 <? publish_qos flags then p_pid else pret 0) (fun pid =>
  pbind (p_props_v5 tgt ver) (fun props =>
  pret (HPublish (cstr topic) pid props))))))).

(** mqtt_parse.c:1040-1076 [rrr_mqtt_parse_def_puback]: PUBACK, PUBREC, PUBREL, PUBCOMP.
    [PARSE_CHECK_TARGET_END] is [tgt < pos + 1]. *)
Definition p_ack_hdr (tgt ver type : Z) : parser hdr :=
  pbind p_pid (fun pid buf pos =>
  if tgt <? pos + 1 then POk (HAck pid 0 []) pos
  else if 5 <=? ver then
    pbind p_u8 (fun code =>
    match reason_get ver code with
    | None => psoft
    | Some r =>
        pcheck (if (type =? 4) || (type =? 5) then r_puback_pubrec r else r_pubrel_pubcomp r) (
        pbind (p_props_v5 tgt ver) (fun props buf pos =>
        if tgt <? pos + 1 then POk (HAck pid (r_v5 r) props) pos else PSoft))
    end) buf pos
  else PSoft).

(** mqtt_parse.c:1087-1090 and 1220-1225: SUBSCRIBE, UNSUBSCRIBE, SUBACK and UNSUBACK *)
Definition p_sub_hdr (tgt ver : Z) : parser hdr :=
  pbind p_pid (fun pid => pbind (p_props_v5 tgt ver) (fun props => pret (HSub pid props))).
Definition p_suback_hdr (tgt ver : Z) : parser hdr :=
  pbind p_pid (fun pid => pbind (p_props_v5 tgt ver) (fun props => pret (HSuback pid props))).

(** mqtt_parse.c:350-357 [PARSE_END_NO_HEADER], 1335-1353: PINGREQ and PINGRESP *)
Definition p_ping_hdr (tgt : Z) : parser hdr :=
  fun buf pos => if tgt <? pos + 1 then POk HPing pos else PSoft.

(** mqtt_parse.c:1359-1392 [rrr_mqtt_parse_disconnect].  Where the code jumps to
    [parse_done] nothing is left of the packet, so that the checks passed over hold. *)
Definition p_disconnect_hdr (tgt ver : Z) : parser hdr :=
  fun buf vpos =>
  if ver <? 5 then if tgt - vpos =? 0 then POk (HDisconnect 0 []) vpos else PSoft
  else if tgt - vpos =? 0 then POk (HDisconnect 0 []) vpos
  else pbind p_u8 (fun code =>
       if tgt - vpos =? 1 then pret (HDisconnect code [])
       else pbind (p_props_v5 tgt ver) (fun props => pret (HDisconnect code props))) buf vpos.

(** mqtt_packet.c:234-250: the parser of each type; mqtt_parse.c:1391-1397: AUTH is refused.
    [PARSE_REQUIRE_PROTOCOL_VERSION], mqtt_parse.c:92-95: without a version, only CONNECT. *)
Definition p_hdr (tgt : Z) (ver : option Z) (type flags : Z) : parser hdr :=
  if type =? 1 then p_connect_hdr tgt
  else if type =? 15 then psoft
  else match ver with
  | None => fun _ _ => PInc
  | Some ver =>
      if type =? 2 then p_connack_hdr tgt ver
      else if type =? 3 then p_publish_hdr tgt ver flags
      else if (4 <=? type) && (type <=? 7) then p_ack_hdr tgt ver type
      else if (type =? 8) || (type =? 10) then p_sub_hdr tgt ver
      else if (type =? 9) || (type =? 11) then p_suback_hdr tgt ver
      else if (type =? 12) || (type =? 13) then p_ping_hdr tgt
      else p_disconnect_hdr tgt ver
  end.

(** mqtt_parse.c:914-945: the payload of CONNECT *)
Definition p_connect_payload (tgt : Z) (ver cf keep : Z) (props : list prop) : parser body :=
  pbind (p_utf8 tgt 0) (fun cid =>
  pbind (if c_will cf then
           pbind (p_props_v5 tgt ver) (fun wp =>
           pbind (p_utf8 tgt 1) (fun wt =>
           pcheck (name_ok (cstr wt)) (
           pbind (p_blob tgt) (fun wm => pret (Some (mk_will wp (cstr wt) wm))))))
         else pret None) (fun w =>
  pbind (if c_user cf then
           fun buf pos => if tgt <? pos + 1 then PSoft
                          else pbind (p_utf8 tgt 1) (fun s => pret (Some (cstr s))) buf pos
         else pret None) (fun user =>
  pbind (if c_pass cf then
           fun buf pos => if tgt <? pos + 1 then PSoft
                          else pbind (p_utf8 tgt 1) (fun s => pret (Some (cstr s))) buf pos
         else pret None) (fun pass =>
  fun buf pos => if tgt <? pos + 1
                 then POk (BConnect ver cf keep props (Some (cstr cid)) w user pass) pos
                 else PSoft)))).

(** mqtt_subscription.c:430-478 [rrr_mqtt_subscription_collection_add_unique] with
    [put_at_end]: a subscription with the same topic filter is replaced, otherwise the new
    one is put last; 65536 is the most, [None] is the refusal. *)
Definition MAX_SUBSCRIPTIONS : Z := 65536.
Fixpoint replace_sub (s : sub) (l : list sub) : option (list sub) :=
  match l with
  | [] => None
  | t :: r => if str_same (sb_filter t) (sb_filter s) then Some (s :: r)
              else option_map (cons t) (replace_sub s r)
  end.
Definition add_unique (s : sub) (l : list sub) : option (list sub) :=
  match l with
  | [] => Some [s]
  | _ =>
      match replace_sub s l with
      | Some l' => Some l'
      | None => if MAX_SUBSCRIPTIONS <=? zlen l then None else Some (l ++ [s])
      end
  end.

(** mqtt_subscription.c:51-119 [rrr_mqtt_subscription_new]: aborts for the flags No Local
    and Retain As Published and for filters which are not valid. *)
Definition sub_new_bug (s : sub) : bool :=
  (0 <? sb_nl s) || (0 <? sb_rap s) || (2 <? sb_retain s) || negb (filter_ok (sb_filter s)) ||
  match sb_filter s with [] => true | _ => false end.

(** mqtt_parse.c:1104-1169, one round: a topic filter and, for SUBSCRIBE, its options *)
Definition p_sub (tgt ver : Z) (has_options : bool) : parser sub :=
  pbind (p_utf8 tgt 1) (fun f =>
  pcheck (zlen (cstr f) =? zlen f) (
  pbind (if has_options then p_u8 else pret 0) (fun o =>
  let reserved := two_bits o 6 in
  let retain := two_bits o 4 in
  let rap := bit o 3 in
  let nl := bit o 2 in
  let qos := two_bits o 0 in
  pcheck (qos <=? 2) (
  pcheck (reserved =? 0) (
  pcheck (if 5 <=? ver then retain <=? 2 else (retain =? 0) && (rap =? 0) && (nl =? 0)) (
  pcheck (filter_ok f) (
  let s := mk_sub f retain rap nl qos in
  if sub_new_bug s then (fun _ _ => PAbort) else pret s))))))).

(** mqtt_parse.c:1098-1172: the loop.  Beside the outcome: the checkpoint and the
    subscriptions when it was left.  A collection which is full is an internal error, which
    closes the connection as well.  Every round moves on, the fuel given is never used up. *)
Fixpoint p_sub_loop (fuel : nat) (tgt ver : Z) (opts : bool) (acc : list sub) (buf : list Z) (pos : Z)
  : pres (list sub) * (Z * list sub) :=
  if tgt <? pos + 1 then (POk acc pos, (pos, acc))
  else match fuel with
  | O => (PAbort, (pos, acc))
  | S fuel =>
      match p_sub tgt ver opts buf pos with
      | POk s pos' =>
          match add_unique s acc with
          | Some acc' => p_sub_loop fuel tgt ver opts acc' buf pos'
          | None => (PSoft, (pos, acc))
          end
      | PInc => (PInc, (pos, acc))
      | PSoft => (PSoft, (pos, acc))
      | PAbort => (PAbort, (pos, acc))
      end
  end.

(** mqtt_parse.c:1249-1300: the acknowledgements of SUBACK and UNSUBACK.  They are read
    only when all of them have been received. *)
Definition ack_ok (ver type code : Z) : bool :=
  let r := if 5 <=? ver then reason_get_v5 code
           else if negb (Z.land (Z.shiftr code 2) 31 =? 0) then None
           else if (bit code 7 =? 1) && negb (two_bits code 0 =? 0) then None
           else if 2 <? two_bits code 0 then None
           else if bit code 7 =? 1 then reason_get_v5 128 else reason_get_v5 (two_bits code 0) in
  match r with
  | None => false
  | Some r => if type =? 9 then r_suback r else r_unsuback r
  end.
Definition p_suback_payload (tgt ver type pid : Z) (props : list prop) : parser body :=
  fun buf pos =>
  if (type =? 11) && (ver <? 5) then if tgt <? pos + 1 then POk (BSuback pid props []) pos else PSoft
  else if tgt - pos =? 0 then PSoft
  else if zlen buf <? tgt then PInc
  else let acks := zsub buf pos (tgt - pos) in
       if forallb (ack_ok ver type) acks then POk (BSuback pid props acks) tgt else PSoft.

(** mqtt_parse.c:1020-1035: the payload of PUBLISH is everything up to the end of the
    packet; mqtt_connection.c:729-748 moves it to the packet. *)
Definition p_publish_payload (tgt : Z) (topic : list Z) (pid : Z) (props : list prop) : parser body :=
  fun buf pos =>
  if tgt - pos =? 0 then POk (BPublish topic pid props None) pos
  else if zlen buf <? tgt then PInc
  else POk (BPublish topic pid props (Some (zsub buf pos (tgt - pos)))) tgt.

Definition body_of_subs (pid : Z) (props : list prop) (r : pres (list sub)) : pres body :=
  match r with
  | POk l pos => POk (BSub pid props l) pos
  | PInc => PInc
  | PSoft => PSoft
  | PAbort => PAbort
  end.
(** The payload of each type, from the checkpoint, with the subscriptions read so far;
    beside the outcome the new checkpoint and subscriptions. *)
Definition p_payload (tgt : Z) (ver type : Z) (h : hdr) (subs : list sub) (buf : list Z) (pos : Z)
  : pres body * (Z * list sub) :=
  match h with
  | HConnect v cf keep props => (p_connect_payload tgt v cf keep props buf pos, (pos, subs))
  | HConnack a r props =>
      ((if tgt <? pos + 1 then POk (BConnack a r props) pos else PSoft), (pos, subs))
  | HPublish topic pid props => (p_publish_payload tgt topic pid props buf pos, (pos, subs))
  | HAck pid r props =>
      ((if tgt <? pos + 1 then POk (BAck pid r props) pos else PSoft), (pos, subs))
  | HSub pid props =>
      (* mqtt_parse.c:1093-1096: nothing at all *)
      if tgt <? pos + 1 then (PSoft, (pos, subs))
      else let '(r, ck) := p_sub_loop (Z.to_nat (tgt - pos)) tgt ver (type =? 8) subs buf pos in
           (body_of_subs pid props r, ck)
  | HSuback pid props => (p_suback_payload tgt ver type pid props buf pos, (pos, subs))
  | HPing => ((if tgt <? pos + 1 then POk BPing pos else PSoft), (pos, subs))
  | HDisconnect r props =>
      ((if tgt <? pos + 1 then POk (BDisconnect r props) pos else PSoft), (pos, subs))
  end.

(** *** The parse session *)
(** mqtt_parse.h: [struct rrr_mqtt_parse_session].  [fx_*]: set when the fixed header is
    done; [ps_hdr]: set when the variable header is done, with [payload_pos]; the
    checkpoint and subscriptions; the packet, when the payload is done. *)
Record fixed : Type := mk_fixed { fx_type : Z; fx_flags : Z; fx_vpos : Z; fx_target : Z }.
Record psess : Type := mk_psess {
  ps_fixed : option fixed; ps_attempts : Z; ps_hdr : option (hdr * Z);
  ps_check : Z; ps_subs : list sub; ps_done : option packet }.
Definition psess_init : psess := mk_psess None 0 None 0 [] None.

(** The outcome of [rrr_mqtt_packet_parse]: the session (in which the packet may be
    complete), the error flag, or an abort. *)
Inductive presult : Type :=
| RSess (s : psess)
| RErr
| RAbort.

(** mqtt_parse.c:1426-1484: the fixed header.  [None]: not all of it has been received. *)
Definition p_fixed (buf : list Z) : option (option fixed) :=
  match buf with
  | [] => None
  | c :: _ =>
      let type := Z.shiftr c 4 in
      let flags := Z.land c 15 in
      if type =? 0 then Some None
      else if match reserved_flags type with Some f => negb (f =? flags) | None => false end then Some None
      else match p_vint buf 1 with
           | POk remaining pos => Some (Some (mk_fixed type flags pos (pos + remaining)))
           | PInc => None
           | _ => Some None
           end
  end.

(** mqtt_parse.c:325-336 [header_complete] to [parse_payload]: the payload may not begin
    past the end of the packet. *)
Definition parse_payload (ver : option Z) (fx : fixed) (attempts : Z) (h : hdr) (payload_pos : Z)
  (check : Z) (subs : list sub) (buf : list Z) : presult :=
  if fx_target fx <? payload_pos then RErr
  else
    let v := match h with HConnect v _ _ _ => v | _ => match ver with Some v => v | None => 0 end end in
    match p_payload (fx_target fx) v (fx_type fx) h subs buf check with
    | (POk b _, (ck, sb)) =>
        RSess (mk_psess (Some fx) attempts (Some (h, payload_pos)) ck sb
                 (Some (mk_packet (fx_type fx) (fx_flags fx) v b)))
    | (PInc, (ck, sb)) => RSess (mk_psess (Some fx) attempts (Some (h, payload_pos)) ck sb None)
    | (PSoft, _) => RErr
    | (PAbort, _) => RAbort
    end.

(** mqtt_parse.c:1486-1514: at most ten attempts at the variable header *)
Definition parse_rest (ver : option Z) (fx : fixed) (s : psess) (buf : list Z) : presult :=
  match ps_hdr s with
  | Some (h, pp) => parse_payload ver fx (ps_attempts s) h pp (ps_check s) (ps_subs s) buf
  | None =>
      let attempts := ps_attempts s + 1 in
      if 10 <? attempts then RErr
      else match p_hdr (fx_target fx) ver (fx_type fx) (fx_flags fx) buf (fx_vpos fx) with
           | POk h pos => parse_payload ver fx attempts h pos pos [] buf
           | PInc => RSess (mk_psess (Some fx) attempts None 0 [] None)
           | PSoft => RErr
           | PAbort => RAbort
           end
  end.

(** mqtt_parse.c:1407-1528 [rrr_mqtt_packet_parse]; it is not called when the packet is
    complete or after an error. *)
Definition packet_parse (ver : option Z) (s : psess) (buf : list Z) : presult :=
  if zlen buf <? 2 then RSess s
  else match ps_fixed s with
       | Some fx => parse_rest ver fx s buf
       | None =>
           match p_fixed buf with
           | None => RSess s
           | Some None => RErr
           | Some (Some fx) => parse_rest ver fx s buf
           end
       end.

(** *** The connection *)
(** What a connection holds: the protocol version, once it is known, the parse session and
    the octets received which do not belong to a packet handed on. *)
Record conn : Type := mk_conn { cn_ver : option Z; cn_sess : psess; cn_buf : list Z }.
Inductive mevent : Type :=
| EPacket (p : packet)
| EClose
| EAbort.
Definition conn_init (ver : option Z) : conn := mk_conn ver psess_init [].

(** The version is known after a CONNECT has been handled (mqtt_broker.c:
    [__rrr_mqtt_broker_handle_connect] sets [connection->protocol_version]). *)
Definition next_ver (ver : option Z) (p : packet) : option Z :=
  match pk_body p with BConnect v _ _ _ _ _ _ _ => Some v | _ => ver end.

(** mqtt_connection.c:648-682 [__rrr_mqtt_conn_read_get_target_size], called for every read
    until the target size is known; 697-790 [__rrr_mqtt_conn_read_complete_callback], called
    when as many octets have been received; read.c:496-560: the octets after that are kept
    for the next packet.  [None]: the connection is gone. *)
Fixpoint conn_run (fuel : nat) (ver : option Z) (s : psess) (buf : list Z) : option conn * list mevent :=
  match fuel with
  | O => (None, [EAbort])
  | S fuel =>
      let complete s fx :=
        if zlen buf <? fx_target fx then (Some (mk_conn ver s buf), [])
        else
          let cur := zsub buf 0 (fx_target fx) in
          let over := zsub buf (fx_target fx) (zlen buf - fx_target fx) in
          let finish p :=
            match over with
            | [] => (Some (mk_conn (next_ver ver p) psess_init []), [EPacket p])
            | _ => let '(c, ev) := conn_run fuel (next_ver ver p) psess_init over in (c, EPacket p :: ev)
            end in
          match ps_done s with
          | Some p => finish p
          | None =>
              match packet_parse ver s cur with
              | RSess s' => match ps_done s' with Some p => finish p | None => (None, [EClose]) end
              | RErr => (None, [EClose])
              | RAbort => (None, [EAbort])
              end
          end in
      match ps_fixed s with
      | Some fx => complete s fx
      | None =>
          match packet_parse ver s buf with
          | RErr => (None, [EClose])
          | RAbort => (None, [EAbort])
          | RSess s' =>
              match ps_fixed s' with
              | None => (Some (mk_conn ver s' buf), [])
              | Some fx => complete s' fx
              end
          end
      end
  end.
Definition conn_recv (c : conn) (chunk : list Z) : option conn * list mevent :=
  let buf := cn_buf c ++ chunk in
  conn_run (S (Datatypes.length buf)) (cn_ver c) (cn_sess c) buf.
Fixpoint conn_recv_all (c : conn) (chunks : list (list Z)) : option conn * list mevent :=
  match chunks with
  | [] => (Some c, [])
  | k :: r => match conn_recv c k with
              | (None, ev) => (None, ev)
              | (Some c', ev) => let '(c2, ev2) := conn_recv_all c' r in (c2, ev ++ ev2)
              end
  end.

(** *** Assembling *)
(** The outcome: the octets, an internal error or an abort. *)
Inductive ares : Type :=
| AOk (l : list Z)
| AErr
| AAbort.
Definition aapp (a b : ares) : ares :=
  match a with
  | AOk x => match b with AOk y => AOk (x ++ y) | r => r end
  | r => r
  end.
Notation "a +++ b" := (aapp a b) (right associativity, at level 60).
(** mqtt_payload_buf.c:62-68 [rrr_mqtt_payload_buf_ensure]: aborts if there is nothing to
    put; 151-167 [rrr_mqtt_payload_buf_put_raw].  The growing of the buffer is not modelled. *)
Definition put_raw (l : list Z) : ares := match l with [] => AAbort | _ => AOk l end.
(** mqtt_assemble.c:51-64 *)
Definition put_u8 (n : Z) : ares := put_raw (be_enc 1 n).
Definition put_u16 (n : Z) : ares := put_raw (be_enc 2 n).
Definition put_u32 (n : Z) : ares := put_raw (be_enc 4 n).
(** mqtt_assemble.c:74-79 [PUT_RAW_WITH_LENGTH] after the check of the length in the callers *)
Definition put_string (l : list Z) : ares :=
  if 65535 <? zlen l then AAbort else put_u16 (zlen l) +++ put_raw l.
(** mqtt_payload_buf.c:182-207 [rrr_mqtt_payload_buf_put_variable_int] and
    mqtt_connection.c:865-888 [__rrr_mqtt_connection_create_variable_int]: seven bits in
    each octet, the least first, the highest bit set if there are more. *)
Fixpoint vint_bytes (k : nat) (v : Z) : list Z :=
  match k with
  | O => []
  | S k => let c := Z.land v 127 in
           let v' := Z.shiftr v 7 in
           if v' =? 0 then [c] else Z.lor c 128 :: vint_bytes k v'
  end.
Definition put_vint (v : Z) : ares := if 268435455 <? v then AAbort else put_raw (vint_bytes 4 v).

(** mqtt_assemble.c:126-188 [__rrr_mqtt_assemble_put_properties_callback].  The integers are
    read at the start of the stored 32 bits; little-endian machines. *)
Definition put_prop_val (t : ptype) (v : pval) : ares :=
  match t, v with
  | TOne, VInt n => put_u8 n
  | TTwo, VInt n => put_u16 n
  | TFour, VInt n => put_u32 n
  | TVint, VInt n => put_vint n
  | TBlob, VData d => match d with [] => AAbort | _ => put_string d end
  | TUtf8, VData d => match d with [] => AAbort | _ => put_string d end
  | T2Utf8, VPair a b => match a with [] => AAbort | _ => put_string a +++ put_string b end
  | _, _ => AAbort
  end.
Definition put_prop (p : prop) : ares :=
  match get_definition (pr_id p) with
  | None => AAbort
  | Some t => put_u8 (pr_id p) +++ put_prop_val t (pr_val p)
  end.
Fixpoint put_prop_list (l : list prop) : ares :=
  match l with
  | [] => AOk []
  | p :: r => put_prop p +++ put_prop_list r
  end.
(** mqtt_property.c:552-608 [rrr_mqtt_property_collection_calculate_size]: the sizes without
    the identifiers. *)
Fixpoint vint_size (k : nat) (v : Z) : Z :=
  match k with
  | O => 0
  | S k => let v' := Z.shiftr v 7 in if v' =? 0 then 1 else 1 + vint_size k v'
  end.
Definition prop_size (p : prop) : Z :=
  match get_definition (pr_id p), pr_val p with
  | Some TOne, _ => 1
  | Some TTwo, _ => 2
  | Some TFour, _ => 4
  | Some TVint, VInt n => vint_size 5 n
  | Some TBlob, VData d => 2 + zlen d
  | Some TUtf8, VData d => 2 + zlen d
  | Some T2Utf8, VPair a b => 2 + zlen a + (2 + zlen b)
  | _, _ => 0
  end.
Fixpoint props_size (l : list prop) : Z :=
  match l with [] => 0 | p :: r => prop_size p + props_size r end.
(** mqtt_assemble.c:190-230 [__rrr_mqtt_assemble_put_properties] *)
Definition put_props (l : list prop) : ares :=
  let total := props_size l + zlen l in
  if 268435455 <? total + zlen l then AAbort
  else match put_prop_list l with
       | AOk b => if zlen b =? total then put_vint total +++ AOk b else AAbort
       | r => r
       end.
Definition put_props_v5 (ver : Z) (l : list prop) : ares := if ver =? 5 then put_props l else AOk [].

(** mqtt_packet.c:484-493 [rrr_mqtt_p_translate_reason_from_v5]; [None] is the abort. *)
Definition translate_v5 (r : Z) : option Z := option_map r_v31 (reason_get_v5 r).

(** mqtt_assemble.c:241-304 [rrr_mqtt_assemble_connect].  A string which is not there
    although its flag is set is an abort. *)
Definition put_opt (o : option (list Z)) : ares := match o with Some s => put_string s | None => AAbort end.
Definition asm_connect (ver cf keep : Z) (props : list prop) (cid : option (list Z)) (w : option will)
  (user pass : option (list Z)) : ares :=
  match version_name ver with
  | None => AAbort
  | Some name =>
      put_string name +++ put_u8 ver +++ put_u8 cf +++ put_u16 keep +++ put_props_v5 ver props +++
      (match cid with Some s => put_string s | None => put_u16 0 end) +++
      (if c_will cf then
         match w with
         | Some w => put_props_v5 ver (w_props w) +++ put_string (w_topic w) +++ put_string (w_msg w)
         | None => AAbort
         end
       else AOk []) +++
      (if c_user cf then put_opt user else AOk []) +++
      (if c_pass cf then put_opt pass else AOk [])
  end.
(** mqtt_assemble.c:306-326 [rrr_mqtt_assemble_connack] *)
Definition asm_connack (ver ack r : Z) (props : list prop) : ares :=
  if ver =? 5 then put_u8 ack +++ put_u8 r +++ put_props props
  else match translate_v5 r with
       | None => AAbort
       | Some v => if 5 <? v then AAbort else put_u8 ack +++ put_u8 v
       end.
(** mqtt_assemble.c:328-351 [rrr_mqtt_assemble_publish] *)
Definition asm_publish (ver flags : Z) (topic : list Z) (pid : Z) (props : list prop) : ares :=
  put_string topic +++ (if 0 <? publish_qos flags then put_u16 pid else AOk []) +++ put_props_v5 ver props.
(** mqtt_assemble.c:354-367 [rrr_mqtt_assemble_def_puback] *)
Definition asm_ack (ver pid r : Z) (props : list prop) : ares :=
  put_u16 pid +++ (if ver =? 5 then put_u8 r +++ put_props props else AOk []).
(** mqtt_assemble.c:375-405 [__rrr_mqtt_assemble_sub_usub_callback] *)
Definition asm_sub (ver : Z) (opts : bool) (s : sub) : ares :=
  if (0 <? sb_nl s) || (0 <? sb_rap s) || (2 <? sb_retain s) || (2 <? sb_qos s) then AAbort
  else put_string (sb_filter s) +++
       (if opts then
          put_u8 (if ver =? 5 then Z.lor (Z.lor (Z.lor (sb_qos s) (Z.shiftl (sb_nl s) 2)) (Z.shiftl (sb_rap s) 3)) (Z.shiftl (sb_retain s) 4)
                  else sb_qos s)
        else AOk []).
Fixpoint asm_subs (ver : Z) (opts : bool) (l : list sub) : ares :=
  match l with [] => AOk [] | s :: r => asm_sub ver opts s +++ asm_subs ver opts r end.
(** mqtt_assemble.c:407-442 [__rrr_mqtt_assemble_sub_usub] *)
Definition asm_sub_usub (ver type pid : Z) (props : list prop) (subs : list sub) : ares :=
  put_u16 pid +++ put_props_v5 ver props +++
  (match subs with [] => AAbort | _ => asm_subs ver (type =? 8) subs end).
(** mqtt_assemble.c:475-545: SUBACK and UNSUBACK; [acks] are the results kept in the
    subscriptions acknowledged. *)
Definition asm_acks (ver : Z) (acks : list Z) : ares :=
  match acks with
  | [] => AAbort
  | _ => AOk (map (fun r => if (ver =? 5) || (r <=? 2) then u8 r else 128) acks)
  end.
Definition asm_suback (ver type pid : Z) (props : list prop) (acks : list Z) : ares :=
  if type =? 9 then put_u16 pid +++ put_props_v5 ver props +++ asm_acks ver acks
  else put_u16 pid +++ (if ver =? 5 then put_props props +++ asm_acks ver acks else AOk []).
(** mqtt_assemble.c:547-563: PINGREQ, PINGRESP, DISCONNECT (without its properties) *)
Definition asm_disconnect (ver r : Z) : ares := if ver =? 5 then put_u8 r +++ put_u8 0 else AOk [].

Definition assemble (p : packet) : ares :=
  match pk_body p with
  | BConnect ver cf keep props cid w user pass => asm_connect ver cf keep props cid w user pass
  | BConnack ack r props => asm_connack (pk_ver p) ack r props
  | BPublish topic pid props _ => asm_publish (pk_ver p) (pk_flags p) topic pid props
  | BAck pid r props => asm_ack (pk_ver p) pid r props
  | BSub pid props subs => asm_sub_usub (pk_ver p) (pk_type p) pid props subs
  | BSuback pid props acks => asm_suback (pk_ver p) (pk_type p) pid props acks
  | BPing => AOk []
  | BDisconnect r _ => asm_disconnect (pk_ver p) r
  end.
Definition payload_of (p : packet) : option (list Z) :=
  match pk_body p with BPublish _ _ _ pl => pl | _ => None end.

(** mqtt_connection.c:890-1063 [__rrr_mqtt_conn_iterator_ctx_send_packet]: the fixed header,
    what was assembled and the payload.  Aborts: reserved flags which are wrong, a payload of
    no octets, sizes above 32 bits. *)
Definition send_packet (p : packet) : ares :=
  match assemble p with
  | AOk a =>
      if match reserved_flags (pk_type p) with Some f => negb (f =? pk_flags p) | None => false end then AAbort
      else
        let pl := match payload_of p with Some l => l | None => [] end in
        let n := zlen a + zlen pl in
        if 4294967295 <? n then AAbort
        else if 268435455 <? n then AErr
        else if match payload_of p with Some [] => true | _ => false end then AAbort
        else AOk ((pk_type p * 16 + pk_flags p) :: vint_bytes 4 n ++ a ++ pl)
  | r => r
  end.
