(** What the MQTT standard (3.1.1 and 5) says of packets: their form on the wire and which
    are legal.  Independent of the parser and the assembler: of the model only the types of
    packets are used. *)
From Coq Require Import Strings.String.
From Coq Require Import ZArith List Bool Lia.
From Verif Require Import Common Utf8Spec TopicSpec MqttModel.
Import ListNotations.
Open Scope Z_scope.

(** A variable byte integer: base 128, least digit first, 128 added to all but the last. *)
Definition vint (n : Z) : list Z :=
  if n <? 128 then [n]
  else if n <? 16384 then [128 + n mod 128; n / 128]
  else if n <? 2097152 then [128 + n mod 128; 128 + n / 128 mod 128; n / 16384]
  else [128 + n mod 128; 128 + n / 128 mod 128; 128 + n / 16384 mod 128; n / 2097152].
Definition VINT_MAX : Z := 268435455.

(** A string or binary data: its length in two octets first. *)
Definition mstr (s : list Z) : list Z := be_enc 2 (zlen s) ++ s.

(** A legal string: well formed UTF-8 without NUL. *)
Definition string_legal (s : list Z) : Prop :=
  bytes s /\ utf8_well_formed s /\ ~ In 0 s /\ zlen s <= 65535.
Definition data_legal (s : list Z) : Prop := bytes s /\ zlen s <= 65535.
(** A legal topic name and a legal topic filter *)
Definition topic_legal (s : list Z) : Prop := string_legal s /\ s <> [] /\ no_wildcard s.
Definition filter_legal (s : list Z) : Prop :=
  string_legal s /\ s <> [] /\ exists ls, is_levels ls /\ join ls = s /\ legal_filter ls.

(** *** Properties *)
Definition memb (x : Z) (l : list Z) : bool := existsb (Z.eqb x) l.
Definition prop_kind (id : Z) : option ptype :=
  if memb id [1; 23; 25; 36; 37; 40; 41; 42] then Some TOne
  else if memb id [19; 33; 34; 35] then Some TTwo
  else if memb id [2; 17; 24; 39] then Some TFour
  else if memb id [11] then Some TVint
  else if memb id [3; 8; 18; 21; 26; 28; 31] then Some TUtf8
  else if memb id [9; 22] then Some TBlob
  else if memb id [38] then Some T2Utf8
  else None.
Definition wire_val (t : ptype) (v : pval) : list Z :=
  match t, v with
  | TOne, VInt n => be_enc 1 n
  | TTwo, VInt n => be_enc 2 n
  | TFour, VInt n => be_enc 4 n
  | TVint, VInt n => vint n
  | TUtf8, VData s => mstr s
  | TBlob, VData s => mstr s
  | T2Utf8, VPair a b => mstr a ++ mstr b
  | _, _ => []
  end.
Definition wire_prop (p : prop) : list Z :=
  pr_id p :: match prop_kind (pr_id p) with Some t => wire_val t (pr_val p) | None => [] end.
Definition wire_props (l : list prop) : list Z :=
  let b := flat_map wire_prop l in vint (zlen b) ++ b.

Definition val_legal (t : ptype) (v : pval) : Prop :=
  match t, v with
  | TOne, VInt n => 0 <= n < 256
  | TTwo, VInt n => 0 <= n < 65536
  | TFour, VInt n => 0 <= n < 4294967296
  | TVint, VInt n => 0 <= n <= VINT_MAX
  | TUtf8, VData s => string_legal s
  | TBlob, VData s => data_legal s
  | T2Utf8, VPair a b => string_legal a /\ string_legal b
  | _, _ => False
  end.
Definition prop_legal (p : prop) : Prop :=
  exists t, prop_kind (pr_id p) = Some t /\ val_legal t (pr_val p).
Definition props_legal (ver : Z) (l : list prop) : Prop :=
  Forall prop_legal l /\ zlen (flat_map wire_prop l) <= VINT_MAX /\ (ver < 5 -> l = []).

(** *** Packets on the wire *)
Definition if5 (ver : Z) (l : list Z) : list Z := if 5 <=? ver then l else [].
Definition proto_name (ver : Z) : list Z := if ver =? 3 then str_bytes "MQISDP" else str_bytes "MQTT".
(** The return code of a CONNACK of versions 3.1 and 3.1.1 for a reason code of version 5 *)
Definition connack_v3 (r : Z) : Z :=
  if r =? 132 then 1 else if r =? 133 then 2 else if r =? 136 then 3
  else if r =? 134 then 4 else if r =? 135 then 5 else 0.
Definition opt_str (o : option (list Z)) : list Z := match o with Some s => mstr s | None => [] end.
Definition wire_sub (type : Z) (s : sub) : list Z :=
  mstr (sb_filter s) ++
  (if type =? 8 then [sb_qos s + 4 * sb_nl s + 8 * sb_rap s + 16 * sb_retain s] else []).
Definition wire_rest (p : packet) : list Z :=
  let ver := pk_ver p in
  match pk_body p with
  | BConnect _ cf keep props cid w user pass =>
      mstr (proto_name ver) ++ [ver] ++ [cf] ++ be_enc 2 keep ++ if5 ver (wire_props props) ++
      mstr (match cid with Some s => s | None => [] end) ++
      match w with
      | Some w => if5 ver (wire_props (w_props w)) ++ mstr (w_topic w) ++ mstr (w_msg w)
      | None => []
      end ++ opt_str user ++ opt_str pass
  | BConnack ack r props =>
      [ack] ++ [if 5 <=? ver then r else connack_v3 r] ++ if5 ver (wire_props props)
  | BPublish topic pid props payload =>
      mstr topic ++ (if pid =? 0 then [] else be_enc 2 pid) ++ if5 ver (wire_props props) ++
      match payload with Some l => l | None => [] end
  | BAck pid r props => be_enc 2 pid ++ if5 ver ([r] ++ wire_props props)
  | BSub pid props subs => be_enc 2 pid ++ if5 ver (wire_props props) ++ flat_map (wire_sub (pk_type p)) subs
  | BSuback pid props acks => be_enc 2 pid ++ if5 ver (wire_props props) ++ acks
  | BPing => []
  | BDisconnect r props => if5 ver ([r] ++ wire_props props)
  end.
Definition framed (p : packet) (rest : list Z) : list Z :=
  [pk_type p * 16 + pk_flags p] ++ vint (zlen rest) ++ rest.
Definition wire (p : packet) : list Z := framed p (wire_rest p).

(** How octets are divided into packets: the type and flags, the number of the octets which
    follow as at most four digits (which may be more than needed) and these octets. *)
Inductive length_field : list Z -> Z -> Prop :=
| LEN_last : forall c, 0 <= c < 128 -> length_field [c] c
| LEN_more : forall c l n, 128 <= c < 256 -> length_field l n -> length_field (c :: l) (c - 128 + 128 * n).
Definition frame (p : packet) (w : list Z) : Prop :=
  exists c l body, w = c :: l ++ body /\ length_field l (zlen body) /\ zlen l <= 4 /\ pk_type p = c / 16 /\ pk_flags p = c mod 16.

(** *** Legal packets *)
Definition connack_codes : list Z :=
  [0; 128; 129; 130; 131; 132; 133; 134; 135; 136; 137; 138; 140; 144; 149; 151; 153; 154; 155; 156; 157; 159].
Definition connack_codes_v3 : list Z := [0; 132; 133; 134; 135; 136].
Definition puback_codes : list Z := [0; 16; 128; 131; 135; 144; 145; 151; 153].
Definition pubrel_codes : list Z := [0; 146].
Definition suback_codes : list Z := [0; 1; 2; 128; 131; 135; 143; 145; 151; 158; 161; 162].
Definition unsuback_codes : list Z := [0; 17; 128; 131; 135; 143; 145].
Definition suback_codes_v3 : list Z := [0; 1; 2; 128].

(** Whether a field is there *)
Definition present {A} (o : option A) : bool := match o with Some _ => true | None => false end.
Definition opt_legal (P : list Z -> Prop) (o : option (list Z)) : Prop :=
  match o with Some s => P s | None => True end.

Definition sub_legal (ver type : Z) (s : sub) : Prop :=
  filter_legal (sb_filter s) /\ 0 <= sb_qos s <= 2 /\ 0 <= sb_retain s <= 2 /\
  0 <= sb_nl s <= 1 /\ 0 <= sb_rap s <= 1 /\
  (ver < 5 -> sb_retain s = 0 /\ sb_nl s = 0 /\ sb_rap s = 0) /\
  (type = 10 -> sb_qos s = 0 /\ sb_retain s = 0 /\ sb_nl s = 0 /\ sb_rap s = 0).

Definition body_legal (ver type flags : Z) (b : body) : Prop :=
  match b with
  | BConnect v cf keep props cid w user pass =>
      type = 1 /\ flags = 0 /\ v = ver /\ (ver = 3 \/ ver = 4 \/ ver = 5) /\
      byte cf /\ Z.testbit cf 0 = false /\
      (Z.testbit cf 2 = false -> Z.testbit cf 3 = false /\ Z.testbit cf 4 = false /\ Z.testbit cf 5 = false) /\
      ~ (Z.testbit cf 3 = true /\ Z.testbit cf 4 = true) /\
      (ver < 5 -> Z.testbit cf 6 = true -> Z.testbit cf 7 = true) /\
      0 <= keep < 65536 /\ props_legal ver props /\
      opt_legal string_legal cid /\
      present w = Z.testbit cf 2 /\
      match w with
      | Some w => props_legal ver (w_props w) /\ topic_legal (w_topic w) /\ data_legal (w_msg w)
      | None => True
      end /\
      present user = Z.testbit cf 7 /\ opt_legal string_legal user /\
      present pass = Z.testbit cf 6 /\ opt_legal data_legal pass
  | BConnack ack r props =>
      type = 2 /\ flags = 0 /\ (ack = 0 \/ ack = 1) /\
      (if 5 <=? ver then In r connack_codes else In r connack_codes_v3) /\ props_legal ver props
  | BPublish topic pid props payload =>
      type = 3 /\ 0 <= flags < 16 /\ flags / 2 mod 4 <= 2 /\
      (flags / 2 mod 4 = 0 -> flags < 8 /\ pid = 0) /\ (flags / 2 mod 4 <> 0 -> 0 < pid < 65536) /\
      topic_legal topic /\ props_legal ver props /\
      match payload with Some l => bytes l /\ l <> [] | None => True end
  | BAck pid r props =>
      4 <= type <= 7 /\ flags = (if type =? 6 then 2 else 0) /\ 0 < pid < 65536 /\ props_legal ver props /\
      (if 5 <=? ver then In r (if (type =? 4) || (type =? 5) then puback_codes else pubrel_codes) else r = 0)
  | BSub pid props subs =>
      (type = 8 \/ type = 10) /\ flags = 2 /\ 0 < pid < 65536 /\ props_legal ver props /\
      subs <> [] /\ Forall (sub_legal ver type) subs
  | BSuback pid props acks =>
      (type = 9 \/ type = 11) /\ flags = 0 /\ 0 < pid < 65536 /\ props_legal ver props /\
      (if (type =? 11) && (ver <? 5) then acks = []
       else acks <> [] /\
            Forall (fun c => In c (if 5 <=? ver then if type =? 9 then suback_codes else unsuback_codes
                                   else suback_codes_v3)) acks)
  | BPing => (type = 12 \/ type = 13) /\ flags = 0
  | BDisconnect r props => type = 14 /\ flags = 0 /\ props_legal ver props /\ (if 5 <=? ver then byte r else r = 0)
  end.
Definition packet_legal (p : packet) : Prop :=
  body_legal (pk_ver p) (pk_type p) (pk_flags p) (pk_body p) /\
  3 <= pk_ver p <= 5 /\ zlen (wire_rest p) <= VINT_MAX.

(** Besides, the standard allows version 5 to leave out the end of some packets: of an
    acknowledgement with reason 0 and no properties all but the identifier, of a DISCONNECT
    without properties their length and, if the reason is 0, that too.  If a filter is given more
    than once, the last one replaces the others. *)
Definition same_filter (s t : sub) : bool := if list_eq_dec Z.eq_dec (sb_filter t) (sb_filter s) then true else false.
Definition put_sub (l : list sub) (s : sub) : list sub :=
  if existsb (same_filter s) l then map (fun t => if same_filter s t then s else t) l else l ++ [s].
Inductive wires : packet -> list Z -> Prop :=
| W_full : forall p, wires p (wire p)
| W_ack : forall type flags pid, wires (mk_packet type flags 5 (BAck pid 0 [])) (framed (mk_packet type flags 5 (BAck pid 0 [])) (be_enc 2 pid))
| W_disconnect0 : forall flags, wires (mk_packet 14 flags 5 (BDisconnect 0 [])) (framed (mk_packet 14 flags 5 (BDisconnect 0 [])) [])
| W_disconnect1 : forall flags r, wires (mk_packet 14 flags 5 (BDisconnect r [])) (framed (mk_packet 14 flags 5 (BDisconnect r [])) [r])
| W_repeated : forall type flags ver pid props subs,
    Forall (sub_legal ver type) subs -> Forall (fun s => sb_nl s = 0 /\ sb_rap s = 0) subs ->
    zlen (wire_rest (mk_packet type flags ver (BSub pid props subs))) <= VINT_MAX ->
    wires (mk_packet type flags ver (BSub pid props (fold_left put_sub subs []))) (wire (mk_packet type flags ver (BSub pid props subs))).

(** *** What this implementation does not do
    [readable]: legal packets which it reads.  It does not read binary properties (Correlation
    Data, Authentication Data), passwords which are not UTF-8, empty user names and passwords,
    the subscription options No Local and Retain As Published, and more than 65536 subscriptions
    in one packet.  A packet has each filter once, see [W_repeated]. *)
Definition not_blob (p : prop) : Prop := prop_kind (pr_id p) <> Some TBlob.
Definition nonempty (s : list Z) : Prop := s <> [].
Definition body_readable (b : body) : Prop :=
  match b with
  | BConnect _ _ _ props cid w user pass =>
      Forall not_blob props /\ cid <> None /\
      match w with Some w => Forall not_blob (w_props w) | None => True end /\
      opt_legal nonempty user /\ opt_legal (fun s => string_legal s /\ s <> []) pass
  | BConnack _ _ props => Forall not_blob props
  | BPublish _ _ props _ => Forall not_blob props
  | BAck _ _ props => Forall not_blob props
  | BSub _ props subs =>
      Forall not_blob props /\ Forall (fun s => sb_nl s = 0 /\ sb_rap s = 0) subs /\
      NoDup (map sb_filter subs) /\ zlen subs <= 65536
  | BSuback _ props _ => Forall not_blob props
  | BPing => True
  | BDisconnect _ props => Forall not_blob props
  end.
Definition readable (p : packet) : Prop := packet_legal p /\ body_readable (pk_body p).

(** [writable]: legal packets which it writes.  It does not write empty strings and data, the
    properties of DISCONNECT, and the options No Local and Retain As Published. *)
Definition val_nonempty (v : pval) : Prop :=
  match v with VInt _ => True | VData d => d <> [] | VPair a b => a <> [] /\ b <> [] end.
Definition props_writable (l : list prop) : Prop :=
  Forall (fun p => val_nonempty (pr_val p)) l /\ zlen (flat_map wire_prop l) + zlen l <= VINT_MAX.
Definition body_writable (b : body) : Prop :=
  match b with
  | BConnect _ _ _ props cid w user pass =>
      props_writable props /\ opt_legal nonempty cid /\
      match w with Some w => props_writable (w_props w) /\ w_msg w <> [] | None => True end /\
      opt_legal nonempty user /\ opt_legal nonempty pass
  | BConnack _ _ props => props_writable props
  | BPublish _ _ props _ => props_writable props
  | BAck _ _ props => props_writable props
  | BSub _ props subs => props_writable props /\ Forall (fun s => sb_nl s = 0 /\ sb_rap s = 0) subs
  | BSuback _ props _ => props_writable props
  | BPing => True
  | BDisconnect _ props => props = []
  end.
Definition writable (p : packet) : Prop := packet_legal p /\ body_writable (pk_body p).

(** [vetted]: what every packet handed on has, whatever the octets are: the type and its flags, the
    identifier, topics, filters and codes are those of a legal packet, but 146 is taken as a code of
    PUBACK and PUBREC.  The properties and the
    strings of a CONNECT other than the topic of the will are not covered. *)
Definition vetted (p : packet) : Prop :=
  let ver := pk_ver p in let type := pk_type p in let flags := pk_flags p in
  match pk_body p with
  | BConnect v cf keep _ _ w user pass =>
      type = 1 /\ flags = 0 /\ v = ver /\ (ver = 3 \/ ver = 4 \/ ver = 5) /\
      byte cf /\ Z.testbit cf 0 = false /\
      (Z.testbit cf 2 = false -> Z.testbit cf 3 = false /\ Z.testbit cf 4 = false /\ Z.testbit cf 5 = false) /\
      ~ (Z.testbit cf 3 = true /\ Z.testbit cf 4 = true) /\
      (ver < 5 -> Z.testbit cf 6 = true -> Z.testbit cf 7 = true) /\
      0 <= keep < 65536 /\
      present w = Z.testbit cf 2 /\ match w with Some w => topic_legal (w_topic w) | None => True end /\
      present user = Z.testbit cf 7 /\ present pass = Z.testbit cf 6
  | BConnack ack r _ =>
      type = 2 /\ flags = 0 /\ (ack = 0 \/ ack = 1) /\ (if 5 <=? ver then In r connack_codes else In r connack_codes_v3)
  | BPublish topic pid _ _ =>
      type = 3 /\ 0 <= flags < 16 /\ flags / 2 mod 4 <= 2 /\
      (flags / 2 mod 4 = 0 -> flags < 8 /\ pid = 0) /\ (flags / 2 mod 4 <> 0 -> 0 < pid < 65536) /\ topic_legal topic
  | BAck pid r _ =>
      4 <= type <= 7 /\ flags = (if type =? 6 then 2 else 0) /\ 0 < pid < 65536 /\
      (if 5 <=? ver then In r (if (type =? 4) || (type =? 5) then 146 :: puback_codes else pubrel_codes) else r = 0)
  | BSub pid _ subs =>
      (type = 8 \/ type = 10) /\ flags = 2 /\ 0 < pid < 65536 /\ subs <> [] /\ Forall (sub_legal ver type) subs /\ NoDup (map sb_filter subs)
  | BSuback pid _ acks =>
      (type = 9 \/ type = 11) /\ flags = 0 /\ 0 < pid < 65536 /\
      (if (type =? 11) && (ver <? 5) then acks = []
       else acks <> [] /\
            Forall (fun c => In c (if 5 <=? ver then if type =? 9 then suback_codes else unsuback_codes else suback_codes_v3)) acks)
  | BPing => (type = 12 \/ type = 13) /\ flags = 0
  | BDisconnect r _ => type = 14 /\ flags = 0 /\ (if 5 <=? ver then byte r else r = 0)
  end.

(** *** Sequences of packets on a connection
    [ver]: the version of the connection, [None] before CONNECT.  A CONNECT sets the version;
    all others are of the version set. *)
Definition ver_after (ver : option Z) (p : packet) : option Z := if pk_type p =? 1 then Some (pk_ver p) else ver.
Fixpoint sequence (ver : option Z) (ps : list packet) : Prop :=
  match ps with
  | [] => True
  | p :: r => (pk_type p = 1 \/ ver = Some (pk_ver p)) /\ sequence (ver_after ver p) r
  end.
Fixpoint ver_end (ver : option Z) (ps : list packet) : option Z :=
  match ps with [] => ver | p :: r => ver_end (ver_after ver p) r end.
