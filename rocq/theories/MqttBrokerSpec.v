(** What clients of an MQTT broker rely on, in terms of the packets exchanged. *)
From Coq Require Import ZArith List Bool.
From Verif Require Import Common Utf8Spec TopicSpec MqttBrokerModel.
Import ListNotations.
Open Scope Z_scope.

(** Filters and topics which the parser lets through. *)
Definition filter_ok (f : list Z) : Prop :=
  bytes f /\ ~ In 0 f /\ f <> [] /\ utf8_well_formed f /\ zlen f <= 65535 /\
  exists ls, is_levels ls /\ join ls = f /\ legal_filter ls.
Definition topic_ok (t : list Z) : Prop :=
  bytes t /\ ~ In 0 t /\ t <> [] /\ utf8_well_formed t /\ no_wildcard t.

(** The filter matches the topic, by the level by level rules of TopicSpec.v. *)
Definition matches (f t : list Z) : Prop :=
  exists fs ts, is_levels fs /\ join fs = f /\ legal_filter fs /\ is_levels ts /\ join ts = t /\ filter_match fs ts.

(** Entries of a SUBSCRIBE packet.  A code above 2 is put there by the access check. *)
Definition sub_ok (s : sub) : Prop :=
  filter_ok (s_filter s) /\ s_nl s = 0 /\ s_rap s = 0 /\ 0 <= s_rh s <= 2 /\ 0 <= s_qos s <= 255.
Definition pub_ok (p : pub) : Prop := topic_ok (p_topic p) /\ 0 <= p_qos p <= 2.

(** What the parser guarantees about the events. *)
Definition event_ok (e : bevent) : Prop :=
  match e with
  | EConnect _ _ _ _ (Some (p, d)) _ => pub_ok p
  | ESubscribe _ req _ => req <> [] /\ Forall sub_ok req /\ NoDup (map s_filter req)
  | EPublish p => pub_ok p
  | _ => True
  end.

(** ** Subscriptions *)

(** What a client asked for, in the order of the packets. *)
Inductive request : Type := Sub (f : list Z) (q : Z) | Unsub (f : list Z) | Forget.
Definition about (f : list Z) (r : request) : Prop :=
  match r with Sub g _ => g = f | Unsub g => g = f | Forget => True end.

(** The last request about the filter is a subscription. *)
Definition subscribed (rs : list request) (f : list Z) (q : Z) : Prop :=
  exists before after, rs = before ++ Sub f q :: after /\ Forall (fun r => ~ about f r) after.

Definition same_id (a b : list Z) : bool := if list_eq_dec Z.eq_dec a b then true else false.

(** The requests of one client.  A CONNACK without the session present flag starts
    over; requests which are not answered do not count; neither do subscriptions
    answered with an error code. *)
Definition requests_of (id : list Z) (x : bevent * banswer) : list request :=
  match x with
  | (EConnect i _ _ _ _ _, a) => if same_id i id then if a_present a then [] else [Forget] else []
  | (ESubscribe i req _, a) =>
      if same_id i id then
        match a_codes a with
        | Some _ => map (fun s => Sub (s_filter s) (s_qos s)) (filter (fun s => s_qos s <=? 2) req)
        | None => []
        end
      else []
  | (EUnsubscribe i req, a) =>
      if same_id i id then
        match a_codes a with
        | Some _ => map (fun s => Unsub (s_filter s)) (filter (fun s => s_qos s =? 0) req)
        | None => []
        end
      else []
  | _ => []
  end.
Definition requests (id : list Z) (h : list (bevent * banswer)) : list request := flat_map (requests_of id) h.

(** The subscriptions of a client as a list of filters with QoS, each filter once. *)
Definition subscriptions (h : list (bevent * banswer)) (id : list Z) (l : list (list Z * Z)) : Prop :=
  NoDup (map fst l) /\ forall f q, In (f, q) l <-> subscribed (requests id h) f q.

(** How many filters have been asked for by anyone. *)
Definition asked (es : list bevent) : Z :=
  fold_right (fun e n => match e with ESubscribe _ req _ => zlen req | _ => 0 end + n) 0 es.

(** ** Messages for subscribers *)

(** A copy of a message for a subscriber: same topic and payload, sent with the lower
    one of the two QoS levels, not a duplicate, without an identifier yet. *)
Definition copy_of (retain : bool) (p : pub) (qos : Z) (q : pub) : Prop :=
  p_topic q = p_topic p /\ p_payload q = p_payload p /\ p_qos q = Z.min (p_qos p) qos /\
  p_retain q = retain /\ p_dup q = false /\ p_id q = 0 /\ p_time q = p_time p /\ p_expiry q = p_expiry p /\
  p_out q = true /\ p_last q = 0 /\
  p_puback q = false /\ p_pubrec q = false /\ p_pubrel q = false /\ p_pubcomp q = false.

(** One copy for each subscription which matches, and no other. *)
Inductive copies (retain : bool) (p : pub) : list (list Z * Z) -> list pub -> Prop :=
| copies_nil : copies retain p [] []
| copies_skip : forall f q subs l, ~ matches f (p_topic p) -> copies retain p subs l -> copies retain p ((f, q) :: subs) l
| copies_take : forall f q subs c l, matches f (p_topic p) -> copy_of retain p q c -> copies retain p subs l ->
    copies retain p ((f, q) :: subs) (c :: l).

(** ** Retained messages *)

(** The messages published, in order. *)
Definition published (h : list (bevent * banswer)) : list pub := flat_map (fun x => a_pubs (snd x)) h.

(** The last message with the RETAIN flag on its topic. *)
Definition last_retained (ps : list pub) (p : pub) : Prop :=
  p_retain p = true /\
  exists before after, ps = before ++ p :: after /\
    Forall (fun x => ~ (p_retain x = true /\ p_topic x = p_topic p)) after.

(** The expiry interval (in seconds, 0 is none) has passed since the message came in. *)
Definition too_old (now : Z) (p : pub) : Prop := p_expiry p <> 0 /\ p_time p + p_expiry p * 1000000 < now.

(** ** Sessions *)

(** The client is away: nothing comes from it, and maintenance runs before the time [E]. *)
Definition away (id : list Z) (E : Z) (e : bevent) : Prop :=
  match e with
  | EConnect i _ _ _ _ _ | ESubscribe i _ _ | EUnsubscribe i _ | EHeartbeat i _ | EDisconnect i _ _ => i <> id
  | EPublish _ => True
  | EMaintain now => now < E
  end.
