(** Model of src/lib/mqtt/mqtt_subscription.c and of the parts of
    src/lib/mqtt/mqtt_session_ram.c which the broker uses to keep sessions, to
    forward messages, to retain messages and to publish wills.

    Times are microseconds as [Z] (64 bit, not wrapping), strings are lists of
    octets without the terminating NUL.  The queues, which are the FIFOs proved in
    FifoProps.v, are lists with the oldest entry first.  Simplified: memory is
    always granted; statistics and debug output are left out. *)
From Coq Require Import ZArith List Bool.
From Verif Require Import Common Utf8Model TopicModel.
Import ListNotations.
Open Scope Z_scope.

(** Outcome of a call: RRR_BUG aborts the process. *)
Inductive out (A : Type) : Type := Done (a : A) | Abort.
Arguments Done {A} a. Arguments Abort {A}.
Definition obind {A B} (o : out A) (k : A -> out B) : out B :=
  match o with Done a => k a | Abort => Abort end.
Notation "'let!' x := o 'in' k" := (obind o (fun x => k)) (at level 200, x pattern, o at level 100, k at level 200).

(** The same call for all nodes of a list, from first to last. *)
Fixpoint omap {A B} (f : A -> out B) (l : list A) : out (list B) :=
  match l with
  | [] => Done []
  | a :: l => let! b := f a in let! r := omap f l in Done (b :: r)
  end.

(** mqtt_subscription.h:55-64 [struct rrr_mqtt_subscription]; the token tree is
    computed from the filter when needed. *)
Record sub : Type := mkSub { s_filter : list Z; s_rh : Z; s_rap : Z; s_nl : Z; s_qos : Z }.

(** mqtt_subscription.c:38 *)
Definition subs_max : Z := 65536.

(** mqtt_subscription.c:51-119 [rrr_mqtt_subscription_new] and 117-140
    [rrr_mqtt_subscription_clone]. *)
Definition sub_new (s : sub) : out sub :=
  if (0 <? s_nl s) || (0 <? s_rap s) || (2 <? s_rh s) then Abort
  else match filter_validate (s_filter s) with
       | Some 0 => match s_filter s with [] => Abort | _ => Done s end
       | _ => Abort
       end.

(** mqtt_subscription.c:418-432, the callback run over the collection by 377-400
    [rrr_mqtt_subscription_collection_iterate]: the first equal filter is replaced. *)
Fixpoint replace_first (l : list sub) (s : sub) : list sub * bool :=
  match l with
  | [] => ([], false)
  | x :: l =>
      if str_same (s_filter x) (s_filter s) then (s :: l, true)
      else let '(l', r) := replace_first l s in (x :: l', r)
  end.

(** Return values of 439-484 [rrr_mqtt_subscription_collection_add_unique] *)
Inductive added : Type := AddOk | AddReplaced | AddRefused.

(** mqtt_subscription.c:439-484 with 368-375 [.._check_full] *)
Definition add_unique (l : list sub) (s : sub) (at_end : bool) : added * list sub :=
  match l with
  | [] => (AddOk, [s])
  | _ =>
      let '(l', replaced) := replace_first l s in
      if replaced then (AddReplaced, l')
      else if subs_max <=? zlen l then (AddRefused, l)
      else (AddOk, if at_end then l ++ [s] else s :: l)
  end.

(** mqtt_subscription.c:593-639
    [rrr_mqtt_subscription_collection_append_unique_copy_from_collection] as the
    broker calls it: entries with errors are left out and there is a callback (mqtt_session_ram.c:2959-2975)
    which collects the subscriptions which did not replace another one, and whose
    return value, always 0, takes the place of the one of add_unique. *)
Fixpoint append_unique (target source : list sub) : out (list sub * list sub) :=
  match source with
  | [] => Done (target, [])
  | s :: source =>
      if 2 <? s_qos s then append_unique target source
      else
        let! s' := sub_new s in
        let '(a, target') := add_unique target s' true in
        match a with
        | AddReplaced => append_unique target' source
        | _ => let! r := append_unique target' source in Done (fst r, s' :: snd r)
        end
  end.

(** mqtt_subscription.c:518-540 [rrr_mqtt_subscription_collection_remove_topic] *)
Definition remove_topic (l : list sub) (f : list Z) : out (bool * list sub) :=
  let gone := filter (fun x => str_same (s_filter x) f) l in
  if 1 <? zlen gone then Abort
  else Done (negb (zlen gone =? 0), filter (fun x => negb (str_same (s_filter x) f)) l).

(** mqtt_subscription.c:641-685 [.._remove_topics_matching_and_set_reason]: the
    reasons of the request are set to 0 (removed) or 17 (there was none). *)
Fixpoint remove_topics (target source : list sub) : out (list sub * list sub) :=
  match source with
  | [] => Done (target, [])
  | s :: source =>
      if negb (s_qos s =? 0) then let! r := remove_topics target source in Done (fst r, s :: snd r)
      else
        let! d := remove_topic target (s_filter s) in
        let! r := remove_topics (snd d) source in
        Done (fst r, mkSub (s_filter s) (s_rh s) (s_rap s) (s_nl s) (if fst d then 0 else 17) :: snd r)
  end.

(** mqtt_packet.h [struct rrr_mqtt_p_publish] and the common packet fields, as far
    as sessions look at them: topic, payload, the type flags QoS, RETAIN and DUP,
    packet_identifier, create_time, message_expiry_interval, received_size,
    is_outbound, last_attempt, which of the acknowledgements in qos_packets are set,
    and planned_expiry_time. *)
Record pub : Type := mkPub {
  p_topic : list Z; p_payload : list Z; p_qos : Z; p_retain : bool; p_dup : bool; p_id : Z;
  p_time : Z; p_expiry : Z; p_size : Z; p_out : bool; p_last : Z;
  p_puback : bool; p_pubrec : bool; p_pubrel : bool; p_pubcomp : bool; p_planned : Z }.

(** mqtt_packet.c:406-446 [rrr_mqtt_p_clone_publish] with type flags preserved: the
    packet identifier, size, attempts and acknowledgements are not copied. *)
Definition clone (p : pub) : pub :=
  mkPub (p_topic p) (p_payload p) (p_qos p) (p_retain p) (p_dup p) 0
    (p_time p) (p_expiry p) 0 (p_out p) 0 false false false false 0.

(** RRR_MQTT_P_PUBLISH_SET_FLAG_QOS / RETAIN / DUP, packet_identifier and
    is_outbound at once *)
Definition mark (p : pub) (qos : Z) (retain dup : bool) (id : Z) (outb : bool) : pub :=
  mkPub (p_topic p) (p_payload p) qos retain dup id (p_time p) (p_expiry p) (p_size p) outb
    (p_last p) (p_puback p) (p_pubrec p) (p_pubrel p) (p_pubcomp p) (p_planned p).

(** mqtt_subscription.c:184-199 [__rrr_mqtt_subscription_match_publish] *)
Definition sub_match (s : sub) (topic : list Z) : out bool :=
  match name_validate topic with
  | Some 0 =>
      match match_tokens (tokenize (s_filter s)) (tokenize topic) with
      | TMatch => Done true
      | TMismatch => Done false
      | TBug => Abort
      end
  | _ => Abort
  end.

(** mqtt_subscription.c:198-237 [.._match_publish_with_callback]: the subscriptions
    the callback is called for, in order. *)
Fixpoint match_all (l : list sub) (topic : list Z) : out (list sub) :=
  match l with
  | [] => Done []
  | s :: l =>
      let! m := sub_match s topic in
      let! r := match_all l topic in
      Done (if m then s :: r else r)
  end.

(** mqtt_session_ram.c:62-100 [struct rrr_mqtt_session_ram].  [ss_will] is the will
    with its delay interval and planned_expiry_time.  [ss_expiry] and [ss_max] are
    session_expiry and maximum_packet_size of the session properties. *)
Record sess : Type := mkSess {
  ss_id : list Z; ss_subs : list sub; ss_to : list pub; ss_delayed : list pub;
  ss_from : list pub; ss_grace : list pub;
  ss_will : option (pub * Z * Z); ss_expire : Z; ss_heart : Z; ss_expiry : Z; ss_max : Z }.

Definition set_subs (s : sess) x := mkSess (ss_id s) x (ss_to s) (ss_delayed s) (ss_from s) (ss_grace s) (ss_will s) (ss_expire s) (ss_heart s) (ss_expiry s) (ss_max s).
Definition set_to (s : sess) x := mkSess (ss_id s) (ss_subs s) x (ss_delayed s) (ss_from s) (ss_grace s) (ss_will s) (ss_expire s) (ss_heart s) (ss_expiry s) (ss_max s).
Definition set_delayed (s : sess) x := mkSess (ss_id s) (ss_subs s) (ss_to s) x (ss_from s) (ss_grace s) (ss_will s) (ss_expire s) (ss_heart s) (ss_expiry s) (ss_max s).
Definition set_will (s : sess) x := mkSess (ss_id s) (ss_subs s) (ss_to s) (ss_delayed s) (ss_from s) (ss_grace s) x (ss_expire s) (ss_heart s) (ss_expiry s) (ss_max s).
Definition set_expire (s : sess) x := mkSess (ss_id s) (ss_subs s) (ss_to s) (ss_delayed s) (ss_from s) (ss_grace s) (ss_will s) x (ss_heart s) (ss_expiry s) (ss_max s).
Definition set_heart (s : sess) x := mkSess (ss_id s) (ss_subs s) (ss_to s) (ss_delayed s) (ss_from s) (ss_grace s) (ss_will s) (ss_expire s) x (ss_expiry s) (ss_max s).

(** mqtt_session_ram.c:50-60 [struct rrr_mqtt_session_collection_ram_data]: the
    sessions and retain_buffer. *)
Record broker : Type := mkB { b_sess : list sess; b_retain : list pub }.

(** mqtt_session_ram.c:298-363 [.._receive_forwarded_publish_match_callback] *)
Definition forward_copy (p : pub) (s : sub) : pub :=
  let c := clone p in
  mark c (if s_qos s <? p_qos c then s_qos s else p_qos c) false false 0 true.

(** mqtt_session_ram.c:364-392 [__rrr_mqtt_session_ram_receive_forwarded_publish] *)
Definition receive_forwarded (p : pub) (s : sess) : out sess :=
  let! subs := match_all (ss_subs s) (p_topic p) in
  if negb (ss_max s =? 0) && (ss_max s <? p_size p) then Done s
  else Done (set_to s (ss_to s ++ map (forward_copy p) subs)).

(** mqtt_session_ram.c:222-292, the callback of [rrr_fifo_search_and_replace]: an
    entry with the same topic is replaced, or removed if the payload is empty;
    without such an entry the message is appended, unless its payload is empty. *)
Fixpoint retain_write (l : list pub) (p : pub) : list pub :=
  match l with
  | [] => if zlen (p_payload p) =? 0 then [] else [p]
  | q :: l =>
      if str_same (p_topic q) (p_topic p)
      then if zlen (p_payload p) =? 0 then l else p :: l
      else q :: retain_write l p
  end.

(** mqtt_session_ram.c:427-472 [.._delivery_forward_final] with 394-425
    [.._forward_publish_to_clients] *)
Definition deliver (b : broker) (p : pub) : out broker :=
  let retain := if p_retain p then retain_write (b_retain b) p else b_retain b in
  let! ss := omap (receive_forwarded p) (b_sess b) in
  Done (mkB ss retain).

(** mqtt_session_ram.c:476-486 [__rrr_mqtt_session_ram_check_publish_expired] *)
Definition expired (now : Z) (p : pub) : bool :=
  negb (p_expiry p =? 0) && (p_time p + p_expiry p * 1000000 <? now).

(** mqtt_session_ram.c:2981-3031 [__rrr_mqtt_p_queue_publish_from_retain_callback] *)
Definition retain_copy (p : pub) (s : sub) : pub :=
  let c := clone p in
  mark c (if s_qos s <? p_qos c then s_qos s else p_qos c) true false 0 true.

(** mqtt_session_ram.c:700-765 [.._iterate_retain]: what is left of the retain
    buffer, and the copies for the subscriptions. *)
Fixpoint iterate_retain (now : Z) (l : list pub) (subs : list sub) : out (list pub * list pub) :=
  match l with
  | [] => Done ([], [])
  | p :: l =>
      if zlen (p_payload p) =? 0 then Abort
      else if expired now p then iterate_retain now l subs
      else
        let! m := match_all subs (p_topic p) in
        let! r := iterate_retain now l subs in
        Done (p :: fst r, map (retain_copy p) m ++ snd r)
  end.

(** mqtt_session_ram.c:831-852 [__rrr_mqtt_session_collection_ram_find_session];
    sessions of the broker have client identifiers. *)
Fixpoint find_session (l : list sess) (id : list Z) (found : option sess) : out (option sess) :=
  match l with
  | [] => Done found
  | s :: l =>
      if str_same (ss_id s) id then
        match found with Some _ => Abort | None => find_session l id (Some s) end
      else find_session l id found
  end.

(** The call applies to the session with the identifier; if there is none, it
    returns DELETED (mqtt_session_ram.c:111-122). *)
Fixpoint with_session (l : list sess) (id : list Z) (f : sess -> sess) : list sess :=
  match l with
  | [] => []
  | s :: l => if str_same (ss_id s) id then f s :: l else s :: with_session l id f
  end.
Fixpoint get_session (l : list sess) (id : list Z) : option sess :=
  match l with
  | [] => None
  | s :: l => if str_same (ss_id s) id then Some s else get_session l id
  end.

(** mqtt_session_ram.c:3042-3093 [__rrr_mqtt_session_ram_receive_packet] for
    SUBSCRIBE, and 845-895 of mqtt_broker.c: the SUBACK holds the reason codes of the
    request. *)
Definition subscribe (b : broker) (id : list Z) (req : list sub) (now : Z) : out (broker * option (list Z)) :=
  match get_session (b_sess b) id with
  | None => Done (b, None)
  | Some s =>
      match req with
      | [] => Abort
      | _ =>
          let! r := append_unique (ss_subs s) req in
          let '(subs', new) := r in
          let! rr := match new with [] => Done (b_retain b, []) | _ => iterate_retain now (b_retain b) new end in
          Done (mkB (with_session (b_sess b) id (fun s => set_delayed (set_subs s subs') (ss_delayed s ++ snd rr))) (fst rr),
                Some (map s_qos req))
      end
  end.

(** mqtt_session_ram.c:1844-1876 [__rrr_mqtt_session_ram_remove_subscriptions] and
    mqtt_broker.c:897-950: the UNSUBACK holds the reasons. *)
Definition unsubscribe (b : broker) (id : list Z) (req : list sub) : out (broker * option (list Z)) :=
  match get_session (b_sess b) id with
  | None => Done (b, None)
  | Some s =>
      let! r := remove_topics (ss_subs s) req in
      Done (mkB (with_session (b_sess b) id (fun s => set_subs s (fst r))) (b_retain b), Some (map s_qos (snd r)))
  end.

(** mqtt_session_ram.c:1217-1282: outbound messages kept by a clean start *)
Definition preserved (p : pub) : bool :=
  (p_planned p =? 0) &&
  (((p_qos p =? 1) && negb (p_puback p)) || ((p_qos p =? 2) && negb (p_pubcomp p))).

(** mqtt_session_ram.c:1279-1337 [__rrr_mqtt_session_ram_clean_final] *)
Definition clean (s : sess) : sess :=
  mkSess (ss_id s) []
    (map (fun p => let c := clone p in mark c (p_qos c) (p_retain c) false 0 (p_out c)) (filter preserved (ss_to s)))
    (ss_delayed s) [] [] (ss_will s) (ss_expire s) (ss_heart s) (ss_expiry s) (ss_max s).

(** mqtt_session_ram.c:625-688 [.._create_and_add_session] *)
Definition new_session (id : list Z) (now : Z) : sess := mkSess id [] [] [] [] [] None 0 now 0 0.

(** CONNECT: mqtt_broker.c:718-760, which calls mqtt_session_ram.c:850-888
    [.._get_session], 1338-1378 [__rrr_mqtt_session_ram_init] and 3136-3156
    [.._will_publish_register].  The answer is the session present flag. *)
Definition connect (b : broker) (id : list Z) (clean_start : bool) (expiry max_packet : Z) (will : option (pub * Z)) (now : Z)
  : out (broker * bool) :=
  let! f := find_session (b_sess b) id None in
  let ss := match f with Some _ => b_sess b | None => new_session id now :: b_sess b end in
  let init s :=
    let s1 := mkSess (ss_id s) (ss_subs s) (ss_to s) (ss_delayed s) (ss_from s) (ss_grace s) (ss_will s) 0 (ss_heart s) expiry max_packet in
    let s2 := if clean_start then clean s1 else s1 in
    set_will s2 (match will with Some (p, d) => Some (p, d, 0) | None => None end) in
  Done (mkB (with_session ss id init) (b_retain b), match f with Some _ => negb clean_start | None => false end).

(** mqtt_session_ram.c:1508-1521 [__rrr_mqtt_session_ram_heartbeat] *)
Definition heartbeat (b : broker) (id : list Z) (now : Z) : broker :=
  mkB (with_session (b_sess b) id (fun s => set_heart s now)) (b_retain b).

Definition reason_with_will : Z := 4.
Definition reason_taken_over : Z := 142.

(** mqtt_session_ram.c:1016-1017: the interval is multiplied in 32 bits. *)
Definition will_time (now delay : Z) : Z := now + u32 (u32 (delay * 1000) * 1000).

(** mqtt_session_ram.c:969-1003 [__rrr_mqtt_session_ram_will_publish_maintain]: the
    message to publish, and what is left of the will. *)
Definition will_due (w : option (pub * Z * Z)) (force : bool) (now : Z) : option pub * option (pub * Z * Z) :=
  match w with
  | None => (None, None)
  | Some (p, d, t) =>
      if t =? 0 then (None, w)
      else if force || (t <=? now) then (Some p, None)
      else (None, w)
  end.

(** mqtt_session_ram.c:1005-1041 [.._will_publish_notify_disconnect] *)
Definition will_disconnect (w : option (pub * Z * Z)) (reason : Z) (deleted : bool) (now : Z) : option pub * option (pub * Z * Z) :=
  match w with
  | None => (None, None)
  | Some (p, d, _) =>
      let w' := if reason =? reason_with_will then Some (p, d, will_time now d)
                else if reason =? 0 then None
                else Some (p, d, will_time now d) in
      will_due w' deleted now
  end.

(** The will, if any, is published; the answer names it. *)
Definition deliver_opt (b : broker) (p : option pub) : out (broker * list pub) :=
  match p with Some p => let! b' := deliver b p in Done (b', [p]) | None => Done (b, []) end.

(** Lines 2796-2805 of mqtt_session_ram.c *)
Definition expire_at (expiry now : Z) : Z :=
  if expiry =? 4294967295 then 0 else if expiry =? 0 then now else now + 1000000 * expiry.

(** mqtt_session_ram.c:2776-2833 [__rrr_mqtt_session_ram_notify_disconnect] *)
Definition disconnect (b : broker) (id : list Z) (reason : Z) (now : Z) : out (broker * list pub) :=
  match get_session (b_sess b) id with
  | None => Done (b, [])
  | Some s =>
      if reason =? reason_taken_over then
        Done (mkB (with_session (b_sess b) id (fun s => set_expire s 0)) (b_retain b), [])
      else
        let deleted := ss_expiry s =? 0 in
        let '(p, w) := will_disconnect (ss_will s) reason deleted now in
        let ss := if deleted then filter (fun x => negb (str_same (ss_id x) id)) (b_sess b)
                  else with_session (b_sess b) id (fun s => set_will (set_expire s (expire_at (ss_expiry s) now)) w) in
        deliver_opt (mkB ss (b_retain b)) p
  end.

(** mqtt_session_ram.c:45 with mqtt_common.h:45, in microseconds *)
Definition hard_timeout : Z := 20000000.

(** Lines 1155-1168 of mqtt_session_ram.c *)
Definition do_expire (s : sess) (now : Z) : bool :=
  ((ss_expire s =? 0) && (ss_heart s + hard_timeout <? now)) ||
  (negb (ss_expire s =? 0) && (ss_expire s <=? now)).

(** mqtt_session_ram.c:1127-1182 [.._maintain_expire] without the publish grace
    buffer, which belongs to the model of QoS handling.  [done] and [todo] are the
    nodes before and from the iterator; a node being destroyed is still in the list
    while its will is delivered. *)
Fixpoint maintain_loop (now : Z) (fuel : nat) (done todo : list sess) (retain : list pub) : out (broker * list pub) :=
  match fuel, todo with
  | S fuel, s :: todo =>
      let e := do_expire s now in
      let '(p, w) := will_due (ss_will s) e now in
      let! r := deliver_opt (mkB (done ++ s :: todo) retain) p in
      let l := b_sess (fst r) in
      let done' := firstn (length done) l in
      match skipn (length done) l with
      | s' :: todo' =>
          let! r' := maintain_loop now fuel (done' ++ (if e then [] else [set_will s' w])) todo' (b_retain (fst r)) in
          Done (fst r', snd r ++ snd r')
      | [] => Done r
      end
  | _, _ => Done (mkB done retain, [])
  end.
Definition maintain (b : broker) (now : Z) : out (broker * list pub) :=
  maintain_loop now (length (b_sess b)) [] (b_sess b) (b_retain b).

(** What happens to a broker: packets of clients, loss of connections, the timer. *)
Inductive bevent : Type :=
| EConnect (id : list Z) (clean_start : bool) (expiry max_packet : Z) (will : option (pub * Z)) (now : Z)
| ESubscribe (id : list Z) (req : list sub) (now : Z)
| EUnsubscribe (id : list Z) (req : list sub)
| EPublish (p : pub)
| EHeartbeat (id : list Z) (now : Z)
| EDisconnect (id : list Z) (reason : Z) (now : Z)
| EMaintain (now : Z).

(** What is seen of an event: the session present flag of a CONNACK, the codes of a
    SUBACK or UNSUBACK ([None] if there is no session), and the messages published. *)
Record banswer : Type := mkA { a_present : bool; a_codes : option (list Z); a_pubs : list pub }.

(** One event; the handlers are those named above. *)
Definition bstep (b : broker) (e : bevent) : out (broker * banswer) :=
  match e with
  | EConnect id c x m w now => let! r := connect b id c x m w now in Done (fst r, mkA (snd r) None [])
  | ESubscribe id req now => let! r := subscribe b id req now in Done (fst r, mkA false (snd r) [])
  | EUnsubscribe id req => let! r := unsubscribe b id req in Done (fst r, mkA false (snd r) [])
  | EPublish p => let! b' := deliver b p in Done (b', mkA false None [p])
  | EHeartbeat id now => Done (heartbeat b id now, mkA false None [])
  | EDisconnect id reason now => let! r := disconnect b id reason now in Done (fst r, mkA false None (snd r))
  | EMaintain now => let! r := maintain b now in Done (fst r, mkA false None (snd r))
  end.
(** Events one after another, with what is seen of them (not code of RRR). *)
Fixpoint brun (b : broker) (es : list bevent) : out (broker * list (bevent * banswer)) :=
  match es with
  | [] => Done (b, [])
  | e :: es => let! r := bstep b e in let! r' := brun (fst r) es in Done (fst r', (e, snd r) :: snd r')
  end.

(** A broker as it is created. *)
Definition start : broker := mkB [] [].
