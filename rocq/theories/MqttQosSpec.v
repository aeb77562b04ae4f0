(** What the receiver of messages is to do, and the histories of a remote which follows the
    protocol.  Separate from the model but for the packets and the operations. *)
From Coq Require Import ZArith List Bool Lia.
From Verif Require Import Common IdPoolModel MqttQosModel.
Import ListNotations.
Open Scope Z_scope.

(** Packets of the protocol but for SUBACK and UNSUBACK: QoS 0 to 2, identifiers of 16 bits
    which are not 0. *)
Definition plain (a : ack) : bool := match a with Suback | Unsuback => false | _ => true end.
Definition wire_ok (w : wire) : Prop :=
  match w with
  | WPub _ _ qos id _ => 0 <= qos <= 2 /\ (qos <> 0 -> 1 <= id <= 65535)
  | WAck a id _ => plain a = true /\ 1 <= id <= 65535
  | WSub id | WUnsub id => 1 <= id <= 65535
  end.
Definition op_ok (o : op) : Prop := match o with Recv _ w => wire_ok w | _ => True end.
(** Messages to be sent have QoS 0 to 2. *)
Definition asked_ok (o : op) : Prop := match o with Queue KPub _ _ q _ | Later _ _ q _ => 0 <= q <= 2 | _ => True end.

(** What has become of a packet identifier of the remote: no message has it; a message of
    QoS 2 is held with it; a message of QoS 1 or QoS 2 with it has been delivered since the
    queues were last tidied. *)
Inductive slot := Free | Held (msg size : Z) | Used1 | Used2.
Definition slots := Z -> slot.
Definition all_free : slots := fun _ => Free.
Definition put (r : slots) (id : Z) (v : slot) : slots := fun i => if i =? id then v else r i.
(** The queues have been tidied: identifiers of messages delivered may be used again. *)
Definition tidy (r : slots) : slots := fun i => match r i with Held m z => Held m z | _ => Free end.

(** What the remote may send, and what becomes of the identifiers.  [None]: the remote may
    not send this: an identifier which is in use or has just been used, a PUBLISH of QoS 2
    repeated without DUP or with other contents, PUBREL for a message of QoS 1. *)
Definition next (r : slots) (w : wire) : option slots :=
  match w with
  | WPub m z q id dup =>
      if q =? 0 then Some r
      else if q =? 1 then match r id with Free => Some (put r id Used1) | _ => None end
      else if q =? 2 then
        match r id with
        | Free => Some (put r id (Held m z))
        | Held m' z' => if (m' =? m) && (z' =? z) && dup then Some r else None
        | _ => None
        end
      else None
  | WAck Pubrel id _ =>
      match r id with Held _ _ => Some (put r id Used2) | Used1 => None | _ => Some r end
  | _ => Some r
  end.
(** What is to be done when the packet arrives. *)
Definition does (r : slots) (w : wire) (evs : list ev) : Prop :=
  match w with
  | WPub m z q id dup =>
      if q =? 0 then evs = [Deliver m]
      else if q =? 1 then evs = [Deliver m; Sent (WAck Puback id 0)]
      else evs = [Sent (WAck Pubrec id 0)]
  | WAck Pubrel id _ =>
      match r id with
      | Held m _ => evs = [Deliver m; Sent (WAck Pubcomp id 0)]
      | Used2 => evs = [Sent (WAck Pubcomp id 0)] \/ evs = [Sent (WAck Pubcomp id 146)]
      | _ => evs = [Sent (WAck Pubcomp id 146)]
      end
  | _ => True
  end.
Definition delivers (evs : list ev) : list Z := flat_map (fun e => match e with Deliver m => [m] | _ => [] end) evs.
(** A packet of this direction: a message or its release. *)
Definition incoming (w : wire) : bool := match w with WPub _ _ _ _ _ | WAck Pubrel _ _ => true | _ => false end.
(** The queues are tidied when the connection takes all packets. *)
Definition complete (a1 a2 : list took) : bool :=
  forallb (fun t => match t with TFail => false | _ => true end) a1 && forallb (fun t => match t with TOk => true | _ => false end) a2.
Definition after (r : slots) (o : op) : option slots :=
  match o with
  | Recv _ w => next r w
  | Round _ a1 a2 => if complete a1 a2 then Some (tidy r) else Some r
  | _ => Some r
  end.
(** A remote which follows the protocol: every packet is one it may send. *)
Fixpoint conforms (r : slots) (ops : list op) : Prop :=
  match ops with
  | [] => True
  | o :: rest =>
      match o with
      | Recv _ (WPub _ _ q id _) => 0 <= q <= 2 /\ (q <> 0 -> 1 <= id <= 65535)
      | Recv _ (WAck a id _) => match a with Suback | Unsuback => False | _ => True end /\ 1 <= id <= 65535
      | Recv _ (WSub id) | Recv _ (WUnsub id) => 1 <= id <= 65535
      | _ => True
      end /\
      match after r o with None => False | Some r' => conforms r' rest end
  end.
(** Messages are delivered, and packets answered, as they are to be; a message or release is
    never answered by closing the connection; nothing else delivers messages. *)
Fixpoint right (r : slots) (ops : list op) (t : list (list ev * bool)) : Prop :=
  match ops, t with
  | [], [] => True
  | o :: rest, (evs, closed) :: t' =>
      match o with
      | Recv _ w => if incoming w then does r w evs /\ closed = false else delivers evs = []
      | _ => delivers evs = []
      end /\
      match after r o with None => False | Some r' => right r' rest t' end
  | _, _ => False
  end.

(** ** Two sessions and the connection between them *)
(** The packets on their way in each direction, in order; the messages delivered at B; the
    messages given to A, with their QoS. *)
Record world := mk_w { w_a : sess; w_b : sess; w_ab : list wire; w_ba : list wire; w_got : list Z; w_asked : list (Z * Z) }.
Definition world_new : world := mk_w sess_new sess_new [] [] [] [].
Definition sents (evs : list ev) : list wire := flat_map (fun e => match e with Sent w => [w] | _ => [] end) evs.
(** A mask tells which packets are kept; those beyond it are. *)
Fixpoint lose {T} (mask : list bool) (l : list T) : list T :=
  match mask, l with
  | b :: mask', x :: l' => if b then x :: lose mask' l' else lose mask' l'
  | _, _ => l
  end.
(** A side does something by itself (queue, send from the queues, forget), reads the next
    packet, or packets on their way are lost (with a connection).  A connection which is closed
    is a loss of all of them ([Lose]), here with or without a side having asked for it. *)
Inductive wop :=
| DoA (o : op) | DoB (o : op) | ReadA (now : Z) | ReadB (now : Z) | Lose (ka kb : list bool).
Definition stepA (cf : conf) (w : world) (o : op) (ba : list wire) : option world :=
  match step cf (w_a w) o with
  | None => None
  | Some (s, evs, _) => Some (mk_w s (w_b w) (w_ab w ++ sents evs) ba (w_got w)
      (w_asked w ++ match o with Queue KPub m _ q _ | Later m _ q _ => [(m, q)] | _ => [] end))
  end.
Definition stepB (cf : conf) (w : world) (o : op) (ab : list wire) : option world :=
  match step cf (w_b w) o with
  | None => None
  | Some (s, evs, _) => Some (mk_w (w_a w) s ab (w_ba w ++ sents evs) (w_got w ++ delivers evs) (w_asked w))
  end.
Definition wstep (ca cb : conf) (w : world) (o : wop) : option world :=
  match o with
  | DoA o => stepA ca w o (w_ba w)
  | DoB o => stepB cb w o (w_ab w)
  | ReadA now => match w_ba w with [] => Some w | x :: r => stepA ca w (Recv now x) r end
  | ReadB now => match w_ab w with [] => Some w | x :: r => stepB cb w (Recv now x) r end
  | Lose ka kb => Some (mk_w (w_a w) (w_b w) (lose ka (w_ab w)) (lose kb (w_ba w)) (w_got w) (w_asked w))
  end.
(** Nothing of an earlier message with the identifier is left: no packet is on its way, and
    B does not have a message of QoS 2 with it. *)
Definition settled (w : world) (id : Z) : Prop :=
  (forall x, In x (w_ab w) -> match x with WPub _ _ q i _ => q <> 0 -> i <> id | WAck Pubrel i _ => i <> id | _ => True end) /\
  (forall x, In x (w_ba w) -> match x with WAck (Puback | Pubrec | Pubcomp) i _ => i <> id | _ => True end) /\
  (forall e, In e (s_from (w_b w)) -> e_qos e = 2 -> e_id e <> id).
(** The steps considered: messages have QoS 0 to 2 and are told apart, and when A gives an
    identifier to a message, nothing is left of earlier messages with it. *)
Definition proper (w : world) (o : wop) (w' : world) : Prop :=
  match o with
  | DoA (Recv _ _) | DoB (Recv _ _) => False
  | DoA (Queue KPub m _ q _) | DoA (Later m _ q _) => 0 <= q <= 2 /\ ~ In m (map fst (w_asked w))
  | DoB (Queue KPub m _ q _) | DoB (Later m _ q _) => 0 <= q <= 2
  | DoA (Round _ _ _) => forall e, In e (s_to (w_a w')) -> e_kind e = KPub -> e_qos e <> 0 -> e_id e <> 0 ->
      (exists e0, In e0 (s_to (w_a w)) /\ e_kind e0 = KPub /\ e_msg e0 = e_msg e /\ e_id e0 = e_id e) \/ settled w (e_id e)
  | _ => True
  end.
Inductive history (ca cb : conf) : world -> list wop -> world -> Prop :=
| h_nil : forall w, history ca cb w [] w
| h_cons : forall w o w1 l w2, wstep ca cb w o = Some w1 -> proper w o w1 -> history ca cb w1 l w2 ->
    history ca cb w (o :: l) w2.
(** The message is still in a queue at A. *)
Definition pending (w : world) (m : Z) : Prop :=
  exists e, In e (s_to (w_a w) ++ s_delayed (w_a w)) /\ e_kind e = KPub /\ e_msg e = m.

(** ** The sender *)
(** A message of QoS 1 or QoS 2 which waits for its last acknowledgement. *)
Definition awaits (e : entry) : Prop :=
  e_kind e = KPub /\ (e_qos e = 1 /\ e_puback e = false \/ e_qos e = 2 /\ e_pubcomp e = false).
(** The same message, with the same identifier once it has got one. *)
Definition still (e e' : entry) : Prop :=
  e_msg e' = e_msg e /\ e_size e' = e_size e /\ e_qos e' = e_qos e /\ (e_id e <> 0 -> e_id e' = e_id e).
(** The identifiers of the messages and requests in the queue to the remote. *)
Definition in_use (s : sess) : list Z := filter (fun i => negb (i =? 0)) (map e_id (s_to s)).
(** The last acknowledgement for an identifier. *)
Definition finishes (o : op) (id : Z) : Prop :=
  match o with Recv _ (WAck (Puback | Pubcomp) i _) => i = id | _ => False end.
