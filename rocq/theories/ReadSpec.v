(** What reassembly of a stream means, independently of the sessions. *)
From Coq Require Import ZArith List Bool.
From Verif Require Import Common ReadModel.
Import ListNotations.
Open Scope Z_scope.

(** The octets read from sender [a], and the messages delivered for it, since the last
    time its session was removed. *)
Fixpoint received (a : Z) (acc : list Z) (ev : list event) : list Z :=
  match ev with
  | [] => acc
  | Recv b d :: r => received a (if b =? a then acc ++ d else acc) r
  | Msg _ _ :: r => received a acc r
  | Drop b _ :: r => received a (if b =? a then [] else acc) r
  end.
Fixpoint delivered (a : Z) (acc : list (list Z)) (ev : list event) : list (list Z) :=
  match ev with
  | [] => acc
  | Recv _ _ :: r => delivered a acc r
  | Msg b m :: r => delivered a (if b =? a then acc ++ [m] else acc) r
  | Drop b _ :: r => delivered a (if b =? a then [] else acc) r
  end.

(** A stream is cut by the framing function into messages (and skipped octets), with a
    rest which is not yet cut.  The function looks at all of the stream that follows. *)
Inductive parse (f : list Z -> framing) : list Z -> list (list Z) -> list Z -> Prop :=
| parse_stop : forall s, parse f s [] s
| parse_msg : forall s n e ms r, f s = FSize n e -> 0 < n <= zlen s ->
    parse f (skipn (Z.to_nat n) s) ms r -> parse f s (firstn (Z.to_nat n) s :: ms) r
| parse_skip : forall s k ms r, f s = FSkip k -> 0 < k <= zlen s ->
    parse f (skipn (Z.to_nat k) s) ms r -> parse f s ms r.

(** Nothing more can be cut from the rest. *)
Definition stuck (f : list Z -> framing) (r : list Z) : Prop :=
  r = [] \/ f r = FIncomplete \/ f r = FToEnd \/ exists n e, f r = FSize n e /\ zlen r < n.

(** A framing function decides from the start of the stream: when it has decided, more
    octets do not change the decision. *)
Definition same_framing (x y : framing) : Prop :=
  match x, y with FSize n _, FSize m _ => n = m | _, _ => x = y end.
Definition stable (f : list Z -> framing) : Prop :=
  forall p q, p <> [] -> f p <> FIncomplete -> same_framing (f p) (f (p ++ q)).
(** Sizes are not negative, skips are within the octets seen, errors are errors. *)
Definition framer_ok (f : list Z -> framing) : Prop :=
  forall p, p <> [] ->
  match f p with
  | FSize n _ => 0 <= n
  | FSkip k => 0 < k <= zlen p
  | FError c => c <> READ_OK /\ c <> READ_INCOMPLETE
  | _ => True
  end.
(** The framing function of the arguments: without one all messages have the initial
    size. *)
Definition framer_of (p : params) : list Z -> framing :=
  match p_framer p with Some f => f | None => fun _ => FSize (p_initial p) false end.

Definition params_ok (p : params) : Prop :=
  stable (framer_of p) /\ framer_ok (framer_of p) /\ (p_framer p = None -> 0 < p_initial p).

(** The read function gives no more than it was asked for, does not return INCOMPLETE,
    and gives octets only if it returns OK; the complete callback does not return
    INCOMPLETE. *)
Definition world_ok (p : params) (w : world) : Prop :=
  zlen (w_data w) <= p_step p /\
  Z.land (w_ret w) READ_INCOMPLETE = 0 /\ (w_ret w <> 0 -> w_data w = []) /\
  w_code w <> READ_INCOMPLETE.

(** Sender [a] has a message waiting in the session which needs no further reading. *)
Definition waiting (a : Z) (ss : list session) : Prop :=
  exists s, In s ss /\ s_addr s = a /\ s_over s <> None.

(** A header which announces a message of no octets stands at a place where a message
    starts, before the call or after its octets are added. *)
Definition zero_size (p : params) (ss : list session) (ev : list event) (w : world) : Prop :=
  exists a ev' D r e, parse (framer_of p) (received a [] ev') D r /\ r <> [] /\ framer_of p r = FSize 0 e /\
    (ev' = ev \/ ev' = ev ++ snd (maintain (w_time w) ss) ++ [Recv (w_addr w) (w_data w)]).

(** The reasons for which the session of [a] may be removed: it has been silent for 30
    seconds; the complete callback gave the code; the read function gave an error or
    EOF; the framing function refused what stands at the start of a message; the
    size limit is exceeded; or a message which lasts until the end has ended. *)
Definition drop_reason (p : params) (ss : list session) (ev : list event) (w : world) (a : Z) (c : option Z) : Prop :=
  match c with
  | None => exists s, In s ss /\ s_addr s = a /\ (30 * 1000 * 1000 <= w_time w < 2^64 -> s_time s + 30 * 1000 * 1000 < w_time w)
  | Some code =>
      code = w_code w \/ (w_addr w = a /\ w_ret w <> 0) \/
      exists ev' r, (ev' = ev \/ ev' = ev ++ snd (maintain (w_time w) ss) \/
                     ev' = ev ++ snd (maintain (w_time w) ss) ++ [Recv (w_addr w) (w_data w)]) /\
        parse (framer_of p) (received a [] ev') (delivered a [] ev') r /\
        (framer_of p r = FError code \/ (code = READ_SOFT /\ 0 < p_max p < zlen r) \/
         (w_addr w = a /\ w_data w = [] /\ r <> [] /\ framer_of p r = FToEnd))
  end.

(** Octets read in one call. *)
Definition reads (e : list event) : list event := filter (fun x => match x with Recv _ _ => true | _ => false end) e.
