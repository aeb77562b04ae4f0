(** What a send loop is to do. *)
From Coq Require Import ZArith List Bool Lia.
From Verif Require Import Common SendLoopModel.
Import ListNotations.
Open Scope Z_scope.

(** The messages which have come, with their timestamps, in their order *)
Definition arrived (ops : list op) : list (Z * Z) := flat_map (fun o => match o with Come _ m ts => [(m, ts)] | _ => [] end) ops.
(** The messages which have left without being sent: expired, timed out (dropped or returned)
    or refused *)
Definition gone (evs : list ev) : list Z :=
  flat_map (fun x => match x with Pushed e CSoft | Pushed e CHard | Expired e | Dropped e | Returned e _ => [e_msg e] | Pushed _ _ => [] end) evs.
(** Older than the time to live; waiting for longer than the timeout *)
Definition old (cf : conf) (now : Z) (e : entry) : Prop := c_ttl cf <> 0 /\ e_ts e + c_ttl cf < now.
Definition stale (cf : conf) (now : Z) (e : entry) : Prop := c_timeout cf <> 0 /\ e_time e + c_timeout cf < now.
(** What is done is due at that time: only messages which are not old or stale are handed to
    the module, the others are dropped or returned *)
Definition due (cf : conf) (now : Z) (x : ev) : Prop :=
  match x with
  | Pushed e _ => ~ old cf now e /\ ~ stale cf now e
  | Expired e => old cf now e
  | Dropped e => ~ old cf now e /\ stale cf now e /\ c_action cf = Drop
  | Returned e _ => ~ old cf now e /\ stale cf now e /\ c_action cf = Return
  end.
Definition of_ev (x : ev) : entry := match x with Pushed e _ | Expired e | Dropped e | Returned e _ => e end.
(** Times which are used: within 64 bits, positive, and not before a timeout after 1970 *)
Definition time_ok (cf : conf) (now : Z) : Prop := c_timeout cf <= now < 2 ^ 64 /\ 0 < now.
Definition conf_ok (cf : conf) : Prop := 0 <= c_ttl cf < 2 ^ 64 /\ 0 <= c_timeout cf < 2 ^ 64.
Definition op_ok (cf : conf) (o : op) : Prop :=
  match o with
  | Come now m ts => time_ok cf now /\ 0 <= ts < 2 ^ 64
  | Run ans last => Forall (fun a => time_ok cf (a_now a)) (last :: ans)
  | Check now _ | Touch now _ => time_ok cf now
  | _ => True
  end.
Definition nows (ops : list op) : list Z := flat_map (fun o => match o with Run ans last => map a_now (last :: ans) | _ => [] end) ops.
(** [a] is [b] with some left out *)
Inductive sub {T} : list T -> list T -> Prop :=
| sub_nil : sub [] []
| sub_skip : forall x a b, sub a b -> sub a (x :: b)
| sub_keep : forall x a b, sub a b -> sub (x :: a) (x :: b).
(** An answer which lets the run go on to the end *)
Definition ready (a : answer) : Prop := a_code a <> CNotReady /\ a_code a <> CHard /\ a_ok a = true.
