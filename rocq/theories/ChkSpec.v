(** What is to be expected of a queue of data for a socket. *)
From Coq Require Import ZArith List Bool.
From Verif Require Import ChkTypes.
Import ListNotations.
Open Scope Z_scope.

(** What was put in the queue, in order: data and pointers. *)
Definition pushed1 (o : op) : list (list Z * Z) := match o with Push _ data private => [(data, private)] | _ => [] end.
Definition pushed (os : list op) : list (list Z * Z) := flat_map pushed1 os.

(** What happened while sending. *)
Definition sending (xs : list out) : list event := flat_map (fun x => match x with Sent _ es => es | _ => [] end) xs.
Definition clearing (xs : list out) : list event := flat_map (fun x => match x with Cleared es => es | _ => [] end) xs.
(** The octets the other side gets, those of the [k]th data, pointers in success callbacks, and
    what was given free. *)
Definition stream (es : list event) : list Z := flat_map (fun e => match e with Wrote _ octets => octets | _ => [] end) es.
Definition octets_of (k : nat) (es : list event) : list Z := flat_map (fun e => match e with Wrote i octets => if Nat.eqb i k then octets else [] | _ => [] end) es.
Definition successes (es : list event) : list Z := flat_map (fun e => match e with Success p => [p] | _ => [] end) es.
Definition gone (es : list event) : list nat := flat_map (fun e => match e with Freed k _ => [k] | _ => [] end) es.
Definition gone_private (es : list event) : list Z := flat_map (fun e => match e with Freed _ p => [p] | _ => [] end) es.

(** Sending has succeeded, or was to be tried again later: returns 0 and 4. *)
Definition no_error (x : out) : Prop := match x with Sent ret _ => ret = 0 \/ ret = 4 | _ => True end.
(** After an error of [Send] octets might be repeated: the socket is not to be used any more. *)
Definition fine (o : op) (x : out) : Prop := match o with Send _ => no_error x | _ => True end.
(** Once data has been written in part no more octets of other data are written at that time. *)
Definition orderly (x : out) : Prop :=
  match x with
  | Sent _ es => forall before k octets after, es = before ++ Wrote k octets :: after -> ~ In k (gone after) -> stream after = []
  | _ => True
  end.
Definition is_push (o : op) : bool := match o with Push _ _ _ => true | _ => false end.
Definition normal_push (o : op) : bool := match o with Push false _ _ => true | _ => false end.
Definition is_send (o : op) : bool := match o with Send _ => true | _ => false end.
Definition is_write (o : op) : bool := match o with Write _ => true | _ => false end.
Definition nonempty (o : op) : Prop := match o with Push _ data _ => data <> [] | _ => True end.
