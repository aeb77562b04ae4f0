(** What assured single delivery promises, in terms of the messages the application of a client
    has handed over and those the application of the receiver has been given. *)
From Coq Require Import ZArith List Bool.
From Verif Require Import Common AsdModel.
Import ListNotations.
Open Scope Z_scope.

(** Messages which client [c] has accepted from its application, oldest first *)
Definition accepted (s : system) (c : Z) : list message := s_accepted s c.
(** Messages of client [c] which the application of the receiver has been given, latest first *)
Definition delivered (s : system) (c : Z) : list message := map (fun x => snd (snd x)) (filter (fun x => fst x =? c) (s_given s)).
(** Messages which client [c] still holds *)
Definition outstanding (s : system) (c : Z) : list message := map t_msg (c_queue (s_client s c)).

(** Histories without crashes *)
Definition no_restart (o : op) : Prop := match o with Restart _ | RestartReceiver => False | _ => True end.
(** Histories of fewer messages than there are ids, for every client *)
Fixpoint queued (c : Z) (os : list op) : Z :=
  match os with
  | Queue d _ :: r => (if d =? c then 1 else 0) + queued c r
  | _ :: r => queued c r
  | [] => 0
  end.
Definition few (os : list op) : Prop := forall c, queued c os < 2^32 - 1.
(** Histories with one client *)
Definition only (c : Z) (o : op) : Prop :=
  match o with
  | Queue d _ | Tick d _ _ | ToClient d _ | Data d | ToReceiver d _ _ | Reconnect d _ | Restart d => d = c
  | Maintain | RestartReceiver => True
  end.
(** Something holds all along a history *)
Fixpoint along (P : system -> Prop) (s : system) (os : list op) : Prop :=
  P s /\ match os with
         | o :: r => match step s o with ReadModel.Ok s' => along P s' r | _ => True end
         | [] => True
         end.
(** The periodic event of the receiver comes at least once for each thousand deliveries (it is
    activated by every message which arrives, udpstream_asd.c:981) *)
Definition ticking (s : system) : Prop := r_started (s_receiver s) <= 1000.

(** [l] with some elements left out *)
Inductive sublist {A} : list A -> list A -> Prop :=
  | sub_nil : sublist [] []
  | sub_skip : forall x l m, sublist l m -> sublist l (x :: m)
  | sub_keep : forall x l m, sublist l m -> sublist (x :: l) (x :: m).
