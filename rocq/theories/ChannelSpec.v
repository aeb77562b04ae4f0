(** What the two ends of the channel are promised: a bounded queue. *)
From Coq Require Import ZArith List Bool.
From Verif Require Import Common ChannelModel.
Import ListNotations.
Open Scope Z_scope.

(** The messages stored, and those the reader has accepted, in order. *)
Definition written (es : list event) : list (list Z) := flat_map (fun e => match e with Wrote d => [d] | _ => [] end) es.
Definition taken (es : list event) : list (list Z) := flat_map (fun e => match e with Took d => [d] | _ => [] end) es.

(** The writer: no call in progress, in a call, in a call after the message was stored. *)
Inductive wstate : Type := Outside | Calling | Stored.
(** A queue of at most [n] messages.  A write is refused only when [n] messages are
    waiting; the reader is shown the oldest message, which is removed if it accepts it;
    it is told that there is nothing only if there is nothing, apart from a message
    whose write has not returned; it is told to try again only during a write. *)
Inductive queue (n : Z) : list (list Z) * wstate -> event -> list (list Z) * wstate -> Prop :=
| q_call q : queue n (q, Outside) WCall (q, Calling)
| q_store q d : zlen q < n -> queue n (q, Calling) (Wrote d) (q ++ [d], Stored)
| q_full q : zlen q = n -> queue n (q, Calling) WFull (q, Outside)
| q_fail q : queue n (q, Calling) WFailed (q, Outside)
| q_done q : queue n (q, Stored) WDone (q, Outside)
| q_unnotified q : queue n (q, Stored) WUnnotified (q, Outside)
| q_show d q w : queue n (d :: q, w) (Shown d) (d :: q, w)
| q_take d q w : queue n (d :: q, w) (Took d) (q, w)
| q_refuse d q w : queue n (d :: q, w) RFailed (d :: q, w)
| q_nothing w : queue n ([], w) RNothing ([], w)
| q_nothing_yet d : queue n ([d], Stored) RNothing ([d], Stored)
| q_again q : queue n (q, Calling) REmpty (q, Calling).
Inductive queue_run (n : Z) : list (list Z) * wstate -> list event -> list (list Z) * wstate -> Prop :=
| qr_nil s : queue_run n s [] s
| qr_cons s e s' es s'' : queue n s e s' -> queue_run n s' es s'' -> queue_run n s (e :: es) s''.

(** Messages have at least one octet. *)
Definition nonempty (l : label) : Prop := match l with DoWrite d => d <> [] | _ => True end.

(** The steps of one call of the writer which is not interrupted, and of the reader. *)
Definition write_call (n : Z) (d : list Z) (clean : bool) : list label :=
  DoWrite d :: (if clean then repeat DoClean (Z.to_nat (2 * n + 1)) else []) ++ [DoTryLock; DoFill true true; DoPost true].
Definition read_call : list label := [DoRead; DoReadLock; DoShow true; DoReadPost].

(** No call is in progress. *)
Definition quiet (s : state) : Prop := s_w s = WIdle /\ s_r s = RIdle.
