(** Operations on a queue of data to be sent to a socket, and what can be seen of them. *)
From Coq Require Import ZArith List.
Import ListNotations.
Open Scope Z_scope.

(** What the system answers when it is given octets for a socket: how many it takes (no more than
    given), that it cannot now, that it was interrupted, that the connection is lost, or another
    error. *)
Inductive sys : Type := Takes (n : Z) | Again | Interrupted | Lost | Other.
(** [Push urgent data private]: data is put in the queue; [Send answers]: it is sent, with these
    answers of the system in turn (and [Again] after them); [Write answers]: it is sent with a
    function which writes so many octets and returns this in turn; [Clear]. *)
Inductive op : Type := Push (urgent : bool) (data : list Z) (private : Z) | Send (answers : list sys) | Write (answers : list (Z * Z)) | Clear.
(** Octets written to the socket, the success callback, and data and pointer given free.  The data
    is numbered in the order it was put in the queue. *)
Inductive event : Type := Wrote (k : nat) (octets : list Z) | Success (private : Z) | Freed (k : nat) (private : Z).
Inductive out : Type := Pushed (count : Z) | Sent (ret : Z) (events : list event) | Cleared (events : list event).
