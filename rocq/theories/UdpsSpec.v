(** What UDP-streams promise, in terms of the messages queued at one end and delivered at the other. *)
From Coq Require Import ZArith List Bool.
From Verif Require Import Common ReadModel UdpsModel.
Import ListNotations.
Open Scope Z_scope.

(** Messages which can arrive: those with data, and which the validator of the application accepts. *)
Definition expected (valid : list Z -> bool) (ms : list message) : list message :=
  filter (fun m => negb (zlen (snd m) =? 0) && valid (snd m)) ms.
(** Messages are 32 bit sized. *)
Definition label_ok (l : label) : Prop := match l with Queue _ data => zlen data < 2^32 | _ => True end.
(** The ends of a system: [true] is the first. *)
Definition the_end (y : system) (who : bool) : endpoint := if who then fst y else snd y.
(** A state which two ends of a new stream can get to, whatever the applications and the network do *)
Definition reachable (valid : list Z -> bool) (y : system) : Prop :=
  exists id handle ls, Forall (fun l => label_ok (snd l)) ls /\ run valid (new_system id handle) ls = Ok (Some y).

(** The frames of messages, with numbers from [id] *)
Fixpoint frames_from (id : Z) (ms : list message) : list frame :=
  match ms with
  | [] => []
  | (app, data) :: r => let fs := make_frames (length data) id app data in fs ++ frames_from (id + zlen fs) r
  end.

(** ** Datagrams *)
(** Packets with the sizes of the wire *)
Definition packet_in_range (p : packet) : Prop :=
  0 <= p_ft p < 256 /\ p_version p = VERSION /\ 0 <= p_stream p < 2^16 /\ 0 <= p_id p < 2^32 /\ 0 <= p_app p < 2^64 /\ bytes (p_data p) /\ zlen (p_data p) <= DATA_SIZE_LIMIT.
(** What becomes of a datagram when it is read: the frame, or nothing if it is refused *)
Definition accepted (buf : list Z) : option packet :=
  match udp_framer buf with
  | FSize n _ => if zlen buf =? n then match unpack buf with Ok r => r | _ => None end else None
  | _ => None
  end.

(** ** A hostile peer *)
(** A stranger: somebody who has sent these packets, and nobody knows why *)
Definition stranger (sent : list packet) : endpoint := mk_endpoint None sent [] [] [] false.
(** A history of an end: each step with all the packets which have been sent to it so far *)
Fixpoint hostile_run (valid : list Z -> bool) (e : endpoint) (ls : list (list packet * label)) : res (option endpoint) :=
  match ls with
  | [] => Ok (Some e)
  | (sent, l) :: r =>
      match end_step valid e (stranger sent) l with
      | Ok (Some e) => hostile_run valid e r
      | Ok None => Ok None
      | Bug => Bug
      | Ub => Ub
      end
  end.
(** The octets of data which arrive in a history *)
Fixpoint data_arriving (ls : list (list packet * label)) : Z :=
  match ls with
  | [] => 0
  | (sent, Receive _ i) :: r => match nth_error sent i with Some p => zlen (p_data p) | None => 0 end + data_arriving r
  | _ :: r => data_arriving r
  end.
(** Numbers in packets are not negative. *)
Definition packets_ok (ls : list (list packet * label)) : Prop := Forall (fun x => Forall (fun p => 0 <= p_id p) (fst x)) ls.

(** Steps of a system after which the first end has queued no more, and the second has got none of
    the packets the first had sent before, [n] in number *)
Definition after_loss (n : nat) (l : bool * label) : Prop :=
  match l with
  | (true, Queue _ _) => False
  | (false, Receive _ i) => (n <= i)%nat
  | _ => True
  end.

(** ** Which frames are sent in a round *)

(** A frame is sent again if it was sent more than one second ago or if five acknowledgements have
    passed over it. *)
Definition again (now : Z) (f : frame) : Prop := fr_sent f <> 0 /\ (1000000 < u64 (now - fr_sent f) \/ 5 <= fr_unack f).
(** The frames which are waited for, that is, all which are not sent again *)
Inductive waited (now : Z) : list frame -> Z -> Prop :=
| w_nil : waited now [] 0
| w_again f l n : again now f -> waited now l n -> waited now (f :: l) n
| w_wait f l n : ~ again now f -> waited now l n -> waited now (f :: l) (n + 1).
(** A frame with the frames queued before it may be sent: again, or for the first time if the number of
    frames waited for stays below the window *)
Definition may_send (now window : Z) (before : list frame) (f : frame) : Prop :=
  again now f \/ (fr_sent f = 0 /\ exists n, waited now before n /\ n + 1 < window).
