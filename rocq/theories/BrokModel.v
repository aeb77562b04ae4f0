(** Model of the message broker, src/lib/message_broker.c, with the queues it uses,
    src/lib/fifo_protected.c, and the counters of events which make readers poll,
    src/lib/event/event.c.

    A transition system: any number of instances write and poll at the same time, the steps
    are the sections protected by locks.  Simplified: linked lists are lists of cells with an
    address; allocation succeeds; callbacks succeed; buffers are not disabled (SlotModel has
    the slot used then); ordered writes, which the broker does not use, are left out; counters
    do not overflow; rate limiting only delays. *)
From Coq Require Import ZArith List Bool PeanoNat.
From Verif Require Import Common.
Import ListNotations.
Open Scope Z_scope.

(** message_holder_struct.h:39-77 [struct rrr_msg_holder]: the message, and the field [source].
    [e_origin], the instance which made the message, is not in the code. *)
Record entry : Type := mk_e { e_msg : Z; e_origin : nat; e_source : option nat }.
(** message_holder_util.c:90-135 [rrr_msg_holder_util_clone_no_locking]: the source is not
    copied. *)
Definition clone (e : entry) : entry := mk_e (e_msg e) (e_origin e) None.

(** ** Queues
    fifo_protected.h:62-102: the entries, those in the write queue, and entry_count *)
Definition cell : Type := nat * entry.
Record fifo : Type := mk_q { q_list : list cell; q_wq : list cell; q_count : Z }.
Definition fifo_new : fifo := mk_q [] [] 0.
(** fifo_protected.c:806-886 [rrr_fifo_protected_write] *)
Definition fifo_write (c : cell) (q : fifo) : fifo := mk_q (q_list q ++ [c]) (q_wq q) (q_count q + 1).
(** fifo_protected.c:896-996 [rrr_fifo_protected_write_delayed] *)
Definition fifo_write_delayed (c : cell) (q : fifo) : fifo := mk_q (q_list q) (q_wq q ++ [c]) (q_count q).
(** fifo_protected.c:337-347 [__rrr_fifo_protected_is_populated] *)
Definition fifo_populated (q : fifo) : bool := negb (q_count q =? 0) || negb (zlen (q_wq q) =? 0).
(** fifo_protected.c:475-527 in [rrr_fifo_protected_read_clear_forward], with 177-228
    [__rrr_fifo_write_queue_merge_nolock]: the reader takes the cells up to [last_element] out
    of the queue; [stop] is the address of the one after them. *)
Definition fifo_take (max : nat) (q : fifo) : list cell * option nat * fifo :=
  let l := q_list q ++ q_wq q in
  (firstn max l, option_map fst (hd_error (skipn max l)), mk_q (skipn max l) [] (q_count q + zlen (q_wq q))).
(** fifo_protected.c:584-610: the callback has said stop for the cell before [rest].  The
    variable [next] is the first of [rest] or else [stop], which becomes the start of the queue;
    [None] if it is not there any more: the queue starts with memory which is given free or
    used by another reader. *)
Definition fifo_put_back (rest : list cell) (stop : option nat) (q : fifo) : option fifo :=
  match rest, stop with
  | _ :: _, _ => Some (mk_q (rest ++ q_list q) (q_wq q) (q_count q))
  | [], None => Some q
  | [], Some p => match q_list q with
                  | (a, _) :: _ => if (a =? p)%nat then Some q else None
                  | [] => None
                  end
  end.
(** fifo_protected.c:626-630; [None]: rrr_length_sub_bug *)
Definition fifo_done (n : Z) (q : fifo) : option fifo :=
  if q_count q <? n then None else Some (mk_q (q_list q) (q_wq q) (q_count q - n)).

(** ** Instances
    An instance is a number.  [n_senders]: whom it polls, in order (senders); [n_readers]:
    who polls it (write_notify_listeners); [n_split]: the number of split buffers if duplicate
    is set (instances.c:991-1018, message_broker.c:601-629); [n_backstop]; [n_max]: the constant
    RRR_FIFO_PROTECTED_MAX_READS, 500. *)
Record net : Type := mk_net {
  n_senders : nat -> list nat; n_readers : nat -> list nat; n_split : nat -> option nat;
  n_backstop : nat -> bool; n_max : nat }.

(** What an instance is doing in message_broker.c:1604-1670 [rrr_message_broker_poll_delete];
    [n] is the amount left, [rest] the senders which remain.
    [PAt]: at the next sender; [PFill]: has got its buffer [j] of sender [a]; [PFilling]: puts
    clones of the messages in [h] in the split buffers, the first of them in those before [k]
    already; [PTake]: about to read its buffer; [PRead]: reads what it has taken, [h]. *)
Inductive phase : Type :=
| PIdle
| PAt (n : nat) (rest : list nat)
| PFill (n a j : nat) (rest : list nat)
| PFilling (n a j : nat) (rest : list nat) (h : list cell) (k : nat) (done : Z)
| PTake (n a j : nat) (rest : list nat)
| PRead (n a : nat) (j : option nat) (rest : list nat) (h : list cell) (stop : option nat) (done : Z).

(** [s_main], [s_split]: the queues of an instance, split buffers with their owners; [s_lock]:
    who has its lock for split buffers; [s_pending]: the events which an instance has been sent
    and has not used (eventfd and deferred_amount); [s_unsent]: instances to be sent an event
    by a writer which has written but not got to sending it; [s_next]: addresses.  What has
    happened: [s_written] by an instance, [s_log]: read by an instance, from whom;
    [s_handed]: what its module was given. *)
Record state : Type := mk_s {
  s_main : nat -> fifo; s_split : nat -> list (option nat * fifo); s_lock : nat -> option nat;
  s_poll : nat -> phase; s_pending : nat -> nat; s_unsent : list nat; s_next : nat;
  s_written : nat -> list Z; s_log : nat -> list (nat * entry); s_handed : nat -> list entry }.
Definition upd {A : Type} (f : nat -> A) (i : nat) (x : A) : nat -> A := fun k => if (k =? i)%nat then x else f k.
Definition set_main (s : state) (a : nat) (q : fifo) : state :=
  mk_s (upd (s_main s) a q) (s_split s) (s_lock s) (s_poll s) (s_pending s) (s_unsent s) (s_next s) (s_written s) (s_log s) (s_handed s).
Definition set_split (s : state) (a : nat) (l : list (option nat * fifo)) : state :=
  mk_s (s_main s) (upd (s_split s) a l) (s_lock s) (s_poll s) (s_pending s) (s_unsent s) (s_next s) (s_written s) (s_log s) (s_handed s).
Definition set_lock (s : state) (a : nat) (o : option nat) : state :=
  mk_s (s_main s) (s_split s) (upd (s_lock s) a o) (s_poll s) (s_pending s) (s_unsent s) (s_next s) (s_written s) (s_log s) (s_handed s).
Definition set_poll (s : state) (r : nat) (p : phase) : state :=
  mk_s (s_main s) (s_split s) (s_lock s) (upd (s_poll s) r p) (s_pending s) (s_unsent s) (s_next s) (s_written s) (s_log s) (s_handed s).
Definition set_pending (s : state) (r n : nat) : state :=
  mk_s (s_main s) (s_split s) (s_lock s) (s_poll s) (upd (s_pending s) r n) (s_unsent s) (s_next s) (s_written s) (s_log s) (s_handed s).

Fixpoint set_nth {A : Type} (l : list A) (j : nat) (x : A) : list A :=
  match l, j with
  | [], _ => []
  | _ :: r, O => x :: r
  | y :: r, S k => y :: set_nth r k x
  end.
Definition split_queue (l : list (option nat * fifo)) (j : nat) : fifo := snd (nth j l (None, fifo_new)).
Definition put_split (l : list (option nat * fifo)) (j : nat) (q : fifo) : list (option nat * fifo) :=
  set_nth l j (fst (nth j l (None, fifo_new)), q).
Definition buffer (s : state) (a : nat) (j : option nat) : fifo :=
  match j with None => s_main s a | Some j => split_queue (s_split s a) j end.
Definition set_buffer (s : state) (a : nat) (j : option nat) (q : fifo) : state :=
  match j with None => set_main s a q | Some j => set_split s a (put_split (s_split s a) j q) end.

(** message_broker.c:1453-1506 [__rrr_message_broker_get_source_buffer]: the buffer of [r];
    [None]: not enough slots, an abort *)
Fixpoint own (l : list (option nat * fifo)) (r : nat) : option (nat * list (option nat * fifo)) :=
  match l with
  | [] => None
  | (Some o, q) :: rest =>
      if (o =? r)%nat then Some (O, l)
      else match own rest r with Some (j, rest') => Some (S j, (Some o, q) :: rest') | None => None end
  | (None, q) :: rest => Some (O, (Some r, q) :: rest)
  end.

(** [None]: the step cannot be done now *)
Inductive result : Type := Ok (s : state) | Bug | Ub.
Definition res : Type := option result.

(** ** Writing
    message_broker.c:1039-1105 [rrr_message_broker_write_entry] and 1239-1289
    [rrr_message_broker_incref_and_write_entry_unsafe]: the message is put in the main queue,
    then (631-712 [__rrr_message_broker_write_notifications_send]) all readers are to be told if there are split
    buffers, otherwise one of them, [pick], at random.  A number of messages written in one
    call is as many calls. *)
Definition to_tell (N : net) (a pick : nat) : list nat :=
  match n_split N a with
  | Some _ => n_readers N a
  | None => match nth_error (n_readers N a) (pick mod length (n_readers N a)) with Some r => [r] | None => [] end
  end.
Definition write (N : net) (s : state) (a : nat) (e : entry) (pick : nat) : state :=
  mk_s (upd (s_main s) a (fifo_write (s_next s, e) (s_main s a))) (s_split s) (s_lock s) (s_poll s) (s_pending s)
       (s_unsent s ++ to_tell N a pick) (S (s_next s)) (upd (s_written s) a (s_written s a ++ [e_msg e])) (s_log s) (s_handed s).

(** ** Polling *)
(** message_broker.c:1654-1661: the buffer [j] of [a] is read if there is anything in it *)
Definition start_read (N : net) (s : state) (r n a : nat) (j : option nat) (rest : list nat) : state :=
  let q := buffer s a j in
  if fifo_populated q then
    let '(h, stop, q') := fifo_take (n_max N) q in
    set_poll (set_buffer s a j q') r (PRead n a j rest h stop 0)
  else set_poll s r (PAt n rest).
(** message_broker.c:1373-1398 [__rrr_message_broker_poll_intermediate_backstop_handling] *)
Definition hand_over (N : net) (s : state) (r a : nat) (e : entry) : state :=
  let stopped := n_backstop N r && match e_source e with Some o => (o =? r)%nat | None => false end in
  let e' := mk_e (e_msg e) (e_origin e) (match e_source e with Some o => Some o | None => Some a end) in
  mk_s (s_main s) (s_split s) (s_lock s) (s_poll s) (s_pending s) (s_unsent s) (s_next s) (s_written s)
       (upd (s_log s) r (s_log s r ++ [(a, e)]))
       (if stopped then s_handed s else upd (s_handed s) r (s_handed s r ++ [e'])).
(** The end of reading a buffer *)
Definition end_read (s : state) (r n a : nat) (j : option nat) (rest : list nat) (done : Z) (q : fifo) : result :=
  match fifo_done done q with
  | None => Bug
  | Some q' => Ok (set_poll (set_buffer s a j q') r (PAt n rest))
  end.
(** The next step of an instance which polls *)
Definition step (N : net) (s : state) (r : nat) : res :=
  match s_poll s r with
  | PIdle => None
  | PAt O _ => Some (Ok (set_poll s r PIdle))
  | PAt n [] => Some (Ok (set_poll (set_pending s r (s_pending s r + n)) r PIdle))
  | PAt n (a :: rest) =>
      match n_split N a with
      | None | Some O => Some (Ok (start_read N s r n a None rest))
      | Some _ =>
          match s_lock s a with
          | Some _ => None
          | None => match own (s_split s a) r with
                    | None => Some Bug
                    | Some (j, l) => Some (Ok (set_poll (set_split s a l) r (PFill n a j rest)))
                    end
          end
      end
  (* message_broker.c:1544-1579 [__rrr_message_broker_split_buffers_fill] *)
  | PFill n a j rest =>
      if q_count (s_main s a) =? 0 then Some (Ok (set_poll s r (PTake n a j rest)))
      else match s_lock s a with
           | Some _ => Some (Ok (set_poll s r (PTake n a j rest)))
           | None => let '(h, _, q) := fifo_take (n_max N) (s_main s a) in
                     Some (Ok (set_poll (set_lock (set_main s a q) a (Some r)) r (PFilling n a j rest h 0 0)))
           end
  (* 1508-1542 [__rrr_message_broker_split_buffers_fill_callback], one buffer *)
  | PFilling n a j rest [] _ done =>
      match fifo_done done (s_main s a) with
      | None => Some Bug
      | Some q => Some (Ok (set_poll (set_lock (set_main s a q) a None) r (PTake n a j rest)))
      end
  | PFilling n a j rest (c :: h) k done =>
      if (k <? length (s_split s a))%nat then
        let s' := set_split s a (put_split (s_split s a) k (fifo_write_delayed (s_next s, clone (snd c)) (split_queue (s_split s a) k))) in
        Some (Ok (mk_s (s_main s') (s_split s') (s_lock s') (upd (s_poll s') r (PFilling n a j rest (c :: h) (S k) done)) (s_pending s')
                       (s_unsent s') (S (s_next s')) (s_written s') (s_log s') (s_handed s')))
      else Some (Ok (set_poll s r (PFilling n a j rest h 0 (done + 1))))
  | PTake n a j rest => Some (Ok (start_read N s r n a (Some j) rest))
  (* 1400-1424 [__rrr_message_broker_poll_delete_intermediate] *)
  | PRead n a j rest [] _ done => Some (end_read s r n a j rest done (buffer s a j))
  | PRead n a j rest (c :: h) stop done =>
      let s' := hand_over N s r a (snd c) in
      let n' := pred n in
      match n' with
      | O => match fifo_put_back h stop (buffer s' a j) with
             | None => Some Ub
             | Some q => Some (end_read s' r n' a j rest (done + 1) q)
             end
      | _ => Some (Ok (set_poll s' r (PRead n' a j rest h stop (done + 1))))
      end
  end.

(** ** All together
    [New]: an instance writes a message of its own; [Forward]: one which it has been given;
    [Tell]: an event is sent; [Poll]: an instance begins to poll (event.c:244-281), with an
    amount of up to 16 bits; which part of the events is used at once is left open; [Step]. *)
Inductive op : Type :=
| New (a : nat) (m : Z) (pick : nat)
| Forward (a : nat) (i : nat) (pick : nat)
| Tell (r : nat)
| Poll (r n : nat)
| Step (r : nat).
Fixpoint drop (r : nat) (l : list nat) : list nat :=
  match l with [] => [] | x :: t => if (x =? r)%nat then t else x :: drop r t end.
Definition exec (N : net) (s : state) (o : op) : res :=
  match o with
  | New a m pick => Some (Ok (write N s a (mk_e m a None) pick))
  | Forward a i pick => match nth_error (s_handed s a) i with Some e => Some (Ok (write N s a e pick)) | None => None end
  | Tell r =>
      if existsb (Nat.eqb r) (s_unsent s)
      then Some (Ok (mk_s (s_main s) (s_split s) (s_lock s) (s_poll s) (upd (s_pending s) r (S (s_pending s r))) (drop r (s_unsent s)) (s_next s)
                          (s_written s) (s_log s) (s_handed s)))
      else None
  | Poll r n =>
      match s_poll s r with
      | PIdle => if (1 <=? n)%nat && (n <=? s_pending s r)%nat && (Z.of_nat n <=? 65535)
                 then Some (Ok (set_poll (set_pending s r (s_pending s r - n)) r (PAt n (n_senders N r)))) else None
      | _ => None
      end
  | Step r => step N s r
  end.
(** Any schedule; what cannot be done is passed over. *)
Fixpoint run (N : net) (s : state) (ops : list op) : result :=
  match ops with
  | [] => Ok s
  | o :: r => match exec N s o with
              | None => run N s r
              | Some (Ok s') => run N s' r
              | Some x => x
              end
  end.
Definition start (N : net) : state :=
  mk_s (fun _ => fifo_new) (fun a => match n_split N a with Some k => repeat (None, fifo_new) k | None => [] end)
       (fun _ => None) (fun _ => PIdle) (fun _ => O) [] O (fun _ => []) (fun _ => []) (fun _ => []).
