(** What the message broker is relied on for. *)
From Coq Require Import ZArith List Bool PeanoNat.
From Verif Require Import Common BrokModel.
Import ListNotations.
Open Scope Z_scope.

(** A configuration: who reads from whom is known on both sides; an instance which has several
    readers duplicates its messages, and has a buffer for each of them. *)
Record ok_net (N : net) : Prop := mk_ok_net {
  ok_max : (1 <= n_max N)%nat;
  ok_sym : forall a r, In r (n_readers N a) <-> In a (n_senders N r);
  ok_readers : forall a, NoDup (n_readers N a);
  ok_senders : forall r, NoDup (n_senders N r);
  ok_slots : forall a, match n_split N a with
                       | Some k => (length (n_readers N a) <= k)%nat
                       | None => (length (n_readers N a) <= 1)%nat
                       end }.
(** The messages which [r] has got from [a], in order *)
Definition got (s : state) (r a : nat) : list Z :=
  map (fun x => e_msg (snd x)) (filter (fun x => (fst x =? a)%nat) (s_log s r)).
(** [l] is the beginning of [m] *)
Definition begins {A : Type} (l m : list A) : Prop := exists t, m = l ++ t.
(** How many messages there are for [r] which it has not got *)
Fixpoint total (l : list nat) : nat := match l with [] => O | x :: t => (x + total t)%nat end.
Definition unread (N : net) (s : state) (r : nat) : nat :=
  (total (map (fun a => length (s_written s a)) (n_senders N r)) - total (map (fun a => length (got s r a)) (n_senders N r)))%nat.
(** The amount of the poll going on *)
Definition amount (s : state) (r : nat) : nat :=
  match s_poll s r with
  | PIdle => O
  | PAt n _ | PFill n _ _ _ | PFilling n _ _ _ _ _ _ | PTake n _ _ _ | PRead n _ _ _ _ _ _ => n
  end.
(** Events which [r] has, will get, or is using *)
Definition events (s : state) (r : nat) : nat := (s_pending s r + count_occ Nat.eq_dec (s_unsent s) r + amount s r)%nat.
(** Nothing goes on any more: nobody polls and there are no events. *)
Definition at_rest (s : state) : Prop := s_unsent s = [] /\ forall r, s_poll s r = PIdle /\ s_pending s r = O.
(** What [r] does itself, and what does not write *)
Definition ops_of (r : nat) (o : op) : Prop := match o with Tell k | Poll k _ | Step k => k = r | _ => False end.
Definition no_write (o : op) : Prop := match o with New _ _ _ | Forward _ _ _ => False | _ => True end.
(** No instance reads from itself (instances.c:570-580). *)
Definition loopless (N : net) : Prop := forall r, ~ In r (n_senders N r).
(** With backstop, messages made by [r] are not for [r]. *)
Definition kept (N : net) (r : nat) (x : nat * entry) : bool := negb (n_backstop N r && (e_origin (snd x) =? r)%nat).
