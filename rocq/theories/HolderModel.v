(** Reference counts and locks of message holders which threads write to and read from a
    slot: src/lib/message_holder/message_holder.c and message_holder_slot.c.

    A state has any number of threads; a label says which thread goes on with what.
    A step which must wait (for a lock, or for the slot to be empty) leaves the state as
    it is.  Fetching and changing the counter of a holder is one step, the counter is
    protected by the lock of the holder.  Simplified: counters do not overflow (32 bit
    signed), one slot. *)
From Coq Require Import ZArith List Bool.
From Verif Require Import Common SlotModel.
Import ListNotations.
Open Scope Z_scope.

(** message_holder_struct.h:39-77 [struct rrr_msg_holder]: the usercount and the
    recursive lock with its owner and depth. *)
Record holder : Type := mk_holder { h_refs : Z; h_owner : option nat; h_depth : Z }.
(** message_holder.c:232-301 [rrr_msg_holder_new] *)
Definition holder_new : holder := mk_holder 1 None 0.

(** Where a thread is: not within a write; in rrr_msg_holder_slot_write or _write_clone
    with the new holder made; in rrr_msg_holder_slot_write_incref (message_holder_slot.c:469-486)
    between the write and the incref; in rrr_msg_holder_slot_write_from_collection
    (message_holder_slot.c:488-507) between the write and the shift. *)
Inductive pc : Type := Idle | Writing (e : Z) | Increfing (e : Z) | Shifting (e : Z).
(** [t_owned]: the references which the thread has; [t_coll]: the holders in its
    collection, one reference for each. *)
Record thread : Type := mk_thread { t_pc : pc; t_owned : list Z; t_coll : list Z }.
Record machine : Type := mk_machine {
  m_heap : Z -> option holder; m_next : Z; m_slot : slot; m_threads : list thread }.

Definition hupd (heap : Z -> option holder) (e : Z) (h : option holder) : Z -> option holder :=
  fun x => if x =? e then h else heap x.
Fixpoint set_nth (l : list thread) (i : nat) (x : thread) : list thread :=
  match l, i with
  | [], _ => []
  | _ :: r, O => x :: r
  | y :: r, S i => y :: set_nth r i x
  end.
Fixpoint remove_one (e : Z) (l : list Z) : list Z :=
  match l with
  | [] => []
  | x :: r => if x =? e then r else x :: remove_one e r
  end.
Definition mem (e : Z) (l : list Z) : bool := existsb (fun x => x =? e) l.

(** message_holder.c:58-75 [rrr_msg_holder_lock]: it waits while another thread has the
    lock. *)
Definition lockable (h : holder) (t : nat) : bool :=
  match h_owner h with None => true | Some o => Nat.eqb o t end.
(** message_holder.c:152-174 [rrr_msg_holder_decref_while_locked_and_unlock] after
    [rrr_msg_holder_lock], 209-217 [rrr_msg_holder_decref]: freed when it reaches 0. *)
Definition decref (h : holder) : option holder :=
  if h_refs h - 1 =? 0 then None else Some (mk_holder (h_refs h - 1) (h_owner h) (h_depth h)).
Definition unlocked (h : holder) : holder :=
  if h_depth h <=? 1 then mk_holder (h_refs h) None 0 else mk_holder (h_refs h) (h_owner h) (h_depth h - 1).

Inductive label : Type :=
| LMake                                  (** make a holder and own it *)
| LLock (e : Z) | LUnlock (e : Z)        (** by a thread which owns a reference *)
| LRelease (e : Z)                       (** drop an owned reference (and the lock, if held) *)
| LNew | LClone (src : Z)                (** slot_write, slot_write_clone up to the slot lock *)
| LCommit (store : bool) | LCancel       (** the rest of these, or cancelled while waiting *)
| LIncref (e : Z) | LIncref2             (** slot_write_incref *)
| LCollect (e : Z) | LColl | LShift      (** append to the collection; slot_write_from_collection *)
| LRead (self : Z) (keep_ref : bool) (a : answer). (** slot_read; the callback may keep the clone *)

Definition with_thread (m : machine) (t : nat) (th : thread) : machine :=
  mk_machine (m_heap m) (m_next m) (m_slot m) (set_nth (m_threads m) t th).
Definition with_heap (m : machine) (e : Z) (h : option holder) : machine :=
  mk_machine (hupd (m_heap m) e h) (m_next m) (m_slot m) (m_threads m).
Definition with_slot (m : machine) (s : slot) : machine :=
  mk_machine (m_heap m) (m_next m) s (m_threads m).
Definition alloc (m : machine) : machine :=
  mk_machine (hupd (m_heap m) (m_next m) (Some holder_new)) (m_next m + 1) (m_slot m) (m_threads m).

Definition step (m : machine) (t : nat) (l : label) : res machine :=
  match nth_error (m_threads m) t with
  | None => Ok m
  | Some th =>
      match t_pc th, l with
      | Idle, LMake => Ok (with_thread (alloc m) t (mk_thread Idle (m_next m :: t_owned th) (t_coll th)))
      | Idle, LLock e =>
          if negb (mem e (t_owned th)) then Ok m
          else match m_heap m e with
               | None => Uaf
               | Some h => if lockable h t then Ok (with_heap m e (Some (mk_holder (h_refs h) (Some t) (h_depth h + 1)))) else Ok m
               end
      | Idle, LUnlock e =>
          if negb (mem e (t_owned th)) then Ok m
          else match m_heap m e with
               | None => Uaf
               | Some h => match h_owner h with
                           | Some o => if Nat.eqb o t then Ok (with_heap m e (Some (unlocked h))) else Ok m
                           | None => Ok m
                           end
               end
      | Idle, LRelease e =>
          if negb (mem e (t_owned th)) then Ok m
          else match m_heap m e with
               | None => Uaf
               | Some h => if lockable h t && (h_depth h <=? 1)
                           then Ok (with_thread (with_heap m e (decref (unlocked h))) t (mk_thread Idle (remove_one e (t_owned th)) (t_coll th)))
                           else Ok m
               end
      | Idle, LNew => Ok (with_thread (alloc m) t (mk_thread (Writing (m_next m)) (t_owned th) (t_coll th)))
      | Idle, LClone src =>
          if negb (mem src (t_owned th)) then Ok m
          else match m_heap m src with
               | None => Uaf
               | Some _ => Ok (with_thread (alloc m) t (mk_thread (Writing (m_next m)) (t_owned th) (t_coll th)))
               end
      | Writing e, LCommit store =>
          match m_heap m e with
          | None => Uaf
          | Some h =>
              match sl_entry (m_slot m), slot_write (m_slot m) e store with
              | Some _, _ => Ok m
              | None, (s, true) => Ok (with_thread (with_slot m s) t (mk_thread Idle (t_owned th) (t_coll th)))
              | None, (_, false) =>
                  if lockable h t then Ok (with_thread (with_heap m e (decref h)) t (mk_thread Idle (t_owned th) (t_coll th))) else Ok m
              end
          end
      | Writing e, LCancel =>
          match m_heap m e with
          | None => Uaf
          | Some h => if lockable h t then Ok (with_thread (with_heap m e (decref h)) t (mk_thread Idle (t_owned th) (t_coll th))) else Ok m
          end
      | Idle, LIncref e =>
          if negb (mem e (t_owned th)) then Ok m
          else match slot_write (m_slot m) e true with
               | (s, true) => Ok (with_thread (with_slot m s) t (mk_thread (Increfing e) (t_owned th) (t_coll th)))
               | (_, false) => Ok m
               end
      | Increfing e, LIncref2 =>
          match m_heap m e with
          | None => Uaf
          | Some h => if lockable h t
                      then Ok (with_thread (with_heap m e (Some (mk_holder (h_refs h + 1) (h_owner h) (h_depth h)))) t (mk_thread Idle (t_owned th) (t_coll th)))
                      else Ok m
          end
      | Idle, LCollect e =>
          if negb (mem e (t_owned th)) then Ok m
          else Ok (with_thread m t (mk_thread Idle (remove_one e (t_owned th)) (t_coll th ++ [e])))
      | Idle, LColl =>
          match t_coll th with
          | [] => Ok m
          | e :: _ =>
              match slot_write (m_slot m) e true with
              | (s, true) => Ok (with_thread (with_slot m s) t (mk_thread (Shifting e) (t_owned th) (t_coll th)))
              | (_, false) => Ok m
              end
          end
      | Shifting e, LShift =>
          (** util/linked_list.h:199-209 [RRR_LL_SHIFT]: unless it is the last one, the
              next pointer is read from the first node *)
          match t_coll th with
          | _ :: (_ :: _) as rest =>
              match m_heap m e with
              | None => Uaf
              | Some _ => Ok (with_thread m t (mk_thread Idle (t_owned th) (tl (t_coll th))))
              end
          | _ => Ok (with_thread m t (mk_thread Idle (t_owned th) []))
          end
      | Idle, LRead self keep_ref a =>
          match slot_read (m_slot m) self true a with
          | Bug => Bug
          | Uaf => Uaf
          | Ok (s, RGiven e taken _ _) =>
              match m_heap m e with
              | None => Uaf
              | Some h =>
                  if lockable h t then
                    let m1 := with_slot (if keep_ref then with_thread (alloc m) t (mk_thread Idle (m_next m :: t_owned th) (t_coll th)) else m) s in
                    Ok (if taken then with_heap m1 e (decref h) else m1)
                  else Ok m
              end
          | Ok (s, _) => Ok (with_slot m s)
          end
      | _, _ => Ok m
      end
  end.

Definition initial (readers threads : nat) : machine :=
  mk_machine (fun _ => None) 0 (reader_count_set slot_new readers) (repeat (mk_thread Idle [] []) threads).

(** A schedule. *)
Fixpoint run (m : machine) (ls : list (nat * label)) : res machine :=
  match ls with
  | [] => Ok m
  | (t, l) :: r => match step m t l with Ok m' => run m' r | Bug => Bug | Uaf => Uaf end
  end.
