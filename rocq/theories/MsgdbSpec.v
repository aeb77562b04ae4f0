(** What a message database is: a map from topics to messages. *)
From Coq Require Import ZArith List Bool.
From Verif Require Import Common MsgModel MsgProofs MsgdbModel.
Import ListNotations.
Open Scope Z_scope.

Definition db : Type := list Z -> option rrr_msg_msg.
Definition empty : db := fun _ => None.
Definition assign (d : db) (topic : list Z) (v : option rrr_msg_msg) : db :=
  fun u => if list_eq_dec Z.eq_dec topic u then v else d u.

(** Types of requests *)
Definition is_get (m : rrr_msg_msg) : Prop := MSG_TYPE m = 3.
Definition is_put (m : rrr_msg_msg) : Prop := MSG_TYPE m = 4.
Definition is_del (m : rrr_msg_msg) : Prop := MSG_TYPE m = 5.
(** A message which was put is given back as it was, but as a message of type MSG (1). *)
Definition plain (m : rrr_msg_msg) : rrr_msg_msg :=
  mk_mm (mm_head m) (mm_timestamp m) (mm_type_and_class m / 16 * 16 + 1) (mm_version m) (mm_topic_length m) (mm_data m).

Definition answer (d : db) (m : rrr_msg_msg) : Z * list reply :=
  if mm_topic_length m =? 0 then (0, [RNack])
  else if MSG_TYPE m =? 3 then
    match d (MSG_TOPIC m) with
    | Some p => (0, [RMsg (msg_msg_to_network (plain p))])
    | None => (0, [RNack])
    end
  else if (MSG_TYPE m =? 4) || (MSG_TYPE m =? 5) then (0, [RAck])
  else (SOFT, []).
Definition effect (d : db) (m : rrr_msg_msg) : db :=
  if mm_topic_length m =? 0 then d
  else if MSG_TYPE m =? 4 then assign d (MSG_TOPIC m) (Some m)
  else if MSG_TYPE m =? 5 then assign d (MSG_TOPIC m) None
  else d.

(** A run: requests, the answers sent, the contents before and after.  If the process is killed
    in a request, its topic has what it had, or nothing, or the message which was put. *)
Inductive ran : db -> list rrr_msg_msg -> list (Z * list reply) -> db -> Prop :=
| R_stop : forall d ms, ran d ms [] d
| R_next : forall d m ms a d', ran (effect d m) ms a d' -> ran d (m :: ms) (answer d m :: a) d'
| R_put : forall d m ms, mm_topic_length m <> 0 -> is_put m -> ran d (m :: ms) [] (assign d (MSG_TOPIC m) (Some m))
| R_lost : forall d m ms, mm_topic_length m <> 0 -> is_put m \/ is_del m -> ran d (m :: ms) [] (assign d (MSG_TOPIC m) None).
(** Runs one after the other, from the contents [d] to the contents [e] *)
Fixpoint history (d : db) (rs : list a_run) (answers : list (list (Z * list reply))) (e : db) : Prop :=
  match rs, answers with
  | [], [] => e = d
  | (_, life, ms) :: rs, a :: answers =>
      exists d', ran d ms a d' /\ (life = None -> length a = length ms) /\ history d' rs answers e
  | _, _ => False
  end.

(** Requests as they arrive: messages as the receiver lets them pass.  Topics with NUL are
    excepted, see MsgdbProps.v. *)
Definition request_ok (m : rrr_msg_msg) : Prop := mm_ok m /\ ~ In 0 (MSG_TOPIC m).
Definition runs_ok (rs : list a_run) : Prop := Forall (fun r => (fst (fst r) <= 4)%nat /\ Forall request_ok (snd r)) rs.
Definition topics (rs : list a_run) : list (list Z) := flat_map (fun r => map MSG_TOPIC (snd r)) rs.
(** Digests: 32 octets, and different topics have different ones *)
Definition digest_ok (H : list Z -> list Z) (ts : list (list Z)) : Prop :=
  (forall t, bytes (H t) /\ zlen (H t) = 32) /\ (forall t u, In t ts -> In u ts -> H t = H u -> t = u).
(** The directory of the database is there and empty, or it is not there but can be made *)
Definition fresh (f : fs) (dir : path) : Prop :=
  NoDup (map fst f) /\ (forall q, q <> [] -> lookup f (dir ++ q) = None) /\
  (lookup f dir = Some Dir \/ lookup f dir = None /\ lookup f (removelast dir) = Some Dir).

(** ** Iterations: the age of a message, in microseconds and seconds *)
Definition older (now age : Z) (m : rrr_msg_msg) : bool := mm_timestamp m + age * 1000000 <? now.
(** What tidying leaves, and what an index of the topics [ts] is *)
Definition tidied (now age : Z) (d : db) : db :=
  fun t => match d t with Some m => if older now age m then None else Some m | None => None end.
Definition index (now age : Z) (d : db) (ts : list (list Z)) : list reply :=
  flat_map (fun t => match d t with
                     | Some m => if older now age m then [RMsg (msg_msg_to_network (plain m))] else []
                     | None => []
                     end) ts.
(** Tidying which was cut short *)
Definition part_tidied (now age : Z) (d e : db) : Prop :=
  forall t, e t = d t \/ e t = None /\ exists m, d t = Some m /\ older now age m = true.
(** How often the clock is looked at: for every directory, its entries, "." and ".." *)
Fixpoint looks (f : fs) (dir : path) (dirs : list path) : nat :=
  match dirs with [] => 0 | d :: r => 3 + length (children f (dir ++ d)) + looks f dir r end.
