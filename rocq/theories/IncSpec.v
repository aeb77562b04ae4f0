(** Vocabulary for the incrementer properties, independent of the code. *)
From Coq Require Import ZArith List Bool Lia.
From Verif Require Import Common Dec MapModel IncModel.
Import ListNotations.
Open Scope Z_scope.

(** The values an instance may use. *)
Definition in_class (m min max pos v : Z) : Prop := min <= v <= max /\ v mod m = pos.
(** Its smallest one. *)
Definition least_in_class (m min max pos v : Z) : Prop :=
  in_class m min max pos v /\ forall w, in_class m min max pos w -> v <= w.
(** [w] comes after [v]: the next larger one, the smallest one after the last. *)
Definition next_in_class (m min max pos v w : Z) : Prop :=
  in_class m min max pos w /\
  ((v < w /\ forall x, in_class m min max pos x -> x <= v \/ w <= x) \/
   (least_in_class m min max pos w /\ forall x, in_class m min max pos x -> x <= v)).

(** The ids given to messages of one topic, oldest first. *)
Definition emitted (topic : list Z) (outs : list inc_out) : list Z :=
  flat_map (fun o => match o with
                     | Emit t id _ => if str_eqb t topic then [id] else []
                     | _ => [] end) outs.
(** All output topics. *)
Definition out_topics (outs : list inc_out) : list (list Z) :=
  flat_map (fun o => match o with Emit _ _ nt => [nt] | _ => [] end) outs.

(** Consecutive elements are related. *)
Fixpoint linked {A} (R : A -> A -> Prop) (l : list A) : Prop :=
  match l with
  | x :: (y :: _) as r => R x y /\ linked R r
  | _ => True
  end.

Definition is_restart (o : inc_op) : bool := match o with Restart => true | _ => false end.
Definition is_lost (o : inc_op) : bool := match o with Subject _ _ DbLost => true | _ => false end.
Definition op_ok (o : inc_op) : Prop := match o with Initial _ id => 0 <= id < 2^64 | _ => True end.

(** Number of bits needed for the values [0..max]. *)
Definition width (max : Z) : Z := Z.log2_up (max + 1).
(** A prefix and a value put together. *)
Definition with_prefix (max prefix value : Z) : Z := prefix * 2 ^ width max + value.

(** An id an instance may emit: a value of its class under the configured prefix
    (any prefix if none is configured). *)
Definition valid_id (c : inc_config) (e : Z) : Prop :=
  exists p v, e = with_prefix (c_max c) p v /\ in_class (c_mod c) (c_min c) (c_max c) (c_pos c) v /\
    0 <= p /\ e < 2^64 /\ (0 < c_prefix c -> p = c_prefix c).
(** The id following [e]: same prefix, next value. *)
Definition follows (c : inc_config) (e e' : Z) : Prop :=
  exists p v v', e = with_prefix (c_max c) p v /\ e' = with_prefix (c_max c) p v' /\
    in_class (c_mod c) (c_min c) (c_max c) (c_pos c) v /\
    next_in_class (c_mod c) (c_min c) (c_max c) (c_pos c) v v'.

(** A DB holding 64 bit numbers. *)
Definition db_ok (d : list (list Z * Z)) : Prop := Forall (fun x => 0 <= snd x < 2^64) d.
