(** What averages are supposed to be. *)
From Coq Require Import Strings.String.
From Coq Require Import ZArith List Bool.
From Verif Require Import Common MsgModel MsgSpec MsgProofs TypeModel ArrayModel ArraySpec ConvSpec AvgModel.
Import ListNotations.
Open Scope Z_scope.

(** The values in an array message. *)
Definition contents (m : rrr_msg_msg) (vs : list value) : Prop := forall after, append_to_array after m [] = ROk (vs, 0).
(** The first value with the tag is numbers, and this is the first of them. *)
Definition number (vs : list value) (tag : string) (x : Z) : Prop :=
  exists v, first_tagged vs (str_bytes tag) v /\ In (v_type v) integer_types /\ stored_number (v_data v) 0 x.

Record reading : Type := mk_reading { r_value : Z; r_from : Z; r_to : Z }.
(** The message has a measurement. *)
Definition has_reading (m : rrr_msg_msg) (r : reading) : Prop :=
  exists vs, contents m vs /\ number vs "measurement" (r_value r) /\ number vs "timestamp_from" (r_from r) /\ number vs "timestamp_to" (r_to r).
(** The measurements in messages. *)
Inductive readings : list rrr_msg_msg -> list reading -> Prop :=
| readings_nil : readings [] []
| readings_one m r ms rs : has_reading m r -> readings ms rs -> readings (m :: ms) (r :: rs)
| readings_none m ms rs : (forall r, ~ has_reading m r) -> readings ms rs -> readings (m :: ms) rs.

Definition total (rs : list reading) : Z := fold_right Z.add 0 (map r_value rs).
Definition greatest (x : Z) (l : list Z) : Prop := In x l /\ Forall (fun y => y <= x) l.
Definition least (x : Z) (l : list Z) : Prop := In x l /\ Forall (fun y => x <= y) l.
(** The values which tell about measurements, in the order they are in the message. *)
Definition summary (rs : list reading) (from to average max min : Z) : Prop :=
  rs <> [] /\ least from (map r_from rs) /\ greatest to (map r_to rs) /\ average = total rs / zlen rs /\
  greatest max (map r_value rs) /\ least min (map r_value rs).
Definition unsigned (tag : string) (x : Z) : value := mk_value TYPE_H 0 (str_bytes tag) 8 1 (rev (be_enc 8 x)).

(** Measurements which have arrived since the last interval passed. *)
Fixpoint since (os : list op) (l : list rrr_msg_msg) : list rrr_msg_msg :=
  match os with
  | [] => l
  | Receive m :: r => since r (if is_measurement m then l ++ [m] else l)
  | Interval _ _ :: r => since r []
  end.

Definition topic_of_config (c : config) : list Z := match g_topic c with Some t => t | None => [] end.
(** A message which can be read: numbers have octets, and there is room for the topic. *)
Definition readable (c : config) (m : rrr_msg_msg) : Prop :=
  mm_consistent m /\ 30 + zlen (topic_of_config c) + zlen (MSG_DATA m) < 2^32 /\
  (is_measurement m = true -> exists vs, contents m vs /\ Forall (fun v => bytes (v_data v) /\ (In (v_type v) integer_types -> 8 <= zlen (v_data v))) vs).
Definition topic_fits (c : config) : Prop := zlen (topic_of_config c) < 2^16 /\ bytes (topic_of_config c).
(** All messages which have arrived. *)
Fixpoint received (os : list op) : list rrr_msg_msg := match os with [] => [] | Receive m :: r => m :: received r | Interval _ _ :: r => received r end.
