(** What the array functions are supposed to do, independent of array.c. *)
From Coq Require Import ZArith List Bool.
From Verif Require Import Common MsgModel TypeModel TypeSpec ArrayModel.
Import ListNotations.
Open Scope Z_scope.

(** Values an array message can carry, with fields in the range of the struct. *)
Definition array_value (v : value) : Prop :=
  packable v /\ byte (v_flags v) /\ bytes (v_tag v) /\ zlen (v_tag v) < 2^32 /\ 0 <= v_elements v < 2^32.

(** Octets needed on the wire: fourteen per value, the tags and the data. *)
Fixpoint wire_size (vs : list value) : Z :=
  match vs with
  | [] => 0
  | v :: r => 14 + zlen (v_tag v) + zlen (v_data v) + wire_size r
  end.

(** The tag is the given text; text ends at a NUL. *)
Definition tagged (tag : list Z) (v : value) : Prop := c_string (v_tag v) = c_string tag.

(** [v] is the first value of [vs] with the tag. *)
Definition first_tagged (vs : list value) (tag : list Z) (v : value) : Prop :=
  exists before after, vs = before ++ v :: after /\ tagged tag v /\ Forall (fun w => ~ tagged tag w) before.

(** A message whose stated size is that of its memory and whose topic fits. *)
Definition whole_array_message (m : rrr_msg_msg) : Prop :=
  MSG_CLASS m = 11 /\ bytes (mm_data m) /\ msg_size (mm_head m) = 30 + zlen (mm_data m) /\
  30 + zlen (mm_data m) < 2^32 /\ 0 <= mm_topic_length m <= zlen (mm_data m).

(** [rs] are regions of a block of [size] octets from [from] on, in order, apart
    from each other, each preceded by its head of fourteen octets. *)
Fixpoint regions (from size : Z) (rs : list raw) : Prop :=
  match rs with
  | [] => from <= size
  | r :: l =>
      from + 14 = r_pos r /\ 0 <= r_tag_length r /\ 0 <= r_total_length r /\
      r_pos r + r_tag_length r + r_total_length r <= size /\
      regions (r_pos r + r_tag_length r + r_total_length r) size l
  end.

(** The [i]-th 64 bit number stored in a block. *)
Definition stored_number (d : list Z) (i : Z) (x : Z) : Prop :=
  exists before after, d = before ++ rev (be_enc 8 x) ++ after /\ zlen before = 8 * i /\ 0 <= x < 2^64.

(** A callback that notes the values it is shown and answers as [decide] says. *)
Definition visit (decide : list raw -> raw -> Z) (seen : list raw) (r : raw) : res (list raw * Z) :=
  ROk (seen ++ [r], decide seen r).

(** Values that can be written in their textual or binary export form. *)
Definition exportable (v : value) : Prop :=
  packable v /\ v_type v <> TYPE_FIXP /\ 2 + 2 * zlen (v_data v) < 2^32 /\
  (v_type v = TYPE_HDLC -> 2 + 2 * zlen (v_data v) <= 4096).

(** The value has one of the tags; no list of tags stands for all values. *)
Definition selected (tags : option (list (list Z))) (v : value) : Prop :=
  match tags with None => True | Some ts => exists tag, In tag ts /\ tagged tag v end.

(** [l] are the elements of [v]: as many as it counts, of equal size, and together
    the data of [v]. *)
Definition split_of (v : value) (l : list value) : Prop :=
  zlen l = v_elements v /\ concat (map v_data l) = v_data v /\
  Forall (fun w => v_type w = v_type v /\ v_flags w = v_flags v /\ v_elements w = 1 /\ v_tag w = [] /\
                   zlen (v_data w) * v_elements v = zlen (v_data v)) l.
