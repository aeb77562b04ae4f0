(** Websocket frames and messages after RFC 6455, sections 5.2 to 5.5. *)
From Coq Require Import ZArith List Bool.
From Verif Require Import Common.
Import ListNotations.
Open Scope Z_scope.

(** A frame: last one of a message, the three reserved bits as a number, opcode, masking key if
    masked, application data. *)
Record wframe : Type := mk_wframe { wf_fin : bool; wf_rsv : Z; wf_op : Z; wf_key : option Z; wf_data : list Z }.

(** 5.3: octet i is combined with octet i modulo 4 of the key. *)
Definition key_octet (key i : Z) : Z := key / 2^(8 * (3 - i mod 4)) mod 256.
Definition masked (key : Z) (data out : list Z) : Prop :=
  zlen out = zlen data /\ forall i, 0 <= i < zlen data -> nth (Z.to_nat i) out 0 = Z.lxor (nth (Z.to_nat i) data 0) (key_octet key i).
(** 5.2: length in 7 bits, or 126 and 16 bits, or 127 and 64 bits of which the first is 0 (forms
    longer than needed included). *)
Definition length_form (n len7 : Z) (ext : list Z) : Prop :=
  (n < 126 /\ len7 = n /\ ext = []) \/
  (n < 2^16 /\ len7 = 126 /\ ext = be_enc 2 n) \/
  (n < 2^63 /\ len7 = 127 /\ ext = be_enc 8 n).
Definition wire (f : wframe) (l : list Z) : Prop :=
  exists len7 ext key body,
    length_form (zlen (wf_data f)) len7 ext /\
    match wf_key f with
    | None => key = [] /\ body = wf_data f
    | Some k => 0 <= k < 2^32 /\ key = be_enc 4 k /\ masked k (wf_data f) body
    end /\
    0 <= wf_rsv f < 8 /\ 0 <= wf_op f < 16 /\
    l = [128 * (if wf_fin f then 1 else 0) + 16 * wf_rsv f + wf_op f; 128 * (match wf_key f with Some _ => 1 | None => 0 end) + len7] ++ ext ++ key ++ body.

(** 5.4, 5.5: messages are text or binary in one or more fragments, and control frames. *)
Inductive item : Type :=
| Data (binary : bool) (fragments : list (list Z)) | Ping (data : list Z) | Pong (data : list Z).
Definition opcode (binary : bool) : Z := if binary then 2 else 1.
Fixpoint fragments (op : Z) (ps : list (list Z)) (fs : list wframe) : Prop :=
  match ps, fs with
  | [p], [f] => wf_fin f = true /\ wf_op f = op /\ wf_data f = p
  | p :: ps, f :: fs => wf_fin f = false /\ wf_op f = op /\ wf_data f = p /\ fragments 0 ps fs
  | _, _ => False
  end.
Definition control_frame (op : Z) (data : list Z) (fs : list wframe) : Prop :=
  zlen data <= 125 /\ exists f, fs = [f] /\ wf_fin f = true /\ wf_op f = op /\ wf_data f = data.
Definition sent (i : item) (fs : list wframe) : Prop :=
  match i with
  | Data b ps => fragments (opcode b) ps fs
  | Ping d => control_frame 9 d fs
  | Pong d => control_frame 10 d fs
  end.
(** The messages for the owner: opcode and data *)
Definition messages (is : list item) : list (Z * list Z) :=
  flat_map (fun i => match i with Data b ps => [(opcode b, concat ps)] | _ => [] end) is.
Definition pings (is : list item) : list (list Z) := flat_map (fun i => match i with Ping d => [d] | _ => [] end) is.
Definition small (is : list item) : Prop :=
  Forall (fun i => match i with Data _ ps => Forall (fun p => zlen p < 2^32) ps /\ zlen (concat ps) < 2^64 | _ => True end) is.
