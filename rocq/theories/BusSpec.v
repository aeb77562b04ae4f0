(** The Modbus protocol and what a client of it does. *)
From Coq Require Import ZArith List Bool.
From Verif Require Import Common BusTypes.
Import ListNotations.
Open Scope Z_scope.

(** Numbers are two octets, the high one first. *)
Definition word16 (v : Z) : list Z := [v / 256; v mod 256].

(** The protocol data unit of a request. *)
Definition pdu_of (r : request) : list Z :=
  match r with
  | Read_coils a n => [1] ++ word16 a ++ word16 n
  | Read_discrete_inputs a n => [2] ++ word16 a ++ word16 n
  | Read_holding_registers a n => [3] ++ word16 a ++ word16 n
  | Read_input_registers a n => [4] ++ word16 a ++ word16 n
  | Write_register a contents => [6] ++ word16 a ++ contents
  | Write_registers a n contents => [16] ++ word16 a ++ word16 n ++ [2 * n] ++ contents
  end.
Definition code_of (r : request) : Z :=
  match r with
  | Read_coils _ _ => 1 | Read_discrete_inputs _ _ => 2 | Read_holding_registers _ _ => 3 | Read_input_registers _ _ => 4
  | Write_register _ _ => 6 | Write_registers _ _ _ => 16
  end.
Definition request_ok (r : request) : Prop :=
  match r with
  | Read_coils a n | Read_discrete_inputs a n => 0 <= a < 65536 /\ 1 <= n <= 2000
  | Read_holding_registers a n | Read_input_registers a n => 0 <= a < 65536 /\ 1 <= n <= 125
  | Write_register a contents => 0 <= a < 65536 /\ zlen contents = 2
  | Write_registers a n contents => 0 <= a < 65536 /\ 1 <= n <= 123 /\ zlen contents = 2 * n
  end.

(** A unit with a header of its identifier, protocol 0, its length and that of the unit identifier,
    and the unit identifier. *)
Definition frame (id : Z) (pdu : list Z) : list Z := word16 id ++ [0; 0] ++ word16 (zlen pdu + 1) ++ [255] ++ pdu.

(** Octets which begin with a unit of the other side; protocol and unit identifier do not matter. *)
Definition framed (octets : list Z) (id : Z) (pdu : list Z) : Prop :=
  exists id1 id0 p1 p0 l1 l0 u rest, octets = [id1; id0; p1; p0; l1; l0; u] ++ pdu ++ rest /\
    id = 256 * id1 + id0 /\ 256 * l1 + l0 = 1 + zlen pdu.
(** More octets are needed: for the header, or for the length it gives. *)
Definition unfinished (octets : list Z) : Prop :=
  zlen octets < 7 \/
  exists id1 id0 p1 p0 l1 l0 u rest, octets = [id1; id0; p1; p0; l1; l0; u] ++ rest /\ 1 + zlen rest < 256 * l1 + l0.

(** Octets of the values asked for: coils and inputs are bits. *)
Definition values_size (r : request) : option Z :=
  match r with
  | Read_coils _ n | Read_discrete_inputs _ n => Some ((n + 7) / 8)
  | Read_holding_registers _ n | Read_input_registers _ n => Some (2 * n)
  | _ => None
  end.
(** The unit is an answer to the request. *)
Inductive response (r : request) : list Z -> answer -> Prop :=
| R_failed : forall e, response r [code_of r + 128; e] (Failed e)
| R_values : forall n vs, values_size r = Some n -> zlen vs = n -> response r (code_of r :: n :: vs) (Values vs)
| R_written : forall a1 a0 c1 c0, code_of r = 6 -> response r [6; a1; a0; c1; c0] (Written (256 * a1 + a0) [c1; c0])
| R_written_many : forall a1 a0 n1 n0, code_of r = 16 -> response r [16; a1; a0; n1; n0] (Written_many (256 * a1 + a0) (256 * n1 + n0)).

(** What has been asked, in order, how many of these have been sent and which are done with. *)
Record history : Type := mk_history { h_asked : list (request * Z); h_sent : nat; h_done : nat -> bool }.
Definition history_new : history := mk_history [] 0 (fun _ => false).
Definition asked (h : history) (k : nat) (r : request) (data : Z) : Prop := nth_error (h_asked h) k = Some (r, data).
Definition outstanding (h : history) (k : nat) : Prop := (k < h_sent h)%nat /\ h_done h k = false.
Definition id_of (k : nat) : Z := Z.of_nat k mod 65536.
Definition finished (h : history) (k : nat) : history := mk_history (h_asked h) (h_sent h) (fun i => if Nat.eqb i k then true else h_done h i).
Definition given_back (data : Z) : list call := if data =? 0 then [] else [Destroy data].

(** Steps, with what is returned: 0 is success, 2 an error, 4 to try again and 8 that there is
    nothing to do. *)
Inductive step (h : history) : op -> out -> history -> Prop :=
| S_ask : forall r data now, (forall k, (k + 32)%nat = length (h_asked h) -> h_done h k = true) ->
    step h (Ask r data now) (Asked 0 []) (mk_history (h_asked h ++ [(r, data)]) (h_sent h) (h_done h))
| S_full : forall r data now k ret, (k + 32)%nat = length (h_asked h) -> h_done h k = false -> ret = 4 \/ ret = 2 /\ (k < h_sent h)%nat ->
    step h (Ask r data now) (Asked ret [Destroy data]) h
| S_send : forall now r data, asked h (h_sent h) r data ->
    step h (Send now) (Sent 0 (frame (id_of (h_sent h)) (pdu_of r))) (mk_history (h_asked h) (S (h_sent h)) (h_done h))
| S_idle : forall now, h_sent h = length (h_asked h) -> step h (Send now) (Sent 8 []) h
| S_unfinished : forall octets before ret, unfinished octets -> step h (Receive octets before ret) (Received 4 (zlen octets) []) h
| S_answer : forall octets before ret k r data pdu a, framed octets (id_of k) pdu -> outstanding h k -> asked h k r data -> response r pdu a ->
    step h (Receive octets before ret) (Received ret (if ret =? 0 then 7 + zlen pdu else zlen octets) (Answered (code_of r) (id_of k) a data :: given_back data)) (finished h k)
| S_short : forall octets before ret k r data e, framed octets (id_of k) [code_of r + 128] -> outstanding h k -> asked h k r data -> e = nth 1 before 0 ->
    step h (Receive octets before ret) (Received ret (if ret =? 0 then 8 else zlen octets) (Answered (code_of r) (id_of k) (Failed e) data :: given_back data)) (finished h k)
| S_wrong : forall octets before ret k r data pdu calls, framed octets (id_of k) pdu -> outstanding h k -> asked h k r data -> (forall a, ~ response r pdu a) -> pdu <> [code_of r + 128] -> pdu <> [] -> zlen pdu <= 252 ->
    calls = [] \/ calls = given_back data ->
    step h (Receive octets before ret) (Received 2 (zlen octets) calls) (finished h k)
| S_unknown : forall octets before ret id pdu, framed octets id pdu -> (forall k, outstanding h k -> id_of k <> id) ->
    step h (Receive octets before ret) (Received 2 (zlen octets) []) h
| S_bad : forall octets before ret, (forall id pdu, framed octets id pdu -> pdu = [] \/ zlen pdu > 252) -> ~ unfinished octets ->
    step h (Receive octets before ret) (Received 2 (zlen octets) []) h.
Inductive steps : history -> list op -> list out -> history -> Prop :=
| Steps_nil : forall h, steps h [] [] h
| Steps_cons : forall h o x h' os xs h'', step h o x h' -> steps h' os xs h'' -> steps h (o :: os) (x :: xs) h''.

(** What users may do: ask for what can be asked for, and give octets of any kind; the clock is not
    at 0. *)
Definition op_ok (o : op) : Prop :=
  match o with
  | Ask r data now => request_ok r /\ 0 <= now < 2^64
  | Send now => 0 < now < 2^64
  | Receive octets before ret => bytes octets /\ bytes before /\ length before = 252%nat
  end.

(** The requests which were taken, what was sent and which requests were answered. *)
Definition taken1 (o : op) (x : out) : list (request * Z) := match o, x with Ask r data _, Asked 0 _ => [(r, data)] | _, _ => [] end.
Fixpoint taken (os : list op) (xs : list out) : list (request * Z) :=
  match os, xs with o :: os, x :: xs => taken1 o x ++ taken os xs | _, _ => [] end.
Definition sent1 (x : out) : list (list Z) := match x with Sent 0 octets => [octets] | _ => [] end.
Definition sent (xs : list out) : list (list Z) := flat_map sent1 xs.
Definition answered1 (x : out) : list Z :=
  match x with Received _ _ calls => flat_map (fun c => match c with Answered _ _ _ data => [data] | Destroy _ => [] end) calls | _ => [] end.
Definition answered (xs : list out) : list Z := flat_map answered1 xs.
Definition request_of (h : history) (k : nat) : request := fst (nth k (h_asked h) (Read_coils 0 0, 0)).
