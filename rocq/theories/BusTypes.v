(** What users of the Modbus client give it and get from it. *)
From Coq Require Import ZArith List.
Import ListNotations.
Open Scope Z_scope.

(** Addresses, amounts and contents of registers; two octets are one register. *)
Inductive request : Type :=
| Read_coils (address amount : Z)
| Read_discrete_inputs (address amount : Z)
| Read_holding_registers (address amount : Z)
| Read_input_registers (address amount : Z)
| Write_register (address : Z) (contents : list Z)
| Write_registers (address amount : Z) (contents : list Z).

Inductive answer : Type :=
| Failed (exception : Z)
| Values (octets : list Z)
| Written (address : Z) (contents : list Z)
| Written_many (address amount : Z).

(** Calls of functions of the user.  [data] is the pointer the user has tied to the request. *)
Inductive call : Type :=
| Answered (code id : Z) (a : answer) (data : Z)
| Destroy (data : Z).

(** Calls by the user.  [now] is the time; [before] is what was on the stack where the frame is put;
    [ret] is what the function of the user which takes the answer returns. *)
Inductive op : Type :=
| Ask (r : request) (data now : Z)
| Send (now : Z)
| Receive (octets before : list Z) (ret : Z).
Inductive out : Type :=
| Asked (ret : Z) (calls : list call)
| Sent (ret : Z) (octets : list Z)
| Received (ret taken : Z) (calls : list call).
