(** C57: environment files. *)
From Coq Require Import Strings.String.
From Coq Require Import ZArith List Bool Lia.
From Verif Require Import Common ParseModel ParseSpec EnvModel EnvSpec EnvProofs.
Import ListNotations.
Open Scope Z_scope.

Definition b := str_bytes.

(** C57: for every file the variables set are those of its lines, in order, up to the first line
    in error, unless the last line is a comment without line end.  Nothing outside the file is
    read and the program does not abort. *)
Theorem env_exact : forall d, ~ In 0 d -> ~ comment_last d -> env_parse d = Ok (file_meaning (lines d)).
Proof. exact env_ok. Qed.
Print Assumptions env_exact.
Example env_exact_ex :
  let d := b "
  # note
A = b c  

 FLAG 	
X==1
=odd
" in
  file_meaning (lines d) = (0, [(b "A", b "b c"); (b "FLAG", b "1"); (b "X", b "=1"); (b "=odd", b "1")]) /\ ~ In 0 d /\ ~ comment_last d /\
  file_meaning (lines (b "A=1
B= 
C=2")) = (1, [(b "A", b "1")]).
Proof.
  cbv zeta. split; [ vm_compute; reflexivity | ]. split; [ vm_compute; intuition discriminate | ]. split; [ | vm_compute; reflexivity ].
  intros (r & H). vm_compute in H. discriminate.
Qed.

(** C57: variables written one to a line are read back. *)
Theorem env_roundtrip : forall m, Forall (fun nv => env_name (fst nv) /\ env_value (snd nv)) m -> env_parse (List.concat (map env_line m)) = Ok (0, m).
Proof. exact env_written. Qed.
Print Assumptions env_roundtrip.
Example env_roundtrip_ex : env_name (b "RRR X") /\ env_value (b "# a = b") /\ env_line (b "P", b "q r") = b "P=q r
".
Proof.
  split; [ | split; [ | reflexivity ] ].
  - split; [ repeat constructor | ]. split; [ vm_compute; intuition discriminate | ]. split; [ vm_compute; intuition discriminate | ]. split.
    + do 2 eexists. split; [ reflexivity | ]. split; [ reflexivity | discriminate ].
    + exists (b "RRR "), 88. split; reflexivity.
  - split; [ repeat constructor | ]. split; [ vm_compute; intuition discriminate | ]. split.
    + do 2 eexists. split; reflexivity.
    + exists (b "# a = "), 98. split; reflexivity.
Qed.

(** Finding: when the file ends in a comment without line end, memory after the buffer is read. *)
Theorem env_comment_overread_refuted : forall c, no_newline c -> env_parse (35 :: c) = Ub.
Proof. exact overread. Qed.
Print Assumptions env_comment_overread_refuted.
Example env_comment_overread_refuted_ex : no_newline (b " end") /\ comment_last (b "A=1
# end").
Proof. split; [ repeat constructor | ]. eexists. reflexivity. Qed.
