(** Model of src/lib/util/hex.c. *)
From Coq Require Import ZArith List Bool.
From Verif Require Import Common.
Import ListNotations.
Open Scope Z_scope.

(** One digit of the "%02x" conversion, hex.c:54. *)
Definition hex_char (d : Z) : Z := if d <? 10 then 48 + d else 87 + d.

(** hex.c:41 [output_size]: the product is computed in rrr_length (32 bits)
    before it is widened to 64 bits. *)
Definition hex_output_size (source_size : Z) : Z := u32 (u32 (source_size * 2) + 1).

(** hex.c:44, the allocated size *)
Definition hex_alloc_size (source_size : Z) : Z :=
  let o := hex_output_size source_size in if o <? 32 then 32 else o.

(** hex.c:51-56, the loop; each snprintf stores two digits and a NUL. *)
Fixpoint hex_loop (mem : list Z) (wpos : Z) (source : list Z) : option (list Z) :=
  match source with
  | [] => Some mem
  | b :: r =>
      match mem_store mem wpos [hex_char (b / 16); hex_char (b mod 16); 0] with
      | None => None
      | Some m => hex_loop m (wpos + 2) r
      end
  end.

(** hex.c:30-63 [rrr_hex_bin_to_hex].  [mem] is the fresh allocation, whose
    content is arbitrary.  The result is the memory block and [*target_length];
    [None] is a store outside the block.  Allocation failure is not modelled. *)
Definition bin_to_hex (mem : list Z) (source : list Z) : option (list Z * Z) :=
  let o := hex_output_size (zlen source) in
  match hex_loop mem 0 source with
  | None => None
  | Some m =>
      match mem_store m (o - 1) [0] with
      | None => None
      | Some m' => Some (m', o - 1)
      end
  end.
