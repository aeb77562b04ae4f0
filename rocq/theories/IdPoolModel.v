(** Model of src/lib/mqtt/mqtt_id_pool.c: MQTT packet identifiers. *)
From Coq Require Import ZArith List Bool.
From Verif Require Import Common.
Import ListNotations.
Open Scope Z_scope.

(** mqtt_id_pool.h:30,34 *)
Definition POOL_SIZE_IN_32 : Z := 2048.
Definition STEP_SIZE_IN_32 : nat := 512.

(** mqtt_id_pool.h:40-44.  The array of 32 bit words (its length is
    [allocated_majors]) and [last_allocated_id].  Allocation failure is not
    modelled. *)
Record id_pool := mk_pool { words : list Z; last_id : Z }.
(** mqtt_id_pool.c:35-39 [rrr_mqtt_id_pool_init], 41-46 [rrr_mqtt_id_pool_clear] *)
Definition pool_init : id_pool := mk_pool [] 0.

(** mqtt_id_pool.c:96-99 [MIN_MAJ_MASK]; the mask is 1 << min, taken modulo 2^32
    (the shift by 31 is done in a signed int, whose result is taken as in every
    known compiler). *)
Definition id_min (id : Z) : Z := (id - 1) mod 32.
Definition id_maj (id : Z) : Z := (id - 1 - id_min id) / 32.
Definition id_mask (id : Z) : Z := u32 (Z.shiftl 1 (id_min id)).

Definition word (w : list Z) (i : Z) : Z := nth (Z.to_nat i) w 0.
Definition set_word (w : list Z) (i : Z) (x : Z) : list Z :=
  firstn (Z.to_nat i) w ++ [x] ++ skipn (Z.to_nat i + 1) w.

(** mqtt_id_pool.c:77-94 [__rrr_mqtt_id_pool_get_id_32], the loop from bit [i] with
    [fuel] bits left; the bit number plus one, 0 if there is no free bit (the
    RRR_BUG after the loop is that case too, excluded by the check before). *)
Fixpoint free_bit (fuel : nat) (i tmp : Z) : Z :=
  match fuel with
  | O => 0
  | S f => if Z.land tmp 1 =? 0 then u16 (i + 1) else free_bit f (i + 1) (Z.shiftr tmp 1)
  end.
Definition get_id_32 (source : Z) : Z * Z :=
  if source =? 0xffffffff then (0, source)
  else let r := free_bit 32 0 source in (r, if r =? 0 then source else Z.lor source (u32 (Z.shiftl 1 (r - 1)))).

(** mqtt_id_pool.c:127-134, the scan over the words from number [i] on: the new
    words and the identifier (rrr_length arithmetic cut to 16 bits). *)
Fixpoint scan (w : list Z) (i : Z) : option (list Z * Z) :=
  match w with
  | [] => None
  | x :: r =>
      let '(ret_tmp, x') := get_id_32 x in
      if 0 <? ret_tmp then Some (x' :: r, u16 (ret_tmp + 32 * i))
      else match scan r (i + 1) with Some (r', id) => Some (x :: r', id) | None => None end
  end.

(** mqtt_id_pool.c:52-75 [__rrr_mqtt_id_pool_realloc] *)
Definition pool_realloc (w : list Z) : option (list Z) :=
  if POOL_SIZE_IN_32 <? u32 (zlen w + Z.of_nat STEP_SIZE_IN_32) then None else Some (w ++ repeat 0 STEP_SIZE_IN_32).

(** mqtt_id_pool.c:124-142, scan and retry; [None] when the fuel is used up, which
    does not happen (the pool grows at most four times). *)
Fixpoint slow_path (fuel : nat) (w : list Z) : option (list Z * Z) :=
  match fuel with
  | O => None
  | S f => match scan w 0 with
           | Some r => Some r
           | None => match pool_realloc w with
                     | None => Some (w, 0)
                     | Some w' => slow_path f w'
                     end
           end
  end.

(** mqtt_id_pool.c:101-147 [rrr_mqtt_id_pool_get_id]: the identifier, 0 if none is
    available.  The outer [None] is as in [slow_path]. *)
Definition get_id (p : id_pool) : option (id_pool * Z) :=
  let ret := u16 (last_id p + 1) in
  let ret := if ret =? 0 then 1 else ret in
  if (id_maj ret <? zlen (words p)) && (Z.land (word (words p) (id_maj ret)) (id_mask ret) =? 0)
  then Some (mk_pool (set_word (words p) (id_maj ret) (Z.lor (word (words p) (id_maj ret)) (id_mask ret))) ret, ret)
  else match slow_path 6 (words p) with
       | None => None
       | Some (w, r) => Some (mk_pool w r, r)
       end.

(** mqtt_id_pool.c:149-164 [rrr_mqtt_id_pool_release_id]; [None] is RRR_BUG.  The
    debug output, which reads the word before the bound is checked, is not
    modelled. *)
Definition release_id (p : id_pool) (id : Z) : option id_pool :=
  if zlen (words p) <=? id_maj id then None
  else if Z.land (word (words p) (id_maj id)) (id_mask id) =? 0 then None
  else Some (mk_pool (set_word (words p) (id_maj id) (Z.land (word (words p) (id_maj id)) (Z.lxor (id_mask id) 0xffffffff))) (last_id p)).

(** Histories. *)
Inductive id_op := Get | Release (id : Z).
Inductive id_out := Got (id : Z) | Released | Bug.
Definition id_step (p : id_pool) (o : id_op) : id_pool * id_out :=
  match o with
  | Get => match get_id p with Some (p', id) => (p', Got id) | None => (p, Bug) end
  | Release id => match release_id p id with Some p' => (p', Released) | None => (p, Bug) end
  end.
