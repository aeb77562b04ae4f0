(** Model of src/lib/fifo.c, at the level of entries in memory linked by pointers.

    Addresses, data pointers, sizes and orders are [Z], the NULL pointer is 0.
    Touching an entry which is not allocated gives [Ub].  Allocation succeeds and
    gives an address never used before.  A callback is a function on a state of its
    own; it does not operate on the buffer.  Debug output is left out. *)
From Coq Require Import ZArith List Bool.
From Verif Require Import Common.
Import ListNotations.
Open Scope Z_scope.

(** Outcome of running a piece of code: a result, RRR_BUG or a failed assertion,
    undefined behaviour, or not finished within the given number of rounds. *)
Inductive res (A : Type) : Type := Ok (a : A) | Bug | Ub | Loop.
Arguments Ok {A} a.
Arguments Bug {A}.
Arguments Ub {A}.
Arguments Loop {A}.

Definition bind {A B} (r : res A) (k : A -> res B) : res B :=
  match r with Ok a => k a | Bug => Bug | Ub => Ub | Loop => Loop end.

(** fifo.h:51-56 [struct rrr_fifo_entry]. *)
Record entry : Type := mkE { e_data : Z; e_size : Z; e_order : Z; e_next : Z }.

Definition heap := Z -> option entry.
Definition upd (h : heap) (a : Z) (v : option entry) : heap := fun x => if x =? a then v else h x.

(** fifo.h:58-66 [struct rrr_fifo] with the memory it lives in. *)
Record fifo : Type := mkF { f_first : Z; f_last : Z; f_count : Z; f_heap : heap; f_fresh : Z }.

(** What can be observed: callbacks being called with an entry, references taken
    and dropped on data pointers. *)
Inductive event : Type :=
| Called (data size : Z)
| Incref (data : Z)
| Decref (data : Z).

(** fifo_common.h:25-36. *)
Definition fl_global_err : Z := 1.
Definition fl_callback_err : Z := 2.
Definition fl_stop : Z := 8.
Definition fl_give : Z := 16.
Definition fl_free : Z := 32.
Definition fl_replace : Z := 64.
Definition fl_again : Z := 1024.
Definition fl_drop : Z := 2048.
Definition fl_ordered : Z := 4096.

Definition has (actions flag : Z) : bool := negb (Z.land actions flag =? 0).
(** [actions & ~(flags)] is non-zero. *)
Definition has_other (actions flags : Z) : bool := negb (Z.land actions (Z.lnot flags) =? 0).

(** rrr_types.h:188-194 [rrr_length_sub_bug]. *)
Definition length_sub_bug (a b : Z) : res Z :=
  let r := u32 (a - b) in if a <? r then Bug else Ok r.
(** rrr_types.h:252-258 [rrr_length_inc_err]: new value and whether it failed. *)
Definition length_inc_err (a : Z) : Z * bool := let r := u32 (a + 1) in (r, r =? 0).

(** fifo.c:130-138 [rrr_fifo_init]. *)
Definition fifo_init (h : heap) (fresh : Z) : fifo := mkF 0 0 0 h fresh.

(** fifo.c:44-52 [__rrr_fifo_entry_decref_data]: the events. *)
Definition decref_ev (data : Z) : list event := if data =? 0 then [] else [Decref data].
Definition incref_ev (data : Z) : list event := if data =? 0 then [] else [Incref data].

(** fifo.c:165-178, the loop of [rrr_fifo_clear_with_callback].  The callback gets
    the data pointer and may change it (to NULL when it takes over the data);
    returning non-zero is a bug. *)
Fixpoint clear_loop {S} (fuel : nat) (cb : S -> Z -> Z -> S * Z * Z) (st : S) (h : heap) (entry freed : Z) (ev : list event)
  : res (S * heap * Z * list event) :=
  match fuel with
  | O => Loop
  | Datatypes.S fuel =>
      if entry =? 0 then Ok (st, h, freed, ev)
      else match h entry with
           | None => Ub
           | Some e =>
               let '(st', data', ret) := cb st (e_data e) (e_size e) in
               if negb (ret =? 0) then Bug
               else clear_loop fuel cb st' (upd h entry None) (e_next e) (u32 (freed + 1))
                               (ev ++ [Called (e_data e) (e_size e)] ++ decref_ev data')
           end
  end.
(** fifo.c:158-187 [rrr_fifo_clear_with_callback]. *)
Definition fifo_clear_with_callback {S} (fuel : nat) (cb : S -> Z -> Z -> S * Z * Z) (st : S) (b : fifo)
  : res (S * fifo * list event) :=
  bind (clear_loop fuel cb st (f_heap b) (f_first b) 0 []) (fun '(st', h, freed, ev) =>
    if f_count b =? freed then Ok (st', mkF 0 0 0 h (f_fresh b), ev) else Bug).

(** fifo.c:274-297 (and 536-546): taking [entry] out of the chain and freeing it;
    [prev] is what the loop believes to be the entry before it.  [None] is a
    write through a dangling pointer. *)
Definition unlink (b : fifo) (entry prev next : Z) : option fifo :=
  let first' := if entry =? f_first b then next else f_first b in
  let last' := if entry =? f_last b then prev else f_last b in
  let h1 := if prev =? 0 then Some (f_heap b)
            else match f_heap b prev with
                 | None => None
                 | Some pe => Some (upd (f_heap b) prev (Some (mkE (e_data pe) (e_size pe) (e_order pe) next)))
                 end in
  match h1 with
  | None => None
  | Some h => Some (mkF first' last' (f_count b) (upd h entry None) (f_fresh b))
  end.

(** fifo.c:258-307, the loop of [rrr_fifo_search]. *)
Fixpoint search_loop {S} (fuel : nat) (cb : S -> Z -> Z -> S * Z) (st : S) (b : fifo) (entry prev cleared : Z) (ev : list event)
  : res (S * Z * fifo * Z * list event) :=
  match fuel with
  | O => Loop
  | Datatypes.S fuel =>
      if entry =? 0 then Ok (st, 0, b, cleared, ev)
      else match f_heap b entry with
           | None => Ub
           | Some e =>
               let next := e_next e in
               let '(st', actions) := cb st (e_data e) (e_size e) in
               let ev := ev ++ [Called (e_data e) (e_size e)] in
               if actions =? 0 then search_loop fuel cb st' b next entry cleared ev
               else if has actions fl_callback_err then Ok (st', fl_callback_err, b, cleared, ev)
               else if has actions fl_give then
                 match unlink b entry prev next with
                 | None => Ub
                 | Some b' =>
                     let cleared' := u32 (cleared + 1) in
                     if cleared' =? 0 then Bug else
                     let ev' := ev ++ (if has actions fl_free then decref_ev (e_data e) else []) in
                     if has actions fl_stop then Ok (st', 0, b', cleared', ev')
                     else search_loop fuel cb st' b' next prev cleared' ev'
                 end
               else if has actions fl_stop then Ok (st', 0, b, cleared, ev)
               else Bug
           end
  end.
(** fifo.c:242-313 [rrr_fifo_search]. *)
Definition fifo_search {S} (fuel : nat) (cb : S -> Z -> Z -> S * Z) (st : S) (b : fifo) : res (S * Z * fifo * list event) :=
  if f_count b =? 0 then Ok (st, 0, b, [])
  else bind (search_loop fuel cb st b (f_first b) 0 0 []) (fun '(st', ret, b', cleared, ev) =>
       bind (length_sub_bug (f_count b') cleared) (fun c =>
       Ok (st', ret, mkF (f_first b') (f_last b') c (f_heap b') (f_fresh b'), ev))).

(** fifo.c:315-369 [__rrr_fifo_write_callback_return_check]: (return value,
    do_ordered_write, write_again, do_drop). *)
Definition write_return_check (r : Z) : res (Z * bool * bool * bool) :=
  if r =? 0 then Ok (0, false, false, false) else
  let aod := Z.lor (Z.lor fl_again fl_ordered) fl_drop in
  if has r fl_ordered && has_other r aod then Bug else
  if has r fl_again && has_other r aod then Bug else
  if has r fl_global_err then
    if has_other r fl_global_err then Bug else Ok (1, has r fl_ordered, has r fl_again, false)
  else if has r fl_drop then
    if has_other r (Z.lor fl_drop fl_again) then Bug else Ok (0, has r fl_ordered, has r fl_again, true)
  else if has_other r aod then Bug
  else Ok (0, has r fl_ordered, has r fl_again, false).

(** fifo.c:396-398: the first entry with an order not below [order] and the one
    before it. *)
Fixpoint order_walk (fuel : nat) (h : heap) (pos prev order : Z) : res (Z * Z) :=
  match fuel with
  | O => Loop
  | S fuel =>
      if pos =? 0 then Ok (pos, prev)
      else match h pos with
           | None => Ub
           | Some e => if e_order e <? order then order_walk fuel h (e_next e) pos order else Ok (pos, prev)
           end
  end.

Definition set_next (h : heap) (a next : Z) : option heap :=
  match h a with
  | None => None
  | Some e => Some (upd h a (Some (mkE (e_data e) (e_size e) (e_order e) next)))
  end.

(** fifo.c:390-392, 402-404 and 419-421: put [entry] at the end. *)
Definition link_end (b : fifo) (entry : Z) : res fifo :=
  match set_next (f_heap b) (f_last b) entry with
  | None => Ub
  | Some h => match set_next h entry 0 with
              | None => Ub
              | Some h' => Ok (mkF (f_first b) entry (f_count b) h' (f_fresh b))
              end
  end.

(** fifo.c:371-423 [__rrr_fifo_write_update_pointers]; the order has been stored
    in the entry already. *)
Definition update_pointers (fuel : nat) (b : fifo) (entry order : Z) (do_ordered : bool) : res fifo :=
  if f_first b =? 0 then
    match set_next (f_heap b) entry 0 with
    | None => Ub
    | Some h => Ok (mkF entry entry (f_count b) h (f_fresh b))
    end
  else if do_ordered then
    match f_heap b (f_last b) with
    | None => Ub
    | Some l =>
        if e_order l <? order then link_end b entry
        else bind (order_walk fuel (f_heap b) (f_first b) 0 order) (fun '(pos, prev) =>
          if pos =? 0 then link_end b entry
          else if negb (prev =? 0) then
            match set_next (f_heap b) prev entry with
            | None => Ub
            | Some h => match set_next h entry pos with
                        | None => Ub
                        | Some h' => Ok (mkF (f_first b) (f_last b) (f_count b) h' (f_fresh b))
                        end
            end
          else match set_next (f_heap b) entry (f_first b) with
               | None => Ub
               | Some h => Ok (mkF entry (f_last b) (f_count b) h (f_fresh b))
               end)
    end
  else link_end b entry.

(** What a write callback produced: return value, data, size and order. *)
Record wanswer : Type := mkW { w_ret : Z; w_data : Z; w_size : Z; w_order : Z }.

(** fifo.c:812-859, one round of [rrr_fifo_write] (with [allow_order]) and
    436-471, one round of [__rrr_fifo_search_and_replace_call_again] (without):
    (return value, call again?). *)
Definition write_round (fuel : nat) (allow_order : bool) (a : wanswer) (b : fifo) : res (Z * bool * fifo * list event) :=
  let entry := f_fresh b in
  let b0 := mkF (f_first b) (f_last b) (f_count b) (f_heap b) (entry + 1) in
  bind (write_return_check (w_ret a)) (fun '(ret, ordered, again, drop) =>
  if negb (ret =? 0) || drop then Ok (ret, again, b0, [])
  else if w_data a =? 0 then Bug
  else
    let b1 := mkF (f_first b) (f_last b) (f_count b)
                  (upd (f_heap b) entry (Some (mkE (w_data a) (w_size a) (w_order a) 0))) (entry + 1) in
    bind (update_pointers fuel b1 entry (w_order a) (ordered && allow_order)) (fun b2 =>
    let '(c, failed) := length_inc_err (f_count b2) in
    Ok ((if failed then 1 else 0), again, mkF (f_first b2) (f_last b2) c (f_heap b2) (f_fresh b2), [Incref (w_data a)]))).

(** fifo.c:799-868 [rrr_fifo_write].  [script] is what the callback produces when
    called the first, second, ... time; [Loop] means it asked to be called again
    after the last one. *)
Fixpoint fifo_write (fuel : nat) (script : list wanswer) (b : fifo) : res (Z * fifo * list event) :=
  match script with
  | [] => Loop
  | a :: script =>
      bind (write_round fuel true a b) (fun '(ret, again, b', ev) =>
      if again then bind (fifo_write fuel script b') (fun '(ret', b'', ev') => Ok (ret', b'', ev ++ ev'))
      else Ok (ret, b', ev))
  end.

(** fifo.c:425-475 [__rrr_fifo_search_and_replace_call_again]: also stops when a
    round fails. *)
Fixpoint call_again (fuel : nat) (script : list wanswer) (b : fifo) : res (Z * fifo * list event) :=
  match script with
  | [] => Loop
  | a :: script =>
      bind (write_round fuel false a b) (fun '(ret, again, b', ev) =>
      if again && (ret =? 0) then bind (call_again fuel script b') (fun '(ret', b'', ev') => Ok (ret', b'', ev ++ ev'))
      else Ok (ret, b', ev))
  end.

(** fifo.c:503-580, the loop of [rrr_fifo_search_and_replace].  The callback gets
    data, size and order and gives back its actions and new values of these. *)
Fixpoint replace_loop {S} (fuel : nat) (cb : S -> Z -> Z -> Z -> S * wanswer) (st : S) (b : fifo) (entry prev : Z) (ev : list event)
  : res (S * Z * fifo * list event) :=
  match fuel with
  | O => Loop
  | Datatypes.S fuel =>
      if entry =? 0 then Ok (st, 0, b, ev)
      else match f_heap b entry with
           | None => Ub
           | Some e =>
               let next := e_next e in
               let '(st', a) := cb st (e_data e) (e_size e) (e_order e) in
               let actions := w_ret a in
               let ev := ev ++ [Called (e_data e) (e_size e)] in
               if actions =? 0 then replace_loop fuel cb st' b next entry ev
               else if has actions fl_callback_err then Ok (st', fl_callback_err, b, ev)
               else if has actions (Z.lor fl_replace fl_give) then
                 let old := if has actions fl_free then e_data e else 0 in
                 if has actions fl_give then
                   if has actions fl_replace then Bug else
                   match unlink b entry prev next with
                   | None => Ub
                   | Some b' =>
                       if f_count b' =? 0 then Bug else
                       let b'' := mkF (f_first b') (f_last b') (f_count b' - 1) (f_heap b') (f_fresh b') in
                       let ev' := ev ++ decref_ev old in
                       if has actions fl_stop then Ok (st', 0, b'', ev')
                       else replace_loop fuel cb st' b'' next prev ev'
                   end
                 else
                   if old =? w_data a then Bug else
                   let h := upd (f_heap b) entry (Some (mkE (w_data a) (w_size a) (w_order a) next)) in
                   let b' := mkF (f_first b) (f_last b) (f_count b) h (f_fresh b) in
                   let ev' := ev ++ decref_ev old ++ incref_ev (w_data a) in
                   if snd (length_inc_err (f_count b)) then Ok (st', 1, mkF (f_first b) (f_last b) 0 h (f_fresh b), ev')
                   else if has actions fl_stop then Ok (st', 0, b', ev')
                   else replace_loop fuel cb st' b' next prev ev'
               else if has actions fl_stop then Ok (st', 0, b, ev)
               else Bug
           end
  end.
(** fifo.c:492-588 [rrr_fifo_search_and_replace]; [script] is what the callback
    produces when called again after looping. *)
Definition fifo_search_and_replace {S} (fuel : nat) (cb : S -> Z -> Z -> Z -> S * wanswer) (st : S)
    (again : bool) (script : list wanswer) (b : fifo) : res (Z * fifo * list event) :=
  bind (replace_loop fuel cb st b (f_first b) 0 []) (fun '(st', ret, b', ev) =>
  if (ret =? 0) && again
  then bind (call_again fuel script b') (fun '(ret', b'', ev') => Ok (ret', b'', ev ++ ev'))
  else Ok (ret, b', ev)).

(** fifo.c:612-681, the loop of [rrr_fifo_read_clear_forward_all]; [b] has no
    entries linked while it runs.  Gives the return value, the buffer and the
    number of processed entries. *)
Fixpoint forward_loop {S} (fuel : nat) (cb : S -> Z -> Z -> S * Z) (st : S) (b : fifo) (last current processed : Z) (ret : Z) (ev : list event)
  : res (S * Z * fifo * Z * list event) :=
  match fuel with
  | O => Loop
  | Datatypes.S fuel =>
      if current =? 0 then Ok (st, ret, b, processed, ev)
      else match f_heap b current with
           | None => Ub
           | Some e =>
               let next := e_next e in
               let '(st', ret_tmp) := cb st (e_data e) (e_size e) in
               let ev := ev ++ [Called (e_data e) (e_size e)] in
               let processed := u32 (processed + 1) in
               if processed =? 0 then Bug else
               let b_freed := mkF (f_first b) (f_last b) (f_count b) (upd (f_heap b) current None) (f_fresh b) in
               if ret_tmp =? 0 then forward_loop fuel cb st' b_freed last next processed ret ev
               else
                 let ev' := ev ++ (if has ret_tmp fl_free then decref_ev (e_data e) else []) in
                 let ret_tmp := Z.land ret_tmp (Z.lnot fl_free) in
                 if has ret_tmp fl_give then Bug else
                 let ret := if has ret_tmp fl_callback_err then Z.lor ret fl_callback_err else ret in
                 let ret := if has ret_tmp fl_global_err then Z.lor ret fl_global_err else ret in
                 if has ret_tmp (Z.lor (Z.lor fl_stop fl_callback_err) fl_global_err) then
                   if next =? 0 then Ok (st', Z.land ret_tmp (Z.lnot fl_stop), b_freed, processed, ev')
                   else
                     match set_next (f_heap b) last (f_first b) with
                     | None => Ub
                     | Some h =>
                         let last' := if f_last b =? 0 then last else f_last b in
                         Ok (st', Z.land ret_tmp (Z.lnot fl_stop),
                             mkF next last' (f_count b) (upd h current None) (f_fresh b), processed, ev')
                     end
                 else if has_other ret_tmp 59 then Bug
                 else forward_loop fuel cb st' b_freed last next processed ret ev'
           end
  end.
(** fifo.c:590-687 [rrr_fifo_read_clear_forward_all]. *)
Definition fifo_read_clear_forward_all {S} (fuel : nat) (cb : S -> Z -> Z -> S * Z) (st : S) (b : fifo)
  : res (S * Z * fifo * list event) :=
  if f_count b =? 0 then Ok (st, 0, b, [])
  else bind (forward_loop fuel cb st (mkF 0 0 (f_count b) (f_heap b) (f_fresh b)) (f_last b) (f_first b) 0 0 [])
            (fun '(st', ret, b', processed, ev) =>
       bind (length_sub_bug (f_count b') processed) (fun c =>
       Ok (st', ret, mkF (f_first b') (f_last b') c (f_heap b') (f_fresh b'), ev))).

(** fifo.c:706-733, the loop of [rrr_fifo_read]. *)
Fixpoint read_loop {S} (fuel : nat) (cb : S -> Z -> Z -> S * Z) (st : S) (h : heap) (entry ret : Z) (ev : list event)
  : res (S * Z * list event) :=
  match fuel with
  | O => Loop
  | Datatypes.S fuel =>
      if entry =? 0 then Ok (st, ret, ev)
      else match h entry with
           | None => Ub
           | Some e =>
               let '(st', r) := cb st (e_data e) (e_size e) in
               let ev := ev ++ [Called (e_data e) (e_size e)] in
               if r =? 0 then read_loop fuel cb st' h (e_next e) ret ev
               else if has r fl_stop then Ok (st', Z.lor ret (Z.land r (Z.lnot fl_stop)), ev)
               else if has r (Z.lor fl_give fl_free) then Bug
               else if has r fl_global_err then Ok (st', fl_global_err, ev)
               else if has_other r 59 then Bug
               else read_loop fuel cb st' h (e_next e) (Z.lor ret r) ev
           end
  end.
(** fifo.c:694-737 [rrr_fifo_read]. *)
Definition fifo_read {S} (fuel : nat) (cb : S -> Z -> Z -> S * Z) (st : S) (b : fifo) : res (S * Z * list event) :=
  if f_count b =? 0 then Ok (st, 0, []) else read_loop fuel cb st (f_heap b) (f_first b) 0 [].

(** fifo.c:762-788, the loop of [rrr_fifo_read_minimum] with [last_element] NULL;
    500 is RRR_FIFO_MAX_READS (fifo.h:30). *)
Fixpoint read_minimum_loop {S} (fuel : nat) (cb : S -> Z -> Z -> S * Z) (st : S) (h : heap) (entry minimum processed : Z) (ev : list event)
  : res (S * Z * list event) :=
  match fuel with
  | O => Loop
  | Datatypes.S fuel =>
      if entry =? 0 then Ok (st, 0, ev)
      else match h entry with
           | None => Ub
           | Some e =>
               if minimum <? e_order e then
                 let '(st', r) := cb st (e_data e) (e_size e) in
                 let ev := ev ++ [Called (e_data e) (e_size e)] in
                 if processed + 1 =? 500 then Ok (st', 0, ev)
                 else if r =? 0 then read_minimum_loop fuel cb st' h (e_next e) minimum (processed + 1) ev
                 else if has r fl_stop then Ok (st', Z.land r (Z.lnot fl_stop), ev)
                 else if has r (Z.lor fl_give fl_free) then Bug
                 else Ok (st', r, ev)
               else read_minimum_loop fuel cb st h (e_next e) minimum processed ev
           end
  end.
(** fifo.c:746-792 [rrr_fifo_read_minimum]. *)
Definition fifo_read_minimum {S} (fuel : nat) (cb : S -> Z -> Z -> S * Z) (st : S) (b : fifo) (minimum : Z) : res (S * Z * list event) :=
  if f_count b =? 0 then Ok (st, 0, []) else read_minimum_loop fuel cb st (f_heap b) (f_first b) minimum 0 [].

(** fifo.c:870-899 [rrr_fifo_merge].  Each buffer is modelled with the memory its
    own entries live in, so the target gets the memory of the source as well.
    rrr_length_add_err (rrr_types.h:212-220) detects an overflow. *)
Definition join (h1 h2 : heap) : heap := fun a => match h1 a with Some e => Some e | None => h2 a end.
Definition fifo_merge (target source : fifo) : res (Z * fifo * fifo) :=
  if f_count source =? 0 then Ok (0, target, source)
  else
    let c := u32 (f_count target + f_count source) in
    if c <? f_count target then Ok (1, target, source)
    else
      let h0 := join (f_heap target) (f_heap source) in
      let fresh := Z.max (f_fresh target) (f_fresh source) in
      let empty := mkF 0 0 0 (fun _ => None) (f_fresh source) in
      if negb (f_last target =? 0) then
        match set_next h0 (f_last target) (f_first source) with
        | None => Ub
        | Some h => Ok (0, mkF (f_first target) (f_last source) c h fresh, empty)
        end
      else Ok (0, mkF (f_first source) (f_last source) c h0 fresh, empty).

(** A use of the buffer, with callbacks working on a state of type [S]. *)
Inductive use (S : Type) : Type :=
| UWrite (script : list wanswer)
| USearch (cb : S -> Z -> Z -> S * Z)
| URead (cb : S -> Z -> Z -> S * Z)
| UReadMinimum (cb : S -> Z -> Z -> S * Z) (minimum : Z)
| UDrain (cb : S -> Z -> Z -> S * Z)
| UClear (cb : S -> Z -> Z -> S * Z * Z)
| UReplace (cb : S -> Z -> Z -> Z -> S * wanswer) (again : bool) (script : list wanswer).
Arguments UWrite {S} script.
Arguments USearch {S} cb.
Arguments URead {S} cb.
Arguments UReadMinimum {S} cb minimum.
Arguments UDrain {S} cb.
Arguments UClear {S} cb.
Arguments UReplace {S} cb again script.

(** One use: new state, new buffer, return value and events. *)
Definition use_step {S} (fuel : nat) (u : use S) (st : S) (b : fifo) : res (S * fifo * (Z * list event)) :=
  match u with
  | UWrite script => bind (fifo_write fuel script b) (fun '(ret, b', ev) => Ok (st, b', (ret, ev)))
  | USearch cb => bind (fifo_search fuel cb st b) (fun '(st', ret, b', ev) => Ok (st', b', (ret, ev)))
  | URead cb => bind (fifo_read fuel cb st b) (fun '(st', ret, ev) => Ok (st', b, (ret, ev)))
  | UReadMinimum cb minimum => bind (fifo_read_minimum fuel cb st b minimum) (fun '(st', ret, ev) => Ok (st', b, (ret, ev)))
  | UDrain cb => bind (fifo_read_clear_forward_all fuel cb st b) (fun '(st', ret, b', ev) => Ok (st', b', (ret, ev)))
  | UClear cb => bind (fifo_clear_with_callback fuel cb st b) (fun '(st', b', ev) => Ok (st', b', (0, ev)))
  | UReplace cb again script =>
      bind (fifo_search_and_replace fuel cb st again script b) (fun '(ret, b', ev) => Ok (st, b', (ret, ev)))
  end.
Fixpoint use_run {S} (fuel : nat) (us : list (use S)) (st : S) (b : fifo) : res (S * fifo * list (Z * list event)) :=
  match us with
  | [] => Ok (st, b, [])
  | u :: us => bind (use_step fuel u st b) (fun '(st', b', o) =>
               bind (use_run fuel us st' b') (fun '(st'', b'', os) => Ok (st'', b'', o :: os)))
  end.
