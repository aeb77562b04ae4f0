(** The buffer as a list of items. *)
From Coq Require Import ZArith List Bool.
From Verif Require Import Common FifoModel.
Import ListNotations.
Open Scope Z_scope.

Record item : Type := mkI { i_data : Z; i_size : Z; i_order : Z }.

(** Bits of callback answers, by number. *)
Definition bit (a n : Z) : bool := Z.testbit a n.
Definition says_error a := bit a 1.
Definition says_stop a := bit a 3.
Definition says_give a := bit a 4.
Definition says_free a := bit a 5.
Definition says_replace a := bit a 6.

(** A reference on the data is dropped; there is none on NULL. *)
Definition dropped (d : Z) : list event := if d =? 0 then [] else [Decref d].

(** Search: the callback sees each item once from first to last.  An item answered
    with 0 stays; with GIVE it leaves the list (FREE drops its reference); STOP
    ends the pass, an error ends it with the item staying. *)
Fixpoint l_search {S} (cb : S -> Z -> Z -> S * Z) (st : S) (l : list item) : res (S * Z * list item * list event) :=
  match l with
  | [] => Ok (st, 0, [], [])
  | x :: r =>
      let '(st', a) := cb st (i_data x) (i_size x) in
      let called := Called (i_data x) (i_size x) in
      if a =? 0 then
        bind (l_search cb st' r) (fun '(st'', ret, l', ev) => Ok (st'', ret, x :: l', called :: ev))
      else if says_error a then Ok (st', 2, x :: r, [called])
      else if says_give a then
        let ev := called :: (if says_free a then dropped (i_data x) else []) in
        if says_stop a then Ok (st', 0, r, ev)
        else bind (l_search cb st' r) (fun '(st'', ret, l', ev') => Ok (st'', ret, l', ev ++ ev'))
      else if says_stop a then Ok (st', 0, x :: r, [called])
      else Bug
  end.

(** Reading: every item from first to last until the callback says STOP or
    reports a global error (bit 0). *)
Definition says_global_error a := bit a 0.
Definition known_read_flags a := Z.land a (Z.lnot 59) =? 0.
Fixpoint l_read {S} (cb : S -> Z -> Z -> S * Z) (st : S) (l : list item) (ret : Z) : res (S * Z * list event) :=
  match l with
  | [] => Ok (st, ret, [])
  | x :: r =>
      let '(st', a) := cb st (i_data x) (i_size x) in
      let called := Called (i_data x) (i_size x) in
      let more ret' := bind (l_read cb st' r ret') (fun '(st'', ret'', ev) => Ok (st'', ret'', called :: ev)) in
      if a =? 0 then more ret
      else if says_stop a then Ok (st', Z.lor ret (Z.clearbit a 3), [called])
      else if says_give a || says_free a then Bug
      else if says_global_error a then Ok (st', 1, [called])
      else if negb (known_read_flags a) then Bug
      else more (Z.lor ret a)
  end.

(** Reading the items with an order above [minimum], at most 500 of them. *)
Fixpoint l_read_minimum {S} (cb : S -> Z -> Z -> S * Z) (st : S) (l : list item) (minimum : Z) (budget : Z) : res (S * Z * list event) :=
  match l with
  | [] => Ok (st, 0, [])
  | x :: r =>
      if i_order x <=? minimum then l_read_minimum cb st r minimum budget
      else
        let '(st', a) := cb st (i_data x) (i_size x) in
        let called := Called (i_data x) (i_size x) in
        if budget =? 1 then Ok (st', 0, [called])
        else if a =? 0 then
          bind (l_read_minimum cb st' r minimum (budget - 1)) (fun '(st'', ret'', ev) => Ok (st'', ret'', called :: ev))
        else if says_stop a then Ok (st', Z.clearbit a 3, [called])
        else if says_give a || says_free a then Bug
        else Ok (st', a, [called])
  end.

(** Draining: every item leaves the list as it is handed over, until the callback
    says STOP or reports an error; the rest stays. *)
Fixpoint l_drain {S} (cb : S -> Z -> Z -> S * Z) (st : S) (l : list item) : res (S * Z * list item * list event) :=
  match l with
  | [] => Ok (st, 0, [], [])
  | x :: r =>
      let '(st', a) := cb st (i_data x) (i_size x) in
      let called := Called (i_data x) (i_size x) in
      let ev := called :: (if says_free a then dropped (i_data x) else []) in
      if says_give a then Bug
      else if says_stop a || says_error a || says_global_error a then Ok (st', Z.clearbit (Z.clearbit a 5) 3, r, ev)
      else if negb (known_read_flags a) then Bug
      else bind (l_drain cb st' r) (fun '(st'', ret, l', ev') => Ok (st'', ret, l', ev ++ ev'))
  end.

(** Clearing: the callback may take over data by setting the pointer to NULL. *)
Fixpoint l_clear {S} (cb : S -> Z -> Z -> S * Z * Z) (st : S) (l : list item) : res (S * list event) :=
  match l with
  | [] => Ok (st, [])
  | x :: r =>
      let '(st', d, ret) := cb st (i_data x) (i_size x) in
      if ret =? 0 then bind (l_clear cb st' r) (fun '(st'', ev) => Ok (st'', Called (i_data x) (i_size x) :: dropped d ++ ev))
      else Bug
  end.

(** Writing.  What the answer of a write callback means. *)
Inductive wverdict : Type := WError | WDrop (again : bool) | WAppend (again : bool) | WOrdered (again : bool) | WBug.
Definition write_verdict (a : Z) : wverdict :=
  if a =? 0 then WAppend false
  else if a =? 1 then WError
  else if a =? 1024 then WAppend true
  else if a =? 2048 then WDrop false
  else if a =? 3072 then WDrop true
  else if a =? 4096 then WOrdered false
  else if a =? 5120 then WOrdered true
  else WBug.

(** Ordered position: before the first item whose order is not smaller, or at the
    very end if the last item has a smaller order. *)
Fixpoint insert_order (x : item) (l : list item) : list item :=
  match l with
  | [] => [x]
  | y :: r => if i_order y <? i_order x then y :: insert_order x r else x :: l
  end.
Definition place_ordered (x : item) (l : list item) : list item :=
  match rev l with
  | y :: _ => if i_order y <? i_order x then l ++ [x] else insert_order x l
  | [] => [x]
  end.

Fixpoint l_write (script : list wanswer) (l : list item) : res (Z * list item * list event) :=
  match script with
  | [] => Loop
  | w :: script =>
      let x := mkI (w_data w) (w_size w) (w_order w) in
      let next again l' ev :=
        if (again : bool) then bind (l_write script l') (fun '(ret, l'', ev') => Ok (ret, l'', ev ++ ev')) else Ok (0, l', ev) in
      match write_verdict (w_ret w) with
      | WError => Ok (1, l, [])
      | WDrop again => next again l []
      | WAppend again => if w_data w =? 0 then Bug else next again (l ++ [x]) [Incref (w_data w)]
      | WOrdered again => if w_data w =? 0 then Bug else next again (place_ordered x l) [Incref (w_data w)]
      | WBug => Bug
      end
  end.

(** Search and replace: as search, and an item answered with REPLACE is replaced
    where it is by what the callback provides (its old reference is dropped if FREE
    is given, a reference on the new data is taken). *)
Definition taken (d : Z) : list event := if d =? 0 then [] else [Incref d].
Fixpoint l_replace {S} (cb : S -> Z -> Z -> Z -> S * wanswer) (st : S) (l : list item) : res (S * Z * list item * list event) :=
  match l with
  | [] => Ok (st, 0, [], [])
  | x :: r =>
      let '(st', w) := cb st (i_data x) (i_size x) (i_order x) in
      let a := w_ret w in
      let called := Called (i_data x) (i_size x) in
      let old := if says_free a then i_data x else 0 in
      let more y ev := bind (l_replace cb st' r) (fun '(st'', ret, l', ev') => Ok (st'', ret, y ++ l', ev ++ ev')) in
      if a =? 0 then more [x] [called]
      else if says_error a then Ok (st', 2, x :: r, [called])
      else if says_give a && says_replace a then Bug
      else if says_give a then
        if says_stop a then Ok (st', 0, r, called :: dropped old) else more [] (called :: dropped old)
      else if says_replace a then
        if old =? w_data w then Bug else
        let y := mkI (w_data w) (w_size w) (w_order w) in
        let ev := called :: dropped old ++ taken (w_data w) in
        if says_stop a then Ok (st', 0, y :: r, ev) else more [y] ev
      else if says_stop a then Ok (st', 0, x :: r, [called])
      else Bug
  end.

(** The answers the callback gives during a pass, in order. *)
Fixpoint answers {S} (cb : S -> Z -> Z -> Z -> S * wanswer) (st : S) (l : list item) : list Z :=
  match l with
  | [] => []
  | x :: r => let '(st', w) := cb st (i_data x) (i_size x) (i_order x) in w_ret w :: answers cb st' r
  end.

(** No item is removed after one was replaced unless one was kept in between. *)
Definition no_give_after_replace (l : list Z) : Prop :=
  forall before a between b after, l = before ++ a :: between ++ b :: after ->
    says_replace a = true -> says_give b = true -> In 0 between.

(** Everything appended by a write callback called again after the pass: answers
    with ORDERED append as well. *)
Fixpoint l_append (script : list wanswer) (l : list item) : res (Z * list item * list event) :=
  match script with
  | [] => Loop
  | w :: script =>
      let x := mkI (w_data w) (w_size w) (w_order w) in
      let next again l' ev :=
        if (again : bool) then bind (l_append script l') (fun '(ret, l'', ev') => Ok (ret, l'', ev ++ ev')) else Ok (0, l', ev) in
      match write_verdict (w_ret w) with
      | WError => Ok (1, l, [])
      | WDrop again => next again l []
      | WAppend again | WOrdered again => if w_data w =? 0 then Bug else next again (l ++ [x]) [Incref (w_data w)]
      | WBug => Bug
      end
  end.

(** Search and replace with the calls after the pass. *)
Definition l_search_and_replace {S} (cb : S -> Z -> Z -> Z -> S * wanswer) (st : S) (again : bool) (script : list wanswer)
    (l : list item) : res (Z * list item * list event) :=
  bind (l_replace cb st l) (fun '(st', ret, l', ev) =>
  if (ret =? 0) && again
  then bind (l_append script l') (fun '(ret', l'', ev') => Ok (ret', l'', ev ++ ev'))
  else Ok (ret, l', ev)).

(** A history on the list. *)
Definition l_step {S} (u : use S) (st : S) (l : list item) : res (S * list item * (Z * list event)) :=
  match u with
  | UWrite script => bind (l_write script l) (fun '(ret, l', ev) => Ok (st, l', (ret, ev)))
  | USearch cb => bind (l_search cb st l) (fun '(st', ret, l', ev) => Ok (st', l', (ret, ev)))
  | URead cb => bind (l_read cb st l 0) (fun '(st', ret, ev) => Ok (st', l, (ret, ev)))
  | UReadMinimum cb minimum => bind (l_read_minimum cb st l minimum 500) (fun '(st', ret, ev) => Ok (st', l, (ret, ev)))
  | UDrain cb => bind (l_drain cb st l) (fun '(st', ret, l', ev) => Ok (st', l', (ret, ev)))
  | UClear cb => bind (l_clear cb st l) (fun '(st', ev) => Ok (st', [], (0, ev)))
  | UReplace cb again script => bind (l_search_and_replace cb st again script l) (fun '(ret, l', ev) => Ok (st, l', (ret, ev)))
  end.
Fixpoint l_run {S} (us : list (use S)) (st : S) (l : list item) : res (S * list item * list (Z * list event)) :=
  match us with
  | [] => Ok (st, l, [])
  | u :: us => bind (l_step u st l) (fun '(st', l', o) =>
               bind (l_run us st' l') (fun '(st'', l'', os) => Ok (st'', l'', o :: os)))
  end.

(** How many entries a history can write at most. *)
Definition writes {S} (u : use S) : nat :=
  match u with UWrite script => length script | UReplace _ _ script => length script | _ => 0%nat end.
Definition all_writes {S} (us : list (use S)) : nat := fold_right (fun u n => (writes u + n)%nat) 0%nat us.

(** Every search-and-replace of the history meets [no_give_after_replace]. *)
Fixpoint replaces_ok {S} (us : list (use S)) (st : S) (l : list item) : Prop :=
  match us with
  | [] => True
  | u :: us =>
      match u with UReplace cb _ _ => no_give_after_replace (answers cb st l) | _ => True end /\
      forall st' l' o, l_step u st l = Ok (st', l', o) -> replaces_ok us st' l'
  end.

(** Sorted by order. *)
Inductive sorted : list item -> Prop :=
| sorted_nil : sorted []
| sorted_one : forall x, sorted [x]
| sorted_cons : forall x y l, i_order x <= i_order y -> sorted (y :: l) -> sorted (x :: y :: l).

(** Uses which do not append without regard to order or change orders. *)
Definition keeps_order {S} (u : use S) : Prop :=
  match u with
  | UWrite script => forall w, In w script -> write_verdict (w_ret w) <> WAppend true /\ write_verdict (w_ret w) <> WAppend false
  | UReplace _ _ _ => False
  | _ => True
  end.

(** [l'] is [l] with some items left out. *)
Inductive thinned {A} : list A -> list A -> Prop :=
| th_nil : thinned [] []
| th_keep : forall x l l', thinned l l' -> thinned (x :: l) (x :: l')
| th_skip : forall x l l', thinned l l' -> thinned (x :: l) l'.

(** The items handed to callbacks. *)
Definition handed (ev : list event) : list (Z * Z) :=
  flat_map (fun e => match e with Called d s => [(d, s)] | _ => [] end) ev.
Definition shown (l : list item) : list (Z * Z) := map (fun x => (i_data x, i_size x)) l.

(** Following the pointers of the buffer from its first entry. *)
Fixpoint walk (fuel : nat) (h : heap) (p : Z) : option (list item) :=
  match fuel with
  | O => None
  | S fuel =>
      if p =? 0 then Some []
      else match h p with
           | None => None
           | Some e => option_map (cons (mkI (e_data e) (e_size e) (e_order e))) (walk fuel h (e_next e))
           end
  end.

(** The buffer consists of exactly the items [l]. *)
Definition contains (fuel : nat) (b : fifo) (l : list item) : Prop :=
  walk fuel (f_heap b) (f_first b) = Some l /\ f_count b = zlen l.

(** Data pointers on which references were taken. *)
Definition referenced (ev : list event) : list Z :=
  flat_map (fun e => match e with Incref d => [d] | _ => [] end) ev.
Definition events {A} (os : list (A * list event)) : list event := flat_map snd os.

(** Uses which append to the buffer or take everything out of it. *)
Definition write_or_drain {S} (u : use S) : Prop :=
  match u with
  | UWrite script => forall w again, In w script -> write_verdict (w_ret w) <> WOrdered again
  | UDrain _ => True
  | _ => False
  end.
