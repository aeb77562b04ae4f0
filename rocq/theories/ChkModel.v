(** Model of src/lib/socket/rrr_socket_send_chunk.c and of the functions which write from it:
    rrr_socket_sendto_nonblock_check_retry of src/lib/socket/rrr_socket.c, and any callback.
    Addresses, messages, allocation failures and more than 2^32-1 chunks are left out;
    rrr_socket_send_chunk_collection_iterate too. *)
From Coq Require Import ZArith List Bool.
From Verif Require Import Common ChkTypes.
Import ListNotations.
Open Scope Z_scope.

(** rrr_socket_constants.h:27-31 and read_constants.h:63-77 *)
Definition OK : Z := 0.
Definition HARD : Z := 1.
Definition SOFT : Z := 2.
Definition INCOMPLETE : Z := 4.

(** rrr_socket_send_chunk.c:34-43 [struct rrr_socket_send_chunk]; [k_no] is not in the code: it
    numbers chunks in the order they were made *)
Record chunk : Type := mk_chunk { k_no : nat; k_data : list Z; k_pos : Z; k_private : Z }.
(** rrr_socket_send_chunk.h:44-51 [struct rrr_socket_send_chunk_collection]: the two lists;
    [q_next] is the number of the next chunk *)
Record queue : Type := mk_queue { q_high : list chunk; q_normal : list chunk; q_next : nat }.
Definition queue_new : queue := mk_queue [] [] 0.

(** rrr_socket_send_chunk.c:89-97 [rrr_socket_send_chunk_collection_count] *)
Definition count (q : queue) : Z := zlen (q_high q) + zlen (q_normal q).

(** rrr_socket_send_chunk.c:99-143 [__rrr_socket_send_chunk_collection_push] *)
Definition push (q : queue) (urgent : bool) (data : list Z) (private : Z) : queue :=
  let c := mk_chunk (q_next q) data 0 private in
  if urgent then mk_queue (q_high q ++ [c]) (q_normal q) (S (q_next q))
  else mk_queue (q_high q) (q_normal q ++ [c]) (S (q_next q)).

(** rrr_socket.c:1351-1464 [rrr_socket_sendto_nonblock_with_options] with 1503-1522
    [rrr_socket_sendto_nonblock_check_retry], from the label retry on: the return value, octets
    done, what was written, and the answers which remain.  At most 9 calls are made, [tries]. *)
Fixpoint sendto (tries : nat) (k : nat) (data : list Z) (done : Z) (ss : list sys) : Z * Z * list event * list sys :=
  match tries with
  | O => (INCOMPLETE, done, [], ss)
  | S tries =>
      let s := hd Again ss in
      let n := match s with Takes n => Z.max 0 (Z.min n (zlen data - done)) | _ => 0 end in
      let piece := firstn (Z.to_nat n) (skipn (Z.to_nat done) data) in
      let written := if n =? 0 then [] else [Wrote k piece] in
      let done := done + n in
      if done =? zlen data then (OK, done, written, tl ss)
      else match s with
           | Lost => (SOFT, done, written, tl ss)
           | Other => (HARD, done, written, tl ss)
           | Takes _ | Again | Interrupted =>
               let '(ret, done, ws, ss) := sendto tries k data done (tl ss) in (ret, done, written ++ ws, ss)
           end
  end.

(** rrr_socket_send_chunk.c:305-349 [__rrr_socket_send_chunk_collection_send], one list: the return
    value, the list after, what happened and the answers which remain *)
Definition advance (c : chunk) (n : Z) : chunk := mk_chunk (k_no c) (k_data c) (k_pos c + n) (k_private c).
Fixpoint send_list (l : list chunk) (ss : list sys) : Z * list chunk * list event * list sys :=
  match l with
  | [] => (OK, [], [], ss)
  | c :: r =>
      let '(ret, n, ws, ss) := sendto 9 (k_no c) (skipn (Z.to_nat (k_pos c)) (k_data c)) 0 ss in
      if negb (ret =? OK) then (ret, (if ret =? INCOMPLETE then advance c n else c) :: r, ws, ss)
      else let '(ret, l, es, ss) := send_list r ss in
           (ret, l, ws ++ [Success (k_private c); Freed (k_no c) (k_private c)] ++ es, ss)
  end.
(** Both lists, the urgent one first *)
Definition send (q : queue) (ss : list sys) : queue * Z * list event :=
  let '(ret, high, es, ss) := send_list (q_high q) ss in
  if negb (ret =? OK) then (mk_queue high (q_normal q) (q_next q), ret, es)
  else let '(ret, normal, es', _) := send_list (q_normal q) ss in (mk_queue high normal (q_next q), ret, es ++ es').

(** rrr_socket_send_chunk.c:375-415 [rrr_socket_send_chunk_collection_send_with_callback], one list.
    [rs] has what the callback does in turn: the number of octets it writes, which is no more than
    it is given, and what it returns.  [ret] and [max] are the variables with these names. *)
Fixpoint write_list (l : list chunk) (ret max : Z) (rs : list (Z * Z)) : Z * Z * list chunk * list event * list (Z * Z) :=
  match l with
  | [] => (ret, max, [], [], rs)
  | c :: r =>
      let rest := skipn (Z.to_nat (k_pos c)) (k_data c) in
      let n := Z.max 0 (Z.min (fst (hd (0, INCOMPLETE) rs)) (zlen rest)) in
      let ret := Z.ldiff (snd (hd (0, INCOMPLETE) rs)) INCOMPLETE in
      let c' := advance c n in
      let complete := k_pos c' =? zlen (k_data c) in
      let here := (if n =? 0 then [] else [Wrote (k_no c) (firstn (Z.to_nat n) rest)]) ++ (if complete then [Freed (k_no c) (k_private c)] else []) in
      let kept := if complete then [] else [c'] in
      if negb (ret =? 0) || (n =? 0) then (ret, max, kept ++ r, here, tl rs)
      else if max =? 0 then (ret, max - 1, kept ++ r, here, tl rs)
      else let '(ret, max, l, es, rs) := write_list r ret (max - 1) (tl rs) in (ret, max, kept ++ l, here ++ es, rs)
  end.
Definition write (q : queue) (rs : list (Z * Z)) : queue * Z * list event :=
  let '(ret, max, high, es, rs) := write_list (q_high q) 0 10 rs in
  let '(ret, _, normal, es', _) := write_list (q_normal q) ret max rs in
  (mk_queue high normal (q_next q), ret, es ++ es').

(** rrr_socket_send_chunk.c:68-74 [rrr_socket_send_chunk_collection_clear] *)
Definition freed (l : list chunk) : list event := map (fun c => Freed (k_no c) (k_private c)) l.
Definition clear (q : queue) : queue * list event := (mk_queue [] [] (q_next q), freed (q_high q ++ q_normal q)).

Definition step (q : queue) (o : op) : queue * out :=
  match o with
  | Push urgent data private => let q := push q urgent data private in (q, Pushed (count q))
  | Send ss => let '(q, ret, es) := send q ss in (q, Sent ret es)
  | Write rs => let '(q, ret, es) := write q rs in (q, Sent ret es)
  | Clear => let '(q, es) := clear q in (q, Cleared es)
  end.
Fixpoint run (q : queue) (os : list op) : queue * list out :=
  match os with
  | [] => (q, [])
  | o :: os => let '(q, x) := step q o in let '(q, xs) := run q os in (q, x :: xs)
  end.
