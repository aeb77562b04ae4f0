(** How arguments are supposed to be read. *)
From Coq Require Import ZArith List Bool.
From Verif Require Import Common CmdModel.
Import ListNotations.
Open Scope Z_scope.

Definition dash : Z := 45.
Definition equal_sign : Z := 61.
Definition comma : Z := 44.
(** The first rule with a name or a letter, apart from those for words. *)
Definition named (rules : list rule) (name : list Z) (r : rule) : Prop :=
  exists before after, rules = before ++ r :: after /\ r_word r = false /\ r_long r = name /\
    Forall (fun q => r_word q = true \/ r_long q <> name) before.
Definition lettered (rules : list rule) (c : Z) (r : rule) : Prop :=
  exists before after, rules = before ++ r :: after /\ r_word r = false /\ r_short r = c /\
    Forall (fun q => r_word q = true \/ r_short q <> c) before.
(** The rule for word number n: the rules for words in turn, then the rule for any number of words. *)
Definition wordly (rules : list rule) (n : nat) (r : rule) : Prop :=
  nth_error (filter r_word rules) n = Some r \/
  (nth_error (filter r_word rules) n = None /\ exists before after, rules = before ++ r :: after /\ r_multi r = true /\ Forall (fun q => r_multi q = false) before).
Definition fits (r : rule) (v : list Z) : Prop := v <> [] \/ r_empty r = true.
(** What is between commas. *)
Fixpoint between_commas (v : list Z) : list (list Z) :=
  match v with
  | [] => [[]]
  | c :: r => if c =? comma then [] :: between_commas r
              else match between_commas r with s :: ss => (c :: s) :: ss | [] => [[c]] end
  end.
(** Values with commas between them. *)
Definition joined (vs : list (list Z)) : list Z := match vs with [] => [] | v :: r => v ++ concat (map (fun w => comma :: w) r) end.
(** The values of a text, between commas if the rule says so; an empty one at the end is not one. *)
Definition values (r : rule) (v : list Z) : list (list Z) :=
  if r_split r then match last (between_commas v) [] with [] => removelast (between_commas v) | _ => between_commas v end else [v].

(** The ways to write arguments.  With [lenient] there are also three which are in no manual:
    a value for letters which take none, and a rule for words used by its name or its letter. *)
Inductive reads (lenient : bool) (rules : list rule) : bool -> nat -> list (list Z) -> list pair -> Prop :=
| reads_end : forall e n, reads lenient rules e n [] []
| reads_dashes : forall n args ps, reads lenient rules true n args ps -> reads lenient rules false n ([dash; dash] :: args) ps
| reads_word : forall e n a args ps r,
    e = true \/ (a <> [] /\ hd 0 a <> dash) -> wordly rules n r -> fits r a ->
    reads lenient rules e (S n) args ps -> reads lenient rules e n (a :: args) (mk_pair r (values r a) :: ps)
| reads_long : forall n name args ps r,
    name <> [] -> ~ In equal_sign name -> named rules name r -> r_argument r = false -> r_multi r = false ->
    reads lenient rules false n args ps -> reads lenient rules false n ((dash :: dash :: name) :: args) (mk_pair r [] :: ps)
| reads_long_value : forall n name v args ps r,
    name <> [] -> ~ In equal_sign name -> named rules name r -> r_argument r = true -> r_multi r = false -> fits r v ->
    reads lenient rules false n args ps -> reads lenient rules false n ((dash :: dash :: name) :: v :: args) (mk_pair r (values r v) :: ps)
| reads_long_equal : forall n name v args ps r,
    name <> [] -> ~ In equal_sign name -> named rules name r -> r_argument r = true \/ r_multi r = true -> fits r v ->
    reads lenient rules false n args ps ->
    reads lenient rules false n ((dash :: dash :: name ++ equal_sign :: v) :: args) (mk_pair r (values r v) :: ps)
| reads_letter_value : forall n c v args ps r,
    c <> dash -> c <> equal_sign -> lettered rules c r -> r_argument r = true -> r_multi r = false -> fits r v ->
    reads lenient rules false n args ps -> reads lenient rules false n ([dash; c] :: v :: args) (mk_pair r (values r v) :: ps)
| reads_letter_equal : forall n c v args ps r,
    c <> dash -> c <> equal_sign -> lettered rules c r -> r_argument r = true -> fits r v ->
    reads lenient rules false n args ps -> reads lenient rules false n ((dash :: c :: equal_sign :: v) :: args) (mk_pair r (values r v) :: ps)
| reads_letters : forall n cs rs args ps,
    cs <> [] -> hd 0 cs <> dash -> ~ In equal_sign cs -> Forall2 (fun c r => lettered rules c r /\ r_argument r = false) cs rs ->
    reads lenient rules false n args ps -> reads lenient rules false n ((dash :: cs) :: args) (map (fun r => mk_pair r []) rs ++ ps)
| reads_letters_ignored : forall n cs v rs args ps, lenient = true ->
    cs <> [] -> hd 0 cs <> dash -> ~ In equal_sign cs -> Forall2 (fun c r => lettered rules c r /\ r_argument r = false) cs rs ->
    reads lenient rules false n args ps -> reads lenient rules false n ((dash :: cs ++ equal_sign :: v) :: args) (map (fun r => mk_pair r []) rs ++ ps)
| reads_long_own : forall n name args ps r, lenient = true ->
    name <> [] -> ~ In equal_sign name -> named rules name r -> r_multi r = true ->
    reads lenient rules false n args ps ->
    reads lenient rules false n ((dash :: dash :: name) :: args) (mk_pair r (values r (dash :: dash :: name)) :: ps)
| reads_letter_own : forall n c args ps r, lenient = true ->
    c <> dash -> c <> equal_sign -> lettered rules c r -> r_argument r = true -> r_multi r = true ->
    reads lenient rules false n args ps -> reads lenient rules false n ([dash; c] :: args) (mk_pair r (values r [dash; c]) :: ps).
