(** Decimal text of numbers: what printf's %u family writes and strtoull reads.
    Library vocabulary, no code of the repository is modelled here. *)
From Coq Require Import ZArith List Bool Lia.
From Verif Require Import Common.
Import ListNotations.
Open Scope Z_scope.

(** Decimal digits of [n], most significant first, by repeated division; [fuel]
    bounds the number of digits. *)
Fixpoint dec_digits (fuel : nat) (n : Z) (acc : list Z) : list Z :=
  match fuel with
  | O => acc
  | S f => let acc' := 48 + n mod 10 :: acc in
           if n / 10 =? 0 then acc' else dec_digits f (n / 10) acc'
  end.
(** "%llu" of a number below 2^64 (20 digits at most). *)
Definition dec_str (n : Z) : list Z := dec_digits 20 n [].

Definition is_dec_digit (c : Z) : bool := (48 <=? c) && (c <=? 57).
(** Value of a string of digits. *)
Definition dec_val (s : list Z) : Z := fold_left (fun a c => a * 10 + (c - 48)) s 0.

(** strtoull (s, &end, 10) with the check that [*end] is NUL, for the strings the
    code stores: digits only.  Simplified: leading blanks and signs, which
    strtoull would accept, are refused here. *)
Definition strtoull (s : list Z) : option Z :=
  match s with
  | [] => None
  | _ => if forallb is_dec_digit s then Some (Z.min (dec_val s) (2^64 - 1)) else None
  end.

Lemma dec_val_app : forall a b, dec_val (a ++ b) = dec_val a * 10 ^ zlen b + dec_val b.
Proof.
  intros a b. induction b as [|x b IH] using rev_ind.
  - rewrite app_nil_r, zlen_nil. cbn. lia.
  - unfold dec_val in *. rewrite app_assoc, !fold_left_app. cbn [fold_left].
    rewrite fold_left_app in IH. rewrite IH, zlen_app. change (zlen [x]) with 1.
    rewrite Z.pow_add_r by (pose proof (zlen_nonneg _ b); lia). change (10^1) with 10. lia.
Qed.

Lemma dec_digits_spec : forall fuel n acc, 0 <= n < 10 ^ Z.of_nat fuel -> (0 < fuel)%nat ->
  exists d, dec_digits fuel n acc = d ++ acc /\ d <> [] /\ forallb is_dec_digit d = true /\ dec_val d = n.
Proof.
  induction fuel as [|f IH]; intros n acc Hn Hf; [ lia | ]. cbn [dec_digits].
  assert (Hd : is_dec_digit (48 + n mod 10) = true) by (unfold is_dec_digit; lia).
  destruct (Z.eqb_spec (n / 10) 0) as [E|E].
  - exists [48 + n mod 10]. split; [ reflexivity | ]. split; [ discriminate | ].
    split; [ cbn [forallb]; rewrite Hd; reflexivity | ]. unfold dec_val. cbn [fold_left]. lia.
  - rewrite Nat2Z.inj_succ, Z.pow_succ_r in Hn by lia.
    destruct (IH (n / 10) (48 + n mod 10 :: acc)) as (d & -> & Hne & Hdig & Hv).
    + set (p := 10 ^ Z.of_nat f) in *. clearbody p. lia.
    + destruct f; [ cbn in Hn; lia | lia ].
    + exists (d ++ [48 + n mod 10]). split; [ rewrite <- app_assoc; reflexivity | ].
      split; [ destruct d; discriminate | ].
      split; [ rewrite forallb_app, Hdig; cbn [forallb]; rewrite Hd; reflexivity | ].
      rewrite dec_val_app, Hv. change (zlen _) with 1. unfold dec_val. cbn [fold_left]. change (10^1) with 10. lia.
Qed.

Lemma dec_str_spec : forall n, 0 <= n < 2^64 ->
  dec_str n <> [] /\ forallb is_dec_digit (dec_str n) = true /\ dec_val (dec_str n) = n.
Proof.
  intros n Hn. unfold dec_str. destruct (dec_digits_spec 20 n []) as (d & -> & H1 & H2 & H3); [ | lia | ].
  - change (10 ^ Z.of_nat 20) with 100000000000000000000. lia.
  - rewrite app_nil_r. auto.
Qed.
Lemma dec_str_inj : forall a b, 0 <= a < 2^64 -> 0 <= b < 2^64 -> dec_str a = dec_str b -> a = b.
Proof.
  intros a b Ha Hb E. rewrite <- (proj2 (proj2 (dec_str_spec a Ha))), <- (proj2 (proj2 (dec_str_spec b Hb))), E. reflexivity.
Qed.
Lemma strtoull_dec : forall n, 0 <= n < 2^64 -> strtoull (dec_str n) = Some n.
Proof.
  intros n Hn. destruct (dec_str_spec n Hn) as (H1 & H2 & H3). unfold strtoull.
  destruct (dec_str n) as [|c s] eqn:E; [ congruence | ]. rewrite H2, H3. f_equal. lia.
Qed.
(** A digit string has no '/'. *)
Lemma dec_str_no_slash : forall n, 0 <= n < 2^64 -> ~ In 47 (dec_str n).
Proof.
  intros n Hn HI. destruct (dec_str_spec n Hn) as (_ & H & _). rewrite forallb_forall in H.
  apply H in HI. discriminate.
Qed.
