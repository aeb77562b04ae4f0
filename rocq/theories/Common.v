(** Shared vocabulary of the model: bytes and machine integers as [Z], explicit
    wrap-around, list helpers.  Nothing here models code of its own; the
    integer typedefs are those of src/lib/rrr_types.h (rrr_length = uint32_t,
    rrr_biglength = uint64_t). *)
From Coq Require Import ZArith List Lia Bool.
From Coq Require String Ascii.
Export String.StringSyntax.
From Coq Require Export ZifyBool ZifyNat ZifyN.
Import ListNotations.
Open Scope Z_scope.

Ltac Zify.zify_post_hook ::= Z.div_mod_to_equations.

(** An octet. *)
Definition byte (b : Z) : Prop := 0 <= b < 256.
Definition bytes (l : list Z) : Prop := Forall byte l.
Definition byteb (b : Z) : bool := (0 <=? b) && (b <? 256).

(** Length as a [Z]. *)
Definition zlen {A} (l : list A) : Z := Z.of_nat (length l).

(** Unsigned wrap-around of C arithmetic. *)
Definition u8 (x : Z) : Z := x mod 2^8.
Definition u16 (x : Z) : Z := x mod 2^16.
Definition u32 (x : Z) : Z := x mod 2^32.
Definition u64 (x : Z) : Z := x mod 2^64.

(** All octets, for finite sweeps. *)
Definition all_bytes : list Z := map Z.of_nat (seq 0 256).

Lemma all_bytes_in : forall b, byte b -> In b all_bytes.
Proof.
  intros b [H1 H2]. unfold all_bytes. apply in_map_iff.
  exists (Z.to_nat b). split; [ lia | ]. apply in_seq. lia.
Qed.

Lemma sweep_byte : forall (f : Z -> bool),
  forallb f all_bytes = true -> forall b, byte b -> f b = true.
Proof.
  intros f H b Hb. rewrite forallb_forall in H. apply H. apply all_bytes_in; auto.
Qed.

Lemma byteb_iff : forall b, byteb b = true <-> byte b.
Proof. intros. unfold byteb, byte. lia. Qed.

Lemma zlen_nil : forall A, zlen (@nil A) = 0.
Proof. reflexivity. Qed.
Lemma zlen_cons : forall A (x : A) l, zlen (x :: l) = 1 + zlen l.
Proof. intros. unfold zlen. simpl length. lia. Qed.
Lemma zlen_app : forall A (l l' : list A), zlen (l ++ l') = zlen l + zlen l'.
Proof. intros. unfold zlen. rewrite app_length. lia. Qed.
Lemma zlen_nonneg : forall A (l : list A), 0 <= zlen l.
Proof. intros. unfold zlen. lia. Qed.
Lemma zlen_map : forall A B (f : A -> B) l, zlen (map f l) = zlen l.
Proof. intros. unfold zlen. rewrite map_length. reflexivity. Qed.
Lemma zlen_rev : forall A (l : list A), zlen (rev l) = zlen l.
Proof. intros. unfold zlen. rewrite rev_length. reflexivity. Qed.
Lemma zlen_0 : forall A (l : list A), zlen l = 0 -> l = [].
Proof. intros A [|x l] H; auto. rewrite zlen_cons in H. pose proof (zlen_nonneg _ l). lia. Qed.

(** Bits above the width of a bounded number are zero. *)
Lemma testbit_high : forall k y n, 0 <= k -> 0 <= y < 2^k -> k <= n -> Z.testbit y n = false.
Proof.
  intros k y n Hk Hy Hn.
  rewrite <- (Z.mod_small y (2^k)) by lia.
  apply Z.mod_pow2_bits_high. lia.
Qed.

(** Disjoint bit fields: or is addition. *)
Lemma lor_add : forall k x y, 0 <= k -> 0 <= y < 2^k -> Z.lor (x * 2^k) y = x * 2^k + y.
Proof.
  intros k x y Hk Hy.
  rewrite <- (Z.shiftl_mul_pow2 x k) by lia.
  symmetry. rewrite Z.add_nocarry_lxor.
  - apply Z.bits_inj'. intros n Hn. rewrite Z.lxor_spec, Z.lor_spec.
    destruct (Z.ltb_spec n k).
    + rewrite Z.shiftl_spec_low by lia. destruct (Z.testbit y n); reflexivity.
    + rewrite (testbit_high k y n) by lia. destruct (Z.testbit (Z.shiftl x k) n); reflexivity.
  - apply Z.bits_inj'. intros n Hn. rewrite Z.land_spec, Z.bits_0.
    destruct (Z.ltb_spec n k).
    + rewrite Z.shiftl_spec_low by lia. reflexivity.
    + rewrite (testbit_high k y n) by lia. apply andb_false_r.
Qed.

(** Masking with an all-ones mask is [mod]. *)
Lemma land_ones_mod : forall x k, 0 <= k -> Z.land x (2^k - 1) = x mod 2^k.
Proof.
  intros. replace (2^k - 1) with (Z.ones k) by (rewrite Z.ones_equiv; lia).
  apply Z.land_ones; auto.
Qed.

Lemma Forall_app_l : forall A (P : A -> Prop) l l', Forall P (l ++ l') -> Forall P l.
Proof. intros A P l l' H. apply Forall_app in H. tauto. Qed.
Lemma Forall_app_r : forall A (P : A -> Prop) l l', Forall P (l ++ l') -> Forall P l'.
Proof. intros A P l l' H. apply Forall_app in H. tauto. Qed.

Lemma bytes_app : forall l l', bytes (l ++ l') <-> bytes l /\ bytes l'.
Proof. intros. unfold bytes. apply Forall_app. Qed.
Lemma bytes_cons : forall b l, bytes (b :: l) <-> byte b /\ bytes l.
Proof. intros. unfold bytes. split; [ intros H; inversion H; auto | intros [? ?]; constructor; auto ]. Qed.

(** Big endian encoding of a [Z] in [n] octets (most significant first). *)
Fixpoint be_enc (n : nat) (x : Z) : list Z :=
  match n with
  | O => []
  | S m => (x / 2 ^ (8 * Z.of_nat m)) mod 256 :: be_enc m x
  end.
(** Big endian decoding. *)
Definition be_dec (l : list Z) : Z := fold_left (fun a b => a * 256 + b) l 0.

(** A C string literal as a list of octets. *)
Fixpoint str_bytes (s : String.string) : list Z :=
  match s with
  | String.EmptyString => []
  | String.String a r => Z.of_nat (Ascii.nat_of_ascii a) :: str_bytes r
  end.
Arguments str_bytes s%string_scope.


(** Induction in steps of three and four list elements. *)
Lemma list_ind3 : forall A (P : list A -> Prop),
  P [] -> (forall a, P [a]) -> (forall a b, P [a; b]) ->
  (forall a b c l, P l -> P (a :: b :: c :: l)) -> forall l, P l.
Proof.
  intros A P H0 H1 H2 H3. fix IH 1. intros [|a [|b [|c l]]]; [exact H0|apply H1|apply H2|apply H3, IH].
Qed.
Lemma list_ind4 : forall A (P : list A -> Prop),
  P [] -> (forall a, P [a]) -> (forall a b, P [a; b]) -> (forall a b c, P [a; b; c]) ->
  (forall a b c d l, P l -> P (a :: b :: c :: d :: l)) -> forall l, P l.
Proof.
  intros A P H0 H1 H2 H3 H4. fix IH 1. intros [|a [|b [|c [|d l]]]]; [exact H0|apply H1|apply H2|apply H3|apply H4, IH].
Qed.

(** A block of memory is the list of its octets.  A store outside the block is
    [None]; that is how the model makes an out-of-bounds write observable. *)
Definition mem_store (mem : list Z) (pos : Z) (bs : list Z) : option (list Z) :=
  if (0 <=? pos) && (pos + zlen bs <=? zlen mem)
  then Some (firstn (Z.to_nat pos) mem ++ bs ++ skipn (Z.to_nat (pos + zlen bs)) mem)
  else None.

Lemma mem_store_app : forall pre mid post bs, zlen mid = zlen bs ->
  mem_store (pre ++ mid ++ post) (zlen pre) bs = Some (pre ++ bs ++ post).
Proof.
  intros pre mid post bs H. unfold mem_store. pose proof (zlen_nonneg _ pre). pose proof (zlen_nonneg _ post).
  rewrite !zlen_app. replace ((0 <=? zlen pre) && _) with true by lia.
  f_equal. unfold zlen in *. rewrite Nat2Z.id. rewrite firstn_app, firstn_all, Nat.sub_diag.
  cbn [firstn]. rewrite app_nil_r. f_equal. f_equal.
  rewrite skipn_app, skipn_all2 by lia. cbn [app].
  replace (Z.to_nat (Z.of_nat (length pre) + Z.of_nat (length bs)) - length pre)%nat with (length mid) by lia.
  rewrite skipn_app, skipn_all, Nat.sub_diag. reflexivity.
Qed.
Lemma mem_store_none : forall mem pos bs, 0 <= pos -> zlen mem < pos + zlen bs -> mem_store mem pos bs = None.
Proof. intros. unfold mem_store. replace ((0 <=? pos) && _) with false by lia. reflexivity. Qed.
Lemma mem_store_len : forall mem pos bs m, mem_store mem pos bs = Some m -> zlen m = zlen mem.
Proof.
  intros mem pos bs m. unfold mem_store. destruct ((0 <=? pos) && _) eqn:E; [ | discriminate ].
  intros H. injection H as <-. rewrite !zlen_app. unfold zlen in *. rewrite firstn_length, skipn_length. lia.
Qed.
Lemma zlen_split : forall A (l : list A) n, 0 <= n <= zlen l -> exists a b, l = a ++ b /\ zlen a = n.
Proof.
  intros A l n H. exists (firstn (Z.to_nat n) l), (skipn (Z.to_nat n) l).
  split; [ symmetry; apply firstn_skipn | ]. unfold zlen in *. rewrite firstn_length. lia.
Qed.

(** Normalise lengths everywhere. *)
Ltac zl := repeat first [ rewrite zlen_app in * | rewrite zlen_cons in * | rewrite zlen_nil in * | rewrite zlen_map in * ].

(** ** Big endian integers *)
Lemma be_enc_len : forall n x, zlen (be_enc n x) = Z.of_nat n.
Proof. induction n; intros; cbn [be_enc]; [ reflexivity | ]. rewrite zlen_cons, IHn. lia. Qed.
Lemma be_enc_bytes : forall n x, bytes (be_enc n x).
Proof.
  induction n; intros; cbn [be_enc]; [ constructor | ]. apply bytes_cons. split; [ | apply IHn ].
  unfold byte. apply Z.mod_pos_bound. lia.
Qed.
Lemma be_dec_snoc : forall l b, be_dec (l ++ [b]) = be_dec l * 256 + b.
Proof. intros. unfold be_dec. rewrite fold_left_app. reflexivity. Qed.
Lemma be_dec_app : forall a b, be_dec (a ++ b) = be_dec a * 256 ^ zlen b + be_dec b.
Proof.
  intros a b. induction b as [|x b IH] using rev_ind.
  - rewrite app_nil_r. change (zlen (@nil Z)) with 0. cbn. lia.
  - rewrite app_assoc, !be_dec_snoc, IH, zlen_app. change (zlen [x]) with 1.
    rewrite Z.pow_add_r by (pose proof (zlen_nonneg _ b); lia). lia.
Qed.
Lemma be_dec_cons : forall x l, be_dec (x :: l) = x * 256 ^ zlen l + be_dec l.
Proof. intros. change (x :: l) with ([x] ++ l). rewrite be_dec_app. cbn [be_dec fold_left]. change (be_dec [x]) with (0 * 256 + x). lia. Qed.
Lemma pow256 : forall n, 2 ^ (8 * Z.of_nat n) = 256 ^ Z.of_nat n.
Proof. intros. rewrite Z.pow_mul_r by lia. reflexivity. Qed.
Lemma be_dec_enc : forall n x, 0 <= x < 256 ^ Z.of_nat n -> be_dec (be_enc n x) = x.
Proof.
  assert (G : forall n x, be_dec (be_enc n x) = x mod 256 ^ Z.of_nat n).
  { induction n; intros x; cbn [be_enc].
    - cbn. rewrite Z.mod_1_r. reflexivity.
    - rewrite be_dec_cons, be_enc_len, IHn, pow256.
      rewrite Nat2Z.inj_succ, Z.pow_succ_r by lia.
      rewrite (Z.mul_comm 256), Z.rem_mul_r by (try apply Z.pow_nonzero; try apply Z.pow_pos_nonneg; lia). lia. }
  intros n x H. rewrite G. apply Z.mod_small. auto.
Qed.
Lemma be_dec_bound : forall l, bytes l -> 0 <= be_dec l < 256 ^ zlen l.
Proof.
  induction l as [|b l IH]; intros H; [ cbn; lia | ].
  apply bytes_cons in H as [Hb H]. apply IH in H. rewrite be_dec_cons, zlen_cons.
  rewrite Z.pow_add_r by (pose proof (zlen_nonneg _ l); lia). change (256^1) with 256. unfold byte in Hb.
  set (p := 256 ^ zlen l) in *. clearbody p. nia.
Qed.
