(** What users rely on about the shared memory allocator (C33). *)
From Coq Require Import ZArith List Bool Lia.
From Verif Require Import Common MmapModel MmapSpec MmapProofs MmapHeapProofs.
Import ListNotations.
Open Scope Z_scope.

(** C33: for every history of allocations, frees, reads, writes and emptiness checks
    on a heap made for any number of bytes: no legal use stops the program or hangs;
    new memory is inside the heap, as large as asked for, aligned and apart from every
    live allocation; every word of an allocation keeps what its owner stored, whatever
    others do; the heap is called empty exactly when nothing is allocated; and freeing
    anything which is not a live allocation stops the program. *)
Theorem mmap_history : forall n os, 0 <= n < 2 ^ 62 -> behaves (mmap_init n) [] os.
Proof. intros n os Hn. apply behaves_ok. apply heap_rep_init. exact Hn. Qed.
Print Assumptions mmap_history.

(** Answers of a history, up to the first one which stops the program. *)
Fixpoint answers (s : mmap) (os : list op) : list (option out) :=
  match os with
  | [] => []
  | o :: os' => match step s o with Ok (s', r) => Some r :: answers s' os' | _ => [None] end
  end.
(** Three blocks, the first two freed and merged for a larger one, a smaller one put
    in place of the freed third, words kept throughout, and finally a double free. *)
Definition demo : list op :=
  [ Alloc 20; Alloc 30; Alloc 100; Put 600 3 77; IsEmpty; Free 520; Free 552;
    Alloc 60; Put 520 7 9; Get 600 3; Get 520 7; Free 600; Alloc 8; Free 520; Free 600; IsEmpty; Free 600 ].
Example mmap_history_case : answers (mmap_init 1000) demo =
  [ Some (Handle (Some 520)); Some (Handle (Some 552)); Some (Handle (Some 600)); Some Done; Some (Answer false); Some Done; Some Done;
    Some (Handle (Some 520)); Some Done; Some (Word 77); Some (Word 9); Some Done; Some (Handle (Some 600)); Some Done; Some Done;
    Some (Answer true); None ].
Proof. vm_compute. reflexivity. Qed.

(** C33, finding: near the top of the 64-bit range the size wraps: a request for
    2^64 - 8 bytes is served with 16 bytes. *)
Theorem mmap_wrap_refuted : exists n s' h,
  0 < n < 2 ^ 64 /\ mmap_allocate (mmap_init 1000) n = Ok (s', Some h) /\ m_size s' < n /\ size_of (m_heap s') 0 0 = 16.
Proof.
  exists (2 ^ 64 - 8). eexists _, _.
  split; [ vm_compute; split; reflexivity | ]. split; [ vm_compute; reflexivity | ]. split; vm_compute; reflexivity.
Qed.
Print Assumptions mmap_wrap_refuted.

(** C33: a heap made for [k] bytes serves its first allocation of [n] bytes exactly
    when the index and the padded block fit. *)
Lemma alloc_first : forall n m H ix req pos, size_of m ix 0 = 0 -> used m ix 0 = false ->
  alloc_slots (S n) 0 m H ix req pos 0 0 0 0 = if H <? u64 (pos + req) then AFail
    else ADone (upd (set_used (set_size m ix 0 req) ix 0) (pos + req - 8) SENTINEL) pos.
Proof. intros n m H ix req pos E1 E2. cbn [alloc_slots]. rewrite E1, E2. reflexivity. Qed.
Lemma fresh_exact : forall k n, 0 <= k < 2 ^ 62 -> 0 < n < 2 ^ 62 ->
  (exists s', mmap_allocate (mmap_init k) n = Ok (s', Some 520)) <-> 520 + (n + 8 - (n + 8) mod 16 + 16) <= init_size k.
Proof.
  intros k n Hk Hn. change (2 ^ 62) with 4611686018427387904 in *.
  assert (E : init_size k = k + 528 + (4096 - (k + 528) mod 4096)).
  { unfold init_size, INDEX. rewrite (u64_small (k + 520 + 8)) by lia. rewrite u64_small by lia. replace (k + 520 + 8) with (k + 528) by lia. reflexivity. }
  unfold mmap_allocate, mmap_init. cbn [m_heap m_size m_prev_fail m_prev_pos m_allocs].
  destruct (Z.eqb_spec n 0); [ lia | ]. cbv zeta. unfold INDEX, CHUNK.
  rewrite !(u64_small (n + 8)) by lia. rewrite !(u64_small (n + 8 - (n + 8) mod 16 + 16)) by lia.
  change (negb (0 =? 0) && (0 <=? n + 8)) with false. cbv iota.
  rewrite (u64_small (init_size k - 520)) by lia.
  destruct (Z.ltb_spec (init_size k - 520) (n + 8)).
  { split; [ intros [s' X]; discriminate X | lia ]. }
  change (0 <? 0) with false. cbv iota.
  unfold rounds, INDEX. replace (Z.to_nat (init_size k / 520 + 1)) with (S (Z.to_nat (init_size k / 520))) by lia.
  cbn [alloc_loop]. destruct (Z.ltb_spec 0 (init_size k)); [ | lia ].
  unfold INDEX. change (u64 (0 + 520)) with 520. destruct (Z.ltb_spec (init_size k) 520); [ lia | ].
  rewrite (alloc_first 63) by reflexivity.
  rewrite u64_small by lia.
  destruct (Z.ltb_spec (init_size k) (520 + (n + 8 - (n + 8) mod 16 + 16))).
  - split; [ intros [s' X]; discriminate X | lia ].
  - split; [ intros _; assumption | intros _; eexists; reflexivity ].
Qed.
Theorem mmap_fresh_serves : forall n, 0 < n < 2 ^ 62 ->
  (exists s', mmap_allocate (mmap_init n) n = Ok (s', Some 520)) <-> (n + 528) mod 4096 < 4088.
Proof.
  intros n Hn. rewrite fresh_exact by lia. change (2 ^ 62) with 4611686018427387904 in *.
  assert (E : init_size n = n + 528 + (4096 - (n + 528) mod 4096)).
  { unfold init_size, INDEX. rewrite (u64_small (n + 520 + 8)) by lia. rewrite u64_small by lia. replace (n + 520 + 8) with (n + 528) by lia. reflexivity. }
  rewrite E. pose proof (Z.div_mod (n + 528) 4096 ltac:(lia)) as D. pose proof (Z.mod_pos_bound (n + 528) 4096 ltac:(lia)) as B.
  set (q := (n + 528) / 4096) in *. set (r := (n + 528) mod 4096) in *.
  replace ((n + 8) mod 16) with ((r + 8) mod 16).
  - lia.
  - replace (n + 8) with (r + 8 + (256 * q - 33) * 16) by lia. rewrite Z.mod_add by lia. reflexivity.
Qed.
Print Assumptions mmap_fresh_serves.
(** Finding: a heap made for 3560 bytes cannot serve 3560 bytes. *)
Example mmap_fresh_serves_case : (3560 + 528) mod 4096 = 4088 /\ answers (mmap_init 3560) [Alloc 3560] = [Some (Handle None)] /\
  answers (mmap_init 3559) [Alloc 3559] = [Some (Handle (Some 520))].
Proof. split; [ | split ]; vm_compute; reflexivity. Qed.

(** C33: a refusal is remembered (larger requests are refused at once) only until
    something is freed: what [mmap_free] leaves behind does not depend on it. *)
Theorem mmap_free_forgets_refusals : forall m H f1 f2 p c h, mmap_free (mk_mmap m H f1 p c) h = mmap_free (mk_mmap m H f2 p c) h.
Proof. reflexivity. Qed.
Print Assumptions mmap_free_forgets_refusals.
Example mmap_free_forgets_refusals_case : answers (mmap_init 1000) [Alloc 100; Alloc 3300; Alloc 1000; Alloc 500; Free 632; Alloc 1000] =
  [Some (Handle (Some 520)); Some (Handle (Some 632)); Some (Handle None); Some (Handle None); Some Done; Some (Handle (Some 632))].
Proof. vm_compute. reflexivity. Qed.

(** C33, finding: freed memory is not always available again.  Once a search has
    moved on to the end of the heap where no index fits, every later allocation is
    refused although everything has been freed. *)
Fixpoint run (s : mmap) (os : list op) : option mmap :=
  match os with [] => Some s | o :: os' => match step s o with Ok (s', _) => run s' os' | _ => None end end.
Definition fill : list op := repeat (Alloc 1) 63 ++ [Alloc 2540].
Definition release : list op := map (fun i => Free (520 + 16 * Z.of_nat i)) (seq 0 64).
Lemma stuck_forever : forall H m p, 0 <= p < H -> H < p + INDEX -> INDEX <= H < 2 ^ 63 -> forall n c, 0 < n < 2 ^ 64 - 8 ->
  forall pf, exists pf', mmap_allocate (mk_mmap m H pf p c) n = Ok (mk_mmap m H pf' p c, None).
Proof.
  intros H m p Hp HI HH n c Hn pf. change (2 ^ 63) with 9223372036854775808 in *. change (2 ^ 64 - 8) with 18446744073709551608 in *.
  unfold mmap_allocate. cbn [m_heap m_size m_prev_fail m_prev_pos m_allocs]. destruct (Z.eqb_spec n 0); [ lia | ]. cbv zeta.
  match goal with |- context [if ?b then _ else _] => destruct b end; [ eexists; reflexivity | ].
  destruct (Z.ltb_spec (u64 (H - INDEX)) (u64 (n + 8))); [ eexists; reflexivity | ].
  unfold rounds, INDEX in *. replace (Z.to_nat (H / 520 + 1)) with (S (Z.to_nat (H / 520))) by lia. cbn [alloc_loop].
  destruct (Z.ltb_spec p H); [ | lia ]. unfold INDEX. rewrite u64_small by lia. destruct (Z.ltb_spec H (p + 520)); [ | lia ]. eexists. reflexivity.
Qed.
Theorem mmap_freed_available_refuted : exists os s,
  run (mmap_init 3000) os = Some s /\ mmap_is_empty s = Ok true /\
  forall n, 0 < n < 2 ^ 64 - 8 -> exists s', mmap_allocate s n = Ok (s', None).
Proof.
  exists (fill ++ [Alloc 1] ++ release).
  assert (A : forall o : option mmap, match o with Some s => mmap_is_empty s = Ok true /\ m_size s = 4096 /\ m_prev_pos s = 4088 | None => False end ->
    exists s, o = Some s /\ mmap_is_empty s = Ok true /\ forall n, 0 < n < 2 ^ 64 - 8 -> exists s', mmap_allocate s n = Ok (s', None)).
  { intros [s|]; [ | intros [] ]. intros (E1 & E2 & E3). exists s. split; [ reflexivity | ]. split; [ exact E1 | ]. intros n Hn.
    destruct s as [m H pf p c]. cbn [m_size m_prev_pos] in E2, E3. subst.
    destruct (stuck_forever 4096 m 4088 ltac:(lia) ltac:(unfold INDEX; lia) ltac:(unfold INDEX; change (2 ^ 63) with 9223372036854775808; lia) n c Hn pf) as [pf' E].
    eexists. exact E. }
  apply A. vm_compute. auto.
Qed.
Print Assumptions mmap_freed_available_refuted.
