(** Property C09: UTF-8 validation. *)
From Coq Require Import ZArith List Bool Lia.
From Verif Require Import Common Utf8Model Utf8Spec Utf8Proofs.
Import ListNotations.
Open Scope Z_scope.

(** C09. A string without NUL octets is accepted exactly when it is well formed;
    the validator always terminates with one of the two answers. *)
Theorem utf8_validate_iff_well_formed : forall buf, bytes buf -> ~ In 0 buf ->
  (utf8_validate buf = Some 0 <-> utf8_well_formed buf) /\
  (utf8_validate buf = Some 1 <-> ~ utf8_well_formed buf).
Proof.
  intros buf HB HN.
  destruct (utf8_prefix (length buf) buf ltac:(auto) HB) as (cs & tail & H1 & H2 & H3 & H4).
  assert (HV := validate_prefix cs tail H1 H2 H4). rewrite <- H3 in HV. rewrite HV.
  destruct H4 as [-> | [[t ->] | [Hne HF]]].
  - assert (utf8_well_formed buf) by (exists cs; rewrite app_nil_r in H3; auto).
    cbn. split; split; intros; try tauto; discriminate.
  - exfalso. apply HN. rewrite H3. apply in_or_app. right. left. reflexivity.
  - assert (~ utf8_well_formed buf).
    { intros [cs' [HS HE]]. rewrite HE in H3.
      destruct (wf_strip _ _ _ H1 HS H3) as (cs2 & HS2 & E2).
      revert E2. apply fail_not_wf; auto. }
    rewrite HF. split; split; intros; try tauto; discriminate.
Qed.
Print Assumptions utf8_validate_iff_well_formed.

(** "æ€😀" is accepted, an overlong slash and a surrogate are not. *)
Example utf8_validate_ex :
  utf8_encode_all [230; 8364; 128512] = [195; 166; 226; 130; 172; 240; 159; 152; 128] /\
  utf8_validate [195; 166; 226; 130; 172; 240; 159; 152; 128] = Some 0 /\
  utf8_validate [192; 175] = Some 1 /\ utf8_validate [237; 160; 128] = Some 1 /\ utf8_validate [226; 130] = Some 1.
Proof. repeat split. Qed.

(** C09. The iterator hands exactly the code points, in order, to the callback,
    until the callback refuses one. *)
Theorem utf8_iterate_delivers : forall A (cb : A -> Z -> Z * A) st cs,
  Forall scalar cs -> ~ In 0 cs ->
  utf8_validate_and_iterate cb st (utf8_encode_all cs) = Some (cb_run cb st cs).
Proof.
  intros A cb st cs HS HN. unfold utf8_validate_and_iterate. apply iterate_wf; auto.
  pose proof (encode_all_len cs). lia.
Qed.
Print Assumptions utf8_iterate_delivers.

Example utf8_iterate_ex :
  utf8_validate_and_iterate (fun l c => (0, l ++ [c])) [] [195; 166; 226; 130; 172; 65]
  = Some (0, [230; 8364; 65]).
Proof. reflexivity. Qed.

(** C09. The same character read off any well formed text, whatever follows. *)
Theorem utf8_get_character_exact : forall c rest, scalar c ->
  utf8_get_character (utf8_encode c ++ rest) = U8Ok c rest.
Proof. exact get_encode. Qed.
Print Assumptions utf8_get_character_exact.

Example utf8_get_character_ex : utf8_get_character ([240; 159; 152; 128] ++ [7]) = U8Ok 128512 [7].
Proof. reflexivity. Qed.

(** C09, finding: whatever follows a NUL octet is never looked at, so ill formed
    strings with an embedded NUL are accepted. *)
Theorem utf8_nul_hides_tail_refuted : forall cs tail, Forall scalar cs -> ~ In 0 cs ->
  utf8_validate (utf8_encode_all cs ++ 0 :: tail) = Some 0.
Proof.
  intros cs tail HS HN. rewrite validate_prefix; auto. right. left. eauto.
Qed.
Print Assumptions utf8_nul_hides_tail_refuted.

Example utf8_nul_hides_tail_ex :
  utf8_validate [65; 0; 255; 255] = Some 0 /\ ~ utf8_well_formed [65; 0; 255; 255].
Proof.
  split; [ reflexivity | ]. intros [cs [HS HE]].
  destruct (wf_strip [65; 0] cs [255; 255]) as (cs2 & HS2 & E2); auto.
  - repeat constructor; unfold scalar; lia.
  - revert E2. apply fail_not_wf; [ discriminate | reflexivity | auto ].
Qed.
