(** Properties C93-C94: texts of array definitions. *)
From Coq Require Import Strings.String.
From Coq Require Import ZArith List Bool Lia.
From Verif Require Import Common TypeModel ParseModel ConfigSpec CondModel CondSpec CondEval ArrayTreeModel ArrayTreeSpec ArrayDefModel ArrayDefSpec ArrayDefProofs ArrayDefLayout.
Import ListNotations.
Open Scope Z_scope.

(** ** C93: any text either makes a definition or is refused *)

(** No octet outside the text is used and the program is not aborted; whatever is accepted has a
    known type, a size and count within the limits of the type, names which can be referred to and
    conditions made of well-formed literals and operators. *)
Theorem array_def_safe : forall t : text, exists r, interpret_raw t = Ok r /\
  match r with
  | inl u => Forall accepted (defs u) /\ Forall (fun k => 0 <= k < 2^32) (rewinds u) /\ Forall (Forall carrier_ok) (conds u)
  | inr e => In e [1; 2]
  end.
Proof.
  intros t. destruct (raw_safe t) as (r & E & H). exists r. split; [ exact E | ]. destruct r as [ u | e ]; [ exact H | ].
  destruct H as [ -> | -> ]; [ left | right; left ]; reflexivity.
Qed.
(** A definition with a value which is too large, one with an unknown type, one cut short, and one
    which is fine *)
Example array_def_safe_ex :
  interpret_raw (mk_text (str_bytes "be9;") true) = Ok (inr 2) /\ interpret_raw (mk_text (str_bytes "foo1;") true) = Ok (inr 2) /\
  interpret_raw (mk_text (str_bytes "be1#x,IF({x}==1)be1") true) = Ok (inr 2) /\
  exists u, interpret_raw (mk_text (str_bytes "be1#type,be1#one,IF({type}==1);ELSIF({type}==2)be2#two;ELSIF({type}>0)blob{type}#x;ELSEerr;sep1#separator;") true) = Ok (inl u) /\
    map (fun d => v_tag (d_value d)) (defs u) = map str_bytes ["type"; "one"; "two"; "x"; ""; "separator"]%string /\ zlen (conds u) = 3.
Proof. split; [ vm_compute; reflexivity | ]. split; [ vm_compute; reflexivity | ]. split; [ vm_compute; reflexivity | ]. eexists. split; [ vm_compute; reflexivity | ]. split; vm_compute; reflexivity. Qed.
Print Assumptions array_def_safe.

(** ** C94: a definition written as the manual says is understood *)

(** Partial: each value takes 3 to 65 characters, more values behind two commas are written with
    blanks only between these, and the operators of one level in a condition are grouped with
    parentheses; see the findings here and with the conditions. *)
Theorem array_def_layout_partial : forall d s b1 semi b2 nul,
  lays d s -> blank_inline b1 -> blank_inline b2 -> semi = [] \/ semi = [59] ->
  exists u, interpret_raw (mk_text (s ++ b1 ++ semi ++ b2) nul) = good u /\ same d u.
Proof. exact raw_reads. Qed.

Definition ex_n : vdef := mk_vdef (mk_value TYPE_BE 0 [110] 1 1 []) None None.
Definition ex_x : vdef := mk_vdef (mk_value TYPE_BLOB 0 [120] 0 1 []) (Some [110]) None.
Definition ex_y : vdef := mk_vdef (mk_value TYPE_LE 1 [121] 2 3 []) None None.
Definition ex_s : vdef := mk_vdef (mk_value TYPE_SEP 0 [] 1 1 []) None None.
Definition ex_cond : expr := Bin BGt (Lit (Name [110])) (Lit (Number 1 false)).
Definition ex_tree : dtree := DValues [ex_n; ex_x] (DIf ex_cond (DRewind 1 (DValues [ex_y] DEnd)) (DBElse (DValues [ex_s] DEnd)) DEnd).
Lemma ex_cond_written : CondSpec.condition Never (str_bytes " ({n} > 1)") ex_cond.
Proof.
  apply (C_cond Never [32] [] (level BGt) (str_bytes "{n} > 1") []); try (repeat constructor; fail).
  apply (W_bin Never BGt ">" 0 (str_bytes "{n}") _ 0 (str_bytes "1") _ [32] [32]).
  - apply W_lit. apply (w_name [110]); [ discriminate | repeat constructor; unfold name_char; lia | cbn; lia ].
  - vm_compute. discriminate.
  - apply W_lit. apply (w_dec [49]); [ discriminate | repeat constructor; unfold digit; lia | cbn; lia | vm_compute; reflexivity ].
  - vm_compute. discriminate.
  - vm_compute. tauto.
  - repeat constructor.
  - repeat constructor.
  - intros _. discriminate.
  - discriminate.
Qed.
Ltac nm := split; [ discriminate | repeat constructor; unfold name_char; lia ].
Ltac dc := split; [ discriminate | split; [ repeat constructor; unfold digit; lia | vm_compute; reflexivity ] ].
Lemma ex_lays : lays ex_tree (str_bytes "be1#n, blob{n}#x IF ({n} > 1) REWIND 1 le2s@3#y;ELSE sep1;;").
Proof.
  apply (lays_gap []); [ constructor | ].
  apply (bare_values [ex_n; ex_x] (str_bytes "be1#n, blob{n}#x") _ (str_bytes " IF ({n} > 1) REWIND 1 le2s@3#y;ELSE sep1;;")).
  - apply (values_more ex_n (str_bytes "be1#n") [] [32] [ex_x] (str_bytes "blob{n}#x")); [ | cbn; lia | constructor | repeat constructor | apply values_one; [ | cbn; lia ] ].
    + apply (writes_value "be" TYPE_BE 1 None 0 1 None [110] [49] [] [] [35; 110]); [ vm_compute; tauto | apply size_number; [ dc | vm_compute; split; discriminate ] | apply sign_none | apply count_one | apply tag_name; nm ].
    + apply (writes_value "blob" TYPE_BLOB 0 (Some [110]) 0 1 None [120] [123; 110; 125] [] [] [35; 120]); [ vm_compute; tauto | apply (size_name _ [110]); [ vm_compute; reflexivity | nm ] | apply sign_none | apply count_one | apply tag_name; nm ].
  - apply (lays_gap [32]); [ repeat constructor; lia | ].
    apply (bare_if (str_bytes " ({n} > 1)") ex_cond _ (str_bytes " REWIND 1 le2s@3#y;") _ (str_bytes "ELSE sep1;") _ [59]); [ exact ex_cond_written | exact I | | | ].
    + apply (lays_gap [32]); [ repeat constructor; lia | ].
      apply (bare_rewind [32] 1 [49] _ (str_bytes " le2s@3#y;")); [ repeat constructor | dc | cbn; lia | lia | ].
      apply (lays_gap [32]); [ repeat constructor; lia | ].
      apply (bare_values [ex_y] (str_bytes "le2s@3#y") _ [59]); [ apply values_one; [ | cbn; lia ] | apply (lays_gap []); [ constructor | apply bare_end ] | exists 59, []; split; [ reflexivity | cbn; tauto ] ].
      apply (writes_value "le" TYPE_LE 2 None 1 3 None [121] [50] [115] [64; 51] [35; 121]); [ vm_compute; tauto | apply size_number; [ dc | vm_compute; split; discriminate ] | apply sign_signed; [ vm_compute; tauto | lia ] | apply count_number; [ dc | lia | vm_compute; discriminate ] | apply tag_name; nm ].
    + apply (lays_else [] _ (str_bytes " sep1;")); [ constructor | ]. apply (lays_gap [32]); [ repeat constructor; lia | ].
      apply (bare_values [ex_s] (str_bytes "sep1") _ [59]); [ apply values_one; [ | cbn; lia ] | apply (lays_gap []); [ constructor | apply bare_end ] | exists 59, []; split; [ reflexivity | cbn; tauto ] ].
      apply (writes_value "sep" TYPE_SEP 1 None 0 1 None [] [49] [] [] []); [ vm_compute; tauto | apply size_number; [ dc | vm_compute; split; discriminate ] | apply sign_none | apply count_one | apply tag_none ].
    + apply (lays_gap []); [ constructor | apply bare_end ].
  - exists 32, (str_bytes "IF ({n} > 1) REWIND 1 le2s@3#y;ELSE sep1;;"). split; [ reflexivity | cbn; tauto ].
Qed.
Example array_def_layout_ex : lays ex_tree (str_bytes "be1#n, blob{n}#x IF ({n} > 1) REWIND 1 le2s@3#y;ELSE sep1;;") /\
  exists c, interpret_raw (mk_text (str_bytes "be1#n, blob{n}#x IF ({n} > 1) REWIND 1 le2s@3#y;ELSE sep1;;") true) =
    good (TValues [ex_n; ex_x] (TIf c (TRewind 1 (TValues [ex_y] TEnd)) (BElse (TValues [ex_s] TEnd)) TEnd)).
Proof. split; [ exact ex_lays | ]. eexists. vm_compute. reflexivity. Qed.
Print Assumptions array_def_layout_partial.

(** FINDING: a value of two characters is legal but refused: "h4;" is, "h4#x;" is not. *)
Theorem array_def_short_refuted : (exists d, writes d (str_bytes "h4")) /\ interpret_raw (mk_text (str_bytes "h4;") true) = Ok (inr 2) /\
  exists u, interpret_raw (mk_text (str_bytes "h4#x;") true) = good u.
Proof.
  split.
  - eexists. apply (writes_value "h" TYPE_H 4 None 0 1 None [] [52] [] [] []); [ vm_compute; tauto | apply size_number; [ dc | vm_compute; split; discriminate ] | apply sign_none | apply count_one | apply tag_none ].
  - split; [ vm_compute; reflexivity | ]. eexists. vm_compute. reflexivity.
Qed.
Print Assumptions array_def_short_refuted.

(** FINDING: sizes may have a sign before them, and a negative size wraps around: the
    size of -18446744073709551615 is accepted and is 1. *)
Theorem array_def_sign_refuted :
  (exists d, interpret_raw (mk_text (str_bytes "blob-18446744073709551615#x;") true) = good (TValues [d] TEnd) /\ v_import_length (d_value d) = 1) /\
  (exists d, interpret_raw (mk_text (str_bytes "blob+4;") true) = good (TValues [d] TEnd) /\ v_import_length (d_value d) = 4).
Proof. split; eexists; (split; [ vm_compute; reflexivity | reflexivity ]). Qed.
Print Assumptions array_def_sign_refuted.
