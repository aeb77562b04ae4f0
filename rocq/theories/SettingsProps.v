(** C54, C55: the settings of an instance. *)
From Coq Require Import Strings.String.
From Coq Require Import ZArith List Bool Lia.
From Verif Require Import Common Dec SettingsModel SettingsSpec SettingsProofs.
Import ListNotations.
Open Scope Z_scope.

Definition b := str_bytes.

(** C54: for every history of additions, replacements and queries the settings answer as a
    table from names to values does: a name is defined once unless replaced, at most [max] are,
    what was stored is read back whatever else happens, numbers and yes/no are read as written,
    and all settings count as used exactly when every name has been asked for.  The program
    is never aborted. *)
Theorem settings_history : forall max os, 0 <= max -> Forall fits os ->
  run (settings_new max, used_init (settings_new max)) os = Ok (spec_run max empty os).
Proof. intros max os Hm F. apply run_ok; [ now apply rep_init | assumption ]. Qed.
Print Assumptions settings_history.
Definition demo : list op :=
  [ Add (b "port") (b "5353"); Add (b "topics") (b "a,b/c,,d,"); Add (b "port") (b "1"); Add (b "third") (b "x"); ReadUint (b "port"); AllUsed;
    Commas (b "topics"); CommaArray (b "topics"); AllUsed; Replace (b "port") (b "Nope"); YesNo (b "port"); ReadUint (b "port"); Get (b "missing"); SetUsed (b "port") false; AllUsed; Dump ].
Example settings_history_ex :
  run (settings_new 2, used_init (settings_new 2)) demo = Ok
    [ Ret 0; Ret 0; Ret 1; Ret 1; Num 0 5353; Ret 1; Elements 0 [b "a"; b "b/c"; []; b "d"]; Elements 0 [b "a"; b "b/c"; []; b "d"]; Ret 0; Ret 0; Num 0 0; Num 1 0;
      Str 4 None; Ret 0; Ret 1; Lines [b "port=Nope"; b "topics=a,b/c,,d,"] ] /\ Forall fits demo.
Proof.
  split; [ vm_compute; reflexivity | ]. unfold demo.
  repeat (apply Forall_cons; [ cbn [fits]; first [ exact I | split; [ vm_compute; reflexivity | split; [ discriminate | vm_compute; intuition discriminate ] ] ] | ]). apply Forall_nil.
Qed.

(** C54, in words: what was stored last is read, and other names are not affected. *)
Theorem settings_store_read : forall max os n v m, 0 <= max -> Forall fits os -> fits (Replace n v) ->
  exists pre, run (settings_new max, used_init (settings_new max)) (os ++ [Get m; Replace n v; Get n; Get m]) = Ok pre /\
    let before := nth (List.length os) pre (Ret 9) in let stored := nth (List.length os + 1) pre (Ret 9) in
    let after := nth (List.length os + 2) pre (Ret 9) in let other := nth (List.length os + 3) pre (Ret 9) in
    (stored = Ret 0 -> after = Str 0 (Some v)) /\ (m <> n -> other = before).
Proof.
  intros max os n v m Hm F Fr. eexists. split; [ apply settings_history; [ assumption | ]; apply Forall_app; split; [ assumption | ]; exact (Forall_cons (Get m) I (Forall_cons _ Fr (Forall_cons (Get n) I (Forall_cons (Get m) I (Forall_nil _))))) | ].
  assert (G : forall t os', exists t', spec_run max t (os ++ os') = spec_run max t os ++ spec_run max t' os' /\ List.length (spec_run max t os) = List.length os).
  { clear. induction os as [ | o os IH ]; intros t os'; cbn [app spec_run]; [ eauto | ]. destruct (spec_step max t o) as [ t1 x ]. destruct (IH t1 os') as (t' & E & L). exists t'. rewrite E. cbn [app List.length]. auto. }
  destruct (G empty [Get m; Replace n v; Get n; Get m]) as (t & -> & L).
  rewrite <- L. rewrite !app_nth2 by lia. replace (List.length (spec_run max empty os) - List.length (spec_run max empty os))%nat with O by lia.
  replace (List.length (spec_run max empty os) + 1 - List.length (spec_run max empty os))%nat with 1%nat by lia.
  replace (List.length (spec_run max empty os) + 2 - List.length (spec_run max empty os))%nat with 2%nat by lia.
  replace (List.length (spec_run max empty os) + 3 - List.length (spec_run max empty os))%nat with 3%nat by lia.
  clear. cbn [spec_run spec_step]. set (t1 := look t m).
  assert (V : k_value t1 = k_value t) by (unfold t1, look; destruct (k_value t m); reflexivity).
  assert (U : forall f x, upd f n x n = x :> option text) by (intros; unfold upd; now rewrite streq_refl).
  assert (W : forall (f : name -> option text) x, m <> n -> upd f n x m = f m) by (intros; unfold upd; now rewrite streq_neq).
  destruct (k_value t1 n) eqn:Q; [ | destruct (zlen (k_names t1) <? max) ]; cbn [nth].
  - split; [ intros _; cbn [k_value]; rewrite U; reflexivity | ]. intros Hmn. unfold look at 1. cbn [k_value]. rewrite U. cbn [k_value]. rewrite W by assumption. now rewrite V.
  - split; [ intros _; cbn [k_value]; rewrite U; reflexivity | ]. intros Hmn. unfold look at 1. cbn [k_value]. rewrite U. cbn [k_value]. rewrite W by assumption. now rewrite V.
  - split; [ discriminate | ]. intros Hmn. unfold look at 1. rewrite Q. now rewrite V.
Qed.
Print Assumptions settings_store_read.
Example settings_store_read_ex :
  run (settings_new 2, used_init (settings_new 2)) ([Add (b "x") (b "7")] ++ [Get (b "x"); Replace (b "y") (b "8"); Get (b "y"); Get (b "x")])
    = Ok [Ret 0; Str 0 (Some (b "7")); Ret 0; Str 0 (Some (b "8")); Str 0 (Some (b "7"))].
Proof. vm_compute. reflexivity. Qed.

(** C55: the elements of a comma separated value have no comma in them, and with commas between
    them they are the value, but for one comma at its end.  Both functions which
    split give the same. *)
Theorem settings_commas_exact : forall v, ~ In 0 v -> commas v = to_array v /\ Forall (fun e => ~ In 44 e) (commas v) /\
  (v = [] /\ commas v = [] \/ v = comma_join (commas v) /\ last (commas v) [] <> [] \/ v = comma_join (commas v) ++ [44] /\ commas v <> []).
Proof. intros v H0. rewrite to_array_ok, commas_ok by assumption. split; [ reflexivity | ]. apply elements_ok. Qed.
Print Assumptions settings_commas_exact.
Example settings_commas_exact_ex : commas (b ",a,,b c,") = [[]; b "a"; []; b "b c"] /\ commas (b "a") = [b "a"] /\ commas (b "a,,") = [b "a"; []].
Proof. split; [ | split ]; vm_compute; reflexivity. Qed.

(** * Findings *)

(** A value of no characters, which a Perl or Python program may store, aborts the program
    when it is asked for. *)
Theorem settings_empty_value_refuted : forall max n, 0 < max -> zlen n < 244 ->
  run (settings_new max, used_init (settings_new max)) [Replace n []; Get n] = Bug.
Proof.
  intros max n Hm Hn. cbn [run step]. unfold replace_string, add_raw, settings_new. cbn [t_list t_max find].
  change (zlen (@nil setting)) with 0. replace (max <? 0) with false by lia. replace (0 =? max) with false by lia. unfold MAX_NAME_SIZE. replace (244 <? zlen n + 1) with false by lia.
  cbn [bind app]. cbn [step]. unfold get_string_noconvert, find_used. cbn [t_list find s_name]. rewrite streq_refl. reflexivity.
Qed.
Print Assumptions settings_empty_value_refuted.

(** Storing under a name of 244 or more characters is refused, but leaves a nameless setting
    behind; printing the settings then aborts the program. *)
Theorem settings_long_name_refuted : forall max n v, 0 < max -> 244 <= zlen n ->
  run (settings_new max, used_init (settings_new max)) [Replace n v] = Ok [Ret 1] /\
  run (settings_new max, used_init (settings_new max)) [Replace n v; Dump] = Bug.
Proof.
  intros max n v Hm Hn. cbn [run step]. unfold replace_string, add_raw, settings_new. cbn [t_list t_max find].
  change (zlen (@nil setting)) with 0. replace (max <? 0) with false by lia. replace (0 =? max) with false by lia. unfold MAX_NAME_SIZE. replace (244 <? zlen n + 1) with true by lia.
  split; reflexivity.
Qed.
Print Assumptions settings_long_name_refuted.
Example settings_long_name_refuted_ex : 244 <= zlen (repeat 97 (Z.to_nat 244)).
Proof. vm_compute. discriminate. Qed.

(** A setting stored as a number aborts the program when it is read as a number. *)
Theorem settings_uint_refuted : forall max n x u, 0 < max -> zlen n < 244 ->
  exists s, add_unsigned_integer (settings_new max) n x = Ok (0, s) /\ read_unsigned_integer u s n = Bug.
Proof.
  intros max n x u Hm Hn. unfold add_unsigned_integer, add_raw, settings_new. cbn [t_list t_max find].
  change (zlen (@nil setting)) with 0. replace (max <? 0) with false by lia. replace (0 =? max) with false by lia. unfold MAX_NAME_SIZE. replace (244 <? zlen n + 1) with false by lia.
  eexists. split; [ reflexivity | ]. unfold read_unsigned_integer, find_used. cbn [t_list find app s_name]. rewrite streq_refl. reflexivity.
Qed.
Print Assumptions settings_uint_refuted.

(** Numbers of 2^64 or more are accepted and read as 2^64 - 1. *)
Theorem settings_uint_range_refuted : forall max n v, 0 < max -> fits (Add n v) -> forallb is_dec_digit v = true -> 2^64 <= dec_val v ->
  run (settings_new max, used_init (settings_new max)) [Add n v; ReadUint n] = Ok [Ret 0; Num 0 (2^64 - 1)].
Proof.
  intros max n v Hm F D V. rewrite (settings_history max _ ltac:(lia) (Forall_cons _ F (Forall_cons (ReadUint n) I (Forall_nil _)))). cbn [spec_run spec_step empty k_value k_names].
  change (zlen (@nil name)) with 0. replace (0 <? max) with true by lia. cbn [k_value]. unfold upd at 1. rewrite streq_refl. cbn [of]. rewrite D. f_equal. f_equal. f_equal. f_equal. lia.
Qed.
Print Assumptions settings_uint_range_refuted.
Example settings_uint_range_refuted_ex : forallb is_dec_digit (b "99999999999999999999999") = true /\ 2^64 <= dec_val (b "99999999999999999999999").
Proof. split; vm_compute; [ reflexivity | discriminate ]. Qed.

(** Any value beginning with y, Y or 1 is a yes: also "100 %" and "yellow". *)
Theorem settings_yesno_prefix_refuted : forall max n v c, 0 < max -> fits (Add n (c :: v)) -> In c [121; 89; 49] ->
  run (settings_new max, used_init (settings_new max)) [Add n (c :: v); YesNo n] = Ok [Ret 0; Num 0 1].
Proof.
  intros max n v c Hm F D. rewrite (settings_history max _ ltac:(lia) (Forall_cons _ F (Forall_cons (YesNo n) I (Forall_nil _)))). cbn [spec_run spec_step empty k_value k_names].
  change (zlen (@nil name)) with 0. replace (0 <? max) with true by lia. cbn [k_value]. unfold upd at 1. rewrite streq_refl. cbn [of].
  destruct D as [ <- | [ <- | [ <- | [] ] ] ]; reflexivity.
Qed.
Print Assumptions settings_yesno_prefix_refuted.

(** The settings of an instance which runs a program in a process of its own are sent back from
    there, which fails when one has 1024 octets or more. *)
Theorem settings_pack_long_refuted : forall n v u, 1024 <= zlen v -> iterate_packed [mk_setting n (VString v)] u = (1, []).
Proof. intros n v u H. cbn [iterate_packed]. unfold pack. cbn [s_value data_size]. unfold MAX_DATA_SIZE. replace (1024 <? zlen v + 1) with true by lia. reflexivity. Qed.
Print Assumptions settings_pack_long_refuted.
(** All others are sent, in order, with their flags. *)
Theorem settings_pack_exact : forall l u, (List.length l <= List.length u)%nat -> Forall (fun x => data_size (s_value x) <= 1024) l ->
  iterate_packed l u = (0, map (fun '(x, f) => mk_packed (s_name x) (type_of (s_value x)) (if f : bool then 1 else 0) (data_size (s_value x)) (s_value x)) (combine l u)).
Proof.
  induction l as [ | x l IH ]; intros [ | f u ] L F; cbn [List.length] in L; try lia; try reflexivity. inversion F; subst. cbn [iterate_packed hd tl combine map].
  unfold pack, MAX_DATA_SIZE. replace (1024 <? data_size (s_value x)) with false by lia. rewrite IH by (auto; lia). reflexivity.
Qed.
Print Assumptions settings_pack_exact.
Example settings_pack_exact_ex : iterate_packed [mk_setting (b "x") (VString (b "yes"))] [true] = (0, [mk_packed (b "x") 1 1 4 (VString (b "yes"))]).
Proof. vm_compute. reflexivity. Qed.
(** A name of 243 characters may be stored but the check of received settings refuses it. *)
Theorem settings_packed_name_refuted : forall n v f p, zlen n = 243 -> pack (mk_setting n (VString v)) f = Some p -> packed_validate p = false.
Proof. intros n v f p H. unfold pack. destruct (_ <? _); [ discriminate | ]. intros [= <-]. unfold packed_validate. cbn [p_name s_name]. unfold MAX_NAME_SIZE. replace (zlen n <? 244 - 1) with false by lia. reflexivity. Qed.
Print Assumptions settings_packed_name_refuted.
Example settings_packed_name_refuted_ex : zlen (repeat 97 (Z.to_nat 243)) = 243 /\ pack (mk_setting (repeat 97 (Z.to_nat 243)) (VString (b "v"))) true <> None.
Proof. split; vm_compute; [ reflexivity | discriminate ]. Qed.
