(** Property C39: the tag/value map. *)
From Coq Require Import ZArith List Bool Lia.
From Verif Require Import Common MapModel MapProofs.
Import ListNotations.
Open Scope Z_scope.

(** C39. Replacing stores the value under the tag and leaves all other tags
    alone; tags stay unique. *)
Theorem map_replace_get : forall m tag value tag',
  map_get (map_replace m tag value) tag' = (if list_eq_dec Z.eq_dec tag tag' then Some value else map_get m tag') /\
  (NoDup (map fst m) -> NoDup (map fst (map_replace m tag value))).
Proof.
  intros. split; [ | apply map_replace_nodup ]. rewrite map_get_replace. unfold str_eqb.
  destruct (list_eq_dec Z.eq_dec tag tag'); reflexivity.
Qed.
Print Assumptions map_replace_get.

Example map_replace_get_ex :
  let m := map_replace (map_replace [] (str_bytes "a") (str_bytes "1")) (str_bytes "b") (str_bytes "2") in
  map_get (map_replace m (str_bytes "a") (str_bytes "3")) (str_bytes "a") = Some (str_bytes "3") /\
  map_get (map_replace m (str_bytes "a") (str_bytes "3")) (str_bytes "b") = Some (str_bytes "2").
Proof. vm_compute. auto. Qed.

(** C39. Appending does not change what is already found; prepending shadows. *)
Theorem map_add_prepend_get : forall m tag value tag',
  map_get (map_add_new m tag value) tag' =
    match map_get m tag' with
    | Some v => Some v
    | None => if list_eq_dec Z.eq_dec tag tag' then Some value else None
    end /\
  map_get (map_prepend_new m tag value) tag' = (if list_eq_dec Z.eq_dec tag tag' then Some value else map_get m tag').
Proof.
  intros. unfold map_add_new, map_prepend_new, map_item_add. cbn [fst map_get]. rewrite map_get_app. cbn [map_get].
  unfold str_eqb. destruct (map_get m tag'); destruct (list_eq_dec Z.eq_dec tag tag'); auto.
Qed.
Print Assumptions map_add_prepend_get.

(** C39. The confirmed replacement happens exactly when the callback agrees. *)
Theorem map_replace_confirmed : forall m tag value confirm,
  map_replace_confirm m tag value confirm = (confirm, if confirm =? 0 then map_replace m tag value else m).
Proof. intros. unfold map_replace_confirm. destruct (Z.eqb_spec confirm 0); subst; reflexivity. Qed.
Print Assumptions map_replace_confirmed.

(** C39. A definition is split at the first delimiter; without delimiter it is a
    tag with an empty value; a delimiter with nothing after it is refused. *)
Theorem map_parse_pair_exact : forall m input delimiter, delimiter <> [] ->
  (forall tag value, input = tag ++ delimiter ++ value ->
     (forall tag' value', input = tag' ++ delimiter ++ value' -> (length tag <= length tag')%nat) ->
     map_parse_pair m input delimiter = if list_eq_dec Z.eq_dec value [] then None else Some (m ++ [(tag, value)])) /\
  ((forall tag value, input <> tag ++ delimiter ++ value) ->
     map_parse_pair m input delimiter = Some (m ++ [(input, [])])).
Proof.
  intros m input d Hd. unfold map_parse_pair. destruct d as [|d0 d]; [ congruence | ]. set (dd := d0 :: d) in *.
  split.
  - intros tag value E Hfirst. destruct (strstr_split input dd) as [[a b]|] eqn:S.
    + pose proof (strstr_split_some _ _ _ _ S) as S1.
      pose proof (strstr_split_first _ _ _ _ S _ _ E) as S2. pose proof (Hfirst _ _ S1) as S3.
      assert (L : length tag = length a) by lia.
      assert (tag = a /\ value = b) as [-> ->].
      { rewrite S1 in E. clear - E L.
        assert (EE : firstn (length a) (a ++ dd ++ b) = firstn (length a) (tag ++ dd ++ value)) by (rewrite E; reflexivity).
        rewrite firstn_exact in EE. rewrite <- L, firstn_exact in EE. split; [ auto | ]. subst a.
        apply app_inv_head in E. apply app_inv_head in E. auto. }
      destruct b; destruct (list_eq_dec Z.eq_dec _ []); try congruence; reflexivity.
    + exfalso. apply (strstr_split_none _ _ S _ _ E).
  - intros H. destruct (strstr_split input dd) as [[a b]|] eqn:S; [ | reflexivity ].
    exfalso. apply (H _ _ (strstr_split_some _ _ _ _ S)).
Qed.
Print Assumptions map_parse_pair_exact.

Example map_parse_pair_ex :
  map_parse_pair [] (str_bytes "a->b->c") (str_bytes "->") = Some [(str_bytes "a", str_bytes "b->c")] /\
  map_parse_pair [] (str_bytes "a->") (str_bytes "->") = None /\
  map_parse_pair [] (str_bytes "a-b") (str_bytes "->") = Some [(str_bytes "a-b", [])].
Proof. vm_compute. auto. Qed.
