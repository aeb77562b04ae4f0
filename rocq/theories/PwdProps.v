(** Theorems about the password file. *)
From Coq Require Import Strings.String.
From Coq Require Import ZArith List Bool Lia.
From Verif Require Import Common ParseModel TopicModel PwdModel PwdSpec PwdCommand PwdProofs PwdHash PwdTool.
Import ListNotations.
Open Scope Z_scope.

(** A key derivation for examples: the password, filled up with zeros. *)
Definition ex_key (p s : list Z) : list Z := firstn 256 (map u8 p ++ repeat 0 (Z.to_nat 256)).
Lemma ex_key_bytes p s : bytes (ex_key p s).
Proof.
  apply Forall_forall. intros c H. assert (I : In c (map u8 p ++ repeat 0 (Z.to_nat 256))).
  { unfold ex_key in H. rewrite <- (firstn_skipn 256 (map u8 p ++ repeat 0 (Z.to_nat 256))). apply in_or_app. now left. }
  apply in_app_or in I. destruct I as [ I | I ].
  - apply in_map_iff in I. destruct I as (x & <- & _). unfold byte, u8. lia.
  - apply repeat_spec in I. subst c. unfold byte. lia.
Qed.
Lemma ex_key_len p s : zlen (ex_key p s) = 256.
Proof. unfold zlen, ex_key. rewrite firstn_length, app_length, repeat_length. lia. Qed.
Definition ex_salt : list Z := repeat 7 (Z.to_nat 32).

(** C104: a user is let in exactly when the first line for the user, after well-formed lines for
    other users, is well formed, its hash is one of the password, and it has the permission asked for. *)
Theorem passwd_authenticate : forall ssl key d user password permission, ~ In 0 d -> user <> [] -> password <> [] ->
  authenticate ssl key (Some d) user password permission = Ok true <->
  exists before l e after, lines d = before ++ l :: after /\ Forall (fun x => exists e', is_entry x e' /\ e_user e' <> user) before /\
    is_entry l e /\ e_user e = user /\ passwd_check ssl key (e_hash e) password = Ok true /\ permitted permission (e_perms e).
Proof. exact authenticate_proof. Qed.
Print Assumptions passwd_authenticate.

Definition ex_file : list Z := str_bytes "bob::$0$$aHVudGVy" ++ [10; 10; 32] ++ str_bytes "eve:mqtt,http:$0$$c2VjcmV0" ++ [10].
Example passwd_authenticate_ex :
  authenticate true ex_key (Some ex_file) (str_bytes "eve") (str_bytes "secret") (Some (str_bytes "http")) = Ok true /\
  authenticate true ex_key (Some ex_file) (str_bytes "eve") (str_bytes "secret") (Some (str_bytes "htt")) = Ok false /\
  authenticate true ex_key (Some ex_file) (str_bytes "eve") (str_bytes "hunter") None = Ok false /\
  authenticate true ex_key (Some ex_file) (str_bytes "bob") (str_bytes "hunter") None = Ok true /\
  authenticate true ex_key (Some ex_file) (str_bytes "bo") (str_bytes "hunter") None = Ok false /\
  authenticate true ex_key None (str_bytes "bob") (str_bytes "hunter") None = Ok false.
Proof. repeat apply conj; vm_compute; reflexivity. Qed.

(** C105: with the TLS library, the check of a password against a hash made for a salt and a key
    compares the key of the password with it; the hash the program makes for a password is that
    of its key. *)
Theorem passwd_hash : forall key, (forall p s, bytes (key p s)) -> (forall p s, zlen (key p s) = 256) ->
  (forall salt k q, bytes salt -> 32 <= zlen salt -> bytes k -> zlen k = 256 -> q <> [] ->
     exists b, passwd_check true key (hash_text salt k) q = Ok b /\ (b = true <-> key q salt = k)) /\
  (forall salt d p, bytes salt -> zlen salt = 32 -> d_password d = Some p -> p <> [] ->
     hash_password true key salt d = Ok (Some (set_password d (Some (hash_text salt (key p salt)))))).
Proof.
  intros key KB KL. split.
  - intros salt k q B L BK LK Q. eexists. split; [ now apply check_hash | ]. apply same_eq.
  - intros salt d p B L D P. rewrite hash_password_ssl by assumption. rewrite D. destruct p; [ congruence | reflexivity ].
Qed.
Print Assumptions passwd_hash.

Example passwd_hash_ex :
  (forall p s, bytes (ex_key p s)) /\ (forall p s, zlen (ex_key p s) = 256) /\ bytes ex_salt /\ zlen ex_salt = 32 /\
  passwd_check true ex_key (hash_text ex_salt (ex_key (str_bytes "secret") ex_salt)) (str_bytes "secret") = Ok true /\
  passwd_check true ex_key (hash_text ex_salt (ex_key (str_bytes "secret") ex_salt)) (str_bytes "secrets") = Ok false.
Proof. split; [ apply ex_key_bytes | ]. split; [ apply ex_key_len | ]. split; [ now repeat constructor | ]. repeat apply conj; vm_compute; reflexivity. Qed.

(** C105: without the TLS library a password of up to 54 octets is stored in base64 and accepted. *)
Theorem passwd_plain_short_partial : forall key salt d p, bytes p -> 0 < zlen p <= 54 -> d_password d = Some p ->
  hash_password false key salt d = Ok (Some (set_password d (Some (plain_text p)))) /\ forall ssl, passwd_check ssl key (plain_text p) p = Ok true.
Proof. exact plain_short. Qed.
Print Assumptions passwd_plain_short_partial.

Example passwd_plain_short_partial_ex :
  hash_password false ex_key [] (mk_data (str_bytes "bob") (Some (str_bytes "secret")) true false false []) =
    Ok (Some (mk_data (str_bytes "bob") (Some (str_bytes "$0$$c2VjcmV0")) true false false [])).
Proof. vm_compute. reflexivity. Qed.

(** C105: only hashes of the form $0$$TEXT and $1$SALT$TEXT let anybody in. *)
Theorem passwd_hash_form : forall ssl key hash password, passwd_check ssl key hash password = Ok true ->
  password <> [] /\ exists kind salt text, hash = 36 :: kind ++ 36 :: salt ++ 36 :: text /\ ~ In 36 kind /\ ~ In 36 salt /\ ~ In 36 text /\ text <> [] /\
    ((exists r, kind = 48 :: r /\ salt = []) \/ (exists r, kind = 49 :: r /\ salt <> [])).
Proof.
  intros ssl key hash password H. unfold passwd_check in H. destruct (same password []) eqn:P; [ discriminate | ]. destruct (same hash []); [ discriminate | ].
  split; [ intros ->; discriminate P | ]. pose proof (ParseProofs.str_split_ok hash 36 4 ltac:(lia)) as SP. unfold ch_dollar in H. destruct (str_split hash 36 4) as [ es | ]; [ | discriminate ].
  unfold check_callback in H. destruct es as [ | trash [ | kind [ | salt [ | text [ | ] ] ] ] ]; try discriminate.
  destruct (same trash []) eqn:T; [ | discriminate ]. apply same_eq in T. subst trash. cbn [negb] in H. destruct (same text []) eqn:X; [ discriminate | ].
  destruct SP as [ (_ & SP) | (_ & J & _ & N & _) ]; [ discriminate | ]. exists kind, salt, text. split; [ rewrite J; reflexivity | ]. inversion N as [ | ? ? _ N1 ]; subst. inversion N1 as [ | ? ? K1 N2 ]; subst. inversion N2 as [ | ? ? K2 N3 ]; subst. inversion N3 as [ | ? ? K3 N4 ]; subst.
  split; [ exact K1 | ]. split; [ exact K2 | ]. split; [ exact K3 | ]. split; [ intros ->; discriminate X | ].
  destruct (Z.eqb_spec (first_char kind) ENCTYPE_BASE64) as [ E | _ ].
  - left. destruct (same salt []) eqn:S; [ apply same_eq in S | discriminate ]. destruct kind as [ | k kind ]; [ discriminate | ]. cbn [first_char] in E. exists kind. rewrite E. auto.
  - destruct (Z.eqb_spec (first_char kind) ENCTYPE_OPENSSL) as [ E | _ ]; [ | discriminate ]. right. destruct (same salt []) eqn:S; [ discriminate | ]. destruct kind as [ | k kind ]; [ discriminate | ]. cbn [first_char] in E. exists kind. rewrite E. split; [ reflexivity | ]. intros ->. discriminate S.
Qed.
Print Assumptions passwd_hash_form.

Example passwd_hash_form_ex : passwd_check false ex_key (str_bytes "$0$$c2VjcmV0") (str_bytes "secret") = Ok true /\ passwd_check false ex_key (str_bytes "x$0$$c2VjcmV0") (str_bytes "secret") = Ok false.
Proof. split; vm_compute; reflexivity. Qed.

(** FINDING: without the TLS library the program is aborted for every password of 55 to 256
    octets: the base64 text then has more than one line, the line break is removed when the hash
    is stored, and the check of the new hash fails. *)
Theorem passwd_plain_long_refuted : forall key salt d p, bytes p -> 54 < zlen p <= 256 -> d_password d = Some p -> hash_password false key salt d = Bug.
Proof. exact plain_long. Qed.
Print Assumptions passwd_plain_long_refuted.

Example passwd_plain_long_refuted_ex : hash_password false ex_key [] (mk_data (str_bytes "bob") (Some (repeat 97 (Z.to_nat 55))) true false false []) = Bug.
Proof. vm_compute. reflexivity. Qed.

(** FINDING: without the TLS library another password is accepted, one which goes on after the
    right one: only as many octets as the stored text has are compared. *)
Theorem passwd_plain_prefix_refuted : exists p q, p <> q /\ forall ssl key, passwd_check ssl key (plain_text p) q = Ok true.
Proof. exists (str_bytes "abc"), (str_bytes "abcdef"). split; [ discriminate | ]. intros ssl key. vm_compute. reflexivity. Qed.
Print Assumptions passwd_plain_prefix_refuted.

(** FINDING: a password shorter than the one stored in base64 makes the check read after the end
    of the text it made. *)
Theorem passwd_plain_short_read_refuted : exists p q, p <> [] /\ q <> [] /\ forall ssl key, passwd_check ssl key (plain_text p) q = Ub.
Proof. exists (str_bytes "abcdefghijklmnopqrstuvwx"), (str_bytes "a"). split; [ discriminate | ]. split; [ discriminate | ]. intros ssl key. vm_compute. reflexivity. Qed.
Print Assumptions passwd_plain_short_read_refuted.

(** FINDING: a hash in the file which has a short salt aborts the program which asks, and one with
    a short key makes it read after the end of the key. *)
Theorem passwd_bad_hash_refuted : exists short_salt short_key,
  (forall key, authenticate true key (Some (str_bytes "bob::" ++ short_salt)) (str_bytes "bob") (str_bytes "secret") None = Bug) /\
  authenticate true ex_key (Some (str_bytes "bob::" ++ short_key)) (str_bytes "bob") (str_bytes "secret") None = Ub.
Proof.
  exists (str_bytes "$1$YWJj$YWJj"), (str_bytes "$1$" ++ base64 ex_salt ++ str_bytes "$c2Vj"). split; [ intros key | ]; vm_compute; reflexivity.
Qed.
Print Assumptions passwd_bad_hash_refuted.

(** C106: after any sequence of uses of the program from no file, each use has ended with success
    exactly when the request makes sense for the accounts at that time, and who is let in
    afterwards is as the accounts say: the user has an account, the key of the password is the
    one stored, and the account has the permission asked for. *)
Theorem passwd_history : forall key, (forall p s, bytes (key p s)) -> (forall p s, zlen (key p s) = 256) ->
  forall cs, Forall command_ok cs -> (forall n, fits (fst (history key (firstn n cs) no_accounts))) ->
  exists s, run_all key cs (mk_files None None) = Ok (s, snd (history key cs no_accounts)) /\
    forall user q permission, user <> [] -> q <> [] ->
    exists b, authenticate true key (f_file s) user q permission = Ok b /\
      (b = true <-> exists a salt, fst (history key cs no_accounts) user = Some a /\ bytes salt /\ zlen salt = 32 /\
         a_hash a = hash_text salt (key q salt) /\ permitted permission (a_perms a)).
Proof. exact history_proof. Qed.
Print Assumptions passwd_history.

Definition ex_commands : list command :=
  [ mk_command (mk_data (str_bytes "bob") None true false false [str_bytes "mqtt"]) ex_salt (str_bytes "hunter");
    mk_command (mk_data (str_bytes "eve") (Some (str_bytes "secret")) true false false []) ex_salt [];
    mk_command (mk_data (str_bytes "bob") None true false false []) ex_salt (str_bytes "again");
    mk_command (mk_data (str_bytes "bob") None false false true [str_bytes "http"]) ex_salt [];
    mk_command (mk_data (str_bytes "eve") None false true false []) ex_salt [];
    mk_command (mk_data (str_bytes "ann") None false true false []) ex_salt [] ].
Example passwd_history_ex :
  Forall command_ok ex_commands /\ (forall n, fits (fst (history ex_key (firstn n ex_commands) no_accounts))) /\
  snd (history ex_key ex_commands no_accounts) = [true; true; false; true; true; false] /\
  fst (history ex_key ex_commands no_accounts) (str_bytes "bob") =
    Some (mk_account [str_bytes "mqtt"; str_bytes "http"] (hash_text ex_salt (ex_key (str_bytes "hunter") ex_salt))) /\
  fst (history ex_key ex_commands no_accounts) (str_bytes "eve") = None.
Proof.
  split.
  { assert (B : bytes ex_salt) by now repeat constructor. assert (L : zlen ex_salt = 32) by reflexivity.
    repeat (constructor; [ repeat apply conj; try exact B; try exact L; vm_compute; repeat constructor; discriminate | ]). constructor. }
  split.
  { apply (few_perms ex_key ex_commands no_accounts 0); [ lia | discriminate | vm_compute; discriminate ]. }
  repeat apply conj; vm_compute; reflexivity.
Qed.

(** C106: a file which is not well formed is left as it is, and the program fails. *)
Theorem passwd_malformed : forall key, (forall p s, bytes (key p s)) -> (forall p s, zlen (key p s) = 256) ->
  forall f old salt typed d, bytes salt -> zlen salt = 32 -> ~ In 0 f -> (exists l, In l (lines f) /\ forall e, ~ is_entry l e) ->
  exists trace, run true key salt typed d (mk_files (Some f) old) = Ok (trace, false) /\ Forall (fun x => f_file x = Some f) trace.
Proof.
  intros key KB KL f old salt typed d B L N M. unfold run. destruct (parse_config d); cbn [negb]; [ | eexists; split; [ reflexivity | repeat constructor ] ].
  cbv zeta. cbn [f_file f_old]. rewrite hash_password_ssl by assumption. cbn [bind]. rewrite process_bad by assumption. cbn [bind].
  eexists. split; [ reflexivity | ]. repeat constructor.
Qed.
Print Assumptions passwd_malformed.

Example passwd_malformed_ex : exists l, In l (lines (str_bytes "bob" ++ [10] ++ str_bytes "eve::")) /\ forall e, ~ is_entry l e.
Proof.
  exists (str_bytes "bob"). split; [ vm_compute; now left | ]. intros e H. apply columns_ok in H. vm_compute in H. discriminate.
Qed.

(** C106: a colon or a comma in the name or in a permission is refused, and the files are not touched. *)
Theorem passwd_names : forall ssl key salt typed d s, (exists t, In t (d_username d :: d_permissions d) /\ (In 58 t \/ In 44 t)) -> run ssl key salt typed d s = Ok ([s], false).
Proof.
  intros ssl key salt typed d s (t & I & C). unfold run. replace (parse_config d) with false; [ reflexivity | ]. symmetry. unfold parse_config.
  assert (V : validate_str t = false). { unfold validate_str, ch_colon, ch_comma. destruct C as [ C | C ]; [ replace (existsb (Z.eqb 58) t) with true by (symmetry; apply existsb_exists; exists 58; auto) | replace (existsb (Z.eqb 44) t) with true by (symmetry; apply existsb_exists; exists 44; auto) ]; cbn [negb]; [ reflexivity | apply andb_false_r ]. }
  destruct I as [ I | I ].
  - rewrite I, V. rewrite andb_false_r. reflexivity.
  - assert (F : forallb validate_str (d_permissions d) = false). { destruct (forallb validate_str (d_permissions d)) eqn:E; [ | reflexivity ]. rewrite forallb_forall in E. rewrite (E t I) in V. discriminate. } rewrite F, andb_false_r. reflexivity.
Qed.
Print Assumptions passwd_names.

Example passwd_names_ex : run true ex_key ex_salt [] (mk_data (str_bytes "bob") (Some []) true false false [str_bytes "a,b"]) (mk_files None None) = Ok ([mk_files None None], false).
Proof. vm_compute. reflexivity. Qed.

(** FINDING: a line break in the name of a user is not refused: the program ends with success,
    and every use of it afterwards fails. *)
Theorem passwd_newline_refuted : exists d trace s,
  run true ex_key ex_salt [] d (mk_files None None) = Ok (trace, true) /\ s = after (mk_files None None) trace /\
  forall salt typed d', bytes salt -> zlen salt = 32 -> exists trace', run true ex_key salt typed d' s = Ok (trace', false).
Proof.
  exists (mk_data (str_bytes "a" ++ [10] ++ str_bytes "b") (Some []) true false false []).
  destruct (run true ex_key ex_salt [] (mk_data (str_bytes "a" ++ [10] ++ str_bytes "b") (Some []) true false false []) (mk_files None None)) as [ [ trace ok ] | | ] eqn:E;
    vm_compute in E; [ | discriminate | discriminate ]. injection E as <- <-. eexists. eexists. split; [ reflexivity | ]. split; [ reflexivity | ].
  intros salt typed d' B L. cbn [after last].
  destruct (passwd_malformed ex_key ex_key_bytes ex_key_len [97; 10; 98; 58; 58; 10] None salt typed d' B L) as (trace' & R & _).
  - cbn. intuition discriminate.
  - exists [97]. split; [ vm_compute; now left | ]. intros e H. apply columns_ok in H. vm_compute in H. discriminate.
  - exists trace'. exact R.
Qed.
Print Assumptions passwd_newline_refuted.

(** FINDING: more than 32 permissions are written although they are not read again: the program
    ends with success, nobody whose line comes later is let in, and every use of the program
    afterwards fails. *)
Theorem passwd_many_permissions_refuted : exists d trace s,
  run true ex_key ex_salt [] d (mk_files None None) = Ok (trace, true) /\ s = after (mk_files None None) trace /\
  forall salt typed d', bytes salt -> zlen salt = 32 -> exists trace', run true ex_key salt typed d' s = Ok (trace', false).
Proof.
  exists (mk_data (str_bytes "bob") (Some []) true false false (map (fun n => [48 + Z.of_nat n]) (seq 11 33))).
  assert (P : exists f, process (mk_data (str_bytes "bob") (Some []) true false false (map (fun n => [48 + Z.of_nat n]) (seq 11 33))) [] = Ok (Some f) /\
    ~ In 0 f /\ exists l, lines f = [l] /\ columns l = None).
  { eexists. split; [ vm_compute; reflexivity | ]. split; [ cbn; intuition discriminate | ]. eexists. split; vm_compute; reflexivity. }
  destruct P as (f & P & N & l & LF & C).
  assert (R : run true ex_key ex_salt [] (mk_data (str_bytes "bob") (Some []) true false false (map (fun n => [48 + Z.of_nat n]) (seq 11 33))) (mk_files None None) =
    Ok ([mk_files None None; mk_files (Some []) None; mk_files None (Some []); mk_files (Some f) (Some []); mk_files (Some f) None], true)).
  { unfold run. match goal with |- context [ parse_config ?d ] => replace (parse_config d) with true by (vm_compute; reflexivity) end. cbn [negb]. cbv zeta.
    match goal with |- context [ ask_password ?d ?t ] => change (ask_password d t) with d end. unfold hash_password. cbn [d_password f_file f_old bind]. rewrite P. reflexivity. }
  eexists. eexists. split; [ exact R | ]. split; [ reflexivity | ]. intros salt typed d' B L. cbn [after last].
  destruct (passwd_malformed ex_key ex_key_bytes ex_key_len f None salt typed d' B L N) as (trace' & R' & _); [ | now exists trace' ].
  exists l. rewrite LF. split; [ now left | ]. intros e H. apply columns_ok in H. congruence.
Qed.
Print Assumptions passwd_many_permissions_refuted.

(** C107: whenever the program is stopped while a file exists, the file is as before or as after a
    use which succeeds, or it is missing and what was in it is in the file with .old after its name. *)
Theorem passwd_crash : forall ssl key salt typed d s c trace ok x, f_file s = Some c -> run ssl key salt typed d s = Ok (trace, ok) -> In x trace ->
  f_file x = Some c \/ (f_file x = None /\ f_old x = Some c) \/ (ok = true /\ f_file x = f_file (after s trace)).
Proof. exact crash_proof. Qed.
Print Assumptions passwd_crash.

Example passwd_crash_ex : exists trace c,
  run true ex_key ex_salt [] (mk_data (str_bytes "eve") (Some []) true false false []) (mk_files (Some (str_bytes "bob::x")) None) = Ok (trace, true) /\
  In (mk_files None (Some (str_bytes "bob::x"))) trace /\ In (mk_files (Some c) (Some (str_bytes "bob::x"))) trace /\
  c = str_bytes "bob::x" ++ [10] ++ str_bytes "eve::" ++ [10].
Proof.
  eexists. eexists. split; [ vm_compute; reflexivity | ]. split; [ vm_compute; tauto | ]. split; [ vm_compute; do 3 right; left; reflexivity | reflexivity ].
Qed.

(** FINDING: a program stopped between the two renames leaves no password file, and the next use
    of the program, whatever it is for and whether it succeeds or not, starts from no accounts and
    removes the file with .old after its name: all accounts are lost. *)
Theorem passwd_crash_lost_refuted : forall ssl key salt typed d c trace ok, parse_config d = true -> run ssl key salt typed d (mk_files None (Some c)) = Ok (trace, ok) ->
  exists trace', run ssl key salt typed d (mk_files None None) = Ok (trace', ok) /\ after (mk_files None (Some c)) trace = after (mk_files None None) trace'.
Proof. exact lost_proof. Qed.
Print Assumptions passwd_crash_lost_refuted.

Example passwd_crash_lost_refuted_ex : exists trace,
  run true ex_key ex_salt [] (mk_data (str_bytes "bob") (Some []) false false false []) (mk_files None (Some (str_bytes "bob::x"))) = Ok (trace, false) /\
  after (mk_files None (Some (str_bytes "bob::x"))) trace = mk_files (Some []) None.
Proof. eexists. split; vm_compute; reflexivity. Qed.
