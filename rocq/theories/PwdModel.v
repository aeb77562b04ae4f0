(** Model of the password file: src/lib/passwd.c and src/rrr_passwd.c.

    Strings are lists of octets without the final zero octet.  [ssl] says if the program is
    built with RRR_WITH_OPENSSL_CRYPT, and [pbkdf2 password salt] is what PKCS5_PBKDF2_HMAC of
    the TLS library gives (passwd.c:227-234; 256 octets).

    Simplified: memory allocation, reading and writing of files and the functions of the TLS
    library succeed; passwords are shorter than 2^31 octets and files shorter than 2^32
    (longer ones are refused); printing to standard output instead of the file is left out. *)
From Coq Require Import ZArith List Bool.
From Verif Require Import Common ParseModel TopicModel Base64Model.
Import ListNotations.
Open Scope Z_scope.

(** passwd.c:43-49 *)
Definition HASH_MAX_LENGTH : Z := 512.
Definition HASH_KEY_LENGTH : Z := 256.
Definition SALT_BYTES : Z := 32.
Definition ENCTYPE_BASE64 : Z := 48.
Definition ENCTYPE_OPENSSL : Z := 49.

(** The characters which separate: ':' ',' '$' *)
Definition ch_colon : Z := 58.
Definition ch_comma : Z := 44.
Definition ch_dollar : Z := 36.

(** strcmp(a, b) == 0 *)
Fixpoint same (a b : list Z) : bool :=
  match a, b with
  | [], [] => true
  | x :: a, y :: b => (x =? y) && same a b
  | _, _ => false
  end.

(** memcmp(a, b, n) == 0: both must have [n] octets *)
Definition memcmp_equal (a b : list Z) (n : Z) : res bool :=
  if (zlen a <? n) || (zlen b <? n) then Ub else Ok (same (firstn (Z.to_nat n) a) (firstn (Z.to_nat n) b)).

(** passwd.c:126-146 [rrr_passwd_permission_collection_remove_duplicates]: [before] has the nodes
    which were passed and kept *)
Fixpoint remove_duplicates_loop (before after : list (list Z)) : list (list Z) :=
  match after with
  | [] => before
  | p :: r => if existsb (same p) (before ++ r) then remove_duplicates_loop before r else remove_duplicates_loop (before ++ [p]) r
  end.
Definition remove_duplicates (l : list (list Z)) : list (list Z) := remove_duplicates_loop [] l.

(** passwd.c:148-178 [__rrr_passwd_check_base64]: true is authenticated.  The buffer compared with
    has the text, its zero octet and what else was allocated (base64.c:46-50); the last are
    given as zero octets. *)
Definition check_base64 (hash password : list Z) : res bool :=
  if HASH_KEY_LENGTH <? zlen password then Ok false
  else match base64_encode password, b64_alloc_size (zlen password) with
       | B64Ok out, Some size => memcmp_equal hash (out ++ repeat 0 (Z.to_nat (size - zlen out))) (zlen hash)
       | B64Overflow, _ => Ub
       | _, _ => Ok false
       end.

(** passwd.c:181-245 [__rrr_passwd_openssl_encrypt]: [None] is an error *)
Definition openssl_encrypt (pbkdf2 : list Z -> list Z -> list Z) (password salt_base64 : list Z) : res (option (list Z)) :=
  if zlen password =? 0 then Bug
  else if zlen salt_base64 =? 0 then Bug
  else match base64_decode salt_base64 with
       | B64Null => Ok None
       | B64Overflow => Ub
       | B64Ok salt => if zlen salt <? SALT_BYTES then Bug else Ok (Some (pbkdf2 password salt))
       end.

(** passwd.c:248-291 [__rrr_passwd_check_openssl].  The octets which the decoder allocates but
    does not fill are not counted. *)
Definition check_openssl (ssl : bool) (pbkdf2 : list Z -> list Z -> list Z) (salt hash password : list Z) : res bool :=
  if negb ssl then Ok false
  else match base64_decode hash with
       | B64Null => Ok false
       | B64Overflow => Ub
       | B64Ok hash_raw =>
           bind (openssl_encrypt pbkdf2 password salt) (fun tmp =>
           match tmp with
           | None => Ok false
           | Some tmp => memcmp_equal tmp hash_raw HASH_KEY_LENGTH
           end)
       end.

(** passwd.c:297-351 [__rrr_passwd_check_callback] *)
Definition check_callback (ssl : bool) (pbkdf2 : list Z -> list Z -> list Z) (password : list Z) (elements : list (list Z)) : res bool :=
  match elements with
  | [trash; enctype; salt; hash] =>
      if negb (same trash []) then Ok false
      else if same hash [] then Ok false
      else if first_char enctype =? ENCTYPE_BASE64 then
        if negb (same salt []) then Ok false else check_base64 hash password
      else if first_char enctype =? ENCTYPE_OPENSSL then
        if same salt [] then Ok false else check_openssl ssl pbkdf2 salt hash password
      else Ok false
  | _ => Ok false
  end.

(** passwd.c:353-370 [rrr_passwd_check]: true is authenticated *)
Definition passwd_check (ssl : bool) (pbkdf2 : list Z -> list Z -> list Z) (hash password : list Z) : res bool :=
  if same password [] then Ok false
  else if same hash [] then Ok false
  else match str_split hash ch_dollar 4 with
       | None => Ok false
       | Some elements => check_callback ssl pbkdf2 password elements
       end.

(** passwd.c:372-450 [rrr_passwd_encrypt]: [salt] is what RAND_bytes gives; [None] is an error *)
Definition into_final (s : list Z) : res (option (list Z)) :=
  if HASH_MAX_LENGTH + 1 <? zlen s + 1 then Ub else Ok (Some s).
Definition passwd_encrypt (ssl : bool) (pbkdf2 : list Z -> list Z -> list Z) (salt password : list Z) : res (option (list Z)) :=
  if ssl then
    match base64_encode salt with
    | B64Null => Ok None
    | B64Overflow => Ub
    | B64Ok salt64 =>
        bind (openssl_encrypt pbkdf2 password salt64) (fun tmp =>
        match tmp with
        | None => Ok None
        | Some tmp =>
            match base64_encode (firstn (Z.to_nat HASH_KEY_LENGTH) tmp) with
            | B64Null => Ok None
            | B64Overflow => Ub
            | B64Ok hash64 => into_final (ch_dollar :: ENCTYPE_OPENSSL :: ch_dollar :: salt64 ++ ch_dollar :: hash64)
            end
        end)
    end
  else if HASH_KEY_LENGTH <? zlen password then Ok None
  else match base64_encode password with
       | B64Null => Ok None
       | B64Overflow => Ub
       | B64Ok text => into_final (ch_dollar :: ENCTYPE_BASE64 :: ch_dollar :: ch_dollar :: text)
       end.

(** passwd.h:62-64 *)
Definition ITERATE_OK : Z := 0.
Definition ITERATE_ERR : Z := 1.
Definition ITERATE_STOP : Z := 2.

Section Iterate.
  Variable St : Type.
  (** The callback: the line, the username, the hash and the permissions *)
  Variable line_callback : St -> list Z -> list Z -> list Z -> list (list Z) -> res (Z * St).

  (** passwd.c:470-510, the callbacks of the two rrr_parse_str_split: what the outer one returns *)
  Definition split_line (st : St) (line : list Z) : res (Z * St) :=
    match str_split line ch_colon 3 with
    | None => Ok (ITERATE_ERR, st)
    | Some [username; permissions; hash] =>
        match str_split permissions ch_comma 32 with
        | None => Ok (ITERATE_ERR, st)
        | Some ps => line_callback st line username hash ps
        end
    | Some _ => Ok (ITERATE_ERR, st)
    end.

  (** passwd.c:512-589 [rrr_passwd_iterate_lines]; the file is followed by a zero octet *)
  Fixpoint iterate_loop (fuel : nat) (t : text) (st : St) (p : pos) : res (Z * St) :=
    match fuel with
    | O => Ok (0, st)
    | S f =>
        if eof t p then Ok (0, st)
        else
          bind (ignore_spaces t p) (fun p =>
          bind (non_newline t p) (fun '(line_start, line_end, p) =>
          if line_end <? line_start then iterate_loop f t st p
          else
            bind (str_extract t line_start (line_end - line_start + 1)) (fun line =>
            bind (split_line st (cstr line)) (fun '(ret, st) =>
            if ret =? 0 then iterate_loop f t st p
            else if ret =? ITERATE_STOP then Ok (0, st) else Ok (1, st)))))
    end.
  Definition iterate_lines (file : list Z) (st : St) : res (Z * St) :=
    iterate_loop (S (length file)) (mk_text file true) st pos_init.
End Iterate.
Arguments split_line {St}. Arguments iterate_loop {St}. Arguments iterate_lines {St}.

(** passwd.c:600-655 [__rrr_passwd_authenticate_callback]: the state is user_ok, pass_ok and
    permission_ok *)
Definition auth_callback (ssl : bool) (pbkdf2 : list Z -> list Z -> list Z) (user password : list Z) (permission : option (list Z))
    (_ : bool * bool * bool) (_ username hash : list Z) (permissions : list (list Z)) : res (Z * (bool * bool * bool)) :=
  if negb (same username user) then Ok (ITERATE_OK, (false, false, false))
  else bind (passwd_check ssl pbkdf2 hash password) (fun ok =>
    if negb ok then Ok (ITERATE_STOP, (true, false, false))
    else Ok (ITERATE_STOP, (true, true, match permission with Some p => existsb (fun x => same x p) permissions | None => false end))).

(** passwd.c:657-755 [rrr_passwd_authenticate]: true is 0, authenticated.  [file] is what is in
    the file, if it exists.  The check of a dummy password is left out, it has no effect. *)
Definition authenticate (ssl : bool) (pbkdf2 : list Z -> list Z -> list Z) (file : option (list Z)) (user password : list Z)
    (permission : option (list Z)) : res bool :=
  if same user [] || same password [] then Ok false
  else match file with
       | None | Some [] => Ok false
       | Some contents =>
           bind (iterate_lines (auth_callback ssl pbkdf2 user password permission) contents (false, false, false)) (fun '(ret, (user_ok, pass_ok, permission_ok)) =>
           if negb (ret =? 0) then Ok false
           else if negb user_ok then Ok false
           else if negb pass_ok then Ok false
           else if negb permission_ok then Ok (match permission with Some _ => false | None => true end)
           else Ok true)
       end.

(** rrr_passwd.c:68-79 [struct rrr_passwd_data], as given on the command line *)
Record data : Type := mk_data {
  d_username : list Z;
  d_password : option (list Z);
  d_create : bool;
  d_remove : bool;
  d_append : bool;
  d_permissions : list (list Z)
}.
Definition set_password (d : data) (p : option (list Z)) : data :=
  mk_data (d_username d) p (d_create d) (d_remove d) (d_append d) (d_permissions d).

(** rrr_passwd.c:115-128 [__rrr_passwd_validate_str]: true is valid *)
Definition validate_str (s : list Z) : bool := negb (existsb (Z.eqb ch_colon) s) && negb (existsb (Z.eqb ch_comma) s).

(** rrr_passwd.c:162-166 and 208-249, the checks of [__rrr_passwd_parse_config] *)
Definition parse_config (d : data) : bool :=
  negb (same (d_username d) []) && forallb validate_str (d_permissions d) && validate_str (d_username d) &&
  negb (d_remove d && (d_create d || d_append d || negb (zlen (d_permissions d) =? 0) || match d_password d with Some _ => true | None => false end)) &&
  negb (d_append d && (zlen (d_permissions d) =? 0)).

(** rrr_passwd.c:304-313: the loop which writes permissions *)
Fixpoint write_permissions (total : Z) (l : list (list Z)) : list Z :=
  match l with
  | [] => []
  | p :: r => if same p [] then write_permissions total r
              else (if 0 <? total then [ch_comma] else []) ++ p ++ write_permissions (total + 1) r
  end.
(** rrr_passwd.c:267-320 [__rrr_passwd_write_user]: what is written *)
Definition write_user (d : data) (username : list Z) (permissions : list (list Z)) (password_hash : option (list Z)) : list Z :=
  let kept := if d_append d || (zlen (d_permissions d) =? 0) then permissions else [] in
  let tmp := remove_duplicates (kept ++ d_permissions d) in
  username ++ [ch_colon] ++ write_permissions 0 tmp ++ [ch_colon] ++ match password_hash with Some h => h | None => [] end.

(** rrr_passwd.c:322-385 [__rrr_passwd_process_line_callback]: the state is what was written and
    username_was_found *)
Definition process_line (d : data) (st : list Z * bool) (line username password_hash : list Z) (permissions : list (list Z))
    : res (Z * (list Z * bool)) :=
  let '(written, found) := st in
  if same username (d_username d) then
    if d_create d then Ok (ITERATE_ERR, st)
    else if found then Ok (ITERATE_ERR, st)
    else if d_remove d then Ok (ITERATE_OK, (written, true))
    else Ok (ITERATE_OK, (written ++ write_user d username permissions (match d_password d with Some p => Some p | None => Some password_hash end) ++ [10], true))
  else Ok (ITERATE_OK, (written ++ line ++ [10], found)).

(** rrr_passwd.c:387-433 [__rrr_passwd_process]: what is written, [None] if it fails *)
Definition process (d : data) (input : list Z) : res (option (list Z)) :=
  bind (iterate_lines (process_line d) input ([], false)) (fun '(ret, (written, found)) =>
  if negb (ret =? 0) then Ok None
  else if d_create d then Ok (Some (written ++ write_user d (d_username d) [] (d_password d) ++ [10]))
  else if negb found then Ok None
  else Ok (Some written)).

(** The files the program uses: the password file and the one with .old after its name *)
Record files : Type := mk_files { f_file : option (list Z); f_old : option (list Z) }.

(** rrr_passwd.c:542-561, the password is replaced by its hash; [Bug] is the check of the new hash *)
Definition hash_password (ssl : bool) (pbkdf2 : list Z -> list Z -> list Z) (salt : list Z) (d : data) : res (option data) :=
  match d_password d with
  | Some ((_ :: _) as password) =>
      bind (passwd_encrypt ssl pbkdf2 salt password) (fun hash =>
      match hash with
      | None => Ok None
      | Some hash =>
          let hash := strip_newlines hash in
          bind (passwd_check ssl pbkdf2 hash password) (fun ok => if ok then Ok (Some (set_password d (Some hash))) else Bug)
      end)
  | _ => Ok (Some d)
  end.

(** rrr_passwd.c:477-490, the password is asked for when needed: [typed] is what the user types *)
Definition ask_password (d : data) (typed : list Z) : data :=
  match d_password d with
  | Some _ => d
  | None => if (negb (d_append d) && negb (d_remove d) && (zlen (d_permissions d) =? 0)) || d_create d then set_password d (Some typed) else d
  end.

(** rrr_passwd.c:435-629 [main]: the files after each system call which changes them, the last
    being the state when the program ends, and whether it succeeded.  The temporary file has a
    new name each time and is not in the state. *)
Definition run (ssl : bool) (pbkdf2 : list Z -> list Z -> list Z) (salt typed : list Z) (d : data) (s : files) : res (list files * bool) :=
  if negb (parse_config d) then Ok ([s], false)
  else
    let d := ask_password d typed in
    (* open with O_CREAT *)
    let contents := match f_file s with Some c => c | None => [] end in
    let s1 := mk_files (Some contents) (f_old s) in
    let failed := Ok ([s; s1; mk_files (f_file s1) None], false) in
    bind (hash_password ssl pbkdf2 salt d) (fun d =>
    match d with
    | None => failed
    | Some d =>
        bind (process d contents) (fun written =>
        match written with
        | None => failed
        | Some new =>
            let s2 := mk_files None (Some contents) in           (* rename to .old *)
            let s3 := mk_files (Some new) (f_old s2) in          (* rename the temporary file *)
            let s4 := mk_files (f_file s3) None in               (* unlink .old *)
            Ok ([s; s1; s2; s3; s4], true)
        end)
    end).
(** The files after the program has ended. *)
Definition after (s : files) (trace : list files) : files := last trace s.
