(** Model of the message database server, src/lib/msgdb/msgdb_server.c, with the part of a file
    system which it uses.

    A file system is a list of paths with what is there, the root excepted.  The order of the list
    is that in which directories are read, which the theorems leave open.  Every system call
    which changes the file system may be the last one before the process is killed.  Not
    modelled: failures of the file system other than missing or wrong kinds of nodes, links,
    lack of memory, failures of sending, the listening socket. *)
From Coq Require Import ZArith List Bool.
From Verif Require Import Common MsgModel.
Import ListNotations.
Open Scope Z_scope.

Definition name : Type := list Z.
Definition path : Type := list name.
Inductive node : Type := Dir | File (c : list Z).
Definition fs : Type := list (path * node).
Definition name_eqb (a b : name) : bool := if list_eq_dec Z.eq_dec a b then true else false.
Definition path_eqb (a b : path) : bool := if list_eq_dec (list_eq_dec Z.eq_dec) a b then true else false.

(** ** The file system *)
Fixpoint find (f : fs) (p : path) : option node :=
  match f with
  | [] => None
  | (q, n) :: r => if path_eqb q p then Some n else find r p
  end.
Definition lookup (f : fs) (p : path) : option node := match p with [] => Some Dir | _ => find f p end.
Definition remove (f : fs) (p : path) : fs := filter (fun e => negb (path_eqb (fst e) p)) f.
(** What is there already keeps its place. *)
Definition put_node (f : fs) (p : path) (n : node) : fs :=
  match find f p with
  | Some _ => map (fun e => if path_eqb (fst e) p then (p, n) else e) f
  | None => f ++ [(p, n)]
  end.
Definition parent (p : path) : path := removelast p.
(** The nodes below [p]: relative path and kind *)
Fixpoint strip (p q : path) : option path :=
  match p, q with
  | [], _ => Some q
  | x :: p, y :: q => if name_eqb x y then strip p q else None
  | _ :: _, [] => None
  end.
Definition is_dir (n : node) : bool := match n with Dir => true | File _ => false end.
Definition below (f : fs) (p : path) : list (path * node) :=
  flat_map (fun e => match strip p (fst e) with Some (x :: q) => [(x :: q, snd e)] | _ => [] end) f.
Definition children (f : fs) (p : path) : list (name * node) :=
  flat_map (fun e => match strip p (fst e) with Some [x] => [(x, snd e)] | _ => [] end) f.

(** System calls *)
Inductive errno : Type := EOK | EEXIST | ENOENT | EISDIR | ENOTDIR | ENOTEMPTY.
Definition sys_mkdir (p : path) (f : fs) : fs * errno :=
  match lookup f p with
  | Some _ => (f, EEXIST)
  | None => match lookup f (parent p) with
            | Some Dir => (put_node f p Dir, EOK)
            | Some (File _) => (f, ENOTDIR)
            | None => (f, ENOENT)
            end
  end.
(** [open] with O_CREAT and O_TRUNC *)
Definition sys_creat (p : path) (f : fs) : fs * errno :=
  match lookup f p with
  | Some Dir => (f, EISDIR)
  | Some (File _) => (put_node f p (File []), EOK)
  | None => match lookup f (parent p) with
            | Some Dir => (put_node f p (File []), EOK)
            | Some (File _) => (f, ENOTDIR)
            | None => (f, ENOENT)
            end
  end.
Definition sys_unlink (p : path) (f : fs) : fs * errno :=
  match lookup f p with
  | Some Dir => (f, EISDIR)
  | Some (File _) => (remove f p, EOK)
  | None => (f, ENOENT)
  end.
Definition sys_rmdir (p : path) (f : fs) : fs * errno :=
  match lookup f p with
  | Some Dir => match p, below f p with
                | _ :: _, [] => (remove f p, EOK)
                | _, _ => (f, ENOTEMPTY)
                end
  | Some (File _) => (f, ENOTDIR)
  | None => (f, ENOENT)
  end.
(** [rename] of a file; of a directory: not modelled, refused *)
Definition sys_rename (p q : path) (f : fs) : fs * errno :=
  match lookup f p with
  | Some (File c) =>
      match lookup f q with
      | Some Dir => (f, EISDIR)
      | Some (File _) => if path_eqb p q then (f, EOK) else (put_node (remove f p) q (File c), EOK)
      | None => match lookup f (parent q) with
                | Some Dir => (put_node (remove f p) q (File c), EOK)
                | Some (File _) => (f, ENOTDIR)
                | None => (f, ENOENT)
                end
      end
  | Some Dir => (f, EISDIR)
  | None => (f, ENOENT)
  end.

(** ** The process
    [s_prev]: the string [prev_chdir], [None] if it is empty.  [s_life]: after how many system
    calls the process is killed, and of how many octets the interrupted [write] gets rid. *)
Record st : Type := mk_st { s_fs : fs; s_cwd : path; s_prev : option path; s_life : option (nat * nat) }.
Inductive out (A : Type) : Type := Done (a : A) (s : st) | Killed (f : fs).
Arguments Done {A}. Arguments Killed {A}.
Definition M (A : Type) : Type := st -> out A.
Definition ret {A} (a : A) : M A := fun s => Done a s.
Definition bind {A B} (m : M A) (k : A -> M B) : M B :=
  fun s => match m s with Done a s' => k a s' | Killed f => Killed f end.
Declare Scope m_scope.
Notation "x <- m ;; k" := (bind m (fun x => k)) (at level 61, m at next level, right associativity) : m_scope.
Open Scope m_scope.
(** A call in the directory the process is in *)
Definition step (op : path -> fs -> fs * errno) : M errno := fun s =>
  let '(f, e) := op (s_cwd s) (s_fs s) in
  match s_life s with
  | Some (O, _) => Killed (s_fs s)
  | Some (S n, c) => Done e (mk_st f (s_cwd s) (s_prev s) (Some (n, c)))
  | None => Done e (mk_st f (s_cwd s) (s_prev s) None)
  end.
(** [write] to a file which has just been truncated *)
Definition step_write (p : path) (data : list Z) : M unit := fun s =>
  let w d := put_node (s_fs s) (s_cwd s ++ p) (File d) in
  match s_life s with
  | Some (O, c) => Killed (w (firstn c data))
  | Some (S n, c) => Done tt (mk_st (w data) (s_cwd s) (s_prev s) (Some (n, c)))
  | None => Done tt (mk_st (w data) (s_cwd s) (s_prev s) None)
  end.
Definition look (p : path) : M (option node) := fun s => Done (lookup (s_fs s) (s_cwd s ++ p)) s.

(** msgdb_server.c:82-89: the directory, absolute or not, and the number of levels *)
Record cfg : Type := mk_cfg { c_abs : bool; c_dir : path; c_levels : nat }.

(** read_constants.h:63-77 *)
Definition HARD : Z := 1.
Definition SOFT : Z := 2.
Definition INCOMPLETE : Z := 4.
Definition EOF : Z := 8.

(** msgdb_server.c:125-163 [__rrr_msgdb_server_chdir] *)
Definition chdir (abs : bool) (p : path) : M Z := fun s =>
  if abs && match s_prev s with Some q => path_eqb p q | None => false end then Done 0 s
  else
    let target := if abs then p else s_cwd s ++ p in
    match lookup (s_fs s) target with
    | Some Dir => Done 0 (mk_st (s_fs s) target (if abs then Some p else None) (s_life s))
    | _ => Done 1 s
    end.
(** The same with "..", as in msgdb_server.c:1192 *)
Definition chdir_up : M Z := fun s => Done 0 (mk_st (s_fs s) (parent (s_cwd s)) None (s_life s)).
(** msgdb_server.c:165-189 [__rrr_msgdb_server_mkdir_chdir] *)
Definition mkdir_chdir (abs : bool) (p : path) : M Z :=
  e <- step (fun cwd => sys_mkdir (if abs then p else cwd ++ p)) ;;
  match e with
  | EOK | EEXIST => chdir abs p
  | _ => ret HARD
  end.
(** msgdb_server.c:191-214 [__rrr_msgdb_server_mkdir_chdir_levels] *)
Fixpoint mkdir_chdir_levels (levels : nat) (pos : name) : M Z :=
  match levels, pos with
  | S n, x :: r => e <- mkdir_chdir false [[x]] ;; if e =? 0 then mkdir_chdir_levels n r else ret e
  | O, _ :: _ => ret 0
  | _, [] => ret SOFT
  end.
(** msgdb_server.c:216-220 [__rrr_msgdb_server_chdir_base] *)
Definition chdir_base (c : cfg) : M Z := mkdir_chdir (c_abs c) (c_dir c).
(** The way to the file [n]: both steps, as at the start of put, del and get *)
Definition go_base (c : cfg) (k : M Z) : M Z := e <- chdir_base c ;; if e =? 0 then k else ret e.
Definition go_levels (c : cfg) (n : name) (k : M Z) : M Z := e <- mkdir_chdir_levels (c_levels c) n ;; if e =? 0 then k else ret e.

(** The message as it is stored: msgdb_server.c:255-262 *)
Definition as_msg (m : rrr_msg_msg) : rrr_msg_msg :=
  mk_mm (mm_head m) (mm_timestamp m) (set_type (mm_type_and_class m) 1) (mm_version m) (mm_topic_length m) (mm_data m).
(** msgdb_server.c:222-276 [__rrr_msgdb_server_put] *)
Definition db_put (c : cfg) (m : rrr_msg_msg) (n : name) : M Z :=
  go_base c (go_levels c n (
    e <- step (fun cwd => sys_creat (cwd ++ [n])) ;;
    match e with
    | EOK => _ <- step_write [n] (msg_msg_to_network (as_msg m)) ;; ret 0
    | _ => ret SOFT
    end)).

(** msgdb_server.c:278-311 [__rrr_msgdb_server_del_raw] *)
Definition del_raw (p : path) : M Z :=
  e <- step (fun cwd => sys_unlink (cwd ++ p)) ;;
  match e with
  | EOK | ENOENT => ret 0
  | EISDIR => e2 <- step (fun cwd => sys_rmdir (cwd ++ p)) ;; ret (match e2 with EOK => 0 | _ => SOFT end)
  | _ => ret SOFT
  end.
(** msgdb_server.c:323-343 [__rrr_msgdb_server_del] *)
Definition db_del (c : cfg) (n : name) : M Z := go_base c (go_levels c n (del_raw [n])).

(** ** Reading *)
(** The part of a file read for its header: the header and the longest topic *)
Definition HEAD_MAX : Z := 65535 + 30.
(** msgdb_server.c:470-580 [__rrr_msgdb_server_open_and_read_file] with rrr_socket.c:552-628: a
    message, or [None] for RRR_MSGDB_SOFT_ERROR.  What is past the end of the memory block is
    taken as nothing.  Reading a directory fails. *)
Definition c_string_len (t : list Z) : Z := zlen (c_string t).
Definition read_file (f : option node) (head_only : bool) (topic : option (list Z)) : option rrr_msg_msg :=
  match f with
  | Some (File content) =>
      let size := zlen content in
      let buf := if head_only then sub_mem content 0 HEAD_MAX else content in
      if size <? MSG_HEAD_SIZE then None
      else if 4294967295 <? size then None
      else if negb head_only && negb (match get_target_size buf with Ok n => u32 size =? n | _ => false end) then None
      else
        match head_to_host_and_verify buf (u32 size) with
        | Ok h =>
            if negb (msg_type h =? T_MESSAGE) then None
            else match msg_msg_to_host_and_verify h buf [] size with
                 | Ok m =>
                     if size <? 30 + mm_topic_length m then None
                     else match topic with
                          | None => Some m
                          | Some t => if (mm_topic_length m =? c_string_len t) && name_eqb (MSG_TOPIC m) (sub_mem t 0 (mm_topic_length m))
                                      then Some m else None
                          end
                 | _ => None
                 end
        | _ => None
        end
  | _ => None
  end.

(** What a client is sent: acknowledgements and messages (msgdb_common.c:104-140) *)
Inductive reply : Type := RAck | RNack | RMsg (octets : list Z).
(** msgdb_server.c:582-614 [__rrr_msgdb_server_get_raw] *)
Definition get_raw (n : name) (topic : option (list Z)) : M (Z * list reply) :=
  f <- look [n] ;;
  ret (match read_file f false topic with
       | Some m => (0, [RMsg (msg_msg_to_network m)])
       | None => (SOFT, [])
       end).
(** msgdb_server.c:616-653 [__rrr_msgdb_server_get] *)
Definition db_get (c : cfg) (n : name) (topic : list Z) : M (Z * list reply) :=
  e <- chdir_base c ;;
  if negb (e =? 0) then ret (e, [])
  else
    e <- chdir false [n] ;;
    if e =? 0 then ret (SOFT, [])
    else
      e <- mkdir_chdir_levels (c_levels c) n ;;
      if negb (e =? 0) then ret (e, []) else get_raw n (Some topic).

(** ** Requests
    msgdb_server.c:926-930: the name of the file, "%02x" of the digest [H] of the topic *)
Definition hex_digit (d : Z) : Z := if d <? 10 then 48 + d else 87 + d.
Definition hex (s : list Z) : name := flat_map (fun b => [hex_digit (b / 16); hex_digit (b mod 16)]) s.
(** msgdb_server.c:905-1009 [__rrr_msgdb_server_read_msg_msg_callback]: the code returned (zero:
    the connection is kept) and what is sent.  [H]: rrr_sha256_calculate, not modelled here. *)
Definition ack_of (e : Z) : Z * list reply :=
  if e =? 0 then (0, [RAck]) else if e =? SOFT then (0, [RNack]) else (EOF, []).
Definition db_request (H : list Z -> list Z) (c : cfg) (m : rrr_msg_msg) : M (Z * list reply) :=
  let topic := MSG_TOPIC m in
  if mm_topic_length m =? 0 then ret (0, [RNack])
  else
    let n := hex (H topic) in
    if MSG_TYPE m =? 4 then e <- db_put c m n ;; ret (ack_of e)
    else if MSG_TYPE m =? 5 then e <- db_del c n ;; ret (ack_of e)
    else if MSG_TYPE m =? 3 then
      r <- db_get c n topic ;; ret (if fst r =? 0 then r else ack_of (fst r))
    else ret (SOFT, []).

(** ** Iterations: tidying and the index
    msgdb_server.c:391-431 [__rrr_msgdb_server_idx_make_directory_index_recurse] and 436-469:
    the directories in order; [[]] is "." *)
Definition hex_digits : list Z := map hex_digit [0; 1; 2; 3; 4; 5; 6; 7; 8; 9; 10; 11; 12; 13; 14; 15].
Fixpoint dir_index (levels : nat) : list path :=
  match levels with
  | O => [[]]
  | S n => flat_map (fun c => map (cons [c]) (dir_index n)) hex_digits
  end.
Inductive kind : Type := Tidy | Idx.
(** msg_msg.c:496-510 [rrr_msg_msg_ttl_ok], times in microseconds *)
Definition ttl_ok (m : rrr_msg_msg) (now ttl : Z) : bool :=
  if now <? ttl then true else negb (mm_timestamp m <? now - ttl).
(** msgdb_server.c:658-726 [..._process_file_callback], without the look at the clock at its end,
    and the callbacks of the two kinds (799-808, 838-860).  [now]: the time, the same for the
    whole slice; [age]: in seconds. *)
Definition file_callback (k : kind) (age now : Z) (n : name) : M (Z * list reply) :=
  f <- look [n] ;;
  match f with
  | Some Dir => ret (0, [])
  | _ =>
      match read_file f true None with
      | None => _ <- del_raw [n] ;; ret (0, [])
      | Some m =>
          if ttl_ok m now (age * 1000000) then ret (0, [])
          else match k with
               | Tidy => _ <- del_raw [n] ;; ret (0, [])
               | Idx => get_raw n None
               end
      end
  end.
(** rrr_readdir.c:81-183 with the callback.  [budget]: how many looks at the clock there are
    before one says that the time is out. *)
Fixpoint files (k : kind) (age now : Z) (entries : list name) (budget : nat) : M (Z * list reply * nat) :=
  match entries with
  | [] => ret (0, [], budget)
  | n :: r =>
      e <- file_callback k age now n ;;
      if negb (fst e =? 0) then ret (fst e, snd e, budget)
      else match budget with
           | O => ret (INCOMPLETE, snd e, O)
           | S b => e2 <- files k age now r b ;;
                    ret (fst (fst e2), snd e ++ snd (fst e2), snd e2)
           end
  end.
(** The entries of the directory the process is in; "." and ".." are directories, for which
    nothing is done but looking at the clock. *)
Definition readdir : M (list name) := fun s => Done (map fst (children (s_fs s) (s_cwd s))) s.
Definition dots (budget : nat) : option nat := match budget with S (S b) => Some b | _ => None end.
(** msgdb_server.c:728-791 [..._iteration_session_process]: the code, the directories which
    remain, and what is sent.  Only a directory which is done is taken off the list. *)
Fixpoint slice (c : cfg) (k : kind) (age now : Z) (dirs : list path) (budget : nat) : M (Z * list path * list reply) :=
  match dirs with
  | [] => ret (0, [], [RAck])
  | d :: r =>
      match budget with
      | O => ret (INCOMPLETE, dirs, [])
      | S b =>
          e <- chdir_base c ;;
          if negb (e =? 0) then ret (e, dirs, [])
          else
            e <- chdir false d ;;
            if negb (e =? 0) then slice c k age now r b
            else
              match dots b with
              | None => ret (INCOMPLETE, dirs, [])
              | Some b =>
                  l <- readdir ;;
                  e <- files k age now l b ;;
                  if negb (fst (fst e) =? 0) then ret (fst (fst e), dirs, snd (fst e))
                  else e2 <- slice c k age now r (snd e) ;;
                       ret (fst (fst e2), snd (fst e2), snd (fst e) ++ snd e2)
              end
      end
  end.
(** msgdb_server.c:1059-1097 [__rrr_msgdb_client_event_iteration], from 793-828: an iteration is a number of
    slices, each with its time; between them other requests may be served.  Here none are:
    [None]: not complete yet. *)
Fixpoint iterate (c : cfg) (k : kind) (age : Z) (slices : list (Z * nat)) (dirs : list path) : M (option Z * list reply) :=
  match slices with
  | [] => ret (None, [])
  | (now, budget) :: rest =>
      e <- slice c k age now dirs budget ;;
      if fst (fst e) =? INCOMPLETE then
        e2 <- iterate c k age rest (snd (fst e)) ;; ret (fst e2, snd e ++ snd e2)
      else ret (Some (fst (fst e)), snd e)
  end.

(** ** The start *)
(** msgdb_server.c:1152-1182 [__rrr_msgdb_server_make_path] *)
Definition dirs_of (levels : nat) (n : name) : path := map (fun x => [x]) (firstn levels n).
Definition make_path (levels : nat) (n : name) : path := dirs_of levels n ++ [n].
(** msgdb_server.c:1184-1205 [__rrr_msgdb_server_make_directories] *)
Fixpoint make_down (levels : nat) (n : name) : M Z :=
  match levels, n with
  | S k, x :: r => e <- mkdir_chdir false [[x]] ;; if e =? 0 then make_down k r else ret e
  | _, _ => ret 0
  end.
Fixpoint go_up (levels : nat) : M Z :=
  match levels with
  | O => ret 0
  | S k => e <- chdir_up ;; if e =? 0 then go_up k else ret e
  end.
Definition make_directories (levels : nat) (n : name) : M Z :=
  e <- make_down levels n ;; if e =? 0 then go_up levels else ret e.
(** msgdb_server.c:1213-1284 [__rrr_msgdb_server_restructure_callback] for one node, without the
    gathering of the directories *)
Definition restructure_one (levels : nat) (e : path * bool) : M Z :=
  let '(p, dir) := e in
  let n := last p [] in
  if match p with (46 :: _) :: _ => true | _ => false end then ret 0
  else if dir then ret 0
  else if (Datatypes.length n <? levels * 2)%nat then _ <- del_raw p ;; ret 0
  else if path_eqb p (make_path levels n) then ret 0
  else
    e <- make_directories levels n ;;
    if negb (e =? 0) then ret e
    else _ <- step (fun cwd => sys_rename (cwd ++ p) (cwd ++ make_path levels n)) ;; ret 0.
Fixpoint restructure_all (levels : nat) (l : list (path * bool)) : M Z :=
  match l with
  | [] => ret 0
  | e :: r => x <- restructure_one levels e ;; if x =? 0 then restructure_all levels r else ret x
  end.
Fixpoint rmdir_all (l : list path) : M unit :=
  match l with
  | [] => ret tt
  | p :: r => _ <- step (fun cwd => sys_rmdir (cwd ++ p)) ;; rmdir_all r
  end.
(** rrr_readdir.c:383-405 [rrr_readdir_foreach_recursive]: everything below the directory is
    gathered before the first callback. *)
Definition walk : M (list (path * bool)) := fun s => Done (map (fun e => (fst e, is_dir (snd e))) (below (s_fs s) (s_cwd s))) s.
Definition hidden (p : path) : bool := match p with (46 :: _) :: _ => true | _ => false end.
(** msgdb_server.c:1286-1331 [__rrr_msgdb_server_restructure] *)
Definition restructure (c : cfg) : M Z :=
  e <- chdir_base c ;;
  if negb (e =? 0) then ret e
  else
    l <- walk ;;
    x <- restructure_all (c_levels c) l ;;
    if negb (x =? 0) then ret x
    else _ <- rmdir_all (rev (map fst (filter (fun e => snd e && negb (hidden (fst e))) l))) ;; ret 0.

(** ** Servers
    msgdb_server.c:1333-1428 [rrr_msgdb_server_new]: a process which starts in the directory
    [home]; a failure to restructure is a warning. *)
Definition server_start (c : cfg) (home : path) (f : fs) (life : option (nat * nat)) : out Z :=
  restructure c (mk_st f home None life).
(** The requests of a run, one after the other, until the process is killed or there are no more: the
    answers which have been sent, and the file system which is left *)
Fixpoint serve (H : list Z -> list Z) (c : cfg) (ms : list rrr_msg_msg) (s : st) : list (Z * list reply) * fs :=
  match ms with
  | [] => ([], s_fs s)
  | m :: r =>
      match db_request H c m s with
      | Done a s' => let '(l, f) := serve H c r s' in (a :: l, f)
      | Killed f => ([], f)
      end
  end.
Definition run (H : list Z -> list Z) (c : cfg) (home : path) (life : option (nat * nat)) (ms : list rrr_msg_msg) (f : fs)
  : list (Z * list reply) * fs :=
  match server_start c home f life with
  | Done _ s => serve H c ms s
  | Killed f' => ([], f')
  end.
(** Several servers, one after the other, on the same directory; each has its own number of
    levels *)
Definition a_run : Type := nat * option (nat * nat) * list rrr_msg_msg.
Fixpoint run_all (H : list Z -> list Z) (dir home : path) (rs : list a_run) (f : fs) : list (list (Z * list reply)) :=
  match rs with
  | [] => []
  | (levels, life, ms) :: r =>
      let '(a, f') := run H (mk_cfg true dir levels) home life ms f in a :: run_all H dir home r f'
  end.
(** What such runs leave behind *)
Fixpoint runs_fs (H : list Z -> list Z) (dir home : path) (rs : list a_run) (f : fs) : fs :=
  match rs with
  | [] => f
  | (levels, life, ms) :: r => runs_fs H dir home r (snd (run H (mk_cfg true dir levels) home life ms f))
  end.
(** The server after requests, unless it has been killed *)
Fixpoint serve_to (H : list Z -> list Z) (c : cfg) (ms : list rrr_msg_msg) (s : st) : option st :=
  match ms with
  | [] => Some s
  | m :: r => match db_request H c m s with Done _ s' => serve_to H c r s' | Killed _ => None end
  end.
