(** Model of the environment file parser, src/lib/environment_file.c.  Simplified: memory
    allocation succeeds; the file has at least one and less than 2^32 octets. *)
From Coq Require Import ZArith List Bool.
From Verif Require Import Common ParseModel ConfigModel.
Import ListNotations.
Open Scope Z_scope.

(** environment_file.c:34-122 [__rrr_environment_file_parse]: return value and the tags and
    values added to the map by [rrr_map_item_add_new], in order.  [fuel] bounds the rounds. *)
Fixpoint env_loop (fuel : nat) (t : text) (p : pos) (m : list (list Z * list Z)) : res (Z * list (list Z * list Z)) :=
  match fuel with
  | O => Ub
  | S f =>
      if eof t p then Ok (0, m)
      else bind (ignore_spaces t p) (fun p =>
      if eof t p then Ok (0, m)
      else bind (rd t (p_pos p)) (fun c =>
      if c =? 35 then bind (comment t p) (fun p => env_loop f t p m)
      else bind (non_newline t p) (fun '(line_start, line_end, p) =>
      bind (name_length line_start line_end) (fun n =>
      bind (str_extract t line_start n) (fun line =>
      let line := cstr line in
      let p := set_pos p line_start in
      let var := match str_extract_until line 61 with Some v => v | None => [] end in
      let p := set_pos p (p_pos p + zlen var) in
      if zlen var =? 0 then env_loop f t (set_pos p (line_end + 1)) (m ++ [(str_trim line, [49])])
      else
        let p := set_pos p (p_pos p + 1) in
        bind (ignore_space_and_tab t p) (fun p =>
        if eof t p || (line_end <? p_pos p) then Ok (1, m)
        else bind (name_length (p_pos p) line_end) (fun n =>
        bind (str_extract t (p_pos p) n) (fun value =>
        env_loop f t (set_pos p (line_end + 1)) (m ++ [(str_trim var, str_trim (cstr value))])))))))))
  end.

(** environment_file.c:124-169 [rrr_environment_file_parse]: [d] is the content of the file.  The
    buffer made by [rrr_readfile_read] (util/readfile.c:90) has no zero octet after it. *)
Definition env_parse (d : list Z) : res (Z * list (list Z * list Z)) :=
  env_loop (S (length d)) (mk_text d false) pos_init [].
