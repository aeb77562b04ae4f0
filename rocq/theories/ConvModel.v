(** Model of src/lib/type_conversion.c, of src/lib/util/hex.c and of mangler_process_value of
    src/modules/p_mangler.c.  Values are those of TypeModel.  Messages and allocation failures are
    left out. *)
From Coq Require Import ZArith List Bool.
From Verif Require Import Common TypeModel ConvTypes.
Import ListNotations.
Open Scope Z_scope.

(** type_conversion.h:29-33 *)
Definition NOT_POSSIBLE : Z := 4.
Definition DONE : Z := 8.
(** rrr_types.h:83 [RRR_LENGTH_MAX] *)
Definition LENGTH_MAX : Z := 2^32 - 1.

(** type.h:107-126 [RRR_TYPE_IS_64] and the others *)
Definition is_64 (t : Z) : bool := existsb (Z.eqb t) [TYPE_LE; TYPE_BE; TYPE_H; TYPE_USTR; TYPE_ISTR].
Definition is_blob (t : Z) : bool := existsb (Z.eqb t) [TYPE_BLOB; TYPE_SEP; TYPE_MSG; TYPE_STR; TYPE_NSEP; TYPE_STX; TYPE_HDLC].
Definition is_str (t : Z) : bool := existsb (Z.eqb t) [TYPE_STR; TYPE_SEP; TYPE_NSEP; TYPE_STX].
(** type_conversion.c:89-95 [TYPE_BLOB_ENSURE] and [TYPE_STR_ENSURE] *)
Definition blob_ensure (f : flags) (t : Z) : bool := negb ((strict_blobs f && negb (t =? TYPE_BLOB)) || negb (is_blob t)).
Definition str_ensure (f : flags) (t : Z) : bool := negb ((strict_strings f && negb (t =? TYPE_STR)) || negb (is_str t)).

(** type_conversion.c:51-75 [__rrr_type_convert_clone_set_new_definition_with_data] *)
Definition set_type (v : value) (t : Z) : value := set_type_data v t (v_data v).
(** type.c:1464-1476 [rrr_type_value_set_data]: aborts unless the elements divide the data *)
Definition value_set_data (v : value) (d : list Z) : res value :=
  if v_elements v =? 0 then RBug else if negb (zlen d mod v_elements v =? 0) then RBug else ROk (set_data v d).

(** type_conversion.c:154-181, the loop of [__rrr_type_convert_h2str] for more than one element: each
    number is read at its place, past the data if there is no such number, and put at the end of 20
    places *)
Fixpoint h2str_loop (sgn : bool) (n : nat) (d : list Z) : res (list Z) :=
  match n with
  | O => ROk []
  | S n =>
      if zlen d <? 8 then RUb
      else let x := le_dec (firstn 8 d) in
           let t := if sgn then dec_text_signed (as_signed x) else dec_text x in
           rbind (h2str_loop sgn n (skipn 8 d)) (fun s => ROk (repeat 32 (20 - length t) ++ t ++ s))
  end.
(** type_conversion.c:105-201 [__rrr_type_convert_h2str] *)
Definition h2str (v : value) : res value :=
  if negb (is_64 (v_type v)) then RErr NOT_POSSIBLE
  else if v_elements v =? 0 then RBug
  else if negb (zlen (v_data v) mod 8 =? 0) then RBug
  else rbind
    (if v_elements v =? 1 then h_to_str v
     else if LENGTH_MAX <? 20 * v_elements v then RErr 2
     else h2str_loop (is_signed (v_flags v)) (Z.to_nat (v_elements v)) (v_data v))
    (fun s => ROk (mk_value TYPE_STR 0 (v_tag v) 0 (v_elements v) s)).

(** type_conversion.c:203-223 [__rrr_type_convert_h2vain]; type.c:1612-1629 [rrr_type_new_vain] *)
Definition new_vain (tag : list Z) : value := mk_value TYPE_VAIN 0 tag 0 1 [].
Definition h2vain (v : value) : res value :=
  if negb (is_64 (v_type v)) then RErr NOT_POSSIBLE
  else if 1 <? v_elements v then RErr NOT_POSSIBLE
  else if zlen (v_data v) <? 8 then RUb
  else if negb (le_dec (firstn 8 (v_data v)) =? 0) then RErr NOT_POSSIBLE
  else ROk (new_vain (v_tag v)).

(** type_conversion.c:226-229 [__rrr_type_convert_blob2str], 231-234 [__rrr_type_convert_blob2blob] *)
Definition blob2 (t : Z) (f : flags) (v : value) : res value :=
  if negb (blob_ensure f (v_type v)) then RErr NOT_POSSIBLE else ROk (set_type v t).

(** util/hex.c:30-63 [rrr_hex_bin_to_hex]: the size is a 32 bit number, and what is written past the
    memory is undefined *)
Definition hex_digit (n : Z) : Z := if n <? 10 then 48 + n else 87 + n.
Definition bin_to_hex (d : list Z) : res (list Z) :=
  if u32 (zlen d * 2 + 1) <? zlen d * 2 + 1 then RUb
  else ROk (flat_map (fun c => [hex_digit (c / 16); hex_digit (c mod 16)]) d).
(** type_conversion.c:236-266 [__rrr_type_convert_blob2hex] *)
Definition blob2hex (f : flags) (v : value) : res value :=
  if negb (blob_ensure f (v_type v)) then RErr NOT_POSSIBLE
  else rbind (bin_to_hex (v_data v)) (fun s =>
       if LENGTH_MAX <? zlen s then RErr 2 else value_set_data (set_type v TYPE_STR) s).

(** type_conversion.c:268-271 [__rrr_type_convert_str2str], 273-280 [__rrr_type_convert_str2blob] *)
Definition str2str (f : flags) (v : value) : res value :=
  if negb (str_ensure f (v_type v)) then RErr NOT_POSSIBLE else ROk (set_type v TYPE_STR).
Definition str2blob (f : flags) (v : value) : res value :=
  if negb (str_ensure f (v_type v)) then RErr NOT_POSSIBLE
  else if zlen (v_data v) =? 0 then RErr NOT_POSSIBLE else ROk (set_type v TYPE_BLOB).

(** type_conversion.c:303-317: characters which may be in numbers *)
Definition str2h_char (c : Z) : bool := is_digit c || (c =? 32) || (c =? 43) || (c =? 45).
(** type_conversion.c:348-381, the loop of [__rrr_type_convert_str2h]: [n] elements of [size] octets *)
Fixpoint str2h_loop (sgn : bool) (n : nat) (size : nat) (d : list Z) : res (list Z) :=
  match n with
  | O => ROk []
  | S n =>
      let element := firstn size d in
      let text := skipn (length (take_while is_c_space element)) element in
      match (if sgn then strtoll text else strtoull text) with
      | None => RErr NOT_POSSIBLE
      | Some (x, k) =>
          if Nat.eqb k (length text)
          then rbind (str2h_loop sgn n size (skipn size d)) (fun s => ROk (le_enc 8 (u64 x) ++ s))
          else RErr NOT_POSSIBLE
      end
  end.
(** type_conversion.c:282-402 [__rrr_type_convert_str2h] *)
Definition str2h (f : flags) (v : value) : res value :=
  let d := v_data v in
  if negb (str_ensure f (v_type v)) then RErr NOT_POSSIBLE
  else if v_elements v =? 0 then RBug
  else if negb (zlen d mod v_elements v =? 0) then RBug
  else if zlen d =? 0 then RErr NOT_POSSIBLE
  else if negb (forallb str2h_char d) then RErr NOT_POSSIBLE
  else
    let found_sign := existsb (Z.eqb 45) d in
    if LENGTH_MAX <? v_elements v * 8 then RErr 1
    else
      let size := zlen d / v_elements v in
      if 64 <? size then RErr NOT_POSSIBLE
      else rbind (str2h_loop found_sign (Z.to_nat (v_elements v)) (Z.to_nat size) d) (fun s =>
           ROk (mk_value TYPE_H (if found_sign then 1 else 0) (v_tag v) 0 (v_elements v) s)).

(** type_conversion.c:404-425 [__rrr_type_convert_str2vain] *)
Definition str2vain (f : flags) (v : value) : res value :=
  if negb (str_ensure f (v_type v)) then RErr NOT_POSSIBLE
  else if 1 <? v_elements v then RErr NOT_POSSIBLE
  else if negb (zlen (v_data v) =? 0) then RErr NOT_POSSIBLE
  else ROk (new_vain (v_tag v)).

(** type_conversion.c:427-430 [__rrr_type_convert_msg2blob] *)
Definition msg2blob (v : value) : res value :=
  if negb (v_type v =? TYPE_MSG) then RErr NOT_POSSIBLE else ROk (set_type v TYPE_BLOB).
(** type_conversion.c:432-435 [__rrr_type_convert_vain2h], 437-452 [__rrr_type_convert_vain2str] *)
Definition vain2h (v : value) : res value :=
  if negb (v_type v =? TYPE_VAIN) then RErr NOT_POSSIBLE else ROk (mk_value TYPE_H 0 (v_tag v) 0 1 (repeat 0 8)).
Definition vain2str (v : value) : res value :=
  if negb (v_type v =? TYPE_VAIN) then RErr NOT_POSSIBLE else ROk (mk_value TYPE_STR 0 (v_tag v) 0 1 []).

(** type_conversion.c:474-491, the loop of [__rrr_type_convert_hchar2str] *)
Fixpoint hchar_loop (n : nat) (d : list Z) : res (list Z) :=
  match n with
  | O => ROk []
  | S n =>
      if zlen d <? 8 then RUb
      else let x := le_dec (firstn 8 d) in
           if 255 <? x then RErr NOT_POSSIBLE
           else rbind (hchar_loop n (skipn 8 d)) (fun s => ROk (x :: s))
  end.
(** type_conversion.c:454-512 [__rrr_type_convert_hchar2str] *)
Definition hchar2str (v : value) : res value :=
  if negb (is_64 (v_type v)) then RErr NOT_POSSIBLE
  else if v_elements v =? 0 then RBug
  else if negb (zlen (v_data v) mod 8 =? 0) then RBug
  else rbind (hchar_loop (Z.to_nat (v_elements v)) (v_data v)) (fun s => ROk (mk_value TYPE_STR 0 (v_tag v) 0 1 s)).

(** type_conversion.c:549-561, the definitions: the types made *)
Definition to_type (m : method) : Z :=
  match m with
  | H2str | Blob2str | Blob2hex | Str2str | Vain2str | Hchar2str => TYPE_STR
  | H2vain | Str2vain => TYPE_VAIN
  | Blob2blob | Str2blob | Msg2blob => TYPE_BLOB
  | Str2h | Vain2h => TYPE_H
  end.
Definition convert_function (f : flags) (m : method) (v : value) : res value :=
  match m with
  | H2str => h2str v
  | H2vain => h2vain v
  | Blob2str => blob2 TYPE_STR f v
  | Blob2blob => blob2 TYPE_BLOB f v
  | Blob2hex => blob2hex f v
  | Str2str => str2str f v
  | Str2blob => str2blob f v
  | Str2h => str2h f v
  | Str2vain => str2vain f v
  | Msg2blob => msg2blob v
  | Vain2h => vain2h v
  | Vain2str => vain2str v
  | Hchar2str => hchar2str v
  end.
(** type_conversion.c:590-608 [__rrr_type_convert] *)
Definition convert (f : flags) (m : method) (v : value) : res value :=
  if v_type v =? to_type m then ROk v else convert_function f m v.

(** type_conversion.c:610-678 [__rrr_type_convert_using_list] from a position *)
Fixpoint convert_list (f : flags) (ms : list method) (v : value) : res value :=
  match ms with
  | [] => RErr DONE
  | m :: r =>
      match convert f m v with
      | ROk w =>
          match convert_list f r w with
          | RErr e => if e =? DONE then ROk w else RErr e
          | x => x
          end
      | RErr e =>
          if (e =? NOT_POSSIBLE) && try_next f then
            match convert_list f r v with
            | RErr e' => if e' =? DONE then RErr NOT_POSSIBLE else RErr e'
            | x => x
            end
          else RErr e
      | x => x
      end
  end.

(** modules/p_mangler.c:76-112 [mangler_process_value]: the value put in the new array *)
Definition mangle (f : flags) (ms : list method) (v : value) : res value :=
  match convert_list f ms v with
  | RErr e => if e =? NOT_POSSIBLE then ROk v else RErr e
  | x => x
  end.
