(** Model of src/lib/util/utf8.c.  The unread part of the buffer, from [*pos] to
    [end], is a list; a read happens only on a non-empty list. *)
From Coq Require Import ZArith List Bool.
From Verif Require Import Common.
Import ListNotations.
Open Scope Z_scope.

Definition in_range (lo hi x : Z) : bool := (lo <=? x) && (x <=? hi).

(** Result of reading one character: failure, or the code point and the unread
    rest. *)
Inductive utf8_read : Type :=
| U8Fail
| U8Ok (result : Z) (rest : list Z).

(** utf8.c:28-85 [__rrr_utf8_get_character_continue]. *)
Definition utf8_continue (c : Z) (buf : list Z) : utf8_read :=
  match buf with
  | [] => U8Fail
  | d :: buf =>
    if in_range 194 223 c && in_range 128 191 d then
      U8Ok (Z.lor (Z.shiftl (Z.land c 31) 6) (Z.land d 63)) buf
    else
    match buf with
    | [] => U8Fail
    | e :: buf =>
      if ((c =? 224) && in_range 160 191 d && in_range 128 191 e)
      || (in_range 225 236 c && in_range 128 191 d && in_range 128 191 e)
      || ((c =? 237) && in_range 128 159 d && in_range 128 191 e)
      || (in_range 238 239 c && in_range 128 191 d && in_range 128 191 e)
      then
        U8Ok (Z.lor (Z.lor (Z.shiftl (Z.land c 15) 12) (Z.shiftl (Z.land d 63) 6)) (Z.land e 63)) buf
      else
      match buf with
      | [] => U8Fail
      | f :: buf =>
        if ((c =? 240) && in_range 144 191 d && in_range 128 191 e && in_range 128 191 f)
        || (in_range 241 243 c && in_range 128 191 d && in_range 128 191 e && in_range 128 191 f)
        || ((c =? 244) && in_range 128 143 d && in_range 128 191 e && in_range 128 191 f)
        then
          U8Ok (Z.lor (Z.lor (Z.lor (Z.shiftl (Z.land c 7) 18) (Z.shiftl (Z.land d 63) 12))
                             (Z.shiftl (Z.land e 63) 6)) (Z.land f 63)) buf
        else U8Fail
      end
    end
  end.

(** utf8.c:87-103 [rrr_utf8_get_character]; zero at the end of the buffer. *)
Definition utf8_get_character (buf : list Z) : utf8_read :=
  match buf with
  | [] => U8Ok 0 []
  | c :: r => if c <=? 127 then U8Ok c r else utf8_continue c r
  end.

(** utf8.c:119-142 [rrr_utf8_validate_and_iterate].  The callback is a state
    transformer returning zero to go on; the outcome is the return value and the
    final callback state.  [fuel] bounds the loop; [None] is running out of it,
    which never happens with the fuel used below (proved). *)
Fixpoint utf8_iterate_loop {A} (fuel : nat) (cb : A -> Z -> Z * A) (st : A) (buf : list Z) : option (Z * A) :=
  match fuel with
  | O => None
  | S fuel =>
      match utf8_get_character buf with
      | U8Fail => Some (1, st)
      | U8Ok result rest =>
          if result =? 0 then Some (0, st)
          else let '(ret, st') := cb st result in
               if ret =? 0 then utf8_iterate_loop fuel cb st' rest else Some (ret, st')
      end
  end.
Definition utf8_validate_and_iterate {A} (cb : A -> Z -> Z * A) (st : A) (buf : list Z) : option (Z * A) :=
  utf8_iterate_loop (S (length buf)) cb st buf.

(** utf8.c:105-117 [rrr_utf8_validate]: the same loop without a callback. *)
Fixpoint utf8_validate_loop (fuel : nat) (buf : list Z) : option Z :=
  match fuel with
  | O => None
  | S fuel =>
      match utf8_get_character buf with
      | U8Fail => Some 1
      | U8Ok result rest => if result =? 0 then Some 0 else utf8_validate_loop fuel rest
      end
  end.
Definition utf8_validate (buf : list Z) : option Z := utf8_validate_loop (S (length buf)) buf.
