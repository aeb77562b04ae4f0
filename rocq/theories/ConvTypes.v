(** Names of the conversions of values, and how strictly types are to match. *)

Inductive method : Type :=
| H2str | H2vain | Blob2str | Blob2blob | Blob2hex | Str2str | Str2blob | Str2h | Str2vain | Msg2blob | Vain2h | Vain2str | Hchar2str.
Record flags : Type := mk_flags { try_next : bool; strict_blobs : bool; strict_strings : bool }.
