(** What the text helpers of the HTTP implementation should do, after RFC 3986 (URIs), the
    definition of application/x-www-form-urlencoded and RFC 7230 (header values). *)
From Coq Require Import Strings.String.
From Coq Require Import ZArith List Bool.
From Verif Require Import Common.
Import ListNotations.
Open Scope Z_scope.

Definition octet (c : Z) : Prop := 0 <= c < 256.
Definition letter (c : Z) : Prop := 65 <= c <= 90 \/ 97 <= c <= 122.
Definition digit (c : Z) : Prop := 48 <= c <= 57.

(** ** URL encoding *)

(** A hexadecimal digit and its value *)
Inductive hex : Z -> Z -> Prop :=
| hex_digit_ c : 48 <= c <= 57 -> hex c (c - 48)
| hex_upper c : 65 <= c <= 70 -> hex c (c - 65 + 10)
| hex_lower c : 97 <= c <= 102 -> hex c (c - 97 + 10).
(** The text and the octets it stands for *)
Inductive encodes : list Z -> list Z -> Prop :=
| enc_nil : encodes [] []
| enc_plain c t s : c <> 37 -> encodes t s -> encodes (c :: t) (c :: s)
| enc_percent a b x y t s : hex a x -> hex b y -> encodes t s -> encodes (37 :: a :: b :: t) (16 * x + y :: s).
(** Characters of which encoded text consists: letters, digits, marks and percent signs *)
Definition safe (c : Z) : Prop := letter c \/ digit c \/ In c (str_bytes "-_.!~*'()%").

(** ** Form data *)

(** A name or value and its text: as above, with + for a space, and without the characters which
    separate fields or end the text *)
Inductive form_encodes : list Z -> list Z -> Prop :=
| fenc_nil : form_encodes [] []
| fenc_plain c t s : ~ In c (str_bytes "%+=& ") -> c <> 9 -> c <> 10 -> c <> 13 -> form_encodes t s -> form_encodes (c :: t) (c :: s)
| fenc_plus t s : form_encodes t s -> form_encodes (43 :: t) (32 :: s)
| fenc_percent a b x y t s : hex a x -> hex b y -> form_encodes t s -> form_encodes (37 :: a :: b :: t) (16 * x + y :: s).
(** The text of a field: a name with or without value, which may be empty *)
Inductive field_text : list Z * list Z -> list Z -> Prop :=
| ft_name n tn : form_encodes tn n -> tn <> [] -> field_text (n, []) tn
| ft_value n v tn tv : form_encodes tn n -> tn <> [] -> form_encodes tv v -> field_text (n, v) (tn ++ [61] ++ tv).
(** Fields separated by & *)
Inductive form_text : list (list Z * list Z) -> list Z -> Prop :=
| form_nil : form_text [] []
| form_last f t : field_text f t -> form_text [f] t
| form_more f t fs ts : field_text f t -> form_text fs ts -> fs <> [] -> form_text (f :: fs) (t ++ [38] ++ ts).

(** ** Header values *)

(** RFC 7230 3.2.6, token *)
Definition token_char (c : Z) : Prop := letter c \/ digit c \/ In c (str_bytes "!#$%&'*+-.^_`|~").
(** The inside of a quoted string: a backslash stands for the character after it; the quotes
    inside have one *)
Inductive quoted : list Z -> list Z -> Prop :=
| quoted_nil : quoted [] []
| quoted_char c t s : c <> 34 -> c <> 92 -> quoted t s -> quoted (c :: t) (c :: s)
| quoted_pair c t s : quoted t s -> quoted (92 :: c :: t) (c :: s).
Definition header_value (t s : list Z) : Prop := (t = s /\ Forall token_char s) \/ (exists b, t = [34] ++ b ++ [34] /\ quoted b s).

(** ** URIs *)

Definition host_char (c : Z) : Prop := letter c \/ digit c \/ c = 46 \/ c = 45.
Definition host (h : list Z) : Prop := exists c r, h = c :: r /\ Forall host_char h /\ c <> 45.
(** Number in decimal notation *)
Definition decimal (ds : list Z) : Z := fold_left (fun a c => 10 * a + (c - 48)) ds 0.
(** Characters of paths and queries which the implementation takes; RFC 3986 has parentheses, too *)
Definition path_char (c : Z) : Prop := letter c \/ digit c \/ In c (str_bytes "-._~!$&'*+,;=:@%/?#").
(** What follows host and port *)
Definition path (e : list Z) : Prop := e = [] \/ (exists r, e = 47 :: r /\ Forall path_char r).
(** A word in any mixture of capital and small letters *)
Definition spelled (w t : list Z) : Prop := Forall2 (fun a b => b = a \/ b = a - 32) w t.
(** [sub] is part of [t] *)
Definition contains (sub t : list Z) : Prop := exists a b, t = a ++ sub ++ b.
