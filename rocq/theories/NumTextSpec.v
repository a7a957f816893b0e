(** What a decimal numeral is, and which number it stands for. *)
From Coq Require Import ZArith NArith Reals String Ascii.
Local Open Scope string_scope.

(** The digits 0 to 9. *)
Definition digit_of (c : ascii) (d : Z) : Prop := (0 <= d < 10 /\ Z.of_N (N_of_ascii c) = 48 + d)%Z.
(** A text of digits, possibly none, and the whole number it stands for. *)
Inductive digits_of : string -> Z -> Prop :=
| DO_none : digits_of "" 0
| DO_more c d s n : digit_of c d -> digits_of s n -> digits_of (String c s) (d * 10 ^ Z.of_nat (String.length s) + n).
(** A sign or none, digits, and possibly a point and further digits; there is at least one digit. *)
Inductive sign_of : string -> R -> Prop := SO_none : sign_of "" 1 | SO_plus : sign_of "+" 1 | SO_minus : sign_of "-" (-1).
Definition numeral (s : string) (q : R) : Prop :=
  exists sign sg i n f m, sign_of sign sg /\ digits_of i n /\ digits_of f m /\ append i f <> "" /\
    (s = append sign i /\ f = "" \/ s = append sign (append i (String "." f))) /\
    q = (sg * (IZR n + IZR m / IZR (10 ^ Z.of_nat (String.length f))))%R.
