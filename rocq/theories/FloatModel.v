(** Go's float64 and the conversions to and from int64. *)
From Verif Require Import Base.
From Coq Require Import Floats.SpecFloat.
Local Open Scope Z_scope.

(** The conversion to int64: wraps around. *)
Definition int64 (z : Z) : Z := (z + 2 ^ 63) mod 2 ^ 64 - 2 ^ 63.

(** ** Go's float64: IEEE 754 binary64, as the standard library specifies it *)
Definition f64_of_int (z : Z) : spec_float := binary_normalize 53 1024 z 0 false.
Definition f64_div : spec_float -> spec_float -> spec_float := SFdiv 53 1024.
Definition f64_mul : spec_float -> spec_float -> spec_float := SFmul 53 1024.
Definition f64_add : spec_float -> spec_float -> spec_float := SFadd 53 1024.
(** 0.5 *)
Definition f64_half : spec_float := S754_finite false 4503599627370496 (-53).
(** int64(x): the fraction is discarded.  (Outside the range of int64 the result depends on the machine; the values
    here are inside, see C60_rounding.) *)
Definition int_of_f64 (x : spec_float) : Z :=
  match x with
  | S754_finite s m e =>
      let n := match e with
               | Zneg p => Z.pos m / 2 ^ Z.pos p
               | _ => Z.pos m * 2 ^ e
               end in
      int64 (if s then - n else n)
  | _ => 0
  end.
