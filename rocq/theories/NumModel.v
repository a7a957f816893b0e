(** Model of the float and time.Duration cases of reflect.go: how such a value is written into an annotation and read
    back.  Numbers are IEEE 754's, as the standard library specifies them. *)
From Verif Require Import Base FloatModel TimeModel.
From Coq Require Import Floats.SpecFloat.
Local Open Scope Z_scope.

Global Instance spec_float_eq_dec : EqDecision spec_float.
Proof. solve_decision. Defined.

(** ** Decimal texts, and strconv.ParseFloat *)

(** The value of a decimal digit. *)
Definition digit_value (c : Ascii.ascii) : option Z :=
  let n := Z.of_N (Ascii.N_of_ascii c) in if (48 <=? n) && (n <=? 57) then Some (n - 48) else None.
(** A text of digits with at most one point: the digits as one number, and how many follow the point
    ([k]: None before the point). *)
Fixpoint dec_digits (s : string) (n : Z) (k : option nat) : option (Z * nat) :=
  match s with
  | "" => Some (n, default 0%nat k)
  | String c s =>
      if Ascii.eqb c "." then match k with None => dec_digits s n (Some 0%nat) | Some _ => None end
      else match digit_value c with Some d => dec_digits s (10 * n + d) (S <$> k) | None => None end
  end%string.
(** [decimal s]: sign, number, digits after the point.  FormatFloat with 'f' writes nothing else for finite
    numbers; ParseFloat also reads exponents and hexadecimal numbers, which are not modelled. *)
Definition decimal (s : string) : option (bool * Z * nat) :=
  let (neg, r) := match s with
                  | String c r => if Ascii.eqb c "-" then (true, r) else if Ascii.eqb c "+" then (false, r) else (false, s)
                  | "" => (false, s)
                  end%string in
  if bool_decide (r = "" \/ r = ".")%string then None
  else match dec_digits r 0 None with Some (n, k) => Some (neg, n, k) | None => None end.
(** The texts of infinities and NaN, in any case. *)
Definition lower1 (c : ascii) : ascii := let n := N_of_ascii c in if ((65 <=? n) && (n <=? 90))%N then ascii_of_N (n + 32) else c.
Fixpoint lower (s : string) : string := match s with "" => "" | String c s => String (lower1 c) (lower s) end%string.
Definition special (s : string) : option spec_float :=
  let s := lower s in
  if bool_decide (s ∈ ["inf"; "+inf"; "infinity"; "+infinity"]%string) then Some (S754_infinity false)
  else if bool_decide (s ∈ ["-inf"; "-infinity"]%string) then Some (S754_infinity true)
  else if bool_decide (s = "nan"%string) then Some S754_nan else None.
(** The nearest floating-point number of the given precision, ties to even: IEEE 754's rounding of the
    quotient m / d (an overflow gives an infinity). *)
Definition round_quot (prec emax : Z) (neg : bool) (m d : positive) : spec_float :=
  let '(mz, ez, lz) := SFdiv_core_binary prec emax (Z.pos m) 0 (Z.pos d) 0 in binary_round_aux prec emax neg mz ez lz.
(** strconv.ParseFloat(s, 64) with prec = 53 and emax = 1024, ParseFloat(s, 32) with 24 and 128.  None is an
    error: not a number, or too large (ErrRange). *)
Definition parse_float (prec emax : Z) (s : string) : option spec_float :=
  match special s with
  | Some x => Some x
  | None =>
      match decimal s with
      | Some (neg, Z.pos m, k) =>
          match round_quot prec emax neg m (Z.to_pos (10 ^ Z.of_nat k)) with
          | S754_infinity _ | S754_nan => None
          | x => Some x
          end
      | Some (neg, _, _) => Some (S754_zero neg)
      | None => None
      end
  end.
(** float64(x) for a float32 x *)
Definition widen (x : spec_float) : spec_float :=
  match x with S754_finite s m e => binary_round 53 1024 s m e | _ => x end.

(** ** strconv.FormatFloat(x, 'f', -1, 64) *)

Definition digit_char (n : Z) : ascii := ascii_of_N (Z.to_N (48 + n)).
(** The last [k] digits of [n], with leading zeros; all digits of [n]. *)
Fixpoint last_digits (k : nat) (n : Z) : string :=
  match k with O => "" | S k => last_digits k (n / 10) +:+ String (digit_char (n mod 10)) "" end.
Fixpoint digits (fuel : nat) (n : Z) : string :=
  match fuel with
  | O => ""
  | S fuel => if n <? 10 then String (digit_char n) "" else digits fuel (n / 10) +:+ String (digit_char (n mod 10)) ""
  end.
Definition int_text (n : Z) : string := digits (S (Z.to_nat (Z.log2 n))) n.
(** n / 10^k *)
Definition dec_text (neg : bool) (n : Z) (k : nat) : string :=
  (if neg then "-" else "") +:+ int_text (n / 10 ^ Z.of_nat k) +:+
  match k with O => "" | _ => "." +:+ last_digits k (n mod 10 ^ Z.of_nat k) end.
(** The decimal nearest to m * 2^e with [k] digits after the point; for negative [k] it ends in zeros. *)
Definition nearest_text (s : bool) (m e k : Z) : string :=
  let a := m * 2 ^ Z.max e 0 * 10 ^ Z.max k 0 in
  let b := 2 ^ Z.max (- e) 0 * 10 ^ Z.max (- k) 0 in
  dec_text s ((2 * a + b) / (2 * b) * 10 ^ Z.max (- k) 0) (Z.to_nat k).
(** m * 2^e itself *)
Definition exact_text (s : bool) (m e : Z) : string :=
  if e <? 0 then dec_text s (m * 5 ^ (- e)) (Z.to_nat (- e)) else dec_text s (m * 2 ^ e) 0.
(** "the smallest number of digits necessary such that ParseFloat will return f exactly".  Here: the fewest digits
    such that the nearest decimal is read as x.  (For powers of two a decimal that is not the nearest may be shorter.)
    No number needs more than 17 digits, so that the exact text is never taken. *)
Fixpoint shortest (fuel : nat) (s : bool) (m : positive) (e k : Z) : string :=
  match fuel with
  | O => exact_text s (Z.pos m) e
  | S fuel =>
      let t := nearest_text s (Z.pos m) e k in
      if bool_decide (parse_float 53 1024 t = Some (S754_finite s m e)) then t else shortest fuel s m e (k + 1)
  end.
Definition fmt_float (x : spec_float) : string :=
  match x with
  | S754_zero s => dec_text s 0 0
  | S754_infinity s => if s then "-Inf" else "+Inf"
  | S754_nan => "NaN"
  | S754_finite s m e => shortest 20 s m e (- ((Z.log2 (Z.pos m) + e) * 30103 / 100000 + 1))
  end.

(** ** Values *)

(** reflect.go:34-35: a value of kind Float32 (which v.Float() widens) or Float64. *)
Definition fmt_float32 (x : spec_float) : string := fmt_float (widen x).
Definition fmt_float64 (x : spec_float) : string := fmt_float x.
(** reflect.go:118-130: both kinds are read with ParseFloat(s, 32). *)
Definition parse_float32 (s : string) : option spec_float := parse_float 24 128 s.
Definition parse_float64 (s : string) : option spec_float := widen <$> parse_float 24 128 s.
(** reflect.go:18-20, [d] in nanoseconds *)
Definition fmt_duration (d : Z) : string := fmt_float (f64_div (f64_of_int d) (f64_of_int 1000000)).
(** reflect.go:100-107 *)
Definition parse_duration (s : string) : option Z :=
  (fun x => int_of_f64 (f64_mul x (f64_of_int 1000000))) <$> parse_float 53 1024 s.

(** ** String methods (reflect.go:22-24): pointers to durations and times are Stringers *)

(** A number of units of 10^k: the digits after the point without trailing zeros. *)
Definition unit_text (u : Z) (k : nat) : string :=
  int_text (u / 10 ^ Z.of_nat k) +:+
  (if u mod 10 ^ Z.of_nat k =? 0 then "" else "." +:+ frac k (Z.to_N (u mod 10 ^ Z.of_nat k))).
(** time.Duration.String *)
Definition duration_string (d : Z) : string :=
  let u := Z.abs d in
  (if d <? 0 then "-" else "") +:+
  (if u =? 0 then "0s"
   else if u <? 1000 then unit_text u 0 +:+ "ns"
   else if u <? 1000000 then unit_text u 3 +:+ "µs"
   else if u <? 1000000000 then unit_text u 6 +:+ "ms"
   else (if u <? 60000000000 then ""
         else (if u <? 3600000000000 then "" else int_text (u / 3600000000000) +:+ "h") +:+ int_text (u / 60000000000 mod 60) +:+ "m") +:+
        unit_text (u mod 60000000000) 9 +:+ "s").
