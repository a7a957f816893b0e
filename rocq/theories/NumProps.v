(** Floats and durations in events (reflect.go): what is read back from the text that was written. *)
From Coq Require Import ZArith Reals Lra Lia.
From Flocq Require Import Core BinarySingleNaN.
From Coq Require Import Floats.SpecFloat.
From Verif Require Import Base FloatModel TimeModel NumModel ReflModel ReflSpec NumSpec NumProofs.
Local Open Scope Z_scope.

(** ** C110: durations *)

(** A duration is written in milliseconds and read back. Up to 52 days it comes back the same, or one nanosecond closer to
    zero; whole milliseconds come back the same.  (The full statement, [parse_duration (fmt_duration d) = Some d], is
    false: [C110_refuted].) *)
Theorem C110_durations_partial d : Z.abs d < 2 ^ 52 ->
  exists e, parse_duration (fmt_duration d) = Some e /\ (e = d \/ e = d - Z.sgn d) /\ ((1000000 | d) -> e = d).
Proof.
  intros Hd. exists (through d). split; [by apply read_through|]. split.
  - destruct (Z.lt_trichotomy d 0) as [Hn|[->|Hp]].
    + pose proof (through_neg (- d) ltac:(lia)) as T. rewrite Z.opp_involutive in T. lia.
    + rewrite through_0. lia.
    + pose proof (through_pos d ltac:(lia)). lia.
  - intros [k ->]. by apply through_ms.
Qed.
Print Assumptions C110_durations_partial.
(** Longer ones, up to 146 years, come back with an error of less than a nanosecond in 26 days, and one nanosecond. *)
Theorem C110_long_partial d : Z.abs d < 2 ^ 62 ->
  exists e, parse_duration (fmt_duration d) = Some e /\ 2 ^ 51 * Z.abs (e - d) <= Z.abs d + 2 ^ 51.
Proof. intros Hd. exists (through d). split; [by apply read_through|by apply through_long]. Qed.
Print Assumptions C110_long_partial.
(** 249 nanoseconds are written "0.000249", and read as 248. *)
Theorem C110_refuted : fmt_duration 249 = "0.000249"%string /\ parse_duration "0.000249" = Some 248.
Proof. by vm_compute. Qed.
Print Assumptions C110_refuted.
Example C110_nonvacuous : fmt_duration 1500000 = "1.5"%string /\ parse_duration "1.5" = Some 1500000 /\
  fmt_duration (-7) = "-0.000007"%string /\ parse_duration "-0.000007" = Some (-7) /\
  fmt_duration 9000000000000000001 = "9000000000000"%string /\ parse_duration "9000000000000" = Some 9000000000000000000.
Proof. by vm_compute. Qed.

(** ** C111: floats *)

(** A float32 field comes back as it was written, whatever its value: also NaN, infinities and the negative zero. *)
Theorem C111_float32 y : valid_binary 24 128 y = true -> parse_float32 (fmt_float32 y) = Some y.
Proof.
  intros V. destruct y as [s|s| |s m e]; [by destruct s; vm_compute|by destruct s; vm_compute|by vm_compute|].
  destruct (widen_spec _ V eq_refl) as (W1 & W2 & _). apply float32_exact; [done|done|]. by apply fmt_formatted.
Qed.
Print Assumptions C111_float32.
(** A finite float64 field comes back as it was written if and only if its value is one of single precision.  (The full
    statement, for every value, is false: [C111_refuted].) *)
Theorem C111_float64_partial x : valid_binary 53 1024 x = true -> is_finite_SF x = true ->
  (parse_float64 (fmt_float64 x) = Some x <-> single_value (SF2R radix2 x)).
Proof. intros V F. apply float64_iff. by apply fmt_formatted. Qed.
Print Assumptions C111_float64_partial.
(** NaN and the infinities come back. *)
Theorem C111_special x : is_finite_SF x = false -> parse_float64 (fmt_float64 x) = Some x.
Proof. destruct x as [s|s| |s m e]; try done; try destruct s; by vm_compute. Qed.
Print Assumptions C111_special.
(** Otherwise what is read has single precision and is a neighbour: no value of single precision is strictly between. *)
Theorem C111_neighbour x y : valid_binary 53 1024 x = true -> is_finite_SF x = true -> parse_float64 (fmt_float64 x) = Some y ->
  single_value (SF2R radix2 y) /\
  forall z, single_value z -> ~ (SF2R radix2 x < z < SF2R radix2 y)%R /\ ~ (SF2R radix2 y < z < SF2R radix2 x)%R.
Proof.
  intros V F Hr. pose proof (fmt_formatted x V F) as H. split; [by apply (read_is_single x (fmt_float64 x))|].
  intros z Hz. by apply (float64_neighbour x (fmt_float64 x) y).
Qed.
Print Assumptions C111_neighbour.
(** There is an error only for values beyond all those of single precision. *)
Theorem C111_error x : valid_binary 53 1024 x = true -> is_finite_SF x = true -> parse_float64 (fmt_float64 x) = None ->
  forall z, single_value z -> (Rabs z < Rabs (SF2R radix2 x))%R.
Proof. intros V F Hr z. apply (float64_error x (fmt_float64 x)); [by apply fmt_formatted|done]. Qed.
Print Assumptions C111_error.
(** The text that is written is one of the number: ParseFloat with 64 bits reads it back. *)
Theorem C111_text x : valid_binary 53 1024 x = true -> parse_float 53 1024 (fmt_float64 x) = Some x.
Proof. apply fmt_spec. Qed.
Print Assumptions C111_text.
(** All this does not depend on which text of the number is written. *)
Theorem C111_any_text_partial x s : is_finite_SF x = true -> parse_float 53 1024 s = Some x ->
  (parse_float64 s = Some x <-> single_value (SF2R radix2 x)).
Proof. intros F H. by apply float64_iff. Qed.
Print Assumptions C111_any_text_partial.
(** 0.1 (the float64 nearest to it) is read as another number, and 1e39 is not read at all. *)
Definition f64_tenth : spec_float := S754_finite false 7205759403792794 (-56).
Theorem C111_refuted : fmt_float64 f64_tenth = "0.1"%string /\ (exists y, parse_float64 "0.1" = Some y /\ y <> f64_tenth) /\
  exists x, fmt_float64 x = "1000000000000000000000000000000000000000"%string /\ parse_float64 "1000000000000000000000000000000000000000" = None.
Proof.
  split; [by vm_compute|]. split; [eexists; split; by vm_compute|].
  destruct (parse_float 53 1024 "1000000000000000000000000000000000000000") as [x|] eqn:E; [|by vm_compute in E].
  exists x. vm_compute in E. injection E as <-. split; by vm_compute.
Qed.
Print Assumptions C111_refuted.
Example C111_nonvacuous : exists x y, fmt_float64 x = "-0.25"%string /\ parse_float64 "-0.25" = Some x /\ valid_binary 53 1024 x = true /\ is_finite_SF x = true /\
  fmt_float32 y = "0.10000000149011612"%string /\ parse_float32 "0.10000000149011612" = Some y /\ valid_binary 24 128 y = true /\ is_finite_SF y = true /\
  fmt_float64 S754_nan = "NaN"%string /\ fmt_float32 (S754_infinity true) = "-Inf"%string /\ fmt_float32 (S754_zero true) = "-0"%string.
Proof. exists (S754_finite true 4503599627370496 (-54)), (S754_finite false 13421773 (-27)). by vm_compute. Qed.

(** ** In events *)

(** Fields of these types with these values are among those that C48 restores. *)
Theorem C48_numbers :
  (forall y, valid_binary 24 128 y = true -> good (TScalar false KFloat32) (VFloat32 y)) /\
  (forall x, valid_binary 53 1024 x = true -> (is_finite_SF x = true -> single_value (SF2R radix2 x)) -> good (TScalar false KFloat64) (VFloat64 x)) /\
  (forall d, Z.abs d < 2 ^ 52 -> (1000000 | d) -> good (TScalar false KDuration) (VDuration d)).
Proof.
  split; [exact C111_float32|]. split.
  - intros x V S. cbn. destruct (is_finite_SF x) eqn:F; [|by apply C111_special]. apply C111_float64_partial; auto.
  - intros d Hd Hm. destruct (C110_durations_partial d Hd) as (e & He & _ & E). cbn. by rewrite He, E.
Qed.
Print Assumptions C48_numbers.
