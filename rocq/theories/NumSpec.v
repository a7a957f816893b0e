(** What it means to be a number of single precision. *)
From Coq Require Import ZArith Reals.
From Flocq Require Import Core.
Local Open Scope Z_scope.
(** A whole number of at most 24 bits times a power of two, with the exponents of IEEE 754's binary32. *)
Definition single_value (r : R) : Prop :=
  exists m e, Z.abs m < 2 ^ 24 /\ -149 <= e <= 104 /\ r = (IZR m * bpow radix2 e)%R.
