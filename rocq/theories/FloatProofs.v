(** The rounding to milliseconds of prof.go, over the reals (with Flocq).  The standard library's axioms of the reals
    are used here only. *)
From Coq Require Import ZArith Reals Lra Lia.
From Flocq Require Import Core BinarySingleNaN.
From Coq Require Import Floats.SpecFloat.
From Verif Require Import Base FloatModel TimeModel ReflModel EventModel TraceModel ProfModel.
Local Open Scope Z_scope.

Local Instance Hprec : Prec_gt_0 53 := eq_refl.
Local Instance Hmax : Prec_lt_emax 53 1024 := eq_refl.
Local Notation fx := (SpecFloat.fexp 53 1024).
Local Instance fx_valid : Valid_exp fx := FLT_exp_valid _ _.
Definition rnd (x : R) : R := round radix2 fx ZnearestE x.

(** ** SpecFloat's operations are Flocq's *)
Lemma round_nearest_even_equiv s m l : SpecFloat.round_nearest_even m l = choice_mode mode_NE s m l.
Proof. destruct l as [|[]]; try reflexivity. cbn. unfold Round.cond_incr. now destruct (Z.even m). Qed.
Lemma binary_round_aux_equiv sx mx ex lx : SpecFloat.binary_round_aux 53 1024 sx mx ex lx = BinarySingleNaN.binary_round_aux 53 1024 mode_NE sx mx ex lx.
Proof.
  unfold SpecFloat.binary_round_aux, BinarySingleNaN.binary_round_aux. destruct (SpecFloat.shr_fexp 53 1024 mx ex lx) as [mrs' e'].
  now rewrite (round_nearest_even_equiv sx).
Qed.
Lemma binary_round_equiv s m e : SpecFloat.binary_round 53 1024 s m e = BinarySingleNaN.binary_round 53 1024 mode_NE s m e.
Proof. unfold SpecFloat.binary_round, BinarySingleNaN.binary_round, shl_align_fexp. destruct (shl_align _ _ _). apply binary_round_aux_equiv. Qed.
Lemma binary_normalize_equiv m e szero : SpecFloat.binary_normalize 53 1024 m e szero
  = B2SF (BinarySingleNaN.binary_normalize 53 1024 Hprec Hmax mode_NE m e szero).
Proof. destruct m as [|p|p]; [reflexivity| |]; cbn; rewrite B2SF_SF2B; apply binary_round_equiv. Qed.
Notation b64 := (binary_float 53 1024).
Lemma add_equiv (x y : b64) : f64_add (B2SF x) (B2SF y) = B2SF (Bplus mode_NE x y).
Proof.
  unfold f64_add. destruct x as [sx|sx| |sx mx ex Bx], y as [sy|sy| |sy my ey By];
    [now (trivial || (cbn; destruct (Bool.eqb _ _)))..|]. apply binary_normalize_equiv.
Qed.
Lemma div_equiv (x y : b64) : f64_div (B2SF x) (B2SF y) = B2SF (Bdiv mode_NE x y).
Proof.
  unfold f64_div. destruct x as [sx|sx| |sx mx ex Bx], y as [sy|sy| |sy my ey By];
    [now (trivial || (cbn; destruct (Bool.eqb _ _)))..|]. cbn -[SFdiv_core_binary]. rewrite B2SF_SF2B.
  destruct (SFdiv_core_binary _ _ _ _ _ _) as [[mz ez] lz]. apply binary_round_aux_equiv.
Qed.

(** A finite float64 and its value. *)
Definition value (x : spec_float) (r : R) : Prop := exists b : b64, B2SF b = x /\ is_finite b = true /\ B2R b = r.

Lemma value_of_int z : (Rabs (rnd (IZR z)) < bpow radix2 1024)%R -> value (f64_of_int z) (rnd (IZR z)).
Proof.
  intros H. exists (BinarySingleNaN.binary_normalize 53 1024 Hprec Hmax mode_NE z 0 false).
  pose proof (binary_normalize_correct 53 1024 Hprec Hmax mode_NE z 0 false) as C.
  assert (F2R (Float radix2 z 0) = IZR z) as E. { unfold F2R. cbn. now rewrite Rmult_1_r. }
  cbn zeta in C. rewrite E in C. change (round radix2 _ (round_mode mode_NE) (IZR z)) with (rnd (IZR z)) in C. rewrite Rlt_bool_true in C by exact H.
  destruct C as (C1 & C2 & _). split; [|now split]. symmetry. apply binary_normalize_equiv.
Qed.
Lemma value_add x y r s : value x r -> value y s -> (Rabs (rnd (r + s)) < bpow radix2 1024)%R -> value (f64_add x y) (rnd (r + s)).
Proof.
  intros (a & <- & Fa & <-) (b & <- & Fb & <-) H. exists (Bplus mode_NE a b).
  pose proof (Bplus_correct 53 1024 Hprec Hmax mode_NE a b Fa Fb) as C.
  change (round radix2 _ (round_mode mode_NE) (B2R a + B2R b)) with (rnd (B2R a + B2R b)) in C. rewrite Rlt_bool_true in C by exact H.
  destruct C as (C1 & C2 & _). split; [|now split]. symmetry. apply add_equiv.
Qed.
Lemma value_div x y r s : value x r -> value y s -> s <> 0%R -> (Rabs (rnd (r / s)) < bpow radix2 1024)%R -> value (f64_div x y) (rnd (r / s)).
Proof.
  intros (a & <- & Fa & <-) (b & <- & Fb & <-) Hs H. exists (Bdiv mode_NE a b).
  pose proof (Bdiv_correct 53 1024 Hprec Hmax mode_NE a b Hs) as C.
  change (round radix2 _ (round_mode mode_NE) (B2R a / B2R b)) with (rnd (B2R a / B2R b)) in C. rewrite Rlt_bool_true in C by exact H.
  destruct C as (C1 & C2 & _). split; [|split; [now rewrite C2|done]]. symmetry. apply div_equiv.
Qed.
Lemma value_trunc x r : value x r -> int_of_f64 x = int64 (Ztrunc r).
Proof.
  intros (b & <- & Fb & <-). destruct b as [s|s| |s m e Hb]; try easy.
  - cbn. change 0%R with (IZR 0). now rewrite Ztrunc_IZR.
  - cbn [B2SF int_of_f64 B2R]. f_equal.
    assert (Hn : (match e with Zneg p => Z.pos m / 2 ^ Z.pos p | _ => Z.pos m * 2 ^ e end) = Ztrunc (F2R (Float radix2 (Z.pos m) e))).
    { destruct e as [|p|p].
      - unfold F2R. cbn. rewrite Rmult_1_r, Ztrunc_IZR. lia.
      - unfold F2R. cbn [Fnum Fexp]. rewrite <- IZR_Zpower by lia. rewrite <- mult_IZR, Ztrunc_IZR. done.
      - rewrite Ztrunc_floor by now apply F2R_ge_0. unfold F2R. cbn [Fnum Fexp]. change (Z.neg p) with (- Z.pos p).
        rewrite bpow_opp, <- IZR_Zpower by lia. symmetry. apply Zfloor_div. cbn. lia. }
    rewrite Hn. destruct s; cbn [cond_Zopp]; [|done]. rewrite F2R_Zopp. now rewrite Ztrunc_opp.
Qed.

(** ** Bounds *)
Lemma rnd_le x y : (x <= y)%R -> (rnd x <= rnd y)%R.
Proof. intros H. unfold rnd. apply round_le; [typeclasses eauto|typeclasses eauto|done]. Qed.
(** m * 2^e is exact when m has at most 53 bits. *)
Lemma rnd_exact m e : Z.abs m < 2 ^ 53 -> -1074 <= e -> rnd (IZR m * bpow radix2 e) = (IZR m * bpow radix2 e)%R.
Proof.
  intros Hm He. unfold rnd. apply round_generic; [typeclasses eauto|]. apply generic_format_FLT.
  exists (Float radix2 m e); [reflexivity|exact Hm|exact He].
Qed.
Lemma rnd_int m : Z.abs m < 2 ^ 53 -> rnd (IZR m) = IZR m.
Proof. intros H. rewrite <- (Rmult_1_r (IZR m)). change 1%R with (bpow radix2 0). apply rnd_exact; lia. Qed.
Lemma rnd_shift m p : Z.abs m < 2 ^ 53 -> 0 <= p <= 1074 -> rnd (IZR m / IZR (2 ^ p)) = (IZR m / IZR (2 ^ p))%R.
Proof.
  intros H Hp. unfold Rdiv. assert (/ IZR (2 ^ p) = bpow radix2 (- p))%R as ->; [|apply rnd_exact; lia].
  rewrite bpow_opp. f_equal. change 2 with (radix_val radix2). apply IZR_Zpower. lia.
Qed.
Lemma rnd_large m p : Z.abs m < 2 ^ 53 -> 0 <= p -> rnd (IZR (m * 2 ^ p)) = IZR (m * 2 ^ p).
Proof.
  intros H Hp. rewrite mult_IZR. assert (IZR (2 ^ p) = bpow radix2 p)%R as ->; [|apply rnd_exact; lia].
  change 2 with (radix_val radix2). apply IZR_Zpower. lia.
Qed.
Lemma rnd_between a b x : rnd a = a -> rnd b = b -> (a <= x <= b)%R -> (a <= rnd x <= b)%R.
Proof. intros Ha Hb [H1 H2]. apply rnd_le in H1, H2. rewrite Ha in H1. rewrite Hb in H2. now split. Qed.

Lemma rnd_half : rnd (/ 2) = (/ 2)%R.
Proof. generalize (rnd_shift 1 1 ltac:(lia) ltac:(lia)). change (2 ^ 1) with 2. unfold Rdiv. now rewrite Rmult_1_l. Qed.
Lemma value_half : value f64_half (/ 2).
Proof.
  exists (@B754_finite 53 1024 false 4503599627370496 (-53) eq_refl). split; [reflexivity|]. split; [reflexivity|].
  cbn [B2R cond_Zopp]. unfold F2R. cbn [Fnum Fexp]. change (-53) with (- (53)). rewrite bpow_opp, <- IZR_Zpower by lia.
  change (radix2 ^ 53) with (4503599627370496 * 2). rewrite mult_IZR. field.
Qed.
Lemma big_bound x : (Rabs x <= IZR (2 ^ 64))%R -> (Rabs x < bpow radix2 1024)%R.
Proof.
  intros H. apply Rle_lt_trans with (1 := H). change 2 with (radix_val radix2). rewrite IZR_Zpower by lia. now apply bpow_lt.
Qed.
Ltac powers := rewrite ?opp_IZR; change (2 ^ 63) with 9223372036854775808; change (2 ^ 64) with 18446744073709551616;
  change (2 ^ 53) with 9007199254740992; change (2 ^ 44) with 17592186044416; change (2 ^ 45) with 35184372088832.
Definition step1 (d : Z) : R := rnd (IZR d).
Definition step2 (d : Z) : R := rnd (step1 d / 1000000).
Definition step3 (d : Z) : R := rnd (step2 d + / 2).
Lemma step1_bound d : - 2 ^ 63 <= d <= 2 ^ 63 -> (IZR (- 2 ^ 63) <= step1 d <= IZR (2 ^ 63))%R.
Proof.
  intros H. apply rnd_between.
  - apply (rnd_large (-1) 63); lia.
  - apply (rnd_large 1 63); lia.
  - split; apply IZR_le; lia.
Qed.
Lemma step2_bound d : - 2 ^ 63 <= d <= 2 ^ 63 -> (IZR (- 2 ^ 44) <= step2 d <= IZR (2 ^ 44))%R.
Proof.
  intros H%step1_bound. apply rnd_between; [apply rnd_int; lia|apply rnd_int; lia|].
  split; [apply Rle_trans with (IZR (- 2 ^ 63) / 1000000)%R; [|lra]|apply Rle_trans with (IZR (2 ^ 63) / 1000000)%R; [lra|]].
  - powers. lra.
  - powers. lra.
Qed.
Lemma step3_bound d : - 2 ^ 63 <= d <= 2 ^ 63 -> (IZR (- 2 ^ 45) <= step3 d <= IZR (2 ^ 45))%R.
Proof.
  intros H%step2_bound. apply rnd_between; [apply rnd_int; lia|apply rnd_int; lia|]. revert H. powers. lra.
Qed.
Lemma millis_real d : - 2 ^ 63 <= d <= 2 ^ 63 -> millis d = Ztrunc (step3 d).
Proof.
  intros H. pose proof (step1_bound d H) as B1. pose proof (step2_bound d H) as B2. pose proof (step3_bound d H) as B3.
  assert (value (f64_of_int d) (step1 d)) as V1.
  { apply value_of_int. change (rnd (IZR d)) with (step1 d). apply big_bound, Rabs_le. revert B1. powers. lra. }
  assert (value (f64_of_int 1000000) 1000000%R) as V0.
  { pose proof (rnd_int 1000000 ltac:(lia)) as E. rewrite <- E. apply value_of_int. rewrite E. apply big_bound, Rabs_le. powers. lra. }
  assert (value (f64_div (f64_of_int d) (f64_of_int 1000000)) (step2 d)) as V2.
  { apply value_div; [done|done|lra|]. change (rnd (step1 d / 1000000)) with (step2 d). apply big_bound, Rabs_le. revert B2. powers. lra. }
  assert (value (f64_add (f64_div (f64_of_int d) (f64_of_int 1000000)) f64_half) (step3 d)) as V3.
  { apply value_add; [done|apply value_half|]. change (rnd (step2 d + / 2)) with (step3 d). apply big_bound, Rabs_le. revert B3. powers. lra. }
  unfold millis. rewrite (value_trunc _ _ V3).
  assert (- 2 ^ 45 <= Ztrunc (step3 d) <= 2 ^ 45) as B.
  { split.
    - rewrite <- (Ztrunc_IZR (- 2 ^ 45)). now apply Ztrunc_le.
    - rewrite <- (Ztrunc_IZR (2 ^ 45)). now apply Ztrunc_le. }
  unfold int64. rewrite Z.mod_small; lia.
Qed.

(** A longer duration never gets fewer milliseconds. *)
Lemma millis_mono a b : - 2 ^ 63 <= a -> a <= b -> b < 2 ^ 63 -> millis a <= millis b.
Proof.
  intros Ha Hab Hb. rewrite !millis_real by lia. apply Ztrunc_le. apply rnd_le. apply Rplus_le_compat_r. apply rnd_le.
  apply Rmult_le_compat_r; [lra|]. apply rnd_le. now apply IZR_le.
Qed.
Lemma millis_neg d : - 2 ^ 63 <= d <= 0 -> millis d <= 0.
Proof.
  intros H. apply Z.le_trans with (millis 0); [apply millis_mono; lia|]. vm_compute. congruence.
Qed.
(** Up to 99 days: the nearest millisecond, halves upwards. *)
Lemma millis_exact d : 0 <= d <= 8553600000000000 -> millis d = (d + 500000) / 1000000.
Proof.
  intros H. rewrite millis_real by lia. set (n := (d + 500000) / 1000000).
  assert (n * 1000000 <= d + 500000 < n * 1000000 + 1000000) as Hn.
  { pose proof (Z.div_mod (d + 500000) 1000000 ltac:(lia)) as E. fold n in E. pose proof (Z.mod_pos_bound (d + 500000) 1000000 ltac:(lia)). lia. }
  assert (0 <= n <= 8553600001) as Hb by lia.
  assert (IZR n * 1000000 <= IZR d + 500000 /\ IZR d + 500001 <= IZR n * 1000000 + 1000000)%R as [H1 H2].
  { split; rewrite <- mult_IZR, <- !plus_IZR; apply IZR_le; lia. }
  assert (step1 d = IZR d) as E1 by (apply rnd_int; lia).
  (* between n - 1/2 and n + 1/2 - 2^-20 *)
  assert (IZR (2 * n - 1) / IZR (2 ^ 1) <= step2 d <= IZR ((2 * n + 1) * 2 ^ 19 - 1) / IZR (2 ^ 20))%R as B2.
  { apply rnd_between; [apply rnd_shift; lia|apply rnd_shift; lia|]. rewrite E1.
    rewrite !minus_IZR, !mult_IZR, !plus_IZR, !mult_IZR. change (2 ^ 19) with 524288. change (2 ^ 20) with 1048576. change (2 ^ 1) with 2. split; lra. }
  assert (IZR n <= step3 d <= IZR ((n + 1) * 2 ^ 20 - 1) / IZR (2 ^ 20))%R as B3.
  { apply rnd_between; [apply rnd_int; lia|apply rnd_shift; lia|]. revert B2.
    rewrite !minus_IZR, !mult_IZR, !plus_IZR, !mult_IZR. change (2 ^ 19) with 524288. change (2 ^ 20) with 1048576. change (2 ^ 1) with 2. lra. }
  assert (0 <= IZR n)%R by (apply (IZR_le 0); lia).
  rewrite Ztrunc_floor by lra. apply Zfloor_imp. split; [lra|]. destruct B3 as [_ B3]. apply Rle_lt_trans with (1 := B3).
  rewrite !minus_IZR, !mult_IZR, !plus_IZR. change (2 ^ 20) with 1048576. lra.
Qed.
(** For all durations: within half a millisecond and 3 microseconds. *)
Lemma millis_near d : 0 <= d < 2 ^ 63 -> Z.abs (1000000 * millis d - d) <= 503000.
Proof.
  intros H. rewrite millis_real by lia. set (k := d / 2 ^ 10).
  assert (k * 2 ^ 10 <= d <= (k + 1) * 2 ^ 10) as Hk.
  { pose proof (Z.div_mod d (2 ^ 10) ltac:(lia)) as E. fold k in E. pose proof (Z.mod_pos_bound d (2 ^ 10) ltac:(lia)). lia. }
  assert (0 <= k < 2 ^ 53) as Hkb by lia.
  assert (IZR (k * 2 ^ 10) <= step1 d <= IZR ((k + 1) * 2 ^ 10))%R as B1.
  { apply rnd_between; [apply rnd_large; lia| |split; apply IZR_le; lia].
    destruct (decide (k + 1 = 2 ^ 53)) as [->|Hne]; [|apply rnd_large; lia]. apply (rnd_large 1 63); lia. }
  set (j := Zfloor (step1 d / 1000000 * 512)).
  assert (IZR j <= step1 d / 1000000 * 512 < IZR j + 1)%R as Hj by (split; [apply Zfloor_lb|apply Zfloor_ub]).
  pose proof (step1_bound d ltac:(lia)) as B1'.
  assert (0 <= j <= 2 ^ 53 - 1000) as Hjb.
  { split.
    - apply le_IZR. apply IZR_le. apply Zfloor_lub. assert (0 <= step1 d)%R; [|lra]. apply Rle_trans with (2 := proj1 B1). apply (IZR_le 0). lia.
    - apply le_IZR. apply Rle_trans with (1 := proj1 Hj). revert B1'. rewrite minus_IZR. powers. lra. }
  assert (IZR j / IZR (2 ^ 9) <= step2 d <= IZR (j + 1) / IZR (2 ^ 9))%R as B2.
  { apply rnd_between; [apply rnd_shift; lia|apply rnd_shift; lia|]. rewrite plus_IZR. change (2 ^ 9) with 512. lra. }
  assert (IZR (j + 256) / IZR (2 ^ 9) <= step3 d <= IZR (j + 257) / IZR (2 ^ 9))%R as B3.
  { apply rnd_between; [apply rnd_shift; lia|apply rnd_shift; lia|]. revert B2. rewrite !plus_IZR. change (2 ^ 9) with 512. lra. }
  assert (0 <= IZR j)%R as Hj0 by (apply (IZR_le 0); lia).
  assert (0 <= step3 d)%R. { apply Rle_trans with (2 := proj1 B3). rewrite plus_IZR. change (2 ^ 9) with 512. lra. }
  rewrite Ztrunc_floor by done. set (ms := Zfloor (step3 d)).
  assert (IZR ms <= step3 d < IZR ms + 1)%R as Hms by (split; [apply Zfloor_lb|apply Zfloor_ub]).
  assert (IZR k * 1024 <= IZR d <= (IZR k + 1) * 1024)%R as Hd.
  { change 1024%R with (IZR (2 ^ 10)). rewrite <- (plus_IZR k 1), <- !mult_IZR. split; apply IZR_le; lia. }
  rewrite !mult_IZR, !plus_IZR in B1. rewrite !plus_IZR in B3. change (2 ^ 10) with 1024 in B1. change (2 ^ 9) with 512 in B3.
  assert (-503000 <= IZR (1000000 * ms - d) <= 503000)%R as B.
  { rewrite minus_IZR, mult_IZR. lra. }
  assert (-503000 <= 1000000 * ms - d <= 503000) by (split; apply le_IZR; lra). lia.
Qed.
