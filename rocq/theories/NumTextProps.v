(** Numbers in events (reflect.go): what the texts mean. *)
From Coq Require Import ZArith Reals Lra Lia.
From Flocq Require Import Core BinarySingleNaN.
From Coq Require Import Floats.SpecFloat.
From Verif Require Import Base FloatModel TimeModel NumModel ProfModel ProfProofs FloatProofs NumSpec NumTextSpec NumProofs.
Local Open Scope Z_scope.

(** ** The texts that are numerals *)

Lemma digit_value_of c d : digit_value c = Some d <-> digit_of c d.
Proof.
  unfold digit_value, digit_of. split.
  - destruct (_ && _) eqn:E; [|done]. apply andb_prop in E as [?%Z.leb_le ?%Z.leb_le]. intros [= <-]. lia.
  - intros [H E]. rewrite E. replace (48 <=? 48 + d) with true by lia. replace (48 + d <=? 57) with true by lia. cbn. f_equal. lia.
Qed.
Lemma digit_not c d : digit_of c d -> Ascii.eqb c "." = false /\ Ascii.eqb c "-" = false /\ Ascii.eqb c "+" = false.
Proof. intros [H E]. split; [|split]; apply Ascii.eqb_neq; intros ->; [change (Z.of_N (N_of_ascii ".")) with 46 in E|change (Z.of_N (N_of_ascii "-")) with 45 in E|change (Z.of_N (N_of_ascii "+")) with 43 in E]; lia. Qed.
Lemma slen_app a b : String.length (a +:+ b) = (String.length a + String.length b)%nat.
Proof. induction a as [|c a IH]; [done|]. cbn. by rewrite IH. Qed.
Lemma dec_digits_after f : forall n k m j, dec_digits f n (Some k) = Some (m, j) <-> exists x, digits_of f x /\ m = n * 10 ^ Z.of_nat (String.length f) + x /\ j = (k + String.length f)%nat.
Proof.
  induction f as [|c f IH]; intros n k m j; cbn [dec_digits String.length].
  - split; [intros [= <- <-]; exists 0; split; [constructor|]; cbn; lia|]. intros (x & Hx & -> & ->). inversion Hx; subst. cbn. do 2 f_equal; lia.
  - split.
    + destruct (Ascii.eqb c "."); [done|]. destruct (digit_value c) as [d|] eqn:Ed; [|done]. apply digit_value_of in Ed. intros (x & Hx & -> & ->)%IH.
      eexists. split; [by constructor|]. rewrite Nat2Z.inj_succ, Z.pow_succ_r by lia. lia.
    + intros (x & Hx & -> & ->). inversion Hx as [|c' d s n' Hd Hs]; subst. destruct (digit_not c d Hd) as [-> _]. apply digit_value_of in Hd as ->.
      apply IH. exists n'. rewrite Nat2Z.inj_succ, Z.pow_succ_r by lia. split; [done|lia].
Qed.
Lemma dec_digits_before s : forall n m k, dec_digits s n None = Some (m, k) <->
  exists i f x y, digits_of i x /\ digits_of f y /\ (s = i /\ f = ""%string \/ s = (i +:+ String "." f)%string) /\
    m = (n * 10 ^ Z.of_nat (String.length i) + x) * 10 ^ Z.of_nat (String.length f) + y /\ k = String.length f.
Proof.
  induction s as [|c s IH]; intros n m k; cbn [dec_digits].
  - split.
    + intros [= <- <-]. exists ""%string, ""%string, 0, 0. split; [constructor|]. split; [constructor|]. split; [by left|]. cbn. lia.
    + intros (i & f & x & y & Hx & Hy & [[<- ->]|E] & -> & ->); [|by destruct i]. inversion Hx; inversion Hy; subst. cbn. do 2 f_equal; lia.
  - destruct (Ascii.eqb_spec c ".") as [->|Hc].
    + rewrite dec_digits_after. split.
      * intros (y & Hy & -> & ->). exists ""%string, s, 0, y. split; [constructor|]. split; [done|]. split; [by right|]. cbn [String.length]. lia.
      * intros (i & f & x & y & Hx & Hy & [[<- ->]|E] & -> & ->); [inversion Hx; subst; by destruct (digit_not _ _ H1)|].
        destruct i as [|c i]; [|injection E as <- _; inversion Hx; subst; by destruct (digit_not _ _ H1)]. injection E as ->. inversion Hx; subst.
        exists y. split; [done|]. cbn [String.length]. lia.
    + split.
      * destruct (digit_value c) as [d|] eqn:Ed; [|done]. apply digit_value_of in Ed. cbn [fmap option_fmap option_map].
        intros (i & f & x & y & Hx & Hy & Hs & -> & ->)%IH. exists (String c i), f. do 2 eexists. split; [by constructor|]. split; [done|].
        split; [destruct Hs as [[-> ->]| ->]; [by left|by right]|]. cbn [String.length]. rewrite Nat2Z.inj_succ, Z.pow_succ_r by lia. split; [ring|done].
      * intros (i & f & x & y & Hx & Hy & Hs & -> & ->). destruct i as [|c' i]; [destruct Hs as [[? _]|[= ? _]]; done|].
        assert (c' = c) as -> by (destruct Hs as [[[= ? _] _]|[= ? _]]; done). inversion Hx as [|c' d s' n' Hd Hs']; subst.
        apply digit_value_of in Hd as ->. cbn [fmap option_fmap option_map]. apply IH. exists i, f, n', y. split; [done|]. split; [done|].
        split; [destruct Hs as [[[= ->] ->]|[= ->]]; [by left|by right]|]. cbn [String.length]. rewrite Nat2Z.inj_succ, Z.pow_succ_r by lia. split; [ring|done].
Qed.
Lemma numeral_decimal s q : numeral s q <-> text_value s q.
Proof.
  assert (forall i f : string, (i +:+ f <> "")%string <-> ~ ((i = "" /\ f = "")%string)) as Hne.
  { intros i f. split; [intros H [-> ->]; done|]. intros H E. apply H. by destruct i, f. }
  assert (forall k, IZR (10 ^ Z.of_nat k) <> 0%R) as Hk.
  { intros k. apply not_0_IZR. apply Z.pow_nonzero; lia. }
  split.
  - intros (sign & sg & i & n & f & m & Hsg & Hi & Hf & Hn & Hs & ->). apply Hne in Hn.
    set (r := if bool_decide (s = (sign +:+ i)%string /\ f = ""%string) then i else (i +:+ String "." f)%string).
    assert (s = (sign +:+ r)%string) as Er.
    { subst r. case_bool_decide as Hb; [by destruct Hb as [-> _]|]. destruct Hs as [[-> ->]| ->]; [by destruct Hb|done]. }
    assert (r <> "" /\ r <> ".")%string as [Hr1 Hr2].
    { subst r. case_bool_decide as Hb.
      - destruct Hb as [_ ->]. split; intros ->; [by apply Hn|]. inversion Hi; subst. by destruct (digit_not _ _ H1).
      - split; [by destruct i|]. intros E. destruct i as [|c i]; [|injection E as -> E; by destruct i]. injection E as ->. by apply Hn. }
    assert (dec_digits r 0 None = Some (n * 10 ^ Z.of_nat (String.length f) + m, String.length f)) as Ed.
    { apply dec_digits_before. exists i, f, n, m. split; [done|]. split; [done|]. split; [|split; [ring|done]].
      subst r. case_bool_decide as Hb; [left; by destruct Hb|by right]. }
    assert (forall neg : bool, sg = (if neg then -1 else 1)%R -> decimal s = Some (neg, n * 10 ^ Z.of_nat (String.length f) + m, String.length f) ->
      text_value s (sg * (IZR n + IZR m / IZR (10 ^ Z.of_nat (String.length f))))) as Hfin.
    { intros neg -> E. do 3 eexists. split; [exact E|]. destruct neg; rewrite ?opp_IZR, plus_IZR, mult_IZR; field; apply Hk. }
    assert (forall c, digit_value c <> None \/ c = "."%char -> Ascii.eqb c "-" = false /\ Ascii.eqb c "+" = false) as Hc.
    { intros c [H| ->]; [|done]. destruct (digit_value c) as [d|] eqn:E; [|done]. apply digit_value_of in E. by destruct (digit_not _ _ E) as (_ & ? & ?). }
    clearbody r. clear Hs. destruct Hsg; subst s.
    + apply (Hfin false eq_refl). unfold decimal. change ("" +:+ r)%string with r. destruct r as [|c r']; [done|].
      destruct (Hc c) as [-> ->].
      { cbn [dec_digits] in Ed. destruct (Ascii.eqb_spec c "."); [by right|left]. by destruct (digit_value c). }
      cbv iota beta. rewrite bool_decide_eq_false_2 by (intros [?|?]; done). by rewrite Ed.
    + apply (Hfin false eq_refl). unfold decimal. change ("+" +:+ r)%string with (String "+" r). cbv iota beta. change (Ascii.eqb "+" "-") with false. change (Ascii.eqb "+" "+") with true. cbv iota beta.
      rewrite bool_decide_eq_false_2 by (intros [?|?]; done). by rewrite Ed.
    + apply (Hfin true eq_refl). unfold decimal. change ("-" +:+ r)%string with (String "-" r). cbv iota beta. change (Ascii.eqb "-" "-") with true. cbv iota beta.
      rewrite bool_decide_eq_false_2 by (intros [?|?]; done). by rewrite Ed.
  - intros (neg & N & k & E & ->).
    assert (exists sign r, sign_of sign (if neg then -1 else 1)%R /\ s = (sign +:+ r)%string /\ r <> ""%string /\ r <> "."%string /\ dec_digits r 0 None = Some (N, k)) as (sign & r & Hsg & -> & Hr1 & Hr2 & Ed).
    { assert (forall (neg' : bool) (r : string), (if bool_decide (r = "" \/ r = ".")%string then None else match dec_digits r 0 None with Some (n, k) => Some (neg', n, k) | None => None end) = Some (neg, N, k) ->
        neg' = neg /\ r <> ""%string /\ r <> "."%string /\ dec_digits r 0 None = Some (N, k)) as Ha.
      { intros neg' r H. case_bool_decide as Hb; [done|]. destruct (dec_digits r 0 None) as [[? ?]|]; [|done]. injection H as -> -> ->. split; [done|]. split; [tauto|]. split; [tauto|done]. }
      unfold decimal in E. destruct s as [|c s]; [by apply Ha in E as (_ & ? & _)|].
      destruct (Ascii.eqb_spec c "-") as [->|_]; [|destruct (Ascii.eqb_spec c "+") as [->|_]]; apply Ha in E as (<- & ? & ? & ?).
      - exists "-"%string, s. split; [constructor|]. done.
      - exists "+"%string, s. split; [constructor|]. done.
      - exists ""%string, (String c s). split; [constructor|]. done. }
    apply dec_digits_before in Ed as (i & f & n & m & Hi & Hf & Hr & -> & ->).
    exists sign, (if neg then -1 else 1)%R, i, n, f, m. split; [done|]. split; [done|]. split; [done|]. split.
    { apply Hne. intros [-> ->]. destruct Hr as [[-> _]| ->]; done. }
    split; [destruct Hr as [[-> ->]| ->]; [by left|by right]|]. rewrite Z.mul_0_l, Z.add_0_l. destruct neg; rewrite ?opp_IZR, plus_IZR, !mult_IZR; field; apply Hk.
Qed.

(** ** C111 *)

Lemma nearest_of prec emax (Hp : Prec_gt_0 prec) (He : Prec_lt_emax prec emax) s q x : numeral s q -> parse_float prec emax s = Some x ->
  valid_binary prec emax x = true /\ is_finite_SF x = true /\ SF2R radix2 x = round radix2 (SpecFloat.fexp prec emax) ZnearestE q.
Proof.
  intros (neg & n & k & E & ->)%numeral_decimal Hx. pose proof (parse_spec prec emax Hp He s neg n k E) as P. cbn zeta in P.
  destruct (Rlt_bool _ _); [|congruence]. destruct P as (y & Hy & P1 & P2 & P3 & _). rewrite Hy in Hx. by injection Hx as <-.
Qed.
Local Instance P53' : Prec_gt_0 53 := eq_refl.
Local Instance M53' : Prec_lt_emax 53 1024 := eq_refl.
Local Instance P24' : Prec_gt_0 24 := eq_refl.
Local Instance M24' : Prec_lt_emax 24 128 := eq_refl.
Local Instance V64' : Valid_exp (SpecFloat.fexp 53 1024) := FLT_exp_valid _ _.
Local Instance V32' : Valid_exp (SpecFloat.fexp 24 128) := FLT_exp_valid _ _.
(** The text that is written for a finite float64 is a numeral, and of all finite float64 numbers none is nearer to what it stands for. *)
Theorem C111_written x : valid_binary 53 1024 x = true -> is_finite_SF x = true -> exists q, numeral (fmt_float64 x) q /\
  forall y, valid_binary 53 1024 y = true -> is_finite_SF y = true -> (Rabs (SF2R radix2 x - q) <= Rabs (SF2R radix2 y - q))%R.
Proof.
  intros V F. destruct (formatted_spec x (fmt_float64 x) (fmt_formatted x V F)) as (q & neg & n & k & E & -> & Ex & _).
  eexists. split; [apply numeral_decimal; by exists neg, n, k|]. intros y Vy Fy. rewrite Ex.
  apply (round_N_pt radix2 (SpecFloat.fexp 53 1024) (fun z => negb (Z.even z))). by apply format_of_valid.
Qed.
Print Assumptions C111_written.
(** Whatever numeral is read into a float field: the field gets the nearest number of single precision, ... *)
Theorem C111_read s q y : numeral s q -> parse_float32 s = Some y \/ parse_float64 s = Some y ->
  single_value (SF2R radix2 y) /\ forall z, single_value z -> (Rabs (SF2R radix2 y - q) <= Rabs (z - q))%R.
Proof.
  intros Hn Hy. assert (exists x, parse_float 24 128 s = Some x /\ SF2R radix2 y = SF2R radix2 x) as (x & Hx & ->).
  { destruct Hy as [Hy|Hy]; [by exists y|]. unfold parse_float64 in Hy. destruct (parse_float 24 128 s) as [x|] eqn:E; [|done].
    injection Hy as <-. exists x. split; [done|]. destruct (nearest_of 24 128 _ _ s q x Hn E) as (V & F & _). by destruct (widen_spec x V F) as (_ & _ & ? & _). }
  destruct (nearest_of 24 128 _ _ s q x Hn Hx) as (V & F & E). split.
  - apply is_single_format. split; [by apply format_of_valid|by apply small_32].
  - intros z [Hz _]%is_single_format. rewrite E. by apply (round_N_pt radix2 (SpecFloat.fexp 24 128) (fun z => negb (Z.even z))).
Qed.
Print Assumptions C111_read.
(** ... and if there is none, because the numeral is too large, that is an error. *)
Theorem C111_too_large s q : numeral s q -> parse_float32 s = None \/ parse_float64 s = None -> forall z, single_value z -> (Rabs z < Rabs q)%R.
Proof.
  intros Hn Hy z Hz. assert (parse_float 24 128 s = None) as Hx. { destruct Hy as [Hy|Hy]; [done|]. unfold parse_float64 in Hy. by destruct (parse_float 24 128 s). }
  apply numeral_decimal in Hn as (neg & n & k & E & ->). pose proof (parse_spec 24 128 _ _ s neg n k E) as P. cbn zeta in P. set (q := (_ / _)%R) in *.
  apply is_single_format in Hz as [Hz Hb]. destruct (Rlt_bool_spec (Rabs (round radix2 (SpecFloat.fexp 24 128) ZnearestE q)) (bpow radix2 128)) as [_|Hq].
  - destruct P as (y & Hy' & _). congruence.
  - apply Rnot_le_lt. intros Hle. apply (Rlt_irrefl (bpow radix2 128)). apply Rle_lt_trans with (1 := Hq). apply Rle_lt_trans with (2 := Hb).
    rewrite <- round_NE_abs by typeclasses eauto. rewrite <- (round_generic radix2 (SpecFloat.fexp 24 128) ZnearestE (Rabs z)) by by apply generic_format_abs.
    by apply round_le; try typeclasses eauto.
Qed.
Print Assumptions C111_too_large.
Example C111_numeral_nonvacuous : numeral "-12.50" (-12.5) /\ exists y, parse_float64 "-12.50" = Some y /\ SF2R radix2 y = (-12.5)%R.
Proof.
  split.
  - exists "-"%string, (-1)%R, "12"%string, 12, "50"%string, 50. split; [constructor|].
    assert (forall c d, 0 <= d < 10 -> c = ascii_of_N (Z.to_N (48 + d)) -> digit_of c d) as Hd.
    { intros c d H ->. split; [done|]. rewrite N_ascii_embedding; lia. }
    split; [apply (DO_more "1" 1 "2" 2); [by apply Hd|apply (DO_more "2" 2 "" 0); [by apply Hd|constructor]]|].
    split; [apply (DO_more "5" 5 "0" 0); [by apply Hd|apply (DO_more "0" 0 "" 0); [by apply Hd|constructor]]|].
    split; [done|]. split; [by right|]. cbn [String.length]. change (10 ^ Z.of_nat 2) with 100. lra.
  - destruct (parse_float64 "-12.50") as [y|] eqn:E; [|by vm_compute in E]. vm_compute in E. injection E as <-. eexists. split; [done|].
    unfold SF2R, F2R. cbn [Fnum Fexp SpecFloat.cond_Zopp]. change (bpow radix2 (-49)) with (/ 562949953421312)%R. rewrite opp_IZR. lra.
Qed.

(** ** C110 *)

Notation rnd64 := rnd.
Lemma milli_value d : Z.abs d < 2 ^ 52 -> value (f64_div (f64_of_int d) (f64_of_int 1000000)) (rnd64 (IZR d / 1000000)).
Proof.
  intros Hd. change (2 ^ 52) with 4503599627370496 in *.
  assert (value (f64_of_int 1000000) 1000000%R) as V0.
  { pose proof (rnd_int 1000000 ltac:(lia)) as E. rewrite <- E. apply value_of_int. rewrite E. apply big_bound, Rabs_le. powers. lra. }
  assert (Rabs (IZR d) <= 4503599627370496)%R as Hd'. { rewrite <- abs_IZR. apply IZR_le. lia. }
  assert (value (f64_of_int d) (IZR d)) as V1.
  { pose proof (rnd_int d ltac:(lia)) as E. rewrite <- E. apply value_of_int. rewrite E. apply big_bound. powers. lra. }
  apply Rabs_le_inv in Hd'. apply value_div; [done|done|lra|]. apply big_bound. apply Rabs_le. assert (IZR (- 2 ^ 44) <= rnd64 (IZR d / 1000000) <= IZR (2 ^ 44))%R as Hr.
  { apply rnd_between; [apply rnd_int; lia|apply rnd_int; lia|]. powers. lra. }
  revert Hr. powers. lra.
Qed.
Lemma rnd64_half q : (/ 2097152 <= Rabs (rnd64 q))%R -> (Rabs (rnd64 q - q) <= / 9007199254740992 * Rabs (rnd64 q))%R.
Proof.
  intros H. pose proof (error_le_half_ulp_round radix2 (FLT_exp (-1074) 53) (fun z => negb (Z.even z)) q) as E.
  change (FLT_exp (-1074) 53) with (SpecFloat.fexp 53 1024) in E. change (Znearest (fun z => negb (Z.even z))) with ZnearestE in E.
  fold (rnd q) in E. apply Rle_trans with (1 := E). replace (/ 9007199254740992)%R with (/ 2 * / 4503599627370496)%R by lra. rewrite Rmult_assoc. apply Rmult_le_compat_l; [lra|].
  pose proof (ulp_FLT_le radix2 (-1074) 53 (rnd64 q)) as U. change (FLT_exp (-1074) 53) with (SpecFloat.fexp 53 1024) in U.
  rewrite Rmult_comm. change (/ 4503599627370496)%R with (bpow radix2 (1 - 53)). apply U.
  apply Rle_trans with (2 := H). change (/ 2097152)%R with (bpow radix2 (-21)). apply bpow_le. lia.
Qed.
(** A duration of up to 26 days is written as a numeral of its milliseconds, to within a nanosecond. *)
Theorem C110_written_partial d : Z.abs d < 2 ^ 51 -> exists q, numeral (fmt_duration d) q /\ (Rabs (q * 1000000 - IZR d) < 1)%R.
Proof.
  intros Hd. destruct (Z.eq_dec d 0) as [->|Hn].
  { exists 0%R. assert (fmt_duration 0 = "0"%string) as -> by by vm_compute. split.
    - exists ""%string, 1%R, "0"%string, 0, ""%string, 0. split; [constructor|]. split; [apply (DO_more "0" 0 "" 0); [by split|constructor]|].
      split; [constructor|]. split; [done|]. split; [by left|]. cbn [String.length]. change (10 ^ Z.of_nat 0) with 1. lra.
    - rewrite Rmult_0_l, Rminus_0_r, Rabs_R0. lra. }
  destruct (milli_value d ltac:(lia)) as (b & Eb & Fb & Vb). unfold fmt_duration.
  assert (valid_binary 53 1024 (f64_div (f64_of_int d) (f64_of_int 1000000)) = true) as V by apply milli_valid.
  assert (is_finite_SF (f64_div (f64_of_int d) (f64_of_int 1000000)) = true) as F by (rewrite <- Eb, is_finite_SF_B2SF; done).
  destruct (formatted_spec _ _ (fmt_formatted _ V F)) as (q & neg & n & k & E & Eq & Ex & _).
  exists q. split; [apply numeral_decimal; by exists neg, n, k|]. rewrite <- Eb, SF2R_B2SF, Vb in Ex. fold (rnd q) in Ex.
  assert (Rabs (IZR d) <= 2251799813685248)%R as Hd'. { rewrite <- abs_IZR. apply IZR_le. change (2 ^ 51) with 2251799813685248 in Hd. lia. }
  assert (1 <= Rabs (IZR d))%R as H1. { rewrite <- abs_IZR. apply IZR_le. lia. }
  assert (Rabs (IZR d / 1000000) = Rabs (IZR d) / 1000000)%R as Ea. { unfold Rdiv. rewrite Rabs_mult, (Rabs_pos_eq (/ 1000000)); lra. }
  pose proof (rnd_error (IZR d / 1000000)) as A. rewrite Ea in A. specialize (A ltac:(lra)).
  pose proof (Rabs_triang_inv (IZR d / 1000000) (rnd64 (IZR d / 1000000))) as T1. rewrite Rabs_minus_sym, Ea in T1.
  pose proof (Rabs_triang_inv (rnd64 (IZR d / 1000000)) (IZR d / 1000000)) as T2. rewrite Ea in T2.
  pose proof (rnd64_half q) as B. rewrite <- Ex in B. specialize (B ltac:(lra)).
  pose proof (Rabs_triang (q - rnd64 (IZR d / 1000000)) (rnd64 (IZR d / 1000000) - IZR d / 1000000)) as T3.
  rewrite (Rabs_minus_sym q) in T3. replace (q - rnd64 (IZR d / 1000000) + (rnd64 (IZR d / 1000000) - IZR d / 1000000))%R with (q - IZR d / 1000000)%R in T3 by ring.
  replace (q * 1000000 - IZR d)%R with ((q - IZR d / 1000000) * 1000000)%R by field. rewrite Rabs_mult, (Rabs_pos_eq 1000000) by lra. lra.
Qed.
Print Assumptions C110_written_partial.
(** Whatever numeral of milliseconds is read into a duration: it becomes that many, to within two nanoseconds, and exactly if it is a whole number. *)
Theorem C110_read_partial s q : numeral s q -> (Rabs q * 1000000 <= 2251799813685248)%R ->
  exists e, parse_duration s = Some e /\ (Rabs (IZR e - q * 1000000) < 2)%R /\ forall k, q = IZR k -> e = k * 1000000.
Proof.
  intros (neg & n & k & E & Eq)%numeral_decimal Hq. pose proof (parse_spec 53 1024 _ _ s neg n k E) as P. cbn zeta in P. rewrite <- Eq in P. fold (rnd q) in P.
  assert (- 2251799814 <= q <= 2251799814)%R as Hq' by (apply Rabs_le_inv; lra).
  assert (IZR (- 2251799814) <= rnd64 q <= IZR 2251799814)%R as Hr. { apply rnd_between; [apply rnd_int; lia|apply rnd_int; lia|]. rewrite ?opp_IZR. lra. }
  rewrite ?opp_IZR in Hr. assert (Rabs (rnd64 q) <= 2251799814)%R as Hr' by (apply Rabs_le; lra).
  rewrite Rlt_bool_true in P by (apply big_bound; powers; lra).
  destruct P as (x & Hx & Sx & Vx & Fx & _). unfold parse_duration. rewrite Hx. cbn [fmap option_fmap option_map]. eexists. split; [done|].
  assert (value (f64_of_int 1000000) 1000000%R) as V0.
  { pose proof (rnd_int 1000000 ltac:(lia)) as E0. rewrite <- E0. apply value_of_int. rewrite E0. apply big_bound, Rabs_le. powers. lra. }
  assert (value x (rnd64 q)) as V1. { exists (SF2B x Vx). split; [apply B2SF_SF2B|]. split; [by rewrite is_finite_SF2B|]. by rewrite B2R_SF2B. }
  assert (IZR (- 2251799814000000) <= rnd64 (rnd64 q * 1000000) <= IZR 2251799814000000)%R as Hp. { apply rnd_between; [apply rnd_int; lia|apply rnd_int; lia|]. rewrite ?opp_IZR. lra. }
  rewrite ?opp_IZR in Hp. 
  assert (value (f64_mul x (f64_of_int 1000000)) (rnd64 (rnd64 q * 1000000))) as V2. { apply value_mul; [done|done|]. apply big_bound, Rabs_le. powers. lra. }
  rewrite (value_trunc _ _ V2). set (y := rnd64 (rnd64 q * 1000000)) in *.
  assert (- 2251799814000000 <= Ztrunc y <= 2251799814000000) as Ht.
  { split; [rewrite <- (Ztrunc_IZR (- 2251799814000000))|rewrite <- (Ztrunc_IZR 2251799814000000)]; apply Ztrunc_le; rewrite ?opp_IZR; lra. }
  rewrite int64_small by lia. split.
  - assert (Rabs (IZR (Ztrunc y) - y) < 1)%R as H1.
    { destruct (Rle_or_lt 0 y) as [Hy|Hy].
      - rewrite Ztrunc_floor by done. pose proof (Zfloor_lb y). pose proof (Zfloor_ub y). apply Rabs_def1; lra.
      - rewrite Ztrunc_ceil by lra. pose proof (Zceil_ub y). pose proof (Zceil_lb y). apply Rabs_def1; lra. }
    destruct (Rle_or_lt (/ 1048576) (Rabs q)) as [Hs|Hs].
    + assert (Rabs (y - q * 1000000) <= 1)%R as H2.
      { pose proof (rnd_error q ltac:(lra)) as A.
        pose proof (Rabs_triang_inv q (rnd64 q)) as T1. rewrite Rabs_minus_sym in T1. pose proof (Rabs_triang_inv (rnd64 q) q) as T2.
        assert (Rabs (rnd64 q * 1000000) = Rabs (rnd64 q) * 1000000)%R as Em. { rewrite Rabs_mult, (Rabs_pos_eq 1000000); lra. }
        assert (/ 1048576 <= Rabs (rnd64 q) * 1000000)%R as Hb by lra.
        pose proof (rnd_error (rnd64 q * 1000000)) as B. fold y in B. rewrite Em in B. specialize (B Hb).
        pose proof (Rabs_triang (y - rnd64 q * 1000000) ((rnd64 q - q) * 1000000)) as T3. rewrite (Rabs_mult (rnd64 q - q)), (Rabs_pos_eq 1000000) in T3 by lra.
        replace (y - rnd64 q * 1000000 + (rnd64 q - q) * 1000000)%R with (y - q * 1000000)%R in T3 by ring. lra. }
      pose proof (Rabs_triang (IZR (Ztrunc y) - y) (y - q * 1000000)) as T. replace (IZR (Ztrunc y) - y + (y - q * 1000000))%R with (IZR (Ztrunc y) - q * 1000000)%R in T by ring. lra.
    + assert (- / 1048576 <= q <= / 1048576)%R as Hq2 by (apply Rabs_le_inv; lra).
      assert (- / 1048576 <= rnd q <= / 1048576)%R as Hr2.
      { assert (/ 1048576 = IZR 1 * bpow radix2 (-20))%R as E1 by (change (bpow radix2 (-20)) with (/ 1048576)%R; lra).
        assert (- / 1048576 = IZR (-1) * bpow radix2 (-20))%R as E2 by (change (bpow radix2 (-20)) with (/ 1048576)%R; lra).
        apply rnd_between; [rewrite E2; apply rnd_exact; lia|rewrite E1; apply rnd_exact; lia|done]. }
      assert (IZR (-1) <= y <= IZR 1)%R as [Hy1 Hy2]. { apply rnd_between; [apply rnd_int; lia|apply rnd_int; lia|]. lra. }
      apply Ztrunc_le in Hy1, Hy2. rewrite !Ztrunc_IZR in *. apply IZR_le in Hy1, Hy2. apply Rabs_def1; lra.
  - intros j ->. assert (rnd64 (IZR j) = IZR j) as Ej. { apply rnd_int. assert (IZR (- 2251799814) <= IZR j <= IZR 2251799814)%R as [?%le_IZR ?%le_IZR] by (rewrite ?opp_IZR; lra). lia. }
    unfold y. rewrite Ej, <- mult_IZR, rnd_int, Ztrunc_IZR; [done|]. assert (IZR (- 2251799814) <= IZR j <= IZR 2251799814)%R as [?%le_IZR ?%le_IZR] by (rewrite ?opp_IZR; lra). lia.
Qed.
Print Assumptions C110_read_partial.
Example C110_numeral_nonvacuous : exists q, numeral (fmt_duration 1500000) q /\ (Rabs (q * 1000000 - 1500000) < 1)%R /\ (Rabs q * 1000000 <= 2251799813685248)%R.
Proof.
  destruct (C110_written_partial 1500000 ltac:(lia)) as (q & Hq & Hd). exists q. split; [done|]. split; [done|].
  apply Rabs_def2 in Hd. destruct (Rle_or_lt 0 q); [rewrite Rabs_pos_eq by done|rewrite Rabs_left by done]; lra.
Qed.
