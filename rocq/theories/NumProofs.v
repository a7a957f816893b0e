From Coq Require Import ZArith Reals Lra Lia.
From Flocq Require Import Core BinarySingleNaN.
From Flocq Require Relative.
From Coq Require Import Floats.SpecFloat.
From Verif Require Import Base FloatModel TimeModel ProfModel ProfProofs FloatProofs NumModel NumSpec.
Local Open Scope Z_scope.

(** The value of a decimal text. *)
Definition text_value (s : string) (q : R) : Prop :=
  exists neg n k, decimal s = Some (neg, n, k) /\ q = (IZR (if neg then - n else n) / IZR (10 ^ Z.of_nat k))%R.
Lemma digit_nonneg c d : digit_value c = Some d -> 0 <= d.
Proof. unfold digit_value. destruct (_ && _) eqn:E; [|done]. apply andb_prop in E as [E _]. intros [= <-]. lia. Qed.
Lemma dec_digits_nonneg s : forall n k m j, 0 <= n -> dec_digits s n k = Some (m, j) -> 0 <= m.
Proof.
  induction s as [|c s IH]; intros n k m j Hn; cbn [dec_digits]; [intros [= <- _]; done|].
  destruct (Ascii.eqb c "."); [destruct k; [done|by apply IH]|]. destruct (digit_value c) as [d|] eqn:E; [|done]. apply digit_nonneg in E.
  apply IH. lia.
Qed.
Lemma decimal_nonneg s neg n k : decimal s = Some (neg, n, k) -> 0 <= n.
Proof.
  unfold decimal. destruct (match s with String c r => _ | _ => _ end) as [b r]. destruct (bool_decide _); [done|].
  destruct (dec_digits r 0 None) as [[m j]|] eqn:E; [|done]. intros [= _ <- _]. by eapply dec_digits_nonneg in E.
Qed.
(** No decimal text is one of an infinity or NaN. *)
Lemma lower_digits s : forall n k r, dec_digits s n k = Some r -> lower s = s.
Proof.
  induction s as [|c s IH]; intros n k r; [done|]. cbn [dec_digits lower]. destruct (Ascii.eqb_spec c ".") as [->|_].
  - destruct k; [done|]. intros H. by rewrite (IH _ _ _ H).
  - destruct (digit_value c) eqn:E; [|done]. intros H. rewrite (IH _ _ _ H). f_equal. unfold lower1, digit_value in *.
    destruct (_ && _) eqn:E1; [|done]. destruct ((65 <=? N_of_ascii c)%N && _) eqn:E2; [|done].
    apply andb_prop in E1, E2. lia.
Qed.
Lemma decimal_special s r : decimal s = Some r -> special s = None.
Proof.
  intros H. assert (lower s = s) as El.
  { unfold decimal in H. destruct s as [|c s]; [done|]. destruct (Ascii.eqb_spec c "-") as [->|_]; [|destruct (Ascii.eqb_spec c "+") as [->|_]].
    - destruct (bool_decide _); [done|]. destruct (dec_digits s 0 None) eqn:E; [|done]. cbn [lower]. by rewrite (lower_digits _ _ _ _ E).
    - destruct (bool_decide _); [done|]. destruct (dec_digits s 0 None) eqn:E; [|done]. cbn [lower]. by rewrite (lower_digits _ _ _ _ E).
    - destruct (bool_decide _); [done|]. destruct (dec_digits (String c s) 0 None) eqn:E; [|done]. by rewrite (lower_digits _ _ _ _ E). }
  unfold special. rewrite El. 
  assert (forall l, s ∈ l -> Forall (fun x => decimal x = None) l -> False) as Hl.
  { intros l Hin Hall. rewrite Forall_forall in Hall. by rewrite (Hall _ Hin) in H. }
  rewrite !bool_decide_eq_false_2; [done|..]; intros Hb.
  - rewrite Hb in H. by vm_compute in H.
  - eapply Hl; [exact Hb|]. by repeat constructor.
  - eapply Hl; [exact Hb|]. by repeat constructor.
Qed.
(** ** The digits that are written *)
Lemma digit_char_spec d : 0 <= d < 10 -> digit_value (digit_char d) = Some d /\ Ascii.eqb (digit_char d) "." = false /\
  Ascii.eqb (digit_char d) "-" = false /\ Ascii.eqb (digit_char d) "+" = false.
Proof.
  intros H. assert (d = 0 \/ d = 1 \/ d = 2 \/ d = 3 \/ d = 4 \/ d = 5 \/ d = 6 \/ d = 7 \/ d = 8 \/ d = 9) as Hd by lia.
  naive_solver.
Qed.
Lemma dec_digits_char d t n k : 0 <= d < 10 -> dec_digits (String (digit_char d) t) n k = dec_digits t (10 * n + d) (S <$> k).
Proof. intros H. destruct (digit_char_spec d H) as (E & Ep & _). cbn [dec_digits]. by rewrite Ep, E. Qed.
Lemma str_app_nil (a : string) : (a +:+ "" = a)%string.
Proof. induction a as [|x a IH]; [done|]. cbn. by f_equal. Qed.
Lemma str_app_assoc (a b c : string) : ((a +:+ b) +:+ c = a +:+ (b +:+ c))%string.
Proof. induction a as [|x a IH]; [done|]. cbn. by f_equal. Qed.
Lemma last_digits_spec k : forall n t a j, 0 <= n ->
  dec_digits (last_digits k n +:+ t) a (Some j) = dec_digits t (a * 10 ^ Z.of_nat k + n mod 10 ^ Z.of_nat k) (Some (j + k)%nat).
Proof.
  induction k as [|k IH]; intros n t a j Hn.
  - cbn [last_digits]. change ("" +:+ t)%string with t. f_equal; [|f_equal; lia]. rewrite Z.mod_1_r. lia.
  - cbn [last_digits]. rewrite str_app_assoc, IH by (apply Z.div_pos; lia).
    change (String (digit_char (n mod 10)) "" +:+ t)%string with (String (digit_char (n mod 10)) t).
    rewrite dec_digits_char by (apply Z.mod_pos_bound; lia). cbn [fmap option_fmap option_map].
    f_equal; [|f_equal; lia].
    assert (0 < 10 ^ Z.of_nat k) by (apply Z.pow_pos_nonneg; lia).
    rewrite Nat2Z.inj_succ, Z.pow_succ_r by lia. rewrite Z.rem_mul_r by lia. lia.
Qed.
Lemma digits_spec fuel : forall n t, 0 <= n < 2 ^ Z.of_nat fuel -> (0 < fuel)%nat ->
  dec_digits (digits fuel n +:+ t) 0 None = dec_digits t n None /\ exists d s, 0 <= d < 10 /\ digits fuel n = String (digit_char d) s.
Proof.
  induction fuel as [|fuel IH]; intros n t Hn Hf; [lia|]. cbn [digits]. destruct (Z.ltb_spec n 10) as [Hl|Hl].
  - change (String (digit_char n) "" +:+ t)%string with (String (digit_char n) t). rewrite dec_digits_char by lia.
    split; [f_equal; lia|]. exists n, ""%string. split; [lia|done].
  - assert (fuel <> 0%nat) as Hf'. { intros ->. cbn in Hn. lia. }
    rewrite Nat2Z.inj_succ, Z.pow_succ_r in Hn by lia.
    assert (0 <= n / 10 < 2 ^ Z.of_nat fuel) as Hq. { split; [apply Z.div_pos; lia|]. apply Z.div_lt_upper_bound; lia. }
    destruct (IH (n / 10) (String (digit_char (n mod 10)) t) Hq ltac:(lia)) as [E (d & s & Hd & Es)]. split.
    + rewrite str_app_assoc. change (String (digit_char (n mod 10)) "" +:+ t)%string with (String (digit_char (n mod 10)) t). rewrite E.
      rewrite dec_digits_char by (apply Z.mod_pos_bound; lia). cbn [fmap option_fmap option_map]. f_equal. pose proof (Z.div_mod n 10). lia.
    + exists d, (s +:+ String (digit_char (n mod 10)) "")%string. split; [done|]. by rewrite Es.
Qed.
Lemma int_text_spec n t : 0 <= n -> dec_digits (int_text n +:+ t) 0 None = dec_digits t n None /\ exists d s, 0 <= d < 10 /\ int_text n = String (digit_char d) s.
Proof.
  intros Hn. apply digits_spec; [|lia]. split; [done|]. destruct (Z.eq_dec n 0) as [->|Hne]; [done|].
  rewrite Nat2Z.inj_succ, Z2Nat.id by apply Z.log2_nonneg. apply Z.log2_spec. lia.
Qed.
Lemma decimal_dec_text neg n k : 0 <= n -> decimal (dec_text neg n k) = Some (neg, n, k).
Proof.
  intros Hn. assert (0 < 10 ^ Z.of_nat k) as H10 by (apply Z.pow_pos_nonneg; lia).
  set (t := match k with O => ""%string | _ => ("." +:+ last_digits k (n mod 10 ^ Z.of_nat k))%string end).
  destruct (int_text_spec (n / 10 ^ Z.of_nat k) t ltac:(by apply Z.div_pos)) as [E (d & s & Hd & Es)].
  assert (dec_digits t (n / 10 ^ Z.of_nat k) None = Some (n, k)) as Et.
  { subst t. destruct k as [|k]; [cbn [dec_digits default]; rewrite Z.div_1_r; done|].
    change ("." +:+ last_digits (S k) ?x)%string with (String "." (last_digits (S k) x)). cbn [dec_digits]. change (Ascii.eqb "." ".") with true. cbv iota.
    pose proof (last_digits_spec (S k) (n mod 10 ^ Z.of_nat (S k)) "" (n / 10 ^ Z.of_nat (S k)) 0) as L.
    rewrite str_app_nil in L. rewrite L by (apply Z.mod_pos_bound; lia). cbn [dec_digits default]. f_equal. f_equal. rewrite Z.mod_mod by lia.
    pose proof (Z.div_mod n (10 ^ Z.of_nat (S k))). lia. }
  assert (decimal (dec_text neg n k) = if bool_decide (int_text (n / 10 ^ Z.of_nat k) +:+ t = "" \/ int_text (n / 10 ^ Z.of_nat k) +:+ t = ".")%string then None
    else match dec_digits (int_text (n / 10 ^ Z.of_nat k) +:+ t) 0 None with Some (n, k) => Some (neg, n, k) | None => None end) as ->.
  { unfold decimal, dec_text. fold t. destruct neg.
    - change ("-" +:+ ?x)%string with (String "-" x). cbv iota. change (Ascii.eqb "-" "-") with true. done.
    - change ("" +:+ ?x)%string with x. rewrite Es. destruct (digit_char_spec d Hd) as (_ & _ & Em & Ep).
      change (String (digit_char d) s +:+ t)%string with (String (digit_char d) (s +:+ t)). cbv iota beta. by rewrite Em, Ep. }
  rewrite bool_decide_eq_false_2.
  - by rewrite E, Et.
  - rewrite Es. destruct (digit_char_spec d Hd) as (_ & Ep & _). intros [[=]|[= H _]]. by rewrite H in Ep.
Qed.

Section format.
Context (prec emax : Z) (Hp : Prec_gt_0 prec) (He : Prec_lt_emax prec emax).
Notation fx := (SpecFloat.fexp prec emax).
Local Instance fx_valid' : Valid_exp fx := FLT_exp_valid _ _.
Notation rn := (round radix2 fx ZnearestE).
Lemma aux_equiv s m e l : SpecFloat.binary_round_aux prec emax s m e l = BinarySingleNaN.binary_round_aux prec emax mode_NE s m e l.
Proof.
  unfold SpecFloat.binary_round_aux, BinarySingleNaN.binary_round_aux. destruct (SpecFloat.shr_fexp prec emax m e l) as [mrs' e'].
  now rewrite (round_nearest_even_equiv s).
Qed.
(** ParseFloat gives the nearest number, if that is in range. *)
Lemma parse_spec s neg n k : decimal s = Some (neg, n, k) ->
  let q := (IZR (if neg then - n else n) / IZR (10 ^ Z.of_nat k))%R in
  if Rlt_bool (Rabs (rn q)) (bpow radix2 emax)
  then exists x, parse_float prec emax s = Some x /\ SF2R radix2 x = rn q /\
    valid_binary prec emax x = true /\ is_finite_SF x = true /\ sign_SF x = neg
  else parse_float prec emax s = None.
Proof.
  intros E q. pose proof (decimal_nonneg _ _ _ _ E) as Hn. unfold parse_float. rewrite (decimal_special _ _ E), E. destruct n as [|m|m]; [| |lia].
  - assert (q = 0%R) as ->. { unfold q. destruct neg; cbn; unfold Rdiv; apply Rmult_0_l. }
    rewrite round_0 by typeclasses eauto. rewrite Rlt_bool_true by (rewrite Rabs_R0; apply bpow_gt_0).
    exists (S754_zero neg). split_and!; try done.
  - assert (0 < 10 ^ Z.of_nat k) as H10 by (apply Z.pow_pos_nonneg; lia).
    set (d := Z.to_pos (10 ^ Z.of_nat k)). assert (Z.pos d = 10 ^ Z.of_nat k) as Hd by (unfold d; by rewrite Z2Pos.id).
    pose proof (Bdiv_correct_aux prec emax Hp He mode_NE neg m 0 false d 0) as C. cbn zeta in C.
    rewrite xorb_false_r in C.
    assert (round_quot prec emax neg m d = (let '(mz, ez, lz) := SFdiv_core_binary prec emax (Z.pos m) 0 (Z.pos d) 0 in
      BinarySingleNaN.binary_round_aux prec emax mode_NE neg mz ez lz)) as Eq0.
    { unfold round_quot. destruct (SFdiv_core_binary _ _ _ _ _ _) as [[mz ez] lz]. apply aux_equiv. }
    rewrite <- Eq0 in C.
    assert (F2R (Float radix2 (SpecFloat.cond_Zopp neg (Z.pos m)) 0) / F2R (Float radix2 (SpecFloat.cond_Zopp false (Z.pos d)) 0) = q)%R as Eq.
    { unfold F2R, q. cbn [Fnum Fexp SpecFloat.cond_Zopp bpow]. rewrite !Rmult_1_r, Hd. by destruct neg. }
    rewrite Eq in C. cbn [round_mode] in C. destruct C as [C1 C2]. destruct (Rlt_bool _ _).
    + destruct C2 as (C2 & C3 & C4). exists (round_quot prec emax neg m d). split_and!; try done. by destruct (round_quot _ _ _ _ _).
    + rewrite C2. done.
Qed.
Lemma format_of_valid x : valid_binary prec emax x = true -> generic_format radix2 fx (SF2R radix2 x).
Proof. intros H. rewrite <- (B2R_SF2B prec emax x H). apply generic_format_B2R. Qed.
(** Finite numbers with the same value and sign are equal. *)
Lemma same_number x y : valid_binary prec emax x = true -> valid_binary prec emax y = true ->
  is_finite_SF x = true -> is_finite_SF y = true -> SF2R radix2 x = SF2R radix2 y -> sign_SF x = sign_SF y -> x = y.
Proof.
  intros Vx Vy Fx Fy E S. rewrite <- (B2SF_SF2B prec emax x Vx), <- (B2SF_SF2B prec emax y Vy). f_equal.
  apply B2R_Bsign_inj.
  - by rewrite is_finite_SF2B.
  - by rewrite is_finite_SF2B.
  - by rewrite !B2R_SF2B.
  - by rewrite !Bsign_SF2B.
Qed.
End format.

Notation fx64 := (SpecFloat.fexp 53 1024).
Notation fx32 := (SpecFloat.fexp 24 128).
Local Instance P24 : Prec_gt_0 24 := eq_refl.
Local Instance M24 : Prec_lt_emax 24 128 := eq_refl.
Local Instance P53 : Prec_gt_0 53 := eq_refl.
Local Instance M53 : Prec_lt_emax 53 1024 := eq_refl.
Local Instance V32 : Valid_exp fx32 := FLT_exp_valid _ _.
Local Instance V64 : Valid_exp fx64 := FLT_exp_valid _ _.
Notation rn64 := (round radix2 fx64 ZnearestE).
Notation rn32 := (round radix2 fx32 ZnearestE).

Lemma format32_iff x : generic_format radix2 fx32 x <-> exists m e, Z.abs m < 2 ^ 24 /\ -149 <= e /\ x = (IZR m * bpow radix2 e)%R.
Proof.
  split.
  - intros H. apply (FLT_format_generic radix2 (-149) 24) in H as [[m e] -> Hm He']. exists m, e. by split_and!.
  - intros (m & e & Hm & He & ->). apply (generic_format_FLT radix2 (-149) 24). exists (Float radix2 m e); done.
Qed.
Lemma format64_of m e : Z.abs m < 2 ^ 53 -> -1074 <= e -> generic_format radix2 fx64 (IZR m * bpow radix2 e).
Proof. intros Hm He. apply (generic_format_FLT radix2 (-1074) 53). exists (Float radix2 m e); done. Qed.

Lemma single_neighbours x : generic_format radix2 fx32 x -> (0 <= x)%R -> exists m e, 0 <= m < 2 ^ 24 /\ -149 <= e /\
  x = (IZR m * bpow radix2 e)%R /\ Ulp.succ radix2 fx32 x = (x + bpow radix2 e)%R /\ (Ulp.pred radix2 fx32 x <= x - bpow radix2 e / 2)%R.
Proof.
  intros Hx Hpos. destruct (Req_dec x 0) as [->|Hne].
  - exists 0, (-149). rewrite succ_0, pred_0. change (ulp radix2 fx32 0) with (ulp radix2 (FLT_exp (-149) 24) 0).
    rewrite (ulp_FLT_0 radix2 (-149) 24). pose proof (bpow_gt_0 radix2 (-149)). split; [lia|]. split; [lia|]. split; [lra|]. split; lra.
  - set (e := cexp radix2 fx32 x). exists (Ztrunc (scaled_mantissa radix2 fx32 x)), e. set (m := Ztrunc (scaled_mantissa radix2 fx32 x)).
    assert (x = IZR m * bpow radix2 e)%R as Ex by exact Hx.
    split; [split|].
    + unfold m. rewrite <- (Ztrunc_IZR 0). apply Ztrunc_le. apply Rmult_le_pos; [done|apply bpow_ge_0].
    + apply lt_IZR. apply (Rmult_lt_reg_r (bpow radix2 e)); [apply bpow_gt_0|]. rewrite <- Ex.
      pose proof (bpow_mag_gt radix2 x) as Hg. rewrite Rabs_pos_eq in Hg by done. apply Rlt_le_trans with (1 := Hg).
      change (IZR (2 ^ 24)) with (IZR (radix2 ^ 24)). rewrite IZR_Zpower, <- bpow_plus by lia. apply bpow_le. unfold e, cexp, fexp. lia.
    + split; [apply Z.le_max_r|]. split; [done|]. assert (ulp radix2 fx32 x = bpow radix2 e) as Eu by by apply ulp_neq_0.
      split; [rewrite succ_eq_pos by done; by rewrite Eu|].
      rewrite pred_eq_pos by done. unfold pred_pos. rewrite Eu. pose proof (bpow_gt_0 radix2 e). destruct (Req_bool _ _); [|lra].
      assert (bpow radix2 (e - 1) <= bpow radix2 (fx32 (mag radix2 x - 1)))%R as Hb.
      { apply bpow_le. unfold e, cexp, fexp, emin. lia. }
      replace (e - 1) with (e + -1) in Hb by lia. rewrite bpow_plus in Hb. change (bpow radix2 (-1)) with (/ 2)%R in Hb. lra.
Qed.
(** A number of 24 bits that is the nearest 53-bit number of q is also its nearest 24-bit number. *)
Lemma nearest_single_pos q : generic_format radix2 fx32 (rn64 q) -> (0 <= rn64 q)%R -> rn32 q = rn64 q.
Proof.
  intros Hx Hpos. set (x := rn64 q) in *.
  destruct (single_neighbours x Hx Hpos) as (m & e & Hm & He & Ex & Es & Ep). pose proof (bpow_gt_0 radix2 e) as Hb.
  destruct (round_N_pt radix2 fx32 (fun z => negb (Z.even z)) q) as [Hr Hn]. specialize (Hn x Hx).
  destruct (Rtotal_order (rn32 q) x) as [Hlt|[Heq|Hgt]]; [exfalso|done|exfalso].
  - pose proof (pred_ge_gt radix2 fx32 _ _ Hr Hx Hlt) as Hy.
    assert (q <= IZR (4 * m - 1) * bpow radix2 (e - 2))%R as Hq.
    { rewrite minus_IZR, mult_IZR; replace (e - 2) with (e + -2) by lia; rewrite bpow_plus. change (bpow radix2 (-2)) with (/ 4)%R.
      replace ((4 * IZR m - 1) * (bpow radix2 e * / 4))%R with (x - bpow radix2 e / 4)%R by (rewrite Ex; field).
      revert Hn. unfold Rabs. destruct (Rcase_abs _), (Rcase_abs _); lra. }
    apply (round_le radix2 fx64 ZnearestE) in Hq. rewrite (round_generic _ _ _ (IZR (4 * m - 1) * _)) in Hq.
    + fold x in Hq. rewrite minus_IZR, mult_IZR in Hq; replace (e - 2) with (e + -2) in Hq by lia; rewrite bpow_plus in Hq. change (bpow radix2 (-2)) with (/ 4)%R in Hq. lra.
    + apply format64_of; lia.
  - pose proof (succ_le_lt radix2 fx32 _ _ Hx Hr Hgt) as Hy.
    assert (IZR (2 * m + 1) * bpow radix2 (e - 1) <= q)%R as Hq.
    { rewrite plus_IZR, mult_IZR; replace (e - 1) with (e + -1) by lia; rewrite bpow_plus. change (bpow radix2 (-1)) with (/ 2)%R.
      replace ((2 * IZR m + 1) * (bpow radix2 e * / 2))%R with (x + bpow radix2 e / 2)%R by (rewrite Ex; field).
      revert Hn. unfold Rabs. destruct (Rcase_abs _), (Rcase_abs _); lra. }
    apply (round_le radix2 fx64 ZnearestE) in Hq. rewrite (round_generic _ _ _ (IZR (2 * m + 1) * _)) in Hq.
    + fold x in Hq. rewrite plus_IZR, mult_IZR in Hq; replace (e - 1) with (e + -1) in Hq by lia; rewrite bpow_plus in Hq. change (bpow radix2 (-1)) with (/ 2)%R in Hq. lra.
    + apply format64_of; lia.
Qed.
Lemma nearest_single q : generic_format radix2 fx32 (rn64 q) -> rn32 q = rn64 q.
Proof.
  intros H. destruct (Rle_lt_dec 0 (rn64 q)) as [Hp|Hn]; [by apply nearest_single_pos|].
  assert (rn64 (- q) = - rn64 q)%R as E by apply round_NE_opp. assert (rn32 (- q) = - rn32 q)%R as E' by apply round_NE_opp.
  assert (rn32 (- q) = rn64 (- q))%R as H'. { apply nearest_single_pos; rewrite E; [by apply generic_format_opp|lra]. }
  rewrite E, E' in H'. lra.
Qed.
Lemma format_32_64 x : generic_format radix2 fx32 x -> generic_format radix2 fx64 x.
Proof. intros (m & e & Hm & He & ->)%format32_iff. apply format64_of; lia. Qed.

(** ** Widening *)
Lemma small_32 x : valid_binary 24 128 x = true -> (Rabs (SF2R radix2 x) < bpow radix2 128)%R.
Proof. intros H. rewrite <- (B2R_SF2B 24 128 x H). apply abs_B2R_lt_emax. Qed.
Lemma widen_spec x : valid_binary 24 128 x = true -> is_finite_SF x = true ->
  valid_binary 53 1024 (widen x) = true /\ is_finite_SF (widen x) = true /\ SF2R radix2 (widen x) = SF2R radix2 x /\ sign_SF (widen x) = sign_SF x.
Proof.
  intros Hv Hf. destruct x as [s| | |s m e]; try done. cbn [widen]. rewrite binary_round_equiv.
  pose proof (binary_round_correct 53 1024 _ _ mode_NE s m e) as [C1 C2]. cbn zeta in C2.
  pose proof (format_of_valid 24 128 _ Hv) as F%format_32_64. cbn [SF2R] in F.
  rewrite (round_generic _ _ _ _ F) in C2. rewrite Rlt_bool_true in C2.
  - destruct C2 as (C2 & C3 & C4). by split_and!.
  - apply Rlt_trans with (bpow radix2 128); [exact (small_32 _ Hv)|]. by apply bpow_lt.
Qed.
Notation is_single x := (single_value (SF2R radix2 x)).
Lemma is_single_format r : single_value r <-> generic_format radix2 fx32 r /\ (Rabs r < bpow radix2 128)%R.
Proof.
  split.
  - intros (m & e & Hm & He & ->). split; [apply format32_iff; exists m, e; split_and!; [done|lia|done]|].
    rewrite Rabs_mult, (Rabs_pos_eq (bpow radix2 e)) by apply bpow_ge_0. rewrite <- abs_IZR.
    apply Rlt_le_trans with (IZR (2 ^ 24) * bpow radix2 e)%R; [apply Rmult_lt_compat_r; [apply bpow_gt_0|by apply IZR_lt]|].
    change (IZR (2 ^ 24)) with (IZR (radix2 ^ 24)). rewrite IZR_Zpower, <- bpow_plus by lia. apply bpow_le. lia.
  - intros [H Hb]. destruct (Req_dec r 0) as [E0|Hne].
    { exists 0, 0. rewrite E0. split; [lia|]. split; [lia|lra]. }
    exists (Ztrunc (scaled_mantissa radix2 fx32 r)), (cexp radix2 fx32 r).
    assert (mag radix2 r <= 128) as Hmag by by apply mag_le_bpow.
    split; [|split; [|exact H]].
    + apply lt_IZR. rewrite abs_IZR. apply (Rmult_lt_reg_r (bpow radix2 (cexp radix2 fx32 r))); [apply bpow_gt_0|].
      rewrite <- (Rabs_pos_eq (bpow radix2 (cexp radix2 fx32 r))) at 1 by apply bpow_ge_0. rewrite <- Rabs_mult. unfold generic_format, F2R in H. cbn [Fnum Fexp] in H.
      rewrite <- H. pose proof (bpow_mag_gt radix2 r) as Hg. apply Rlt_le_trans with (1 := Hg).
      change (IZR (2 ^ 24)) with (IZR (radix2 ^ 24)). rewrite IZR_Zpower, <- bpow_plus by lia. apply bpow_le. unfold cexp, fexp. lia.
    + unfold cexp, fexp, emin. lia.
Qed.

(** ** Floats *)
(** The text is one of the finite number [x]. *)
Definition formatted (x : spec_float) (s : string) : Prop := is_finite_SF x = true /\ parse_float 53 1024 s = Some x.
Lemma exact_text_spec s m e : valid_binary 53 1024 (S754_finite s m e) = true -> parse_float 53 1024 (exact_text s (Z.pos m) e) = Some (S754_finite s m e).
Proof.
  intros V. assert (exists n k, 0 <= n /\ exact_text s (Z.pos m) e = dec_text s n k /\
    (IZR (if s then - n else n) / IZR (10 ^ Z.of_nat k))%R = SF2R radix2 (S754_finite s m e)) as (n & k & Hn & Et & Eq).
  { unfold exact_text. destruct (Z.ltb_spec e 0) as [He|He].
    - exists (Z.pos m * 5 ^ (- e)), (Z.to_nat (- e)). assert (0 < 5 ^ (- e)) by (apply Z.pow_pos_nonneg; lia). split; [nia|]. split; [done|].
      rewrite Z2Nat.id by lia. cbn [SF2R]. unfold F2R. cbn [Fnum Fexp].
      replace (10 ^ (- e)) with (2 ^ (- e) * 5 ^ (- e)) by (rewrite <- Z.pow_mul_l; done).
      replace (if s then - (Z.pos m * 5 ^ (- e)) else Z.pos m * 5 ^ (- e)) with (SpecFloat.cond_Zopp s (Z.pos m) * 5 ^ (- e)) by (destruct s; cbn [SpecFloat.cond_Zopp]; lia).
      rewrite !mult_IZR. change (IZR (2 ^ (- e))) with (IZR (radix2 ^ (- e))). rewrite IZR_Zpower by lia. rewrite bpow_opp.
      assert (IZR (5 ^ (- e)) <> 0%R) by (apply not_0_IZR; lia). pose proof (bpow_gt_0 radix2 e). field. lra.
    - exists (Z.pos m * 2 ^ e), 0%nat. assert (0 < 2 ^ e) by (apply Z.pow_pos_nonneg; lia). split; [nia|]. split; [done|].
      cbn [SF2R]. unfold F2R. cbn [Fnum Fexp]. change (IZR (10 ^ Z.of_nat 0)) with 1%R. unfold Rdiv. rewrite Rinv_1, Rmult_1_r.
      replace (if s then - (Z.pos m * 2 ^ e) else Z.pos m * 2 ^ e) with (SpecFloat.cond_Zopp s (Z.pos m) * 2 ^ e) by (destruct s; cbn [SpecFloat.cond_Zopp]; lia).
      rewrite mult_IZR. f_equal. change (2 ^ e) with (radix2 ^ e). by rewrite IZR_Zpower. }
  pose proof (parse_spec 53 1024 _ _ (exact_text s (Z.pos m) e) s n k) as P. rewrite Et in P at 1. specialize (P (decimal_dec_text s n k Hn)). cbn zeta in P.
  rewrite Eq, (round_generic _ _ _ _ (format_of_valid 53 1024 _ V)) in P. rewrite Rlt_bool_true in P.
  - destruct P as (x & -> & Hx & Vx & Fx & Sx). f_equal. by apply (same_number 53 1024).
  - rewrite <- (B2R_SF2B 53 1024 _ V). apply abs_B2R_lt_emax.
Qed.
(** ParseFloat reads back what FormatFloat writes. *)
Lemma shortest_spec fuel s m e k : valid_binary 53 1024 (S754_finite s m e) = true -> parse_float 53 1024 (shortest fuel s m e k) = Some (S754_finite s m e).
Proof.
  intros V. revert k. induction fuel as [|fuel IH]; intros k; cbn [shortest]; [by apply exact_text_spec|]. case_bool_decide; [done|apply IH].
Qed.
Lemma fmt_spec x : valid_binary 53 1024 x = true -> parse_float 53 1024 (fmt_float x) = Some x.
Proof.
  destruct x as [s|s| |s m e]; intros V; [by destruct s; vm_compute|by destruct s; vm_compute|by vm_compute|]. cbn [fmt_float]. by apply shortest_spec.
Qed.
Lemma fmt_formatted x : valid_binary 53 1024 x = true -> is_finite_SF x = true -> formatted x (fmt_float x).
Proof. intros V F. split; [done|by apply fmt_spec]. Qed.
Lemma formatted_spec x s : formatted x s -> exists q neg n k, decimal s = Some (neg, n, k) /\ q = (IZR (if neg then - n else n) / IZR (10 ^ Z.of_nat k))%R /\
  SF2R radix2 x = rn64 q /\ valid_binary 53 1024 x = true /\ is_finite_SF x = true /\ sign_SF x = neg.
Proof.
  intros [Hf H]. destruct (decimal s) as [[[neg n] k]|] eqn:E.
  2:{ exfalso. unfold parse_float in H. rewrite E in H. destruct (special s) as [y|] eqn:Es; [|done]. injection H as ->.
      unfold special in Es. repeat (case_bool_decide; [injection Es as <-; done|]). done. }
  pose proof (parse_spec 53 1024 _ _ s neg n k E) as P. cbn zeta in P. exists (IZR (if neg then - n else n) / IZR (10 ^ Z.of_nat k))%R, neg, n, k.
  destruct (Rlt_bool _ _); [|congruence]. destruct P as (y & Hy & P). rewrite Hy in H. injection H as ->. destruct P as (P1 & P2 & P3 & P4). by split_and!.
Qed.
Lemma read_single x s : formatted x s -> is_single x -> exists y, parse_float 24 128 s = Some y /\ valid_binary 24 128 y = true /\ is_finite_SF y = true /\
  SF2R radix2 y = SF2R radix2 x /\ sign_SF y = sign_SF x.
Proof.
  intros (q & neg & n & k & E & Eq & Ex & Vx & Fx & Sx)%formatted_spec [Hf Hb]%is_single_format.
  pose proof (parse_spec 24 128 _ _ s neg n k E) as P. cbn zeta in P. rewrite <- Eq in P.
  rewrite Ex in Hf, Hb. rewrite (nearest_single q Hf) in P. rewrite Rlt_bool_true in P by done.
  destruct P as (y & Hy & P1 & P2 & P3 & P4). exists y. split_and!; try done; congruence.
Qed.
Lemma float64_iff x s : formatted x s -> parse_float64 s = Some x <-> is_single x.
Proof.
  intros H. split.
  - unfold parse_float64. intros Hr. pose proof H as (q & neg & n & k & E & Eq & _)%formatted_spec.
    pose proof (parse_spec 24 128 _ _ s neg n k E) as P. cbn zeta in P. destruct (Rlt_bool _ _); [|rewrite P in Hr; done].
    destruct P as (y & Hy & P1 & P2 & P3 & P4). rewrite Hy in Hr. injection Hr as <-.
    destruct (widen_spec y P2 P3) as (W1 & W2 & W3 & W4). apply is_single_format. rewrite W3. split; [by apply format_of_valid|by apply small_32].
  - intros Hs. destruct (read_single x s H Hs) as (y & Hy & Vy & Fy & Ey & Sy). unfold parse_float64. rewrite Hy. cbn. f_equal.
    destruct (widen_spec y Vy Fy) as (W1 & W2 & W3 & W4). apply formatted_spec in H as (q & neg & n & k & _ & _ & _ & Vx & Fx & _).
    apply (same_number 53 1024); try done; congruence.
Qed.
Lemma float32_exact y s : valid_binary 24 128 y = true -> is_finite_SF y = true -> formatted (widen y) s -> parse_float32 s = Some y.
Proof.
  intros Vy Fy H. destruct (widen_spec y Vy Fy) as (W1 & W2 & W3 & W4).
  assert (is_single (widen y)) as Hs. { apply is_single_format. rewrite W3. split; [by apply format_of_valid|by apply small_32]. }
  destruct (read_single _ s H Hs) as (z & Hz & Vz & Fz & Ez & Sz). unfold parse_float32. rewrite Hz. f_equal.
  apply (same_number 24 128); try done; congruence.
Qed.
(** Otherwise a neighbour is read ... *)
Lemma float64_neighbour x s y z : formatted x s -> parse_float64 s = Some y -> single_value z ->
  ~ (SF2R radix2 x < z < SF2R radix2 y)%R /\ ~ (SF2R radix2 y < z < SF2R radix2 x)%R.
Proof.
  intros (q & neg & n & k & E & Eq & Ex & _)%formatted_spec Hr [Hz _]%is_single_format. pose proof (format_32_64 _ Hz) as Hz64.
  pose proof (parse_spec 24 128 _ _ s neg n k E) as P. cbn zeta in P. rewrite <- Eq in P.
  assert (SF2R radix2 y = rn32 q) as ->.
  { unfold parse_float64 in Hr. destruct (Rlt_bool _ _); [|rewrite P in Hr; done].
    destruct P as (w & Hw & P1 & P2 & P3 & P4). rewrite Hw in Hr. injection Hr as <-. destruct (widen_spec w P2 P3) as (_ & _ & -> & _). done. }
  rewrite Ex. split; intros [H1 H2].
  - destruct (Rle_or_lt z q) as [H|H].
    + apply (round_le radix2 fx64 ZnearestE) in H. rewrite (round_generic _ _ _ z Hz64) in H. lra.
    + apply Rlt_le, (round_le radix2 fx32 ZnearestE) in H. rewrite (round_generic _ _ _ z Hz) in H. lra.
  - destruct (Rle_or_lt q z) as [H|H].
    + apply (round_le radix2 fx64 ZnearestE) in H. rewrite (round_generic _ _ _ z Hz64) in H. lra.
    + apply Rlt_le, (round_le radix2 fx32 ZnearestE) in H. rewrite (round_generic _ _ _ z Hz) in H. lra.
Qed.
(** ... or an error, if it is beyond them all. *)
Lemma float64_error x s z : formatted x s -> parse_float64 s = None -> single_value z -> (Rabs z < Rabs (SF2R radix2 x))%R.
Proof.
  intros (q & neg & n & k & E & Eq & Ex & _)%formatted_spec Hr Hz. apply is_single_format in Hz as [Hz Hb].
  pose proof (parse_spec 24 128 _ _ s neg n k E) as P. cbn zeta in P. rewrite <- Eq in P.
  destruct (Rlt_bool_spec (Rabs (rn32 q)) (bpow radix2 128)) as [_|Hlarge].
  { destruct P as (w & Hw & _). unfold parse_float64 in Hr. by rewrite Hw in Hr. }
  rewrite Ex. apply Rnot_le_lt. intros H.
  assert (generic_format radix2 fx32 (Rabs z)) as Ha by by apply generic_format_abs. pose proof (format_32_64 _ Ha) as Ha64.
  destruct (Rle_or_lt (Rabs q) (Rabs z)) as [Hq|Hq].
  - apply (round_le radix2 fx32 ZnearestE) in Hq. rewrite (round_generic _ _ _ (Rabs z) Ha), round_NE_abs in Hq by typeclasses eauto. lra.
  - assert (rn64 (Rabs q) = Rabs z) as Hqz.
    { apply Rle_antisym; [by rewrite round_NE_abs by typeclasses eauto|].
      rewrite <- (round_generic radix2 fx64 ZnearestE (Rabs z) Ha64). apply round_le; [typeclasses eauto..|lra]. }
    assert (rn32 (Rabs q) = Rabs z) as H32. { rewrite <- Hqz. apply nearest_single. by rewrite Hqz. }
    rewrite <- round_NE_abs, H32 in Hlarge by typeclasses eauto. lra.
Qed.

(** ** Durations *)
Lemma mul_equiv (x y : b64) : f64_mul (B2SF x) (B2SF y) = B2SF (Bmult mode_NE x y).
Proof.
  unfold f64_mul. destruct x as [sx|sx| |sx mx ex Bx], y as [sy|sy| |sy my ey By];
    [now (trivial || (cbn; destruct (Bool.eqb _ _)))..|]. cbn. rewrite B2SF_SF2B. apply binary_round_aux_equiv.
Qed.
Lemma value_mul x y r s : value x r -> value y s -> (Rabs (rnd (r * s)) < bpow radix2 1024)%R -> value (f64_mul x y) (rnd (r * s)).
Proof.
  intros (a & <- & Fa & <-) (b & <- & Fb & <-) H. exists (Bmult mode_NE a b).
  pose proof (Bmult_correct 53 1024 _ _ mode_NE a b) as C.
  change (round radix2 _ (round_mode mode_NE) (B2R a * B2R b)) with (rnd (B2R a * B2R b)) in C. rewrite Rlt_bool_true in C by exact H.
  destruct C as (C1 & C2 & _). split; [|split; [by rewrite C2, Fa, Fb|done]]. symmetry. apply mul_equiv.
Qed.
Lemma rnd_opp x : rnd (- x) = (- rnd x)%R.
Proof. apply round_NE_opp. Qed.
(** The milliseconds of [d], times a million. *)
Lemma duration_near d : 0 < d < 2 ^ 52 -> (IZR d - / 2 <= rnd (rnd (IZR d / 1000000) * 1000000) <= IZR d + / 2)%R.
Proof.
  intros Hd. assert (1 <= IZR d)%R as H1 by (apply IZR_le; lia). assert (IZR d <= 4503599627370496)%R as H2 by (apply IZR_le; lia).
  assert (IZR d - / 2 = IZR (2 * d - 1) * bpow radix2 (-1))%R as E1.
  { rewrite minus_IZR, mult_IZR. change (bpow radix2 (-1)) with (/ 2)%R. field. }
  assert (IZR d + / 2 = IZR (2 * d + 1) * bpow radix2 (-1))%R as E2.
  { rewrite plus_IZR, mult_IZR. change (bpow radix2 (-1)) with (/ 2)%R. field. }
  apply rnd_between.
  - rewrite E1. apply rnd_exact; lia.
  - rewrite E2. apply rnd_exact; lia.
  - assert (Rabs (rnd (IZR d / 1000000) - IZR d / 1000000) <= / 2 * bpow radix2 (-53 + 1) * Rabs (IZR d / 1000000))%R as He.
    { apply (Relative.relative_error_N_FLT radix2 (-1074) 53 eq_refl). rewrite Rabs_pos_eq by lra.
      apply Rle_trans with (/ 1048576)%R; [|lra]. change (/ 1048576)%R with (bpow radix2 (-20)). apply bpow_le. lia. }
    rewrite (Rabs_pos_eq (IZR d / 1000000)) in He by lra. change (bpow radix2 (-53 + 1)) with (/ 4503599627370496)%R in He.
    apply Rabs_le_inv in He. lra.
Qed.
Lemma duration_real d : Z.abs d < 2 ^ 52 -> (0 <= Rabs (rnd (rnd (IZR d / 1000000) * 1000000)) <= IZR (2 ^ 52))%R ->
  int_of_f64 (f64_mul (f64_div (f64_of_int d) (f64_of_int 1000000)) (f64_of_int 1000000)) = Ztrunc (rnd (rnd (IZR d / 1000000) * 1000000)).
Proof.
  intros Hd Hb. change (2 ^ 52) with 4503599627370496 in *.
  assert (value (f64_of_int 1000000) 1000000%R) as V0.
  { pose proof (rnd_int 1000000 ltac:(lia)) as E. rewrite <- E. apply value_of_int. rewrite E. apply big_bound, Rabs_le. powers. lra. }
  assert (Rabs (IZR d) <= 4503599627370496)%R as Hd'. { rewrite <- abs_IZR. apply IZR_le. lia. }
  assert (value (f64_of_int d) (IZR d)) as V1.
  { pose proof (rnd_int d ltac:(lia)) as E. rewrite <- E. apply value_of_int. rewrite E. apply big_bound. powers. lra. }
  apply Rabs_le_inv in Hd'.
  assert (value (f64_div (f64_of_int d) (f64_of_int 1000000)) (rnd (IZR d / 1000000))) as V2.
  { apply value_div; [done|done|lra|]. apply big_bound. apply Rabs_le. assert (IZR (- 2 ^ 44) <= rnd (IZR d / 1000000) <= IZR (2 ^ 44))%R as Hr.
    { apply rnd_between; [apply rnd_int; lia|apply rnd_int; lia|]. powers. lra. }
    revert Hr. powers. lra. }
  rewrite (value_trunc _ (rnd (rnd (IZR d / 1000000) * 1000000))).
  - apply int64_small. destruct Hb as [_ Hb]. apply Rabs_le_inv in Hb.
    split; [apply Z.le_trans with (- 4503599627370496); [lia|]; rewrite <- (Ztrunc_IZR (- 4503599627370496)); apply Ztrunc_le; change (-4503599627370496) with (- (4503599627370496)); rewrite opp_IZR; lra|].
    apply Z.le_lt_trans with 4503599627370496; [|lia]. rewrite <- (Ztrunc_IZR 4503599627370496). apply Ztrunc_le; lra.
  - apply value_mul; [done|done|]. apply big_bound. powers. lra.
Qed.
Lemma duration_opp d : rnd (rnd (IZR (- d) / 1000000) * 1000000) = (- rnd (rnd (IZR d / 1000000) * 1000000))%R.
Proof. rewrite opp_IZR, Ropp_div, rnd_opp, Ropp_mult_distr_l_reverse, rnd_opp. done. Qed.
Lemma duration_bounded d : 0 < d < 2 ^ 52 -> (0 <= Rabs (rnd (rnd (IZR d / 1000000) * 1000000)) <= IZR (2 ^ 52))%R.
Proof.
  intros Hd. pose proof (duration_near d Hd) as H. assert (1 <= IZR d)%R as H1 by (apply IZR_le; lia).
  assert (IZR d <= IZR (2 ^ 52 - 1))%R as H2 by (apply IZR_le; lia). rewrite minus_IZR in H2.
  split; [apply Rabs_pos|]. rewrite Rabs_pos_eq by lra. lra.
Qed.
Lemma duration_trunc d : 0 < d < 2 ^ 52 -> d - 1 <= Ztrunc (rnd (rnd (IZR d / 1000000) * 1000000)) <= d.
Proof.
  intros Hd. pose proof (duration_near d Hd) as [Ha Hb]. assert (1 <= IZR d)%R as H1 by (apply IZR_le; lia). split.
  - rewrite <- (Ztrunc_IZR (d - 1)). apply Ztrunc_le. rewrite minus_IZR. lra.
  - rewrite Ztrunc_floor by lra. apply Z.lt_succ_r. apply lt_IZR. unfold Z.succ. rewrite plus_IZR.
    apply Rle_lt_trans with (rnd (rnd (IZR d / 1000000) * 1000000)); [apply Zfloor_lb|lra].
Qed.
Definition through (d : Z) : Z := int_of_f64 (f64_mul (f64_div (f64_of_int d) (f64_of_int 1000000)) (f64_of_int 1000000)).
Lemma milli_valid d : valid_binary 53 1024 (f64_div (f64_of_int d) (f64_of_int 1000000)) = true.
Proof. unfold f64_of_int. rewrite !binary_normalize_equiv, div_equiv. apply valid_binary_B2SF. Qed.
Lemma read_through d : parse_duration (fmt_duration d) = Some (through d).
Proof. unfold parse_duration, fmt_duration. by rewrite (fmt_spec _ (milli_valid d)). Qed.
(** Long durations: three roundings. *)
Lemma rnd_error x : (/ 1048576 <= Rabs x)%R -> (Rabs (rnd x - x) <= / 9007199254740992 * Rabs x)%R.
Proof.
  intros H. pose proof (Relative.relative_error_N_FLT radix2 (-1074) 53 eq_refl (fun z => negb (Z.even z)) x) as E.
  change (/ 2 * bpow radix2 (-53 + 1))%R with (/ 2 * / 4503599627370496)%R in E.
  replace (/ 9007199254740992)%R with (/ 2 * / 4503599627370496)%R by lra. apply E.
  apply Rle_trans with (2 := H). change (/ 1048576)%R with (bpow radix2 (-20)). apply bpow_le. lia.
Qed.
Definition thrice (d : Z) : R := rnd (rnd (rnd (IZR d) / 1000000) * 1000000).
Lemma thrice_opp d : thrice (- d) = (- thrice d)%R.
Proof. unfold thrice. rewrite opp_IZR, rnd_opp, Ropp_div, rnd_opp, Ropp_mult_distr_l_reverse, rnd_opp. done. Qed.
Lemma thrice_near d : 0 < d < 2 ^ 62 -> (Rabs (thrice d - IZR d) <= 7 / 2 * / 9007199254740992 * IZR d)%R.
Proof.
  intros Hd. assert (1 <= IZR d)%R as H1 by (apply IZR_le; lia). unfold thrice.
  pose proof (rnd_error (IZR d)) as A. rewrite (Rabs_pos_eq (IZR d)) in A by lra. specialize (A ltac:(lra)). apply Rabs_le_inv in A. set (a := rnd (IZR d)) in *.
  pose proof (rnd_error (a / 1000000)) as B. rewrite (Rabs_pos_eq (a / 1000000)) in B by lra. specialize (B ltac:(lra)). apply Rabs_le_inv in B. set (b := rnd (a / 1000000)) in *.
  pose proof (rnd_error (b * 1000000)) as C. rewrite (Rabs_pos_eq (b * 1000000)) in C by lra. specialize (C ltac:(lra)). apply Rabs_le_inv in C. set (c := rnd (b * 1000000)) in *.
  apply Rabs_le. lra.
Qed.
Lemma thrice_through d : 0 < Z.abs d < 2 ^ 62 -> through d = Ztrunc (thrice d).
Proof.
  intros Hd. assert (Rabs (IZR d) <= 4611686018427387904)%R as Hd'. { rewrite <- abs_IZR. apply IZR_le. lia. }
  assert (1 <= Rabs (IZR d))%R as H1. { rewrite <- abs_IZR. apply IZR_le. lia. }
  assert (value (f64_of_int 1000000) 1000000%R) as V0.
  { pose proof (rnd_int 1000000 ltac:(lia)) as E. rewrite <- E. apply value_of_int. rewrite E. apply big_bound, Rabs_le. powers. lra. }
  assert (forall x y, Rabs (x - y) <= / 9007199254740992 * Rabs y -> Rabs y * (1 - / 9007199254740992) <= Rabs x <= Rabs y * (1 + / 9007199254740992))%R as Near.
  { intros x y H. pose proof (Rabs_triang_inv x y). pose proof (Rabs_triang_inv y x). rewrite (Rabs_minus_sym y x) in *. lra. }
  pose proof (Near _ _ (rnd_error (IZR d) ltac:(lra))) as A. set (a := rnd (IZR d)) in *.
  assert (Rabs (a / 1000000) = Rabs a / 1000000)%R as Ea. { unfold Rdiv. rewrite Rabs_mult, (Rabs_pos_eq (/ 1000000)); lra. }
  pose proof (rnd_error (a / 1000000)) as B. rewrite Ea in B. specialize (B ltac:(lra)). rewrite <- Ea in B. apply Near in B. rewrite Ea in B.
  set (b := rnd (a / 1000000)) in *.
  assert (Rabs (b * 1000000) = Rabs b * 1000000)%R as Eb. { rewrite Rabs_mult, (Rabs_pos_eq 1000000); lra. }
  pose proof (rnd_error (b * 1000000)) as C. rewrite Eb in C. specialize (C ltac:(lra)). rewrite <- Eb in C. apply Near in C. rewrite Eb in C.
  assert (value (f64_of_int d) a) as V1. { apply value_of_int. apply big_bound. fold a. powers. lra. }
  assert (value (f64_div (f64_of_int d) (f64_of_int 1000000)) b) as V2. { apply value_div; [done|done|lra|]. apply big_bound. fold b. powers. lra. }
  unfold through. rewrite (value_trunc _ (thrice d)).
  - unfold thrice. fold a b. set (c := rnd (b * 1000000)) in *. apply int64_small. assert (Rabs c <= 9223372036854775807)%R as Hc by lra. apply Rabs_le_inv in Hc.
    split; [rewrite <- (Ztrunc_IZR (- 2 ^ 63)); apply Ztrunc_le; powers; lra|].
    apply Z.le_lt_trans with 9223372036854775807; [|lia]. rewrite <- (Ztrunc_IZR 9223372036854775807). apply Ztrunc_le; lra.
  - unfold thrice. fold a b. apply value_mul; [done|done|]. apply big_bound. powers. lra.
Qed.
Lemma thrice_trunc d : 0 < d < 2 ^ 62 -> 2 ^ 51 * Z.abs (Ztrunc (thrice d) - d) <= d + 2 ^ 51.
Proof.
  intros Hd. assert (1 <= IZR d)%R as H1 by (apply IZR_le; lia). pose proof (thrice_near d Hd) as H. apply Rabs_le_inv in H.
  rewrite Ztrunc_floor by lra. pose proof (Zfloor_lb (thrice d)) as L. pose proof (Zfloor_ub (thrice d)) as U.
  apply le_IZR. change (2 ^ 51) with 2251799813685248. rewrite mult_IZR, abs_IZR, minus_IZR, plus_IZR.
  assert (Rabs (IZR (Zfloor (thrice d)) - IZR d) <= 7 / 2 * / 9007199254740992 * IZR d + 1)%R by (apply Rabs_le; lra). lra.
Qed.
Lemma through_long d : Z.abs d < 2 ^ 62 -> 2 ^ 51 * Z.abs (through d - d) <= Z.abs d + 2 ^ 51.
Proof.
  intros Hd. destruct (Z.lt_trichotomy d 0) as [Hn|[->|Hp]].
  - rewrite thrice_through by lia. assert (exists e, d = - e) as [e ->] by (exists (- d); lia). rewrite thrice_opp, Ztrunc_opp. pose proof (thrice_trunc e ltac:(lia)) as T. lia.
  - by vm_compute.
  - rewrite thrice_through by lia. pose proof (thrice_trunc d ltac:(lia)). lia.
Qed.
Lemma through_pos d : 0 < d < 2 ^ 52 -> d - 1 <= through d <= d.
Proof. intros H. unfold through. rewrite duration_real; [by apply duration_trunc|lia|by apply duration_bounded]. Qed.
Lemma through_neg d : 0 < d < 2 ^ 52 -> - d <= through (- d) <= - d + 1.
Proof.
  intros H. unfold through. rewrite duration_real, duration_opp; [|lia|rewrite duration_opp, Rabs_Ropp; by apply duration_bounded].
  rewrite Ztrunc_opp. pose proof (duration_trunc d H). lia.
Qed.
Lemma through_0 : through 0 = 0.
Proof. by vm_compute. Qed.
Lemma through_ms k : Z.abs (k * 1000000) < 2 ^ 52 -> through (k * 1000000) = k * 1000000.
Proof.
  intros H. assert (rnd (rnd (IZR (k * 1000000) / 1000000) * 1000000) = IZR (k * 1000000)) as E.
  { replace (IZR (k * 1000000) / 1000000)%R with (IZR k) by (rewrite mult_IZR; field). rewrite rnd_int by lia. rewrite <- mult_IZR. apply rnd_int. lia. }
  unfold through. rewrite duration_real, E; [by rewrite Ztrunc_IZR|done|]. rewrite E. split; [apply Rabs_pos|]. rewrite <- abs_IZR. apply IZR_le. lia.
Qed.
Lemma read_is_single x s y : formatted x s -> parse_float64 s = Some y -> is_single y.
Proof.
  intros H Hr. unfold parse_float64 in Hr. pose proof H as (q & neg & n & k & E & Eq & _)%formatted_spec.
  pose proof (parse_spec 24 128 _ _ s neg n k E) as P. cbn zeta in P. destruct (Rlt_bool _ _); [|rewrite P in Hr; done].
  destruct P as (w & Hy & P1 & P2 & P3 & P4). rewrite Hy in Hr. injection Hr as <-.
  destruct (widen_spec w P2 P3) as (W1 & W2 & W3 & W4). apply is_single_format. rewrite W3. split; [by apply format_of_valid|by apply small_32].
Qed.
