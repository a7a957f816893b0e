From Verif Require Import Base TimeModel.
From Coq Require Import ZifyBool ZifyNat ZifyN.

Lemma N_ascii_small n : n < 256 -> N_of_ascii (ascii_of_N n) = n.
Proof. apply N_ascii_embedding. Qed.
Lemma get_digit_enc n r : n < 10 -> get_digit (String (digit n) r) = Some (n, r).
Proof. intros H. unfold get_digit, digit. rewrite N_ascii_small by lia. replace ((48 <=? 48 + n) && (48 + n <=? 57)) with true by lia. repeat f_equal. lia. Qed.
Lemma get2_enc n r : n < 100 -> get2 (d2 n +:+ r) = Some (n, r).
Proof.
  intros H. unfold d2, get2. cbn [String.append]. rewrite get_digit_enc by (apply N.div_lt_upper_bound; lia).
  rewrite get_digit_enc by (apply N.mod_lt; lia). do 2 f_equal. symmetry. rewrite (N.div_mod n 10) at 1 by lia. lia.
Qed.
Lemma get4_enc n r : n < 10000 -> get4 (d4 n +:+ r) = Some (n, r).
Proof.
  intros H. unfold d4, get4. rewrite str_app_assoc, get2_enc by (apply N.div_lt_upper_bound; lia).
  rewrite get2_enc by (apply N.mod_lt; lia). do 2 f_equal. symmetry. rewrite (N.div_mod n 100) at 1 by lia. lia.
Qed.
Definition no_digit (r : string) : Prop := match r with String c _ => N_of_ascii c < 48 \/ 57 < N_of_ascii c | "" => True end.
Lemma get_frac_stop k r : no_digit r -> get_frac k r = (0, r).
Proof. destruct k, r as [|c r]; cbn; try done; intros H; by replace ((48 <=? N_of_ascii c) && (N_of_ascii c <=? 57)) with false by lia. Qed.
Lemma get_frac_enc k : forall n r, n < 10 ^ N.of_nat k -> no_digit r -> get_frac k (frac k n +:+ r) = (n, r).
Proof.
  induction k as [|k IH]; intros n r Hn Hr; cbn [frac]. { cbn [String.append]. rewrite get_frac_stop by done. f_equal. cbn in Hn. lia. }
  destruct (n =? 0) eqn:E. { cbn [String.append]. rewrite get_frac_stop by done. f_equal. lia. }
  assert (0 < 10 ^ N.of_nat k) by (apply N.neq_0_lt_0, N.pow_nonzero; lia).
  assert (n / 10 ^ N.of_nat k < 10).
  { apply N.div_lt_upper_bound; [lia|]. rewrite Nat2N.inj_succ, N.pow_succ_r' in Hn. lia. }
  assert (n = 10 ^ N.of_nat k * (n / 10 ^ N.of_nat k) + n mod 10 ^ N.of_nat k) as Hd by (apply N.div_mod; lia).
  specialize (IH (n mod 10 ^ N.of_nat k) r ltac:(apply N.mod_lt; lia) Hr).
  set (q := n / 10 ^ N.of_nat k) in *. cbn [String.append get_frac]. rewrite IH. unfold digit. rewrite N_ascii_small by lia.
  destruct ((48 <=? 48 + q) && (48 + q <=? 57)) eqn:Eq; [|lia]. f_equal. replace (48 + q - 48) with q by lia. lia.
Qed.
Lemma get_off_enc o : (-1440 < o < 1440)%Z -> get_off (fmt_off o) = Some o.
Proof.
  intros H. unfold fmt_off. destruct (o =? 0)%Z eqn:E; [replace o with 0%Z by lia; done|].
  set (n := Z.to_N (Z.abs o)). assert (n < 1440) by lia.
  assert (n / 60 < 24) by (apply N.div_lt_upper_bound; lia). assert (n mod 60 < 60) by (apply N.mod_lt; lia).
  assert (n = 60 * (n / 60) + n mod 60) as Hd by (apply N.div_mod; lia).
  unfold get_off. destruct (o <? 0)%Z eqn:En; cbn [Ascii.eqb Bool.eqb orb]; (rewrite get2_enc by lia; cbn [String.append expect Ascii.eqb Bool.eqb];
    rewrite <- (str_app_nil_r (d2 (n mod 60))), get2_enc by lia; replace ((24 <=? n / 60) || (60 <=? n mod 60)) with false by lia; f_equal; lia).
Qed.
Lemma fmt_off_no_digit o : no_digit (fmt_off o).
Proof. unfold fmt_off. destruct (o =? 0)%Z; [right; reflexivity|]. destruct (o <? 0)%Z; left; reflexivity. Qed.
Lemma fmt_off_no_dot o r c : fmt_off o = String c r -> Ascii.eqb c "." = false.
Proof. unfold fmt_off. destruct (o =? 0)%Z; [by intros [= <- _]|]. destruct (o <? 0)%Z; by intros [= <- _]. Qed.
Lemma get_ns_enc n o : n < 1000000000 -> get_ns ((if n =? 0 then "" else "." +:+ frac 9 n) +:+ fmt_off o) = Some (n, fmt_off o).
Proof.
  intros H. destruct (n =? 0) eqn:E.
  - cbn [String.append]. unfold get_ns. destruct (fmt_off o) as [|c r] eqn:Eo; [f_equal; f_equal; lia|]. rewrite (fmt_off_no_dot _ _ _ Eo). f_equal. f_equal. lia.
  - cbn [String.append get_ns Ascii.eqb Bool.eqb].
    assert (exists v, get_digit (frac 9 n +:+ fmt_off o) = Some v) as [v ->].
    { cbn [frac]. rewrite E. cbn [String.append]. rewrite get_digit_enc; [eauto|]. apply N.div_lt_upper_bound; [done|]. exact H. }
    f_equal. apply get_frac_enc; [exact H|apply fmt_off_no_digit].
Qed.
Lemma expect_enc c r : expect c (String c "" +:+ r) = Some r.
Proof. cbn. by rewrite Ascii.eqb_refl. Qed.

Lemma parse_fmt_time t : valid_time t -> parse_time (fmt_time t) = Some t.
Proof.
  intros (Hy & Hmo & Hd & Hh & Hmi & Hs & Hns & Ho). unfold parse_time, fmt_time.
  assert (days_in (t_year t) (t_month t) <= 31) by (unfold days_in; repeat case_match; lia).
  rewrite get4_enc by done. cbn [mbind option_bind]. rewrite expect_enc. cbn [mbind option_bind].
  rewrite get2_enc by lia. cbn [mbind option_bind]. rewrite expect_enc. cbn [mbind option_bind].
  rewrite get2_enc by lia. cbn [mbind option_bind]. rewrite expect_enc. cbn [mbind option_bind].
  rewrite get2_enc by lia. cbn [mbind option_bind]. rewrite expect_enc. cbn [mbind option_bind].
  rewrite get2_enc by lia. cbn [mbind option_bind]. rewrite expect_enc. cbn [mbind option_bind].
  rewrite get2_enc by lia. cbn [mbind option_bind]. rewrite get_ns_enc by done. cbn [mbind option_bind].
  rewrite get_off_enc by done. cbn [mbind option_bind].
  match goal with |- context [if ?b then _ else _] => replace b with false by lia end. by destruct t.
Qed.
