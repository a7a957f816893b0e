(** The instants of times, which durations, orders and percentiles rest on. *)
From Verif Require Import Base TimeModel TraceModel CalSpec.
Local Open Scope N_scope.

Lemma leap_spec y : leap y = true <-> y mod 4 = 0 /\ (y mod 100 <> 0 \/ y mod 400 = 0).
Proof.
  unfold leap. destruct (N.eqb_spec (y mod 4) 0), (N.eqb_spec (y mod 100) 0), (N.eqb_spec (y mod 400) 0); cbn; naive_solver.
Qed.
Lemma month_length_spec y m : 1 <= m <= 12 -> days_in y m = month_length y m.
Proof.
  intros Hm. unfold days_in, month_length.
  assert (m = 1 \/ m = 2 \/ m = 3 \/ m = 4 \/ m = 5 \/ m = 6 \/ m = 7 \/ m = 8 \/ m = 9 \/ m = 10 \/ m = 11 \/ m = 12) as H by lia.
  destruct H as [->|[->|[->|[->|[->|[->|[->|[->|[->|[->|[->| ->]]]]]]]]]]]; try done. cbn.
  case_decide as Hd.
  - by apply leap_spec in Hd as ->.
  - destruct (leap y) eqn:E; [|done]. by apply leap_spec in E.
Qed.
Lemma div_next a b : (0 < b)%Z -> ((a + 1) / b = a / b + if decide ((a + 1) mod b = 0) then 1 else 0)%Z.
Proof.
  intros Hb. pose proof (Z.div_mod a b ltac:(lia)) as H1. pose proof (Z.mod_pos_bound a b Hb) as H2.
  pose proof (Z.div_mod (a + 1) b ltac:(lia)) as H3. pose proof (Z.mod_pos_bound (a + 1) b Hb) as H4.
  case_decide as Hd; nia.
Qed.
Lemma year_days y : 1 <= y -> (days_before_year (Z.of_N (y + 1)) = days_before_year (Z.of_N y) + 365 + if leap y then 1 else 0)%Z.
Proof.
  intros Hy. unfold days_before_year. replace (Z.of_N (y + 1) - 1)%Z with ((Z.of_N y - 1) + 1)%Z by lia.
  rewrite !div_next by lia. replace (Z.of_N y - 1 + 1)%Z with (Z.of_N y) by lia.
  assert (forall b, b <> 0 -> (Z.of_N y mod Z.of_N b)%Z = Z.of_N (y mod b)) as Hm by (intros b Hb; by rewrite N2Z.inj_mod).
  change 4%Z with (Z.of_N 4). change 100%Z with (Z.of_N 100). change 400%Z with (Z.of_N 400). rewrite !Hm by done.
  unfold leap. pose proof (N.div_mod y 400 ltac:(done)). pose proof (N.div_mod y 100 ltac:(done)). pose proof (N.div_mod y 4 ltac:(done)).
  pose proof (N.mod_lt y 400 ltac:(done)). pose proof (N.mod_lt y 100 ltac:(done)). pose proof (N.mod_lt y 4 ltac:(done)).
  repeat case_decide; destruct (N.eqb_spec (y mod 4) 0), (N.eqb_spec (y mod 100) 0), (N.eqb_spec (y mod 400) 0); cbn [andb orb negb]; lia.
Qed.
Lemma month_days y m : 1 <= m -> (days_before_month y (N.to_nat (m + 1)) = days_before_month y (N.to_nat m) + Z.of_N (days_in y m))%Z.
Proof.
  intros Hm. replace (N.to_nat (m + 1)) with (S (N.to_nat m)) by lia. destruct (N.to_nat m) as [|n] eqn:E; [lia|].
  cbn [days_before_month]. replace m with (N.of_nat (S n)) by lia. done.
Qed.
Lemma december y : (days_before_month y 12 + 31 = 365 + if leap y then 1 else 0)%Z.
Proof. cbn. destruct (leap y); done. Qed.

(** C60: a second later on the calendar is a second later in time, whatever the month, the year or the time zone; so
    the nanoseconds between two times are counted right.  The zero time is instant 0; a time zone east of
    Greenwich is ahead. *)
Theorem C60_calendar t : valid_time t -> 1 <= t_year t ->
  (instant (next_second t) = instant t + 1000000000)%Z /\
  (forall ns, instant (MkTime (t_year t) (t_month t) (t_day t) (t_hour t) (t_min t) (t_sec t) ns (t_off t)) = instant t + Z.of_N ns - Z.of_N (t_ns t))%Z /\
  (forall o, instant (MkTime (t_year t) (t_month t) (t_day t) (t_hour t) (t_min t) (t_sec t) (t_ns t) o) = instant t + (t_off t - o) * 60000000000)%Z /\
  (t_year (next_second t) < 10000 -> valid_time (next_second t)).
Proof.
  destruct t as [y mo d h mi s ns o]. intros (Hy & Hmo & Hd & Hh & Hmi & Hs & Hns & Ho) Hy1. cbn [t_year t_month t_day t_hour t_min t_sec t_ns t_off] in *.
  split; [|split; [|split]].
  - unfold next_second. rewrite <- month_length_spec by done. repeat case_decide; unfold instant; cbn [t_year t_month t_day t_hour t_min t_sec t_ns t_off].
    + lia.
    + replace s with 59 by lia. lia.
    + replace s with 59 by lia. replace mi with 59 by lia. lia.
    + replace s with 59 by lia. replace mi with 59 by lia. replace h with 23 by lia. lia.
    + rewrite month_days by lia. replace d with (days_in y mo) by lia. replace s with 59 by lia. replace mi with 59 by lia. replace h with 23 by lia. lia.
    + rewrite year_days by done. replace mo with 12 in * by lia. pose proof (december y) as Hdec. change (N.to_nat 12) with 12%nat. change (N.to_nat 1) with 1%nat.
      change (days_in y 12) with 31 in *. replace d with 31 by lia. replace s with 59 by lia. replace mi with 59 by lia. replace h with 23 by lia.
      change (days_before_month (y + 1) 1) with 0%Z. lia.
  - intros ns'. unfold instant. cbn [t_year t_month t_day t_hour t_min t_sec t_ns t_off]. lia.
  - intros o'. unfold instant. cbn [t_year t_month t_day t_hour t_min t_sec t_ns t_off]. lia.
  - unfold next_second. rewrite <- month_length_spec by done. assert (forall y m, 28 <= days_in y m) as H28.
    { intros y' m'. unfold days_in. destruct (m' =? 2); [destruct (leap y'); lia|]. destruct (_ || _); lia. }
    pose proof (H28 (y + 1) 1). pose proof (H28 y (mo + 1)).
    repeat case_decide; unfold valid_time; cbn [t_year t_month t_day t_hour t_min t_sec t_ns t_off]; intros Hy2; repeat (split; [lia|]); lia.
Qed.
Print Assumptions C60_calendar.
Example C60_calendar_nonvacuous : let t := MkTime 2015 12 31 23 59 59 7 60 in valid_time t /\ next_second t = MkTime 2016 1 1 0 0 0 7 60 /\
  next_second (MkTime 2016 2 28 23 59 59 0 0) = MkTime 2016 2 29 0 0 0 0 0 /\ next_second (MkTime 1900 2 28 23 59 59 0 0) = MkTime 1900 3 1 0 0 0 0 0.
Proof. vm_compute. repeat split; congruence. Qed.
