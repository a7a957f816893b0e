(** Properties C60, C61: profiles and aggregation. *)
From Verif Require Import Base FloatModel IdModel TimeModel ReflModel EventModel EventProps TraceModel TraceSpec ProfModel ProfSpec ProfProofs FloatProofs.
From Coq Require Import ssreflect.
Local Open Scope Z_scope.
Local Open Scope general_if_scope.

(** ** C60: profile times add up *)
(** One entry per span, depth first; the name, the URL, the longest time; the cumulative time and the children's time
    are the sums modulo 2^64 (they are stored in an int64). *)
Theorem C60_profile reg us t prof : calc_profile reg us t = ROk prof ->
  Forall2 (fun s p =>
    pf_name p = (if decide (span_name (tr_anns s) = ""%string) then id_string (sp_span (tr_id s)) else span_name (tr_anns s)) /\
    Some (pf_url p) = (if decide (sp_parent (tr_id s) = 0%N) then u_trace us (sp_trace (tr_id s)) else u_span us (sp_trace (tr_id s)) (sp_span (tr_id s))) /\
    longest reg s (pf_time p) /\
    (exists times, Forall2 (longest reg) (s :: tr_subs s) times /\ pf_children p = int64 (sum times)) /\
    (exists times, Forall2 (longest reg) (subtrees s) times /\ pf_cum p = int64 (sum times)))
    (subtrees t) prof.
Proof.
  intros (-> & Hu & _)%calc_spec. induction Hu as [|s l [u Hu] _ IH]; cbn [map]; constructor; [|exact IH].
  cbn [expected pf_name pf_url pf_time pf_children pf_cum]. split; [|split; [|split; [|split]]].
  - rewrite /prof_name. cbn zeta. by destruct (decide _).
  - rewrite Hu. cbn [default]. rewrite -Hu /url_of. destruct (decide _) as [->|Hne]; [by rewrite N.eqb_refl|].
    by apply N.eqb_neq in Hne as ->.
  - apply own_longest.
  - exists (map (own reg) (s :: tr_subs s)). split; [apply all_own|done].
  - exists (map (own reg) (subtrees s)). split; [apply all_own|done].
Qed.
Print Assumptions C60_profile.
(** No wrapping unless the total exceeds 2^63 - 1 milliseconds (292 million years); then all the sums are exact, and
    never negative. *)
Theorem C60_sums reg us t prof total : calc_profile reg us t = ROk prof ->
  Forall2 (longest reg) (subtrees t) total -> sum total < 2 ^ 63 ->
  Forall2 (fun s p =>
    (exists times, Forall2 (longest reg) (s :: tr_subs s) times /\ pf_children p = sum times) /\
    (exists times, Forall2 (longest reg) (subtrees s) times /\ pf_cum p = sum times) /\
    0 <= pf_time p /\ pf_time p <= pf_children p /\ pf_children p <= pf_cum p)
    (subtrees t) prof.
Proof.
  intros (-> & _ & _)%calc_spec ->%own_all Hs.
  assert (forall s, s ∈ subtrees t -> sum (map (own reg) (subtrees s)) <= sum (map (own reg) (subtrees t))) as Hle.
  { clear. induction t as [i anns subs IH] using tree_ind'. intros s. cbn [subtrees].
    intros [->|Hin]%elem_of_cons; [cbn [subtrees]; lia|]. cbn [map]. rewrite sum_cons. pose proof (own_nonneg reg (Tree i anns subs)).
    enough (sum (map (own reg) (subtrees s)) <= sum (map (own reg) (concat (map subtrees subs)))) by lia.
    clear -IH Hin. induction IH as [|c subs Hc _ IHs]; first by apply elem_of_nil in Hin. cbn [map concat] in Hin |- *. rewrite map_app sum_app.
    pose proof (sum_own_nonneg reg (subtrees c)). pose proof (sum_own_nonneg reg (concat (map subtrees subs))).
    apply elem_of_app in Hin as [Hin|Hin]; [specialize (Hc s Hin); lia|specialize (IHs Hin); lia]. }
  assert (forall s, sum (map (own reg) (s :: tr_subs s)) <= sum (map (own reg) (subtrees s))) as Hsub.
  { intros [i anns subs]. cbn [tr_subs subtrees map]. rewrite !sum_cons. apply Z.add_le_mono_l. clear. induction subs as [|[ci ca cs] subs IH]; first done.
    cbn [map concat subtrees app]. rewrite !sum_cons map_app sum_app. pose proof (sum_own_nonneg reg (concat (map subtrees cs))). lia. }
  revert Hle. generalize (subtrees t) at 1 3 4. intros l Hle. induction l as [|s l IH]; cbn [map]; constructor.
  - cbn [expected pf_name pf_url pf_time pf_children pf_cum]. specialize (Hle s ltac:(left)). specialize (Hsub s).
    pose proof (sum_own_nonneg reg (s :: tr_subs s)). pose proof (sum_own_nonneg reg (subtrees s)). pose proof (sum_own_nonneg reg (tr_subs s)).
    pose proof (own_nonneg reg s). split; [|split; [|split; [done|]]].
    + exists (map (own reg) (s :: tr_subs s)). split; [apply all_own|]. apply int64_small. lia.
    + exists (map (own reg) (subtrees s)). split; [apply all_own|]. apply int64_small. lia.
    + rewrite !int64_small; try lia. cbn [map] in *. rewrite sum_cons in Hsub |- *. lia.
  - apply IH. intros s' Hs'. apply Hle. by right.
Qed.
Print Assumptions C60_sums.
(** With the library's events and a router that has the routes the profile of every trace can be computed. *)
Theorem C60_total us t : (forall i, is_Some (u_trace us i)) -> (forall i j, is_Some (u_span us i j)) ->
  exists reg, register_all library_events = Some reg /\ exists prof, calc_profile reg us t = ROk prof.
Proof.
  intros H1 H2. destruct (C79_library_total []) as (reg & Hreg & _). exists reg. split; [done|].
  destruct (calc_total reg us t) as (p & ps & Hc).
  - intros anns. destruct (C79_library_total anns) as (reg' & Hreg' & H). rewrite Hreg in Hreg'. by injection Hreg' as <-.
  - intros i. rewrite /url_of. destruct (N.eqb _ _); auto.
  - by exists (p :: ps).
Qed.
Print Assumptions C60_total.
(** The rounding in float64: for durations up to 99 days it is the nearest millisecond, halves upwards; for every
    duration it is within half a millisecond and 3 microseconds of it; it is monotone (so that the longest timespan
    gets the largest number) and never positive for a span that ends before it starts. *)
Theorem C60_rounding d : - 2 ^ 63 <= d < 2 ^ 63 ->
  (0 <= d <= 99 * 24 * 3600 * 1000000000 -> exists r, d + 500000 = 1000000 * millis d + r /\ 0 <= r < 1000000) /\
  (0 <= d -> Z.abs (1000000 * millis d - d) <= 500000 + 3000) /\
  (forall d', d <= d' < 2 ^ 63 -> millis d <= millis d') /\
  (d <= 0 -> millis d <= 0).
Proof.
  intros H. split; [|split; [|split]].
  - intros Hd. exists ((d + 500000) mod 1000000). rewrite millis_exact; [lia|].
    split; [apply Z.div_mod; lia|apply Z.mod_pos_bound; lia].
  - intros Hd. apply millis_near. lia.
  - intros d' Hd'. apply millis_mono; lia.
  - intros Hd. apply millis_neg. lia.
Qed.
Print Assumptions C60_rounding.
(** Beyond that the nearest millisecond can be missed: here 499999 ns are rounded up. *)
Example C60_rounding_limit : millis 9007208005499999 = 9007208006. Proof. done. Qed.

Definition c60_us : urls := MkUrls (fun i => Some ("/traces/" +:+ id_string i)%string) (fun i j => Some ("/traces/" +:+ id_string i +:+ "/" +:+ id_string j)%string).
Definition c60_ts (s e : string) : list Annotation := [Ann "S" (Some s); Ann "E" (Some e); Ann "_schema:timespan" None].
Definition c60_trace : tree :=
  Tree (MkSpanID 1 2 0) (Ann "Name" (Some "root") :: Ann "_schema:name" None :: c60_ts "2020-01-01T00:00:00Z" "2020-01-01T00:00:02.5Z")%string
    [Tree (MkSpanID 1 3 2) (Ann "Name" (Some "a") :: Ann "_schema:name" None :: c60_ts "2020-01-01T00:00:00Z" "2020-01-01T00:00:00.0015Z")%string
       [Tree (MkSpanID 1 4 3) (c60_ts "2020-01-01T00:00:00Z" "2020-01-01T00:00:00.001499Z")%string []];
     Tree (MkSpanID 1 5 2) (Ann "Name" (Some "z") :: c60_ts "2020-01-01T00:00:01Z" "2020-01-01T00:00:00Z")%string []].
Example C60_nonvacuous : exists reg, register_all library_events = Some reg /\
  calc_profile reg c60_us c60_trace = ROk
    [MkProfile "root" "/traces/0000000000000001" 2500 2502 2503;
     MkProfile "a" "/traces/0000000000000001/0000000000000003" 2 3 3;
     MkProfile "0000000000000004" "/traces/0000000000000001/0000000000000004" 1 1 1;
     MkProfile "z" "/traces/0000000000000001/0000000000000005" 0 0 0]%string.
Proof. eexists. split; [vm_compute; reflexivity|]. vm_compute. reflexivity. Qed.

(** ** C61: aggregation totals *)
(** One item per label that occurs; its value is the sum of the label's amounts, plus one exactly when the first of
    them is zero. *)
Theorem C61_totals reg us mode traces items times :
  aggregate reg us mode traces (ROk items) ->
  Forall2 (longest reg) (concat (map subtrees traces)) times -> sum times + 1 < 2 ^ 63 ->
  exists profs, Forall2 (fun t prof => calc_profile reg us t = ROk prof) traces profs /\
  NoDup (map fst items) /\
  forall label v, (label, v) ∈ items <->
    exists first rest, amounts label (concat (map (counted mode) profs)) = first :: rest /\ v = first + sum rest + (if decide (first = 0) then 1 else 0).
Proof.
  intros Ha ->%own_all Hs. inversion Ha as [m l Hl Hp| |]; subst. clear Ha.
  apply aggregate_loop_spec in Hl as (profs & Hf & ->). exists profs. split; [done|].
  destruct (all_counted_bound reg us mode traces profs Hf ltac:(lia)) as [Hpos Hsum].
  set (all := concat (map (counted mode) profs)) in *. split.
  { assert (Permutation (map fst items) (map fst (map_to_list (fold_left up all ∅)))) as -> by by apply Permutation_map.
    apply (NoDup_fst_map_to_list (M := gmap string)). }
  intros label v. rewrite Hp elem_of_map_to_list ups_lookup lookup_empty. cbn [default].
  destruct (amounts_bound label all Hpos) as [Hn Hb].
  destruct (amounts label all) as [|a rest] eqn:E.
  - split; [done|]. by intros (? & ? & ? & _).
  - rewrite (bump_zero _ _ Hn ltac:(lia)). split.
    + intros [= <-]. exists a, rest. split; [done|]. destruct (Z.eqb_spec a 0), (decide (a = 0)); lia.
    + intros (a' & rest' & [= <- <-] & ->). f_equal. destruct (Z.eqb_spec a 0), (decide (a = 0)); lia.
Qed.
Print Assumptions C61_totals.
(** Hence every value is positive, as the chart needs. *)
Theorem C61_positive reg us mode traces items times label v :
  aggregate reg us mode traces (ROk items) ->
  Forall2 (longest reg) (concat (map subtrees traces)) times -> sum times + 1 < 2 ^ 63 -> (label, v) ∈ items -> 0 < v.
Proof.
  intros Ha Ht Hs Hin. destruct (C61_totals _ _ _ _ _ _ Ha Ht Hs) as (profs & Hf & _ & H).
  destruct (proj1 (H label v) Hin) as (x & rest & E & Hv). pose proof (own_all _ _ _ Ht) as Hown. rewrite Hown in Hs.
  destruct (all_counted_bound reg us mode traces profs Hf ltac:(lia)) as [Hpos _].
  destruct (amounts_bound label _ Hpos) as [Hn _]. rewrite E in Hn. apply Forall_cons in Hn as [H1 H2%sum_nonneg].
  destruct (decide (x = 0)); lia.
Qed.
Print Assumptions C61_positive.
(** The aggregation fails exactly when the profile of one of the traces does. *)
Theorem C61_total reg us mode traces :
  (exists items, aggregate reg us mode traces (ROk items)) <-> Forall (fun t => exists prof, calc_profile reg us t = ROk prof) traces.
Proof.
  split.
  - intros [items H]. inversion H as [m l Hl _| |]; subst. apply aggregate_loop_spec in Hl as (profs & Hf & _).
    clear -Hf. induction Hf; constructor; eauto.
  - intros H. assert (forall m0, exists m, aggregate_loop reg us mode traces m0 = ROk m) as Hm.
    { induction H as [|t traces [prof Hp] _ IH]=> m0; [by exists m0|]. cbn [aggregate_loop]. rewrite Hp.
      destruct prof as [|p ps]; [|apply IH]. apply calc_spec in Hp as [Hp _]. destruct t. discriminate Hp. }
    destruct (Hm ∅) as [m Hl]. exists (map_to_list m). exact (aggregate_ok _ _ _ _ _ _ Hl (Permutation_refl _)).
Qed.
Print Assumptions C61_total.
(** The mode names; anything else is trace-only. *)
Theorem C61_modes s :
  (parse_agg_mode s = SpanOnly <-> s = "span-only"%string) /\
  (parse_agg_mode s = TraceAndSpan <-> s = "trace-and-span"%string) /\
  (parse_agg_mode s = TraceOnly <-> s <> "span-only"%string /\ s <> "trace-and-span"%string).
Proof.
  rewrite /parse_agg_mode. destruct (decide (s = "span-only"%string)) as [->|H1]; [by repeat split; intros; try tauto|].
  destruct (decide (s = "trace-and-span"%string)) as [->|H2]; repeat split; intros; try tauto; done.
Qed.
Print Assumptions C61_modes.

Example C61_nonvacuous : exists reg, register_all library_events = Some reg /\
  (exists times, Forall2 (longest reg) (concat (map subtrees [c60_trace; c60_trace])) times /\ sum times + 1 < 2 ^ 63) /\
  exists items, aggregate reg c60_us SpanOnly [c60_trace; c60_trace] (ROk items) /\
  ("a"%string, 4) ∈ items /\ ("0000000000000004"%string, 2) ∈ items /\ ("z"%string, 1) ∈ items.
Proof.
  destruct C60_nonvacuous as (reg & Hreg & Hc). exists reg. split; [done|].
  pose proof (calc_spec _ _ _ _ Hc) as (He & _ & _).
  set (times := map (own reg) (concat (map subtrees [c60_trace; c60_trace]))).
  assert (Forall2 (longest reg) (concat (map subtrees [c60_trace; c60_trace])) times) as Ht by apply all_own.
  assert (sum times + 1 < 2 ^ 63) as Hs.
  { rewrite /times. cbn [map concat] in He |- *. rewrite app_nil_r map_app sum_app.
    assert (map (own reg) (subtrees c60_trace) = [2500; 2; 1; 0]) as ->; [|done].
    change (own reg) with (fun s => pf_time (expected reg c60_us s)). rewrite -(map_map (expected reg c60_us) pf_time) -He. done. }
  split; [by exists times|].
  assert (exists items, aggregate reg c60_us SpanOnly [c60_trace; c60_trace] (ROk items)) as [items Ha].
  { apply C61_total. repeat (apply Forall_cons; split; [eexists; exact Hc|]). by apply Forall_nil. }
  exists items. split; [done|]. destruct (C61_totals _ _ _ _ _ _ Ha Ht Hs) as (profs & Hf & _ & H).
  inversion Hf as [|? p1 ? ? E1 Hf']; subst. inversion Hf' as [|? p2 ? ? E2 Hf'']; subst. inversion Hf''; subst.
  rewrite Hc in E1, E2. injection E1 as <-. injection E2 as <-.
  split; [apply H; exists 2, [2]|split; [apply H; exists 1, [1]|apply H; exists 0, [0]]]; (split; [reflexivity|done]).
Qed.
