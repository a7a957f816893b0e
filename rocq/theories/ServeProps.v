(** Properties C101 and C104 (the serve command). *)
From Verif Require Import Base MemModel MemSpec MemProofs MemProofs2 MemProofs4 MemWeak PersistModel PersistProofs RecentModel RecentSpec RecentProofs ServeModel.
From Coq Require Import ssreflect.
Local Open Scope general_if_scope.
Local Open Scope Z_scope.

(** * C101 *)
Lemma reads_kept h h' t : (forall l i, ids h l = Some i -> sp_trace i = t -> h' !! l = h !! l) ->
  forall tr l, reads h l tr -> (forall n, In n (nodes tr) -> sp_trace (tr_id n) = t) -> reads h' l tr.
Proof.
  intros Hk. induction tr as [i a ts IH] using tree_ind'. intros l Hr Ht. inversion Hr as [l0 n ts0 Hl Hs]; subst.
  econstructor.
  - rewrite (Hk l (nd_id n)); [by rewrite /ids Hl|exact (Ht (Tree (nd_id n) (nd_ann n) ts) (or_introl eq_refl))|done].
  - clear Hr Hl. revert IH Ht. induction Hs as [|x tr1 xs trs Hx _ IHs]; intros IH Ht; [constructor|]. inversion IH as [|? ? IH1 IH2]; subst.
    constructor.
    + apply IH1; [done|]. intros m Hm. apply Ht. right. cbn [flat_map nodes]. apply in_flat_map. exists tr1. split; [by left|done].
    + apply IHs; [done|]. intros m [<-|Hm]; [exact (Ht (Tree (nd_id n) (nd_ann n) (tr1 :: trs)) (or_introl eq_refl))|].
      apply Ht. right. apply in_flat_map in Hm as (y & Hy & Hm). apply in_flat_map. exists y. split; [by right|done].
Qed.

Lemma run_other calls st st' t : weak_ok st -> ms_run calls st = Some st' ->
  (forall id a, In (CCollect id a) calls -> sp_trace id <> t) -> (forall ts, In (CDelete ts) calls -> ~ In t ts) ->
  ms_trace_of st' t = ms_trace_of st t /\
  (forall l i, ids (ms_heap st) l = Some i -> sp_trace i = t -> ms_heap st' !! l = ms_heap st !! l).
Proof.
  revert st. induction calls as [|c calls IH]; intros st Hw; [by intros [= ->]|]. cbn [ms_run]. intros Hr Hc Hd.
  destruct c as [id a|ts]; cbn [ms_step] in Hr.
  - destruct (collect_weak st id a Hw) as (st1 & E & Hw1 & We). rewrite E in Hr. cbn [mbind option_bind] in Hr.
    assert (sp_trace id <> t) as Hne by (apply (Hc id a); by left).
    destruct (IH st1 Hw1 Hr) as [H1 H2]; [intros id' a' ?; apply (Hc id' a'); by right|intros ts' ?; apply (Hd ts'); by right|]. split.
    + rewrite H1. apply (we_trace _ _ _ We). congruence.
    + intros l i Hi Hit. assert (ms_heap st1 !! l = ms_heap st !! l) as E1 by (apply (we_nodes _ _ _ We l i Hi); congruence).
      rewrite -E1. apply (H2 l i); [|done]. by rewrite /ids E1.
  - cbn [mbind option_bind] in Hr. destruct (IH _ (delete_weak st ts Hw) Hr) as [H1 H2]; [intros id' a' ?; apply (Hc id' a'); by right|intros ts' ?; apply (Hd ts'); by right|].
    destruct (delete_lookup ts st t) as (Eh & _ & Et & _). rewrite Eh in H2. split; [|done].
    rewrite H1 /ms_trace_of Et. rewrite bool_decide_eq_false_2; [|done]. intros Hin. apply (Hd ts); [by left|by apply elem_of_list_In].
Qed.

(** A server restarted from a store file: how the previous store got there does not matter. *)
Definition restarts (before : list call) (st : MS) (d : gob_data) : Prop := ms_run before ms_init = Some st /\ ms_writes st d.
Lemma start_weak before st d : restarts before st d -> weak_ok (serve_store (Some d)).
Proof.
  intros [H1 H2]. rewrite /serve_store. destruct (ms_read_from d ms_init) as [st' n] eqn:E.
  exact (restored_weak before st [] ms_init d st' n H1 H2 eq_refl E).
Qed.
Lemma gob_ids tr : map tr_id (nodes (gob_tree tr)) = map tr_id (nodes tr).
Proof.
  induction tr as [i a ts IH] using tree_ind'. cbn [gob_tree nodes map tr_id]. f_equal.
  induction ts as [|x ts IHt]; [done|]. inversion IH as [|? ? H1 H2]; subst. cbn [map flat_map]. rewrite !map_app H1. f_equal. by apply IHt.
Qed.
Lemma shown_trace before st t tr : ms_run before ms_init = Some st -> shows st t tr -> forall n, In n (nodes tr) -> sp_trace (tr_id n) = t.
Proof.
  intros Hrun Hs n Hn. destruct (trace_displayed_any before st t tr Hrun Hs) as [Hd _]. pose proof (d_from _ _ Hd n Hn) as Hin.
  apply first_ids_in in Hin as [a Ha]. by apply (live_traces t before [] ltac:(done) (tr_id n, a)).
Qed.

Lemma calls_of age h rs pend dn c : rs_exec age h rs pend dn -> In c dn ->
  match c with CCollect id _ => exists e, In e h /\ re_id e = id
             | CDelete ts => exists e, In e h /\ re_ev e = ts end.
Proof.
  intros He Hc. destruct (exec_run _ _ _ _ _ He) as [_ Hp]. assert (In c (prompt h)) as Hin.
  { apply (Permutation_in _ Hp). apply in_app_iff. by left. }
  rewrite /prompt in Hin. apply in_concat in Hin as (l & Hl & Hin). apply in_map_iff in Hl as (e & <- & He').
  rewrite /actions /evict_calls in Hin. apply in_app_iff in Hin as [Hin|[<-|[]]]; [|by exists e].
  destruct (re_ev e) eqn:E; [done|]. destruct Hin as [<-|[]]. by exists e.
Qed.

(** C101 is false: a trace restored from the store file for which nothing more is collected is kept, and
    shown unchanged, for any MinEvictAge, however many calls the server handles and whatever time passes. *)
Theorem C101_restored_kept : forall before st d after h ms t tr,
  restarts before st d -> serves after (Some d) h ms -> shows (serve_store (Some d)) t tr ->
  (forall e, In e h -> sp_trace (re_id e) <> t) -> shows ms t tr.
Proof.
  intros before st d after h ms t tr Hres Hs (l & Hl & Hrd) Hno. pose proof (start_weak _ _ _ Hres) as Hw.
  assert (exists dn, ms_run dn (serve_store (Some d)) = Some ms /\ (forall id a, In (CCollect id a) dn -> sp_trace id <> t) /\
    (forall ts, In (CDelete ts) dn -> ~ In t ts)) as (dn & Hrun & H1 & H2).
  { inversion Hs as [rs pend dn Hpos Hex Hrun|Hneg Hrun]; subst.
    - exists dn. split_and!; [done| |].
      + intros id a Hin. destruct (calls_of _ _ _ _ _ _ Hex Hin) as (e & He & <-). by apply Hno.
      + intros ts Hin Ht. destruct (calls_of _ _ _ _ _ _ Hex Hin) as (e & He & <-).
        destruct (exec_run _ _ _ _ _ Hex) as [Hrr _]. apply in_split in He as (h1 & h2 & ->).
        destruct (evicted_old _ _ _ _ _ _ Hrr Ht) as (x & Hx & _). apply first_seen_at_event in Hx as (e0 & He0 & Ht0 & _).
        apply (Hno e0); [|done]. apply in_app_iff in He0 as [?|[<-|[]]]; apply in_app_iff; [by left|right; by left].
    - exists (map (fun e => CCollect (re_id e) (re_anns e)) h). split_and!; [done| |].
      + intros id a (e & [= <- <-] & He)%in_map_iff. by apply Hno.
      + by intros ts (e & ? & _)%in_map_iff. }
  destruct (run_other dn _ ms t Hw Hrun H1 H2) as [Ht Hh]. exists l. split; [by rewrite Ht|].
  refine (reads_kept (ms_heap (serve_store (Some d))) _ t Hh tr l Hrd _).
  destruct Hres as [Hb Hwr]. rewrite /serve_store in Hl, Hrd. destruct (ms_read_from d ms_init) as [st1 n] eqn:E. cbn [fst] in *.
  destruct (restored_same before st [] ms_init d st1 n Hb Hwr eq_refl E) as (_ & _ & Hsame).
  destruct (proj1 (Hsame t tr) (ex_intro _ l (conj Hl Hrd))) as (tr0 & Hs0 & ->).
  intros m Hm. assert (In (tr_id m) (map tr_id (nodes tr0))) as Hin by (rewrite -gob_ids; by apply in_map).
  apply in_map_iff in Hin as (m0 & <- & Hm0). exact (shown_trace before st t tr0 Hb Hs0 m0 Hm0).
Qed.
Print Assumptions C101_restored_kept.
(** ... so that with --delete-after=10 a trace of the previous server is still shown although every call of
    the last 11 time units, and an eviction pass at their end, came after it. *)
Theorem C101_refuted : exists before st d h ms t tr, restarts before st d /\ serves 10 (Some d) h ms /\ clocks_ok h /\
  shows (serve_store (Some d)) t tr /\ shows ms t tr /\
  exists e0 e, In e0 h /\ In e h /\ re_ran e = true /\ ck_seen (re_clock e0) + 10 < ck_now (re_clock e).
Proof.
  set (before := [CCollect (MkSpanID 9 1 0) []]).
  assert (forall t, acyclic (spans_of (live t before []))) as Hac.
  { intros t. exists N.to_nat. intros c p Hc _ E. assert (sp_parent c < sp_span c)%N; [|lia]. rewrite /before in Hc. cbn [live sp_trace app] in Hc.
    destruct (N.eqb_spec 9 t) as [<-|]; [|done]. cbn in Hc. destruct Hc as [<-|[]]. cbn [sp_parent sp_span]. lia. }
  destruct (write_ends before (final before) (final_run _) Hac) as [d Hd].
  assert (restarts before (final before) d) as Hres by (split; [apply final_run|done]).
  destruct wit27_run as [rs Hrs]. pose proof (exec_prompt _ _ _ Hrs) as Hex.
  destruct (run_weak (prompt wit27) _ (start_weak _ _ _ Hres)) as (ms & Hms & _).
  assert (serves 10 (Some d) wit27 ms) as Hsv by (exact (Serves_recent 10 _ _ _ rs [] (prompt wit27) ltac:(lia) Hex Hms)).
  assert (shows (serve_store (Some d)) 9 (Tree (MkSpanID 9 1 0) [] [])) as Hsh.
  { rewrite /serve_store. destruct (ms_read_from d ms_init) as [st1 n] eqn:E.
    destruct (restored_same before _ [] ms_init d st1 n (final_run _) Hd eq_refl E) as (_ & _ & H). apply H.
    exists (Tree (MkSpanID 9 1 0) [] []). split; [apply (shown_by 9); vm_compute; reflexivity|reflexivity]. }
  exists before, (final before), d, wit27, ms, 9%N, (Tree (MkSpanID 9 1 0) [] []).
  split_and!; [done|done| |done| |].
  - vm_compute. intuition discriminate.
  - apply (C101_restored_kept before (final before) d 10 wit27 ms 9); [done..|].
    intros e He. cbn in He. intuition (subst; done).
  - exists (MkRev (MkSpanID 1 1 0) [] (at_time 0) true []), (MkRev (MkSpanID 2 1 0) [] (at_time 11) true [1%N]).
    split_and!; [by left|right; right; by left|done|by vm_compute].
Qed.
Print Assumptions C101_refuted.

(** C101, what holds: a trace for which something was collected since the server started, more than the age
    ago, is gone after the next pass, when each call's actions run before the next call; unless the very call
    collected for it.  Missing: traces only restored (C101_restored_kept); other schedules: C101_schedules_partial. *)
Theorem C101_collected_partial : forall before st d after h e rs ms t x, restarts before st d -> 0 < after ->
  rs_run after (h ++ [e]) rs -> ms_run (prompt (h ++ [e])) (serve_store (Some d)) = Some ms ->
  after < match last_pass h with None => 2 ^ 63 - 1 | Some l => ck_since (re_clock e) - l end ->
  first_seen_at t h e = Some x -> x + after < ck_now (re_clock e) -> sp_trace (re_id e) <> t ->
  serves after (Some d) (h ++ [e]) ms /\ ms_trace_of ms t = None.
Proof.
  intros before st d after h e rs ms t x Hres Hpos Hrs Hms Hdue Hx Hold Hne.
  split; [exact (Serves_recent after _ _ _ rs [] _ Hpos (exec_prompt _ _ _ Hrs) Hms)|].
  destruct (eviction_complete after h e [] rs Hrs) as (H1 & H2 & _). apply H1 in Hdue. specialize (H2 Hdue t x Hx ltac:(lia)).
  rewrite /prompt map_app concat_app in Hms. cbn [map concat] in Hms. rewrite app_nil_r in Hms.
  destruct (run_weak (prompt h) _ (start_weak _ _ _ Hres)) as (ms1 & E1 & Hw1).
  rewrite ms_run_app in Hms. rewrite /prompt in E1. rewrite E1 in Hms. cbn [mbind option_bind] in Hms. rewrite /actions /evict_calls in Hms.
  destruct (re_ev e) as [|y ev]; [done|]. cbn [app ms_run ms_step mbind option_bind] in Hms.
  destruct (collect_weak _ (re_id e) (re_anns e) (delete_weak ms1 (y :: ev) Hw1)) as (ms2 & E2 & _ & We). rewrite E2 in Hms. cbn [mbind option_bind] in Hms.
  injection Hms as <-. rewrite /ms_trace_of (we_trace _ _ _ We); [congruence|]. destruct (delete_lookup (y :: ev) ms1 t) as (_ & _ & -> & _).
  rewrite bool_decide_eq_true_2; [|done]. by apply elem_of_list_In.
Qed.
Print Assumptions C101_collected_partial.

Lemma run_none calls st st' t : weak_ok st -> ms_trace_of st t = None -> ms_run calls st = Some st' ->
  (forall id a, In (CCollect id a) calls -> sp_trace id <> t) -> ms_trace_of st' t = None.
Proof.
  revert st. induction calls as [|c calls IH]; intros st Hw H0; [by intros [= <-]|]. cbn [ms_run]. intros Hr Hc.
  destruct c as [id a|ts]; cbn [ms_step] in Hr.
  - destruct (collect_weak st id a Hw) as (st1 & E & Hw1 & We). rewrite E in Hr. cbn [mbind option_bind] in Hr.
    apply (IH st1 Hw1); [|done|intros id' a' ?; apply (Hc id' a'); by right].
    rewrite -H0. apply (we_trace _ _ _ We). pose proof (Hc id a (or_introl eq_refl)). congruence.
  - cbn [mbind option_bind] in Hr. apply (IH _ (delete_weak st ts Hw)); [|done|intros id' a' ?; apply (Hc id' a'); by right].
    destruct (delete_lookup ts st t) as (_ & _ & Et & _). rewrite /ms_trace_of Et. by destruct (bool_decide _).
Qed.
(** The same for every schedule: the pass of any call [e] decides on the deletion, which is made or still to be made; once it is made, the trace is
    gone, if all its spans were stored by then, and as long as no more are. *)
Theorem C101_schedules_partial : forall before st d after h1 e h2 rs pend dn t x, restarts before st d ->
  rs_exec after (h1 ++ e :: h2) rs pend dn ->
  after < match last_pass h1 with None => 2 ^ 63 - 1 | Some l => ck_since (re_clock e) - l end ->
  first_seen_at t h1 e = Some x -> x + after < ck_now (re_clock e) ->
  In t (re_ev e) /\ In (CDelete (re_ev e)) (dn ++ pend) /\
  forall dn1 dn2 ms, dn = dn1 ++ CDelete (re_ev e) :: dn2 -> ms_run dn (serve_store (Some d)) = Some ms ->
    (forall id a, In (CCollect id a) dn2 -> sp_trace id <> t) -> ms_trace_of ms t = None.
Proof.
  intros before st d after h1 e h2 rs pend dn t x Hres Hx Hdue Hfs Hold. destruct (exec_run _ _ _ _ _ Hx) as [Hrs Hp].
  destruct (eviction_complete after h1 e h2 rs Hrs) as (H1 & H2 & _). apply H1 in Hdue. specialize (H2 Hdue t x Hfs ltac:(lia)).
  split; [done|]. split.
  - apply (Permutation_in _ (Permutation_sym Hp)). rewrite /prompt map_app concat_app. apply in_app_iff. right. cbn [map concat]. apply in_app_iff. left.
    rewrite /actions /evict_calls. destruct (re_ev e); [done|by left].
  - intros dn1 dn2 ms -> Hms Hlate. rewrite ms_run_app in Hms. destruct (run_weak dn1 _ (start_weak _ _ _ Hres)) as (ms1 & E1 & Hw1).
    rewrite E1 in Hms. cbn [mbind option_bind ms_run ms_step] in Hms. apply (run_none dn2 _ ms t (delete_weak ms1 (re_ev e) Hw1)); [|done|done].
    destruct (delete_lookup (re_ev e) ms1 t) as (_ & _ & Et & _). rewrite /ms_trace_of Et.
    rewrite bool_decide_eq_true_2; [by apply elem_of_list_In|done].
Qed.
Print Assumptions C101_schedules_partial.
(** The condition is needed, also without a store file: a span stored after its trace's deletion keeps the trace, long after its age and with nothing
    left to be done. *)
Theorem C101_late_refuted : exists after h e rs dn ms t x, rs_exec after (h ++ [e]) rs [] dn /\ clocks_ok (h ++ [e]) /\
  after < match last_pass h with None => 2 ^ 63 - 1 | Some l => ck_since (re_clock e) - l end /\
  first_seen_at t h e = Some x /\ x + after < ck_now (re_clock e) /\ sp_trace (re_id e) <> t /\
  rs_created rs !! t = None /\ ms_run dn (serve_store None) = Some ms /\ ms_trace_of ms t <> None.
Proof.
  assert (exists s1 s2 s3, rs_step 10 (at_time 0) (MkSpanID 1 1 0) rs_init true [] s1 /\ rs_step 10 (at_time 9) (MkSpanID 1 2 1) s1 false [] s2 /\
    rs_step 10 (at_time 11) (MkSpanID 2 1 0) s2 true [1%N] s3 /\ rs_created s3 !! 1%N = None) as (s1 & s2 & s3 & H1 & H2 & H3 & Hc).
  { do 3 eexists. split; [eapply (RS_evict _ _ _ _ _ _ []); [by vm_compute|reflexivity|vm_compute; reflexivity]|]. split; [eapply RS_quiet; by vm_compute|].
    split; [eapply RS_evict; [by vm_compute|reflexivity|vm_compute; reflexivity]|]. by vm_compute. }
  pose proof (RX_call 10 _ _ _ _ (MkRev (MkSpanID 1 1 0) [] (at_time 0) true []) s1 (RX_nil 10) H1) as K. cbn [app actions evict_calls re_ev re_id re_anns] in K.
  apply (RX_act 10 _ _ [] _ [] _) in K. cbn [app] in K.
  apply (RX_call 10 _ _ _ _ (MkRev (MkSpanID 1 2 1) [] (at_time 9) false []) s2) in K; [|exact H2]. cbn [app actions evict_calls re_ev re_id re_anns] in K.
  apply (RX_call 10 _ _ _ _ (MkRev (MkSpanID 2 1 0) [] (at_time 11) true [1%N]) s3) in K; [|exact H3]. cbn [app actions evict_calls re_ev re_id re_anns] in K.
  apply (RX_act 10 _ _ [_] _ [_] _) in K. cbn [app] in K. apply (RX_act 10 _ _ [] _ [_] _) in K. cbn [app] in K. apply (RX_act 10 _ _ [] _ [] _) in K. cbn [app] in K.
  exists 10, [MkRev (MkSpanID 1 1 0) [] (at_time 0) true []; MkRev (MkSpanID 1 2 1) [] (at_time 9) false []], (MkRev (MkSpanID 2 1 0) [] (at_time 11) true [1%N]), s3.
  eexists. eexists. exists 1%N, 0. split; [exact K|]. split; [cbn; rewrite /clock_ok; cbn; lia|]. split; [by vm_compute|]. split; [done|]. split; [by vm_compute|].
  split; [done|]. split; [done|]. split; [apply final_run|]. vm_compute. discriminate.
Qed.
Print Assumptions C101_late_refuted.
Example C101_schedules_nonvacuous : exists before st d h1 e h2 rs dn1 dn2 ms, restarts before st d /\
  rs_exec 10 (h1 ++ e :: h2) rs [] (dn1 ++ CDelete (re_ev e) :: dn2) /\
  10 < match last_pass h1 with None => 2 ^ 63 - 1 | Some l => ck_since (re_clock e) - l end /\
  first_seen_at 1 h1 e = Some 0 /\ 0 + 10 < ck_now (re_clock e) /\
  ms_run (dn1 ++ CDelete (re_ev e) :: dn2) (serve_store (Some d)) = Some ms /\ length dn1 = 2%nat /\ length dn2 = 1%nat /\
  (forall id a, In (CCollect id a) dn2 -> sp_trace id <> 1%N).
Proof.
  destruct C101_refuted as (before & st & d & _ & _ & _ & _ & Hres & _). destruct wit27_run as [rs Hrs].
  destruct (run_weak (prompt wit27) _ (start_weak _ _ _ Hres)) as (ms & Hms & _).
  exists before, st, d, [MkRev (MkSpanID 1 1 0) [] (at_time 0) true []; MkRev (MkSpanID 1 2 1) [] (at_time 9) false []], (MkRev (MkSpanID 2 1 0) [] (at_time 11) true [1%N]), [], rs.
  exists [CCollect (MkSpanID 1 1 0) []; CCollect (MkSpanID 1 2 1) []], [CCollect (MkSpanID 2 1 0) []], ms.
  split; [done|]. split; [exact (exec_prompt _ _ _ Hrs)|]. split_and!; [by vm_compute|done|by vm_compute|exact Hms|done|done|].
  intros id a [[= <- <-]|[]]. done.
Qed.
Example C101_nonvacuous : exists before st d rs ms e h, restarts before st d /\ wit27 = h ++ [e] /\ rs_run 10 (h ++ [e]) rs /\
  ms_run (prompt (h ++ [e])) (serve_store (Some d)) = Some ms /\
  10 < match last_pass h with None => 2 ^ 63 - 1 | Some l => ck_since (re_clock e) - l end /\
  first_seen_at 1 h e = Some 0 /\ 0 + 10 < ck_now (re_clock e) /\ sp_trace (re_id e) <> 1%N.
Proof.
  destruct C101_refuted as (before & st & d & _ & _ & _ & _ & Hres & _). destruct wit27_run as [rs Hrs].
  destruct (run_weak (prompt wit27) _ (start_weak _ _ _ Hres)) as (ms & Hms & _).
  exists before, st, d, rs, ms, (MkRev (MkSpanID 2 1 0) [] (at_time 11) true [1%N]),
    [MkRev (MkSpanID 1 1 0) [] (at_time 0) true []; MkRev (MkSpanID 1 2 1) [] (at_time 9) false []].
  split_and!; try done.
Qed.

(** With --delete-after=0, or less, nothing is ever deleted: every trace of the store file and every trace collected
    is found, whatever the server has collected. *)
Definition rooted (st : MS) : Prop := forall t, is_Some (ms_span st !! t) -> is_Some (ms_trace st !! t).
Lemma rooted_run calls st : ms_run calls ms_init = Some st -> rooted st.
Proof.
  intros Hrun t [M HM]. destruct (run_state calls st Hrun) as [Hok Habs]. specialize (Habs t). rewrite /abs_trace HM in Habs.
  destruct Habs as (_ & _ & _ & (r & Hr & _)). by exists r.
Qed.
Lemma rooted_start before st d : restarts before st d -> rooted (serve_store (Some d)).
Proof.
  intros [H1 [W1 W2]] t Ht. rewrite /serve_store in Ht |- *. destruct (ms_read_from d ms_init) as [st' n] eqn:E. cbn [fst] in *.
  destruct (read_from_ok d ms_init st' n) as (_ & R1 & R2 & _); [|done|].
  { intros l Hl. by apply (w_fresh _ weak_init). }
  specialize (R1 t). specialize (R2 t). specialize (W1 t). specialize (W2 t).
  assert (is_Some (ms_span st !! t)) as Hs.
  { destruct Ht as [M HM]. rewrite HM in R2. inversion R2 as [D M' HR E1 E2|]; subst. rewrite -E1 in W2. inversion W2 as [S D' HR' E3 E4|]. by exists S. }
  apply (rooted_run _ _ H1) in Hs as [r Hr]. rewrite Hr in W1. inversion W1 as [r' tr HR E1 E2|]; subst. rewrite -E2 in R1. inversion R1 as [tr' l' HR' E3 E4|]. by exists l'.
Qed.
Lemma rooted_collect st id a st' : rooted st -> ms_collect id a st = Some st' -> rooted st' /\ is_Some (ms_trace st' !! sp_trace id).
Proof.
  intros Hr. rewrite /ms_collect. set (spans0 := match ms_span st !! sp_trace id with Some _ => _ | None => _ end).
  assert (forall t, t <> sp_trace id -> spans0 !! t = ms_span st !! t) as H0.
  { intros t Hne. rewrite /spans0. destruct (ms_span st !! sp_trace id); [done|]. rewrite lookup_insert_ne; [congruence|done]. }
  destruct (spans0 !! sp_trace id) as [S0|] eqn:ES; [|done]. cbn [mbind option_bind].
  destruct (S0 !! sp_span id) as [s|] eqn:Es.
  - destruct (ms_heap st !! s) as [n|]; [|done]. cbn [mbind option_bind]. intros [= <-]. cbn [ms_trace].
    assert (is_Some (ms_trace st !! sp_trace id)) as Ht.
    { apply Hr. rewrite /spans0 in ES. destruct (ms_span st !! sp_trace id); [done|]. rewrite lookup_insert in ES. injection ES as <-. by rewrite lookup_empty in Es. }
    split; [|done]. intros t. cbn [ms_span ms_trace]. destruct (decide (t = sp_trace id)) as [->|Hne]; [done|]. rewrite H0 //. apply Hr.
  - intros H. assert (forall tr, (forall t, t <> sp_trace id -> tr !! t = ms_trace st !! t) -> is_Some (tr !! sp_trace id) -> ms_trace st' = tr -> ms_span st' = <[sp_trace id := <[sp_span id := ms_next st]> S0]> spans0 ->
      rooted st' /\ is_Some (ms_trace st' !! sp_trace id)) as Hfin.
    { intros tr K1 K2 E1 E2. rewrite /rooted E1 E2. split; [|done]. intros t. destruct (decide (t = sp_trace id)) as [->|Hne]; [done|].
      rewrite lookup_insert_ne; [congruence|]. rewrite (H0 _ Hne) (K1 _ Hne). apply Hr. }
    repeat (let x := fresh "x" in let E := fresh "E" in match type of H with
      | (?m ≫= _) = Some _ => destruct m as [x|] eqn:E; [cbn [mbind option_bind] in H|done]
      | (let '(_, _) := ?y in _) = Some _ => destruct y
      end).
    injection H as <-. cbn [ms_trace ms_span] in Hfin.
    assert (g0 = <[sp_trace id := ms_next st]> (match ms_trace st !! sp_trace id with Some _ => ms_trace st | None => <[sp_trace id:=ms_next st]> (ms_trace st) end) \/
            g0 = match ms_trace st !! sp_trace id with Some _ => ms_trace st | None => <[sp_trace id:=ms_next st]> (ms_trace st) end) as Hg.
    { match goal with E : (if ?b then _ else Some (_, _, _)) = Some (_, g0, _) |- _ => destruct b; [|right; congruence]; left;
        repeat match type of E with (?m ≫= _) = Some _ => destruct m; [cbn [mbind option_bind] in E|done] end; congruence end. }
    apply (Hfin g0); [| |done..].
    + intros t Hne. destruct Hg as [-> | ->]; rewrite ?lookup_insert_ne; try congruence; destruct (ms_trace st !! sp_trace id); rewrite ?lookup_insert_ne; congruence.
    + destruct Hg as [-> | ->]; [rewrite lookup_insert; by eexists|]. destruct (ms_trace st !! sp_trace id) eqn:Et; [rewrite Et; by eexists|rewrite lookup_insert; by eexists].
Qed.
Theorem C101_forever : forall before st d after h, restarts before st d -> after <= 0 ->
  exists ms, serves after (Some d) h ms /\ forall ms', serves after (Some d) h ms' ->
    (forall t, ms_trace_of (serve_store (Some d)) t <> None -> ms_trace_of ms' t <> None) /\
    (forall e, In e h -> ms_trace_of ms' (sp_trace (re_id e)) <> None).
Proof.
  intros before st d after h Hres Hle. pose proof (start_weak _ _ _ Hres) as Hw.
  destruct (run_weak (map (fun e => CCollect (re_id e) (re_anns e)) h) _ Hw) as (ms & Hms & _).
  exists ms. split; [by apply Serves_all|]. intros ms' Hs. inversion Hs as [rs pend dn Hpos|_ Hrun]; [lia|].
  pose proof (rooted_start _ _ _ Hres) as Hr. clear -Hw Hr Hrun. revert Hw Hr Hrun. generalize (serve_store (Some d)). induction h as [|e h IH]; intros st Hw Hr Hrun.
  - injection Hrun as <-. by split.
  - cbn [map ms_run ms_step] in Hrun. destruct (collect_weak st (re_id e) (re_anns e) Hw) as (st1 & E & Hw1 & We). rewrite E in Hrun. cbn [mbind option_bind] in Hrun.
    destruct (rooted_collect _ _ _ _ Hr E) as [Hr1 [r Hf]]. destruct (IH st1 Hw1 Hr1 Hrun) as [H1 H2]. split.
    + intros t Ht. apply H1. destruct (decide (t = sp_trace (re_id e))) as [->|Hne]; [by rewrite /ms_trace_of Hf|]. by rewrite /ms_trace_of (we_trace _ _ _ We).
    + intros x [<- | Hx]; [apply H1; by rewrite /ms_trace_of Hf|by apply H2].
Qed.
Print Assumptions C101_forever.

(** * C104 *)
(** Network addresses: host:port, or [host]:port for hosts that contain colons. *)
Definition plain (l : list ascii) : Prop := ~ In "["%char l /\ ~ In "]"%char l.
Definition address (addr host port : list ascii) : Prop :=
  plain host /\ plain port /\ ~ In ":"%char port /\
  ((~ In ":"%char host /\ addr = host ++ ":"%char :: port) \/ addr = "["%char :: host ++ "]"%char :: ":"%char :: port).

Lemma cut_last_some c l a b : cut_last c l = Some (a, b) <-> l = a ++ c :: b /\ ~ In c b.
Proof.
  revert a b. induction l as [|x l IH]; intros a b; cbn [cut_last].
  - split; [done|]. intros [H _]. by destruct a.
  - destruct (cut_last c l) as [[a1 b1]|] eqn:E.
    + destruct (proj1 (IH a1 b1) eq_refl) as [El Hn]. split.
      * intros [= <- <-]. by rewrite El.
      * intros [H Hb]. destruct a as [|y a].
        -- injection H as -> ->. exfalso. apply Hb. rewrite El. apply in_app_iff. right. by left.
        -- injection H as -> H. assert (Some (a1, b1) = Some (a, b)) as [= -> ->]; [by apply IH|done].
    + destruct (Ascii.eqb_spec x c) as [->|Hne].
      * split.
        -- intros [= <- <-]. split; [done|]. intros Hin. apply in_split in Hin as (p & q & Hpq).
           assert (exists p q, l = p ++ c :: q /\ ~ In c q) as (p' & q' & Hl & Hq).
           { clear -Hpq. subst l. revert p. induction q as [|y q IH] using rev_ind; intros p.
             - exists p, []. split; [done|]. intros [].
             - destruct (Ascii.eqb_spec y c) as [->|Hy].
               + exists (p ++ c :: q), []. split; [by rewrite -app_assoc|]. intros [].
               + destruct (IH p) as (p' & q' & H1 & H2). exists p', (q' ++ [y]).
                 split; [change (p ++ c :: q ++ [y]) with (p ++ (c :: q) ++ [y]); rewrite app_assoc H1 -app_assoc; done|].
                 intros [?|[?|[]]]%in_app_iff; [done|congruence]. }
           assert (None = Some (p', q')) as Hbad by (apply IH; done). done.
        -- intros [H Hb]. destruct a as [|y a]; [injection H as ->; done|]. injection H as -> H.
           assert (None = Some (a, b)) as Hbad; [by apply IH|done].
      * split; [done|]. intros [H Hb]. destruct a as [|y a]; [injection H; congruence|]. injection H as -> H.
        assert (None = Some (a, b)) as Hbad by (apply IH; done). done.
Qed.
Lemma cut_first_some c l a b : cut_first c l = Some (a, b) <-> l = a ++ c :: b /\ ~ In c a.
Proof.
  revert a b. induction l as [|x l IH]; intros a b; cbn [cut_first].
  - split; [done|]. intros [H _]. by destruct a.
  - destruct (Ascii.eqb_spec x c) as [->|Hne].
    + split; [intros [= <- <-]; split; [done|intros []]|]. intros [H Ha]. destruct a as [|y a]; [by injection H as ->|].
      injection H as -> H. exfalso. apply Ha. by left.
    + destruct (cut_first c l) as [[a1 b1]|] eqn:E.
      * destruct (proj1 (IH a1 b1) eq_refl) as [El Hn]. split.
        -- intros [= <- <-]. split; [by rewrite El|]. intros [?|?]; congruence.
        -- intros [H Ha]. destruct a as [|y a]; [injection H; congruence|]. injection H as -> H.
           assert (Some (a1, b1) = Some (a, b)) as [= -> ->]; [|done]. apply IH. split; [done|]. intros ?. apply Ha. by right.
      * split; [done|]. intros [H Ha]. destruct a as [|y a]; [injection H; congruence|]. injection H as -> H.
        assert (None = Some (a, b)) as Hbad; [|done]. apply IH. split; [done|]. intros ?. apply Ha. by right.
Qed.
Lemma has_false c l : has c l = false <-> ~ In c l.
Proof.
  rewrite /has. destruct (cut_first c l) as [[a b]|] eqn:E.
  - apply cut_first_some in E as [-> _]. split; [done|]. intros H. exfalso. apply H. apply in_app_iff. right. by left.
  - split; [|done]. intros _ Hin. induction l as [|x l IH]; [done|]. cbn [cut_first] in E. destruct (Ascii.eqb_spec x c); [done|].
    destruct (cut_first c l) as [[? ?]|]; [done|]. destruct Hin; [done|]. by apply IH.
Qed.

Lemma split_spec addr host port : split_host_port addr = Some (host, port) <-> address addr host port.
Proof.
  rewrite /split_host_port /address /plain. split.
  - destruct (cut_last ":" addr) as [[before p]|] eqn:E; [|done]. apply cut_last_some in E as [E Hp].
    assert (addr <> [] ) as Hne by (rewrite E; by destruct before). destruct addr as [|x rest]; [done|].
    destruct (Ascii.eqb_spec x "[") as [->|Hx].
    + destruct (cut_first "]" rest) as [[h after]|] eqn:E1; [|done]. apply cut_first_some in E1 as [E1 Hh].
      destruct (decide _) as [Hlen|]; [|done]. destruct (has "[" rest) eqn:E2; [done|]. destruct (has "]" after) eqn:E3; [done|]. cbn [orb].
      intros [= -> ->]. apply has_false in E2, E3. rewrite E1 in E E2.
      assert ("["%char :: host ++ ["]"%char] = before /\ after = ":"%char :: port) as [<- ->].
      { apply (app_inj_1 _ _ after (":"%char :: port)); [rewrite Hlen; cbn [length]; rewrite app_length; cbn [length]; lia|].
        rewrite -E. cbn [app]. by rewrite -app_assoc. }
      split_and!; [|done| | |done|].
      * intros H. apply E2. apply in_app_iff. by left.
      * intros H. apply E2. apply in_app_iff. right. by do 2 right.
      * intros H. apply E3. by right.
      * right. by rewrite E1.
    + assert (forall A (a b : A), match x with "["%char => a | _ => b end = b) as Hm.
      { intros A a b. destruct x as [[] [] [] [] [] [] [] []]; try done. }
      rewrite Hm. destruct (has ":" before) eqn:E1; [done|]. destruct (has "[" (x :: rest)) eqn:E2; [done|]. destruct (has "]" (x :: rest)) eqn:E3; [done|].
      cbn [orb]. intros [= -> ->]. apply has_false in E1, E2, E3. rewrite E in E2 E3.
      split_and!; [| | | |done|by left].
      * intros H. apply E2, in_app_iff. by left.
      * intros H. apply E3, in_app_iff. by left.
      * intros H. apply E2, in_app_iff. right. by right.
      * intros H. apply E3, in_app_iff. right. by right.
  - intros ((H1 & H2) & (H3 & H4) & H5 & [[H6 ->]| ->]).
    + rewrite (proj2 (cut_last_some ":" (host ++ ":"%char :: port) host port)); [done|].
      rewrite (proj2 (has_false ":" host) H6).
      assert (~ In "["%char (host ++ ":"%char :: port)) as Ha by (intros [?|[?|?]]%in_app_iff; done).
      assert (~ In "]"%char (host ++ ":"%char :: port)) as Hb by (intros [?|[?|?]]%in_app_iff; done).
      rewrite (proj2 (has_false _ _) Ha) (proj2 (has_false _ _) Hb). cbn [orb].
      destruct (host ++ ":"%char :: port) as [|x rest]; [done|].
      assert (x <> "["%char) as Hx by (intros ->; apply Ha; by left).
      destruct x as [[] [] [] [] [] [] [] []]; done.
    + rewrite (proj2 (cut_last_some ":" _ ("["%char :: host ++ ["]"%char]) port)); [split; [cbn [app]; by rewrite -app_assoc|done]|].
      rewrite (proj2 (cut_first_some "]" _ host (":"%char :: port))); [done|].
      rewrite decide_True; [cbn [length]; rewrite app_length; cbn [length]; lia|].
      assert (~ In "["%char (host ++ "]"%char :: ":"%char :: port)) as Ha by (intros [?|[?|[?|?]]]%in_app_iff; done).
      assert (~ In "]"%char (":"%char :: port)) as Hb by (intros [?|?]; done).
      by rewrite (proj2 (has_false _ _) Ha) (proj2 (has_false _ _) Hb).
Qed.

(** C104, what holds: without --url, the base URL's host is an address of the listening host (localhost if
    it is empty) and port, if the host has no colons... *)
Theorem C104_partial : forall addr host port, address addr host port -> ~ In ":"%char host ->
  exists u, default_url addr = Some ("http"%string, u) /\
    address u (if decide (host = []) then Base.bytes "localhost" else host) port.
Proof.
  intros addr host port Ha Hc. rewrite /default_url (proj2 (split_spec _ _ _) Ha). eexists. split; [reflexivity|].
  destruct Ha as ([H1 H2] & H3 & H4 & _). case_decide.
  - rewrite /address /plain. split_and!; [vm_compute; intuition discriminate..|apply H3|apply H3|done|]. left. split; [|done]. vm_compute. intuition discriminate.
  - rewrite /address /plain. split_and!; [done..|apply H3|apply H3|done|]. by left.
Qed.
Print Assumptions C104_partial.
(** ... and the server does not start exactly if --http is no address. *)
Theorem C104_starts : forall addr, default_url addr = None <-> ~ exists host port, address addr host port.
Proof.
  intros addr. rewrite /default_url. destruct (split_host_port addr) as [[h p]|] eqn:E.
  - split; [done|]. intros H. exfalso. apply H. exists h, p. by apply split_spec.
  - split; [|done]. intros _ (h & p & H). apply split_spec in H. congruence.
Qed.
Print Assumptions C104_starts.
(** C104 is false: for a host with colons, such as an IPv6 address, the base URL's host is no address. *)
Theorem C104_refuted : forall addr host port, address addr host port -> In ":"%char host ->
  exists u, default_url addr = Some ("http"%string, u) /\ ~ exists h p, address u h p.
Proof.
  intros addr host port Ha Hc. rewrite /default_url (proj2 (split_spec _ _ _) Ha). eexists. split; [reflexivity|].
  destruct Ha as ([H1 H2] & [H3 H4] & H5 & _). rewrite decide_False; [intros ->; done|].
  intros (h & p & [Hh1 Hh2] & [Hp1 Hp2] & Hp & [[Hnc E]|E]).
  - assert (cut_last ":" (host ++ ":"%char :: port) = Some (h, p)) as E1 by (by apply cut_last_some).
    rewrite (proj2 (cut_last_some ":" _ host port)) in E1; [done|]. by injection E1 as -> ->.
  - apply (f_equal (fun l => In "["%char l)) in E. assert (In "["%char (host ++ ":"%char :: port)) as Hin by (rewrite E; by left).
    apply in_app_iff in Hin as [?|[?|?]]; done.
Qed.
Print Assumptions C104_refuted.
Example C104_nonvacuous :
  address (Base.bytes ":7700") [] (Base.bytes "7700") /\ default_url (Base.bytes ":7700") = Some ("http"%string, Base.bytes "localhost:7700") /\
  address (Base.bytes "[::1]:7700") (Base.bytes "::1") (Base.bytes "7700") /\ In ":"%char (Base.bytes "::1") /\
  default_url (Base.bytes "[::1]:7700") = Some ("http"%string, Base.bytes "::1:7700") /\ default_url (Base.bytes "localhost") = None.
Proof. split_and!; try (by vm_compute); try (by left); apply split_spec; reflexivity. Qed.
