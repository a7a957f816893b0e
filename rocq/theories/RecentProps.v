(** Properties C25-C27 (RecentStore). *)
From Verif Require Import Base MemModel MemSpec MemProofs4 RecentModel RecentSpec RecentProofs.
Open Scope Z_scope.

(** C25: a trace is evicted only if it was first seen more than MinEvictAge before. *)
Theorem C25_recent_never_evicts_young : forall age h1 e h2 st t,
  rs_run age (h1 ++ e :: h2) st -> In t (re_ev e) ->
  exists x, first_seen_at t h1 e = Some x /\ x < ck_now (re_clock e) - age.
Proof. exact evicted_old. Qed.
Print Assumptions C25_recent_never_evicts_young.
Example C25_nonvacuous : exists st e, rs_run 10 wit27 st /\ In e wit27 /\ In 1%N (re_ev e).
Proof. destruct wit27_run as [st H]. exists st, (MkRev (MkSpanID 2 1 0) [] (at_time 11) true [1%N]). split_and!; [done|cbn; auto|cbn; auto]. Qed.

(** C26: a pass runs exactly when the last one is more than MinEvictAge ago, and evicts every
    old trace, once. *)
Theorem C26_recent_evicts_every_old : forall age h1 e h2 st,
  rs_run age (h1 ++ e :: h2) st ->
  (re_ran e = true <-> age < match last_pass h1 with None => 2 ^ 63 - 1 | Some l => ck_since (re_clock e) - l end) /\
  (re_ran e = true -> forall t x, first_seen_at t h1 e = Some x -> x < ck_now (re_clock e) - age -> In t (re_ev e)) /\
  NoDup (re_ev e).
Proof. exact eviction_complete. Qed.
Print Assumptions C26_recent_evicts_every_old.
Example C26_nonvacuous : exists st h1 e, rs_run 10 wit27 st /\ wit27 = h1 ++ [e] /\
  re_ran e = true /\ first_seen_at 1 h1 e = Some 0 /\ 0 < ck_now (re_clock e) - 10.
Proof.
  destruct wit27_run as [st H]. exists st, (take 2 wit27), (MkRev (MkSpanID 2 1 0) [] (at_time 11) true [1%N]).
  split_and!; [done|reflexivity|reflexivity|reflexivity|cbn; lia].
Qed.

(** C27 is false: a span collected less than MinEvictAge ago is gone, with a monotone clock and all
    goroutines run at once. *)
Theorem C27_recent_keeps_recent_spans_refuted : exists age h st dn e last ms,
  rs_exec age h st [] dn /\ clocks_ok h /\ In e h /\ In last h /\ ck_evict (re_clock last) - ck_seen (re_clock e) < age /\
  ms_run dn ms_init = Some ms /\
  ~ exists tr, shows ms (sp_trace (re_id e)) tr /\ In (re_id e) (map tr_id (nodes tr)).
Proof. exact recent_lost. Qed.
Print Assumptions C27_recent_keeps_recent_spans_refuted.

(** C27, what holds in every schedule: once the pending actions have run, a trace all of whose
    spans were collected within MinEvictAge of every decision is complete. *)
Theorem C27_recent_keeps_young_traces_partial : forall age h st dn ms t,
  rs_exec age h st [] dn -> ms_run dn ms_init = Some ms ->
  (forall e0 e, In e0 h -> In e h -> sp_trace (re_id e0) = t -> ck_now (re_clock e) - age <= ck_seen (re_clock e0)) ->
  collected t h <> [] ->
  exists L tr, Permutation L (collected t h) /\ shows ms t tr /\ displays L tr /\
    (acyclic (spans_of L) -> Permutation (map tr_id (nodes tr)) (spans_of L)).
Proof. exact young_complete. Qed.
Print Assumptions C27_recent_keeps_young_traces_partial.
(** ... and, when each call's goroutine and Collect run before the next call, the store shows for
    each trace what was collected since its last eviction. *)
Theorem C27_recent_prompt_partial : forall age h st ms t,
  rs_run age h st -> ms_run (prompt h) ms_init = Some ms -> since_evicted t h <> [] ->
  exists tr, shows ms t tr /\ displays (since_evicted t h) tr /\
    (acyclic (spans_of (since_evicted t h)) -> Permutation (map tr_id (nodes tr)) (spans_of (since_evicted t h))).
Proof. exact prompt_shown. Qed.
Print Assumptions C27_recent_prompt_partial.
Example C27_nonvacuous : exists st ms, rs_exec 10 wit27 st [] (prompt wit27) /\ ms_run (prompt wit27) ms_init = Some ms /\
  (forall e0 e, In e0 wit27 -> In e wit27 -> sp_trace (re_id e0) = 2%N -> ck_now (re_clock e) - 10 <= ck_seen (re_clock e0)) /\
  collected 2 wit27 <> [] /\ since_evicted 2 wit27 <> [].
Proof.
  destruct wit27_run as [st H]. exists st, (final (prompt wit27)).
  split_and!; [by apply exec_prompt|apply final_run| |done|done].
  intros e0 e [<-|[<-|[<-|[]]]] [<-|[<-|[<-|[]]]]; cbn; intros E; try discriminate; lia.
Qed.
