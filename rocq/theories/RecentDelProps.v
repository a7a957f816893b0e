(** Property C148: a RecentStore whose users delete traces. *)
From Verif Require Import Base MemModel MemSpec MemProofs MemProofs2 MemProofs3 MemProofs4 MemProps RecentModel RecentSpec RecentProofs RecentDelModel.
Open Scope Z_scope.

(** What the users have done: their Collect and Delete calls, in the order of their effects; all but the evictions. *)
Definition users_calls (done : list effect) : list call := omap (fun x => match x with EStore (CDelete _) => None | _ => Some (effect_call x) end) done.
(** Every span collected for the trace is not older than MinEvictAge when an eviction is decided. *)
Definition always_young (age : Z) (h : list revent) (t : N) : Prop :=
  forall e0 e, In e0 h -> In e h -> sp_trace (re_id e0) = t -> ck_now (re_clock e) - age <= ck_seen (re_clock e0).

Lemma dexec_exec age h st pend dn : rs_dexec age h st pend dn -> rs_exec age h st pend (omap (fun x => match x with EStore c => Some c | EUser _ => None end) dn).
Proof.
  induction 1 as [|h st pend dn e st' _ IH Hs|h st p1 a p2 dn _ IH|h st pend dn ts _ IH].
  - constructor.
  - by econstructor.
  - rewrite omap_app. cbn. by constructor.
  - rewrite omap_app. cbn. by rewrite app_nil_r.
Qed.
Lemma young_not_evicted age h st t e : rs_run age h st -> always_young age h t -> In e h -> ~ In t (re_ev e).
Proof.
  intros Hr Hyoung He Ht. destruct (in_split _ _ He) as (h1 & h2 & ->). destruct (evicted_old age h1 e h2 st t Hr Ht) as (x & Hs & Hlt).
  destruct (first_seen_at_event _ _ _ _ Hs) as (e0 & He0 & Ht0 & Hx0). assert (In e0 (h1 ++ e :: h2)) as He0'.
  { apply in_app_iff in He0 as [?|[<-|[]]]; apply in_app_iff; [by left|right; by left]. }
  pose proof (Hyoung e0 e He0' He Ht0). lia.
Qed.
Lemma live_users t dn acc : (forall ts, In (EStore (CDelete ts)) dn -> ~ In t ts) -> live t (map effect_call dn) acc = live t (users_calls dn) acc.
Proof.
  revert acc. induction dn as [|x dn IH]; intros acc H; [done|]. assert (forall ts, In (EStore (CDelete ts)) dn -> ~ In t ts) as H' by (intros ts Hts; apply H; by right).
  destruct x as [[id a|ts]|ts]; cbn [map effect_call users_calls omap list_omap]; fold (users_calls dn).
  - cbn [live]. by apply IH.
  - cbn [live]. rewrite bool_decide_eq_false_2 by (intros Hx; apply (H ts); [by left|by apply elem_of_list_In]). by apply IH.
  - cbn [live]. by apply IH.
Qed.

(** A user deletes a trace.  Spans collected for the same trace ID afterwards are a new trace; it is deleted although it is younger than
    MinEvictAge, because its age is counted from the first span of the deleted trace. *)
Theorem C148_refuted : exists age h st dn1 dn2 e0 e ms,
  rs_dexec age h st [] (dn1 ++ EUser [1%N] :: dn2) /\ ms_run (map effect_call (dn1 ++ EUser [1%N] :: dn2)) ms_init = Some ms /\
  In (EStore (CCollect (re_id e0) (re_anns e0))) dn2 /\ In e0 h /\ In e h /\ sp_trace (re_id e0) = 1%N /\
  (forall x, In x h -> ck_now (re_clock x) - age <= ck_seen (re_clock e0)) /\
  live 1 (users_calls (dn1 ++ EUser [1%N] :: dn2)) [] = [(re_id e0, re_anns e0)] /\
  ms_trace_of ms 1%N = None.
Proof.
  assert (exists s1 s2 s3, rs_step 10 (at_time 0) (MkSpanID 1 1 0) rs_init true [] s1 /\ rs_step 10 (at_time 9) (MkSpanID 1 2 1) s1 false [] s2 /\
    rs_step 10 (at_time 11) (MkSpanID 2 1 0) s2 true [1%N] s3) as (s1 & s2 & s3 & H1 & H2 & H3).
  { do 3 eexists. split; [eapply (RS_evict _ _ _ _ _ _ []); [by vm_compute|reflexivity|vm_compute; reflexivity]|]. split; [eapply RS_quiet; by vm_compute|].
    eapply RS_evict; [by vm_compute|reflexivity|vm_compute; reflexivity]. }
  pose proof (RD_call 10 _ _ _ _ (MkRev (MkSpanID 1 1 0) [] (at_time 0) true []) s1 (RD_nil 10) H1) as K. cbn [app actions evict_calls re_ev re_id re_anns] in K.
  apply (RD_act 10 _ _ [] _ [] _) in K. cbn [app] in K. apply (RD_delete 10 _ _ _ _ [1%N]) in K. cbn [app] in K.
  apply (RD_call 10 _ _ _ _ (MkRev (MkSpanID 1 2 1) [] (at_time 9) false []) s2) in K; [|exact H2]. cbn [app actions evict_calls re_ev re_id re_anns] in K.
  apply (RD_act 10 _ _ [] _ [] _) in K. cbn [app] in K.
  apply (RD_call 10 _ _ _ _ (MkRev (MkSpanID 2 1 0) [] (at_time 11) true [1%N]) s3) in K; [|exact H3]. cbn [app actions evict_calls re_ev re_id re_anns] in K.
  apply (RD_act 10 _ _ [] _ [_] _) in K. cbn [app] in K. apply (RD_act 10 _ _ [] _ [] _) in K. cbn [app] in K.
  exists 10, wit27, s3, [EStore (CCollect (MkSpanID 1 1 0) [])],
    [EStore (CCollect (MkSpanID 1 2 1) []); EStore (CDelete [1%N]); EStore (CCollect (MkSpanID 2 1 0) [])],
    (MkRev (MkSpanID 1 2 1) [] (at_time 9) false []), (MkRev (MkSpanID 2 1 0) [] (at_time 11) true [1%N]).
  eexists. split; [exact K|]. split; [apply final_run|]. split; [by left|]. split; [cbn; auto|]. split; [cbn; auto|]. split; [done|].
  split; [intros x [<-|[<-|[<-|[]]]]; cbn; lia|]. split; [done|]. vm_compute. reflexivity.
Qed.
Print Assumptions C148_refuted.

(** Users' deletions do not change what the store decides to evict. *)
Theorem C148_decisions : forall age h st pend dn, rs_dexec age h st pend dn -> rs_run age h st.
Proof. intros age h st pend dn H. by apply dexec_exec, exec_run in H as [? _]. Qed.
Print Assumptions C148_decisions.

(** A trace ID none of whose spans, of the deleted traces included, has reached MinEvictAge: the store shows exactly what the users' own
    Collect and Delete calls leave of it. *)
Theorem C148_partial : forall age h st pend dn ms t,
  rs_dexec age h st pend dn -> ms_run (map effect_call dn) ms_init = Some ms -> always_young age h t ->
  let L := live t (users_calls dn) [] in
  (L = [] -> ms_trace_of ms t = None) /\
  (L <> [] -> exists tr, shows ms t tr /\ displays L tr /\
    (acyclic (spans_of L) -> Permutation (map tr_id (nodes tr)) (spans_of L))).
Proof.
  intros age h st pend dn ms t Hx Hms Hy L. pose proof (dexec_exec _ _ _ _ _ Hx) as Hx'. destruct (exec_run _ _ _ _ _ Hx') as [Hr Hp].
  assert (live t (map effect_call dn) [] = L) as HL.
  { apply live_users. intros ts Hts Ht.
    assert (In (CDelete ts) (prompt h)) as Hin.
    { eapply Permutation_in; [exact Hp|]. apply in_app_iff. left. apply elem_of_list_In, elem_of_list_omap.
      exists (EStore (CDelete ts)). split; [by apply elem_of_list_In|done]. }
    unfold prompt in Hin. apply in_concat in Hin as (l & Hl & Hin). apply in_map_iff in Hl as (e & <- & He).
    unfold actions in Hin. apply in_app_iff in Hin as [Hin|[Hin|[]]]; [|done].
    unfold evict_calls in Hin. destruct (re_ev e) as [|a ev] eqn:E; [done|]. destruct Hin as [[= <-]|[]].
    apply (young_not_evicted age h st t e Hr Hy He). by rewrite E. }
  split; intros H.
  - apply (found_iff _ _ t Hms). by rewrite HL.
  - rewrite <- HL in H |- *. destruct (trace_displayed _ _ t Hms H) as (tr & Hs & Hd & _ & Hp'). by exists tr.
Qed.
Print Assumptions C148_partial.
(** A trace deleted by a user and collected anew within MinEvictAge. *)
Example C148_nonvacuous : exists h st dn ms, rs_dexec 10 h st [] dn /\ ms_run (map effect_call dn) ms_init = Some ms /\ always_young 10 h 3%N /\
  In (EUser [3%N]) dn /\ live 3%N (users_calls dn) [] = [(MkSpanID 3 2 0, [])] /\ length h = 2%nat.
Proof.
  assert (exists s1 s2, rs_step 10 (at_time 0) (MkSpanID 3 1 0) rs_init true [] s1 /\ rs_step 10 (at_time 5) (MkSpanID 3 2 0) s1 false [] s2) as (s1 & s2 & H1 & H2).
  { do 2 eexists. split; [eapply (RS_evict _ _ _ _ _ _ []); [by vm_compute|reflexivity|vm_compute; reflexivity]|]. eapply RS_quiet; by vm_compute. }
  pose proof (RD_call 10 _ _ _ _ (MkRev (MkSpanID 3 1 0) [] (at_time 0) true []) s1 (RD_nil 10) H1) as K. cbn [app actions evict_calls re_ev re_id re_anns] in K.
  apply (RD_act 10 _ _ [] _ [] _) in K. cbn [app] in K. apply (RD_delete 10 _ _ _ _ [3%N]) in K. cbn [app] in K.
  apply (RD_call 10 _ _ _ _ (MkRev (MkSpanID 3 2 0) [] (at_time 5) false []) s2) in K; [|exact H2]. cbn [app actions evict_calls re_ev re_id re_anns] in K.
  apply (RD_act 10 _ _ [] _ [] _) in K. cbn [app] in K.
  do 4 eexists. split; [exact K|]. split; [apply final_run|]. split; [intros e0 e [<-|[<-|[]]] [<-|[<-|[]]] _; cbn; lia|]. split; [cbn; auto|]. done.
Qed.
