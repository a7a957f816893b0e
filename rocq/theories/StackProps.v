(** Property C158: a RecentStore and a LimitStore wrapped in one another. *)
From Verif Require Import Base MemModel MemSpec MemProofs MemProofs2 MemProofs3 MemProofs4 RecentModel RecentSpec RecentProofs LimitModel LimitSpec LimitProofs StackModel StackSpec StackProofs.
From Coq Require Import ssreflect.
Local Open Scope N_scope.

(** Never more than Max traces are stored, at any moment of any execution, in whichever order the stores are wrapped. *)
Theorem C158_capacity_recent : forall age max h rs pend arr ls busy done st l,
  rl_exec age max h rs pend arr ls busy done -> (forall x, In x arr -> sp_trace (fst x) <> 0) ->
  ms_run done ms_init = Some st -> List.NoDup l -> (forall t, In t l -> ms_trace_of st t <> None) -> (length l <= max)%nat.
Proof.
  intros age max h rs pend arr ls busy dn st l Hx. destruct (rl_lx _ _ _ _ _ _ _ _ _ Hx) as (_ & _ & dels & Hl & _).
  by apply (lx_capacity max dels arr ls busy dn st l).
Qed.
Print Assumptions C158_capacity_recent.
Theorem C158_capacity_limit : forall age max h rs pend arr ls busy done st l,
  lr_exec age max h rs pend arr ls busy done -> (forall x, In x arr -> sp_trace (fst x) <> 0) ->
  ms_run done ms_init = Some st -> List.NoDup l -> (forall t, In t l -> ms_trace_of st t <> None) -> (length l <= max)%nat.
Proof.
  intros age max h rs pend arr ls busy dn st l Hx. destruct (lr_lx _ _ _ _ _ _ _ _ _ Hx) as (_ & _ & dels & Hl & _).
  by apply (lx_capacity max dels arr ls (map call_in busy) dn st l).
Qed.
Print Assumptions C158_capacity_limit.

(** The spans that have reached the LimitStore are those of the Collect calls, but for those on their way. *)
Definition waiting (pend : list call) : list (SpanID * list Annotation) :=
  omap (fun c => match c with CCollect id a => Some (id, a) | CDelete _ => None end) pend.
Definition spans_of_calls (h : list revent) : list (SpanID * list Annotation) := map (fun e => (re_id e, re_anns e)) h.
Lemma rl_arrived age max h rs pend arr ls busy dn : rl_exec age max h rs pend arr ls busy dn -> Permutation (arr ++ waiting pend) (spans_of_calls h).
Proof.
  induction 1 as [|h rs pend arr ls busy dn e rs' _ IH Hs|h rs p1 ts p2 arr ls busy dn _ IH|h rs p1 id a p2 arr ls dn ls' cs _ IH Hc|h rs pend arr ls c busy dn _ IH]; [done| | | |done].
  - rewrite /waiting /spans_of_calls omap_app map_app app_assoc IH /actions omap_app.
    assert (omap (fun c => match c with CCollect id a => Some (id, a) | CDelete _ => None end) (evict_calls (re_ev e)) = []) as -> by (by destruct (re_ev e)). done.
  - rewrite -IH /waiting !omap_app //.
  - rewrite -IH /waiting !omap_app -app_assoc /=. apply Permutation_app_head, Permutation_middle.
Qed.
Definition held (busy : list below) : list (SpanID * list Annotation) := omap (fun b => match b with ToRecent (CCollect id a) => Some (id, a) | _ => None end) busy.
Lemma lr_arrived age max h rs pend arr ls busy dn : (0 < max)%nat -> lr_exec age max h rs pend arr ls busy dn -> arr = spans_of_calls h ++ held busy.
Proof.
  intros Hmax. induction 1 as [|h rs pend arr ls dn id a ls' cs _ IH Hc|h rs pend arr ls ts busy dn _ IH|h rs pend arr ls e busy dn rs' _ IH Hs|h rs pend arr ls c busy dn _ IH|h rs p1 ts p2 arr ls busy dn _ IH]; try done.
  - rewrite IH app_nil_r. f_equal. assert (exists ds, cs = ds ++ [CCollect id a] /\ forall c, In c ds -> exists us, c = CDelete us) as (ds & -> & Hd).
    { destruct (collect_calls _ _ _ _ _ _ Hc) as [->|?]; [|done]. move: Hc. rewrite /ls_collect. destruct (Nat.eqb_spec max 0); [lia|].
      case_bool_decide; [done|]. rewrite andb_false_r. intros [= _ E]. by destruct (negb _). }
    rewrite /held map_app omap_app. cbn. enough (omap (fun b => match b with ToRecent (CCollect i x) => Some (i, x) | _ => None end) (map ToRecent ds) = []) as -> by done.
    clear -Hd. induction ds as [|c ds IH]; [done|]. destruct (Hd c (or_introl eq_refl)) as [us ->]. cbn. apply IH. intros c Hc. apply Hd. by right.
  - rewrite IH /spans_of_calls map_app -app_assoc. done.
Qed.

(** A trace none of whose spans was older than MinEvictAge at an eviction, and since whose first span fewer than Max other traces have
    come, is shown complete. *)
Theorem C158_recent_partial : forall age max h rs pend arr ls done st t,
  (0 < max)%nat -> rl_exec age max h rs pend arr ls [] done -> (forall x, In x arr -> sp_trace (fst x) <> 0) ->
  ms_run done ms_init = Some st -> stays_young age h t -> newest max t arr ->
  Permutation (arr ++ waiting pend) (spans_of_calls h) /\
  exists tr, shows st t tr /\ displays (of_trace t arr) tr /\
    (acyclic (spans_of (of_trace t arr)) -> Permutation (map tr_id (nodes tr)) (spans_of (of_trace t arr))).
Proof.
  intros age max h rs pend arr ls dn st t Hmax Hx Hnz Hst Hy Hn. destruct (rl_lx _ _ _ _ _ _ _ _ _ Hx) as (Hr & _ & dels & Hl & Hd).
  split; [exact (rl_arrived _ _ _ _ _ _ _ _ _ Hx)|]. apply (shown_of _ dn); [done| |].
  - apply (lx_complete max dels arr ls dn t Hmax Hl Hnz); [|done]. intros ts Hts. destruct (Hd ts Hts) as (e & He & ->). exact (young_kept _ _ _ _ _ Hr Hy He).
  - destruct Hn as (pre & x & post & -> & _ & Ht & _). rewrite of_trace_app. intros [_ E]%app_nil. move: E. rewrite /of_trace /= Ht N.eqb_refl //.
Qed.
Print Assumptions C158_recent_partial.
Theorem C158_limit_partial : forall age max h rs pend arr ls done st t,
  (0 < max)%nat -> lr_exec age max h rs pend arr ls [] done -> (forall x, In x arr -> sp_trace (fst x) <> 0) ->
  ms_run done ms_init = Some st -> stays_young age h t -> newest max t arr ->
  arr = spans_of_calls h /\
  exists tr, shows st t tr /\ displays (of_trace t arr) tr /\
    (acyclic (spans_of (of_trace t arr)) -> Permutation (map tr_id (nodes tr)) (spans_of (of_trace t arr))).
Proof.
  intros age max h rs pend arr ls dn st t Hmax Hx Hnz Hst Hy Hn. destruct (lr_lx _ _ _ _ _ _ _ _ _ Hx) as (Hr & _ & dels & Hl & Hd).
  split; [by rewrite (lr_arrived _ _ _ _ _ _ _ _ _ Hmax Hx) app_nil_r|]. apply (shown_of _ dn); [done| |].
  - apply (lx_complete max dels arr ls dn t Hmax Hl Hnz); [|done]. intros ts Hts. destruct (Hd ts Hts) as (e & He & ->). exact (young_kept _ _ _ _ _ Hr Hy He).
  - destruct Hn as (pre & x & post & -> & _ & Ht & _). rewrite of_trace_app. intros [_ E]%app_nil. move: E. rewrite /of_trace /= Ht N.eqb_refl //.
Qed.
Print Assumptions C158_limit_partial.

(** Not for trace IDs that come back after an eviction: Max is 2 and the age 10.  Trace 1 is evicted for its age and comes back at 13; trace
    2 is evicted at 23.  The next trace makes the LimitStore delete trace 1, which is young and the only one in the store, because it
    still has the place of its first span in the ring. *)
Local Open Scope Z_scope.
Definition at_ (n : Z) : clock := MkClock n n n n.
Definition ev (n : Z) (t s : N) (ran : bool) (old : list N) : revent := MkRev (MkSpanID t s 0%N) [] (at_ n) ran old.
Definition story : list revent := [ev 0 1 1 true []; ev 5 2 1 false []; ev 12 2 2 true [1%N]; ev 13 1 2 false []; ev 23 1 3 true [2%N]; ev 23 3 1 false []].
Definition col (t s : N) : call := CCollect (MkSpanID t s 0%N) [].
(** What has been done when the last Collect takes ls.mu. *)
Definition before : list call := [col 1 1; col 2 1; CDelete [1%N]; col 2 2; col 1 2; CDelete [2%N]; col 1 3].

Lemma story_steps : exists s1 s2 s3 s4 s5 s6,
  rs_step 10 (at_ 0) (MkSpanID 1 1 0) rs_init true [] s1 /\ rs_step 10 (at_ 5) (MkSpanID 2 1 0) s1 false [] s2 /\
  rs_step 10 (at_ 12) (MkSpanID 2 2 0) s2 true [1%N] s3 /\ rs_step 10 (at_ 13) (MkSpanID 1 2 0) s3 false [] s4 /\
  rs_step 10 (at_ 23) (MkSpanID 1 3 0) s4 true [2%N] s5 /\ rs_step 10 (at_ 23) (MkSpanID 3 1 0) s5 false [] s6.
Proof.
  do 6 eexists. split_and!.
  - eapply (RS_evict _ _ _ _ _ _ []); [by vm_compute|reflexivity|vm_compute; reflexivity].
  - eapply RS_quiet; by vm_compute.
  - eapply RS_evict; [by vm_compute|reflexivity|vm_compute; reflexivity].
  - eapply RS_quiet; by vm_compute.
  - eapply RS_evict; [by vm_compute|reflexivity|vm_compute; reflexivity].
  - eapply RS_quiet; by vm_compute.
Qed.

(** A young trace: every span of it that is stored was collected at most the age before every eviction. *)
Definition young_content (age : Z) (h : list revent) (t : N) (done : list call) : Prop :=
  forall x, In x (live t done []) -> exists e0, In e0 h /\ (re_id e0, re_anns e0) = x /\ forall e, In e h -> ck_now (re_clock e) - age <= ck_seen (re_clock e0).
Lemma story_young : young_content 10 story 1%N before.
Proof.
  intros x Hx. vm_compute in Hx. destruct Hx as [<-|[<-|[]]].
  - exists (ev 13 1 2 false []). split_and!; [do 3 right; by left|done|]. intros e He. cbn in He. repeat destruct He as [<-|He]; try done; by vm_compute.
  - exists (ev 23 1 3 true [2%N]). split_and!; [do 4 right; by left|done|]. intros e He. cbn in He. repeat destruct He as [<-|He]; try done; by vm_compute.
Qed.
Lemma story_only : forall u, ms_trace_of (final before) u <> None -> u = 1%N.
Proof.
  intros u Hu. destruct (decide (u = 1%N)) as [|Hne]; [done|]. exfalso. apply Hu. apply (found_iff before _ u (final_run before)).
  assert (forall a b : N, a <> b -> (a =? b)%N = false) as Hf by (intros a b Hab; by apply N.eqb_neq).
  unfold before. cbn [live col sp_trace]. rewrite (Hf 1%N u); [congruence|]. destruct (decide (u = 2%N)) as [->|H2].
  - done.
  - rewrite (Hf 2%N u); [congruence|]. rewrite !bool_decide_eq_false_2; [by intros ?%elem_of_list_singleton..|]. done.
Qed.

Theorem C158_recent_refuted : exists age max h rs arr ls d1 d2 t,
  rl_exec age max h rs [] arr ls [] (d1 ++ CDelete [t] :: d2) /\ max = 2%nat /\ (forall x, In x arr -> sp_trace (fst x) <> 0%N) /\
  (exists st0 tr, ms_run d1 ms_init = Some st0 /\ shows st0 t tr /\ forall u, ms_trace_of st0 u <> None -> u = t) /\
  young_content age h t d1 /\
  exists st, ms_run (d1 ++ CDelete [t] :: d2) ms_init = Some st /\ ms_trace_of st t = None.
Proof.
  destruct story_steps as (s1 & s2 & s3 & s4 & s5 & s6 & H1 & H2 & H3 & H4 & H5 & H6).
  exists 10, 2%nat, story, s6. eexists _, _, before, [col 3 1], 1%N. split_and!.
  - pose proof (RL_nil 10 2) as K.
    apply (fun K => RL_call 10 2 _ _ _ _ _ _ _ (ev 0 1 1 true []) s1 K H1) in K. cbn [app actions evict_calls re_ev re_id re_anns ev] in K.
    eapply (RL_collect 10 2 _ _ [] _ _ []) in K; [|vm_compute; reflexivity]. cbn [app] in K. apply RL_below in K. cbn [app] in K.
    apply (fun K => RL_call 10 2 _ _ _ _ _ _ _ (ev 5 2 1 false []) s2 K H2) in K. cbn [app actions evict_calls re_ev re_id re_anns ev] in K.
    eapply (RL_collect 10 2 _ _ [] _ _ []) in K; [|vm_compute; reflexivity]. cbn [app] in K. apply RL_below in K. cbn [app] in K.
    apply (fun K => RL_call 10 2 _ _ _ _ _ _ _ (ev 12 2 2 true [1%N]) s3 K H3) in K. cbn [app actions evict_calls re_ev re_id re_anns ev] in K.
    apply (RL_delete 10 2 _ _ [] _ _) in K. cbn [app] in K.
    eapply (RL_collect 10 2 _ _ [] _ _ []) in K; [|vm_compute; reflexivity]. cbn [app] in K. apply RL_below in K. cbn [app] in K.
    apply (fun K => RL_call 10 2 _ _ _ _ _ _ _ (ev 13 1 2 false []) s4 K H4) in K. cbn [app actions evict_calls re_ev re_id re_anns ev] in K.
    eapply (RL_collect 10 2 _ _ [] _ _ []) in K; [|vm_compute; reflexivity]. cbn [app] in K. apply RL_below in K. cbn [app] in K.
    apply (fun K => RL_call 10 2 _ _ _ _ _ _ _ (ev 23 1 3 true [2%N]) s5 K H5) in K. cbn [app actions evict_calls re_ev re_id re_anns ev] in K.
    apply (RL_delete 10 2 _ _ [] _ _) in K. cbn [app] in K.
    eapply (RL_collect 10 2 _ _ [] _ _ []) in K; [|vm_compute; reflexivity]. cbn [app] in K. apply RL_below in K. cbn [app] in K.
    apply (fun K => RL_call 10 2 _ _ _ _ _ _ _ (ev 23 3 1 false []) s6 K H6) in K. cbn [app actions evict_calls re_ev re_id re_anns ev] in K.
    eapply (RL_collect 10 2 _ _ [] _ _ []) in K; [|vm_compute; reflexivity]. cbn [app] in K. apply RL_below in K. apply RL_below in K. cbn [app] in K.
    exact K.
  - done.
  - intros x Hx. cbn in Hx. repeat destruct Hx as [<-|Hx]; try done.
  - destruct (trace_displayed before (final before) 1%N (final_run before)) as (tr & Hs & _); [by vm_compute|].
    exists (final before), tr. split_and!; [apply final_run|done|apply story_only].
  - apply story_young.
  - eexists. split; [apply final_run|]. apply (found_iff _ _ 1%N (final_run _)). done.
Qed.
Print Assumptions C158_recent_refuted.

Theorem C158_limit_refuted : exists age max h rs arr ls d1 d2 t,
  lr_exec age max h rs [] arr ls [] (d1 ++ CDelete [t] :: d2) /\ max = 2%nat /\ (forall x, In x arr -> sp_trace (fst x) <> 0%N) /\
  (exists st0 tr, ms_run d1 ms_init = Some st0 /\ shows st0 t tr /\ forall u, ms_trace_of st0 u <> None -> u = t) /\
  young_content age h t d1 /\
  exists st, ms_run (d1 ++ CDelete [t] :: d2) ms_init = Some st /\ ms_trace_of st t = None.
Proof.
  destruct story_steps as (s1 & s2 & s3 & s4 & s5 & s6 & H1 & H2 & H3 & H4 & H5 & H6).
  exists 10, 2%nat, story, s6. eexists _, _, before, [col 3 1], 1%N. split_and!.
  - pose proof (LR_nil 10 2) as K.
    eapply (LR_collect 10 2 _ _ _ _ _ _ (MkSpanID 1 1 0) []) in K; [|vm_compute; reflexivity]. cbn [app map] in K.
    apply (fun K => LR_recent 10 2 _ _ _ _ _ (ev 0 1 1 true []) _ _ s1 K H1), LR_memory in K. cbn [app re_ev re_id re_anns ev] in K.
    eapply (LR_collect 10 2 _ _ _ _ _ _ (MkSpanID 2 1 0) []) in K; [|vm_compute; reflexivity]. cbn [app map] in K.
    apply (fun K => LR_recent 10 2 _ _ _ _ _ (ev 5 2 1 false []) _ _ s2 K H2), LR_memory in K. cbn [app re_ev re_id re_anns ev] in K.
    eapply (LR_collect 10 2 _ _ _ _ _ _ (MkSpanID 2 2 0) []) in K; [|vm_compute; reflexivity]. cbn [app map] in K.
    apply (fun K => LR_recent 10 2 _ _ _ _ _ (ev 12 2 2 true [1%N]) _ _ s3 K H3) in K. cbn [app re_ev re_id re_anns ev] in K.
    apply (LR_delete 10 2 _ _ []), LR_memory in K. cbn [app] in K.
    eapply (LR_collect 10 2 _ _ _ _ _ _ (MkSpanID 1 2 0) []) in K; [|vm_compute; reflexivity]. cbn [app map] in K.
    apply (fun K => LR_recent 10 2 _ _ _ _ _ (ev 13 1 2 false []) _ _ s4 K H4), LR_memory in K. cbn [app re_ev re_id re_anns ev] in K.
    eapply (LR_collect 10 2 _ _ _ _ _ _ (MkSpanID 1 3 0) []) in K; [|vm_compute; reflexivity]. cbn [app map] in K.
    apply (fun K => LR_recent 10 2 _ _ _ _ _ (ev 23 1 3 true [2%N]) _ _ s5 K H5) in K. cbn [app re_ev re_id re_anns ev] in K.
    apply (LR_delete 10 2 _ _ []), LR_memory in K. cbn [app] in K.
    eapply (LR_collect 10 2 _ _ _ _ _ _ (MkSpanID 3 1 0) []) in K; [|vm_compute; reflexivity]. cbn [app map] in K. apply LR_oldest in K.
    apply (fun K => LR_recent 10 2 _ _ _ _ _ (ev 23 3 1 false []) _ _ s6 K H6), LR_memory in K. cbn [app re_ev re_id re_anns ev] in K.
    exact K.
  - done.
  - intros x Hx. cbn in Hx. repeat destruct Hx as [<-|Hx]; try done.
  - destruct (trace_displayed before (final before) 1%N (final_run before)) as (tr & Hs & _); [by vm_compute|].
    exists (final before), tr. split_and!; [apply final_run|done|apply story_only].
  - apply story_young.
  - eexists. split; [apply final_run|]. apply (found_iff _ _ 1%N (final_run _)). done.
Qed.
Print Assumptions C158_limit_refuted.

(** The hypotheses of the theorems hold of trace 3 in the same executions, with another trace evicted for its age and one for the capacity. *)
Definition arrived : list (SpanID * list Annotation) := spans_of_calls story.
Example C158_nonvacuous : stays_young 10 story 3%N /\ newest 2 3%N arrived /\ (forall x, In x arrived -> sp_trace (fst x) <> 0%N) /\
  exists rs ls done, lr_exec 10 2 story rs [] arrived ls [] done /\ rl_exec 10 2 story rs [] arrived ls [] done.
Proof.
  split_and!.
  - intros e0 e H0 He Ht. cbn in H0. repeat destruct H0 as [<-|H0]; try done. cbn in He. repeat destruct He as [<-|He]; try done; by vm_compute.
  - exists (take 5 arrived), (MkSpanID 3 1 0, []), []. split_and!; [done..|]. intros others Hnd Ho. destruct others as [|u o]; [cbn; lia|].
    destruct (Ho u (or_introl eq_refl)) as [_ (y & [] & _)].
  - intros x Hx. cbn in Hx. repeat destruct Hx as [<-|Hx]; try done.
  - destruct story_steps as (s1 & s2 & s3 & s4 & s5 & s6 & H1 & H2 & H3 & H4 & H5 & H6). exists s6. eexists _, (before ++ [CDelete [1%N]; col 3 1]). split.
    + pose proof (LR_nil 10 2) as K.
      eapply (LR_collect 10 2 _ _ _ _ _ _ (MkSpanID 1 1 0) []) in K; [|vm_compute; reflexivity]. cbn [app map] in K.
      apply (fun K => LR_recent 10 2 _ _ _ _ _ (ev 0 1 1 true []) _ _ s1 K H1), LR_memory in K. cbn [app re_ev re_id re_anns ev] in K.
      eapply (LR_collect 10 2 _ _ _ _ _ _ (MkSpanID 2 1 0) []) in K; [|vm_compute; reflexivity]. cbn [app map] in K.
      apply (fun K => LR_recent 10 2 _ _ _ _ _ (ev 5 2 1 false []) _ _ s2 K H2), LR_memory in K. cbn [app re_ev re_id re_anns ev] in K.
      eapply (LR_collect 10 2 _ _ _ _ _ _ (MkSpanID 2 2 0) []) in K; [|vm_compute; reflexivity]. cbn [app map] in K.
      apply (fun K => LR_recent 10 2 _ _ _ _ _ (ev 12 2 2 true [1%N]) _ _ s3 K H3) in K. cbn [app re_ev re_id re_anns ev] in K.
      apply (LR_delete 10 2 _ _ []), LR_memory in K. cbn [app] in K.
      eapply (LR_collect 10 2 _ _ _ _ _ _ (MkSpanID 1 2 0) []) in K; [|vm_compute; reflexivity]. cbn [app map] in K.
      apply (fun K => LR_recent 10 2 _ _ _ _ _ (ev 13 1 2 false []) _ _ s4 K H4), LR_memory in K. cbn [app re_ev re_id re_anns ev] in K.
      eapply (LR_collect 10 2 _ _ _ _ _ _ (MkSpanID 1 3 0) []) in K; [|vm_compute; reflexivity]. cbn [app map] in K.
      apply (fun K => LR_recent 10 2 _ _ _ _ _ (ev 23 1 3 true [2%N]) _ _ s5 K H5) in K. cbn [app re_ev re_id re_anns ev] in K.
      apply (LR_delete 10 2 _ _ []), LR_memory in K. cbn [app] in K.
      eapply (LR_collect 10 2 _ _ _ _ _ _ (MkSpanID 3 1 0) []) in K; [|vm_compute; reflexivity]. cbn [app map] in K. apply LR_oldest in K.
      apply (fun K => LR_recent 10 2 _ _ _ _ _ (ev 23 3 1 false []) _ _ s6 K H6), LR_memory in K. cbn [app re_ev re_id re_anns ev] in K.
      exact K.
    + pose proof (RL_nil 10 2) as K.
      apply (fun K => RL_call 10 2 _ _ _ _ _ _ _ (ev 0 1 1 true []) s1 K H1) in K. cbn [app actions evict_calls re_ev re_id re_anns ev] in K.
      eapply (RL_collect 10 2 _ _ [] _ _ []) in K; [|vm_compute; reflexivity]. cbn [app] in K. apply RL_below in K. cbn [app] in K.
      apply (fun K => RL_call 10 2 _ _ _ _ _ _ _ (ev 5 2 1 false []) s2 K H2) in K. cbn [app actions evict_calls re_ev re_id re_anns ev] in K.
      eapply (RL_collect 10 2 _ _ [] _ _ []) in K; [|vm_compute; reflexivity]. cbn [app] in K. apply RL_below in K. cbn [app] in K.
      apply (fun K => RL_call 10 2 _ _ _ _ _ _ _ (ev 12 2 2 true [1%N]) s3 K H3) in K. cbn [app actions evict_calls re_ev re_id re_anns ev] in K.
      apply (RL_delete 10 2 _ _ [] _ _) in K. cbn [app] in K.
      eapply (RL_collect 10 2 _ _ [] _ _ []) in K; [|vm_compute; reflexivity]. cbn [app] in K. apply RL_below in K. cbn [app] in K.
      apply (fun K => RL_call 10 2 _ _ _ _ _ _ _ (ev 13 1 2 false []) s4 K H4) in K. cbn [app actions evict_calls re_ev re_id re_anns ev] in K.
      eapply (RL_collect 10 2 _ _ [] _ _ []) in K; [|vm_compute; reflexivity]. cbn [app] in K. apply RL_below in K. cbn [app] in K.
      apply (fun K => RL_call 10 2 _ _ _ _ _ _ _ (ev 23 1 3 true [2%N]) s5 K H5) in K. cbn [app actions evict_calls re_ev re_id re_anns ev] in K.
      apply (RL_delete 10 2 _ _ [] _ _) in K. cbn [app] in K.
      eapply (RL_collect 10 2 _ _ [] _ _ []) in K; [|vm_compute; reflexivity]. cbn [app] in K. apply RL_below in K. cbn [app] in K.
      apply (fun K => RL_call 10 2 _ _ _ _ _ _ _ (ev 23 3 1 false []) s6 K H6) in K. cbn [app actions evict_calls re_ev re_id re_anns ev] in K.
      eapply (RL_collect 10 2 _ _ [] _ _ []) in K; [|vm_compute; reflexivity]. cbn [app] in K. apply RL_below in K. apply RL_below in K. cbn [app] in K.
      exact K.
Qed.
