(** Properties C09-C18 (MemoryStore). *)
From Verif Require Import Base MemModel MemSpec MemProofs MemProofs2 MemProofs3 MemProofs4.

(** A history used by the examples: two traces, out-of-order arrival, a repeated span, a
    late root, a deletion. *)
Definition ann (k v : string) : Annotation := Ann k (Some v).
Definition hist : list call :=
  [CCollect (MkSpanID 1 3 2) [ann "a" "1"]; CCollect (MkSpanID 2 1 0) []; CCollect (MkSpanID 1 4 3) [];
   CCollect (MkSpanID 1 3 2) [ann "b" "2"]; CCollect (MkSpanID 1 1 0) [ann "Name" "root"];
   CDelete [2; 9]; CCollect (MkSpanID 1 2 1) []].

(** C09: whatever was collected and deleted before, Collect neither fails nor panics. *)
Theorem C09_collect_never_fails : forall calls id anns, exists st st',
  ms_run calls ms_init = Some st /\ ms_collect id anns st = Some st'.
Proof. exact collect_total. Qed.
Print Assumptions C09_collect_never_fails.
Example C09_nonvacuous : exists st, ms_run (hist ++ [CCollect (MkSpanID 1 7 7) []; CCollect (MkSpanID 1 0 0) []]) ms_init = Some st.
Proof. eexists. apply final_run. Qed.

(** C10: with acyclic parents the trace is a finite tree showing each collected span exactly
    once, each under its parent if that was collected, else under the displayed root. *)
Theorem C10_each_span_once_under_parent : forall calls st t,
  ms_run calls ms_init = Some st -> live t calls [] <> [] -> acyclic (spans_of (live t calls [])) ->
  exists tr, shows st t tr /\ displays (live t calls []) tr /\
    Permutation (map tr_id (nodes tr)) (spans_of (live t calls [])).
Proof.
  exact (fun calls st t Hrun HL Hac =>
    let '(ex_intro _ tr (conj Hs (conj Hd (conj _ Hp)))) := trace_displayed calls st t Hrun HL in
    ex_intro _ tr (conj Hs (conj Hd (Hp Hac)))).
Qed.
Print Assumptions C10_each_span_once_under_parent.
Example C10_nonvacuous : exists st, ms_run hist ms_init = Some st /\ live 1 hist [] <> [] /\
  acyclic (spans_of (live 1 hist [])) /\
  shows st 1 (Tree (MkSpanID 1 1 0) [ann "Name" "root"]
    [Tree (MkSpanID 1 2 1) [] [Tree (MkSpanID 1 3 2) [ann "a" "1"; ann "b" "2"] [Tree (MkSpanID 1 4 3) [] []]]]).
Proof.
  exists (final hist). split_and!; [apply final_run|by vm_compute| |apply (shown_by 9); vm_compute; reflexivity].
  exists N.to_nat. vm_compute. intuition subst; cbn in *; try lia.
Qed.

(** C11: a complete span tree is shown with exactly its root and its parent/child structure,
    whatever the history that delivered it. *)
Theorem C11_arrival_order_irrelevant : forall calls st t root,
  ms_run calls ms_init = Some st -> complete (spans_of (live t calls [])) root ->
  exists tr, shows st t tr /\ tr_id tr = root /\
    Permutation (map tr_id (nodes tr)) (spans_of (live t calls [])) /\
    (forall n, In n (nodes tr) -> tr_anns n = anns_of (sp_span (tr_id n)) (live t calls [])) /\
    (forall p c, In p (nodes tr) -> In c (nodes tr) ->
       (edge tr p c <-> sp_parent (tr_id c) = sp_span (tr_id p))).
Proof. exact order_independent. Qed.
Print Assumptions C11_arrival_order_irrelevant.
Example C11_nonvacuous : exists st, ms_run hist ms_init = Some st /\
  complete (spans_of (live 1 hist [])) (MkSpanID 1 1 0).
Proof.
  exists (final hist). split; [apply final_run|].
  replace (spans_of (live 1 hist [])) with [MkSpanID 1 3 2; MkSpanID 1 4 3; MkSpanID 1 1 0; MkSpanID 1 2 1] by reflexivity.
  split.
  - split; [cbn; auto|done].
  - intros s Hs. cbn in Hs. intuition subst; done.
  - intros s Hs. cbn in Hs. intuition subst; done.
  - intros s Hs Hne. destruct Hs as [<-|[<-|[<-|[<-|[]]]]].
    + exists (MkSpanID 1 2 1). cbn. auto 9.
    + exists (MkSpanID 1 3 2). cbn. auto 9.
    + done.
    + exists (MkSpanID 1 1 0). cbn. auto 9.
  - exists N.to_nat. intros c p Hc Hp E. cbn in Hc, Hp. intuition subst; cbn in *; lia.
Qed.

(** C12: the annotations shown for a span are those collected for it since the last deletion
    of its trace, in call order; its SpanID is that of the first of those calls; no span is
    shown twice. *)
Theorem C12_annotations_accumulate : forall calls st t tr,
  ms_run calls ms_init = Some st -> shows st t tr ->
  (forall n, In n (nodes tr) ->
    tr_anns n = anns_of (sp_span (tr_id n)) (live t calls []) /\
    In (tr_id n) (spans_of (live t calls [])) /\ sp_trace (tr_id n) = t) /\
  List.NoDup (map (fun n => sp_span (tr_id n)) (nodes tr)).
Proof. exact shown_annotations. Qed.
Print Assumptions C12_annotations_accumulate.
Example C12_nonvacuous : exists st tr, ms_run hist ms_init = Some st /\ shows st 1 tr /\
  anns_of 3 (live 1 hist []) = [ann "a" "1"; ann "b" "2"].
Proof. eexists _, _. split_and!; [apply final_run|apply (shown_by 9); vm_compute; reflexivity|reflexivity]. Qed.

(** C13: operations on other traces do not change what Trace(t) shows. *)
Theorem C13_traces_isolated : forall calls ops st st' t,
  ms_run calls ms_init = Some st -> ms_run ops st = Some st' ->
  (forall c, In c ops -> ~ touches c t) ->
  ms_trace_of st' t = ms_trace_of st t /\ forall tr, shows st' t tr <-> shows st t tr.
Proof. exact ops_isolated. Qed.
Print Assumptions C13_traces_isolated.
Example C13_nonvacuous : exists st st' tr, ms_run hist ms_init = Some st /\
  ms_run [CCollect (MkSpanID 3 1 1) []; CDelete [2; 3]; CCollect (MkSpanID 2 3 2) []] st = Some st' /\
  (forall c, In c [CCollect (MkSpanID 3 1 1) []; CDelete [2; 3]; CCollect (MkSpanID 2 3 2) []] -> ~ touches c 1) /\
  shows st 1 tr.
Proof.
  eexists _, _, _. split_and!; [apply final_run|apply final_app| |apply (shown_by 9); vm_compute; reflexivity].
  intros c Hc. cbn in Hc. intuition subst; cbn in *; intuition discriminate.
Qed.

(** C14: Delete removes exactly the named traces; collecting into one of them again starts
    from nothing. *)
Theorem C14_delete_exact : forall calls st ts, ms_run calls ms_init = Some st ->
  (forall t, In t ts -> ms_trace_of (ms_delete ts st) t = None) /\
  (forall t, ~ In t ts -> ms_trace_of (ms_delete ts st) t = ms_trace_of st t /\
     forall tr, shows (ms_delete ts st) t tr <-> shows st t tr) /\
  (forall id a, In (sp_trace id) ts -> exists st', ms_collect id a (ms_delete ts st) = Some st' /\
     shows st' (sp_trace id) (Tree id a [])).
Proof. exact delete_named. Qed.
Print Assumptions C14_delete_exact.
Example C14_nonvacuous : exists st, ms_run hist ms_init = Some st /\ ms_trace_of st 1 <> None /\
  ms_trace_of (ms_delete [1; 7] st) 1 = None.
Proof. eexists. split_and!; [apply final_run|by vm_compute|vm_compute; reflexivity]. Qed.

(** C15: Trace(t) answers ErrTraceNotFound exactly when nothing is in force for t; Traces
    returns, for every iteration order, exactly the present traces, each once, as the same
    (finitely readable) trees Trace returns. *)
Theorem C15_trace_found_iff : forall calls st t, ms_run calls ms_init = Some st ->
  (ms_trace_of st t = None <-> live t calls [] = []).
Proof. exact found_iff. Qed.
Print Assumptions C15_trace_found_iff.
Theorem C15_traces_each_once : forall calls st ids0 ts order,
  ms_run calls ms_init = Some st -> iteration_order st order ->
  List.NoDup order /\ (forall t, In t order <-> live t calls [] <> []) /\
  exists ls, ms_traces st ts ids0 order = Some ls /\
    Forall2 (fun t l => ms_trace_of st t = Some l /\ exists tr, reads (ms_heap st) l tr) order ls.
Proof. exact traces_listed. Qed.
Print Assumptions C15_traces_each_once.
Example C15_nonvacuous : exists st, ms_run wit16 ms_init = Some st /\
  iteration_order st [2; 1] /\ iteration_order st [1; 2].
Proof.
  eexists. split; [apply final_run|]. unfold iteration_order.
  assert ((map_to_list (ms_trace (final wit16))).*1 ≡ₚ [1; 2]) as ->.
  { apply NoDup_Permutation.
    - apply NoDup_fst_map_to_list.
    - apply NoDup_ListNoDup. repeat constructor; cbn; intuition discriminate.
    - intros x. vm_compute (map_to_list _). set_solver. }
  split; [apply perm_swap|reflexivity].
Qed.

(** C16, as documented ("only traces with these IDs are returned"), is false: with
    TraceIDs = {1}, trace 2 is returned as well. *)
Theorem C16_traces_honours_ids_refuted : exists calls st order ls,
  ms_run calls ms_init = Some st /\ iteration_order st order /\
  ms_traces st (0%Z, 0%Z) [1] order = Some ls /\
  exists l tr, In l ls /\ reads (ms_heap st) l tr /\ sp_trace (tr_id tr) = 2.
Proof. exact traces_ids_refuted. Qed.
Print Assumptions C16_traces_honours_ids_refuted.
(** What remains true: every listed trace that exists is among those returned. *)
Theorem C16_traces_ids_partial : forall calls st ids0 ts order,
  ms_run calls ms_init = Some st -> iteration_order st order ->
  exists ls, ms_traces st ts ids0 order = Some ls /\
    forall t l, In t ids0 -> ms_trace_of st t = Some l -> In l ls.
Proof. exact traces_superset. Qed.
Print Assumptions C16_traces_ids_partial.

(** C17 is false: the tree behind the pointer returned by Trace changes when a span of that
    trace is collected later. *)
Theorem C17_snapshot_refuted : exists calls c st st' l tr tr',
  ms_run calls ms_init = Some st /\ ms_step c st = Some st' /\ ms_trace_of st 1 = Some l /\
  reads (ms_heap st) l tr /\ reads (ms_heap st') l tr' /\ tr <> tr'.
Proof. exact snapshot_refuted. Qed.
Print Assumptions C17_snapshot_refuted.
(** It is unaffected by everything else: later calls that do not collect into that trace
    (also deleting it) leave the returned tree as it is. *)
Theorem C17_snapshot_partial : forall calls ops st st' t l tr,
  ms_run calls ms_init = Some st -> ms_trace_of st t = Some l -> reads (ms_heap st) l tr ->
  ms_run ops st = Some st' -> (forall c, In c ops -> ~ collects c t) -> reads (ms_heap st') l tr.
Proof. exact snapshot_stable. Qed.
Print Assumptions C17_snapshot_partial.
Example C17_nonvacuous : exists st st' l tr, ms_run hist ms_init = Some st /\ ms_trace_of st 1 = Some l /\
  reads (ms_heap st) l tr /\ ms_run [CDelete [1]; CCollect (MkSpanID 2 5 5) []] st = Some st' /\
  (forall c, In c [CDelete [1]; CCollect (MkSpanID 2 5 5) []] -> ~ collects c 1).
Proof.
  eexists _, _, _, _. split_and!; [apply final_run|vm_compute; reflexivity|apply (read_tree_sound 9); vm_compute; reflexivity|apply final_app|].
  intros c Hc. cbn in Hc. intuition subst; cbn in *; intuition discriminate.
Qed.

(** C18 is false: two spans naming each other as parent disappear from their trace. *)
Theorem C18_none_lost_refuted : exists calls st tr,
  ms_run calls ms_init = Some st /\ shows st 1 tr /\
  In (MkSpanID 1 5 6) (spans_of (live 1 calls [])) /\
  ~ In (MkSpanID 1 5 6) (map tr_id (nodes tr)) /\
  In (MkSpanID 1 6 5) (spans_of (live 1 calls [])) /\
  ~ In (MkSpanID 1 6 5) (map tr_id (nodes tr)).
Proof. exact span_lost_refuted. Qed.
Print Assumptions C18_none_lost_refuted.
(** What holds for arbitrary parents: Trace shows a finite tree, and the spans in it are
    exactly those not caught in a parent cycle. *)
Theorem C18_none_lost_partial : forall calls st t,
  ms_run calls ms_init = Some st -> live t calls [] <> [] ->
  exists tr, shows st t tr /\ displays (live t calls []) tr /\
    (forall i, In i (map tr_id (nodes tr)) <-> anchored (spans_of (live t calls [])) (tr_id tr) i).
Proof.
  exact (fun calls st t Hrun HL =>
    let '(ex_intro _ tr (conj Hs (conj Hd (conj Ha _)))) := trace_displayed calls st t Hrun HL in
    ex_intro _ tr (conj Hs (conj Hd Ha))).
Qed.
Print Assumptions C18_none_lost_partial.
Example C18_nonvacuous : exists st, ms_run wit18 ms_init = Some st /\ live 1 wit18 [] <> [].
Proof. eexists. split; [apply final_run|by vm_compute]. Qed.
