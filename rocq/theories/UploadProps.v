(** Property C64 (uploading exported traces). *)
From Verif Require Import Base MemModel MemSpec MemProofs MemProofs2 MemProofs3 MemProofs4 UploadModel UploadProofs.

(** C64 (proved part): take any tree a store shows for trace t, or any subtree of it (the export of a sub-span), and
    upload it, among other traces, to any store that has no trace t.  If no span below the exported root lacks a
    parent or is the exported root's own parent, the other store then shows exactly the exported tree, order of
    children and annotations included.  The other uploaded trees must not touch trace t before it, and afterwards must
    each be of one trace. *)
Theorem C64_recreated_partial : forall calls st t tr sub calls' st' before after,
  ms_run calls ms_init = Some st -> shows st t tr -> In sub (nodes tr) ->
  (forall n, In n (nodes sub) -> n <> sub -> sp_parent (tr_id n) <> 0 /\ sp_span (tr_id n) <> sp_parent (tr_id sub)) ->
  ms_run calls' ms_init = Some st' -> ms_trace_of st' t = None ->
  (forall x n, In x before -> In n (nodes x) -> sp_trace (tr_id n) <> t) ->
  (forall x n, In x after -> In n (nodes x) -> sp_trace (tr_id n) = sp_trace (tr_id x)) ->
  exists st'', upload_traces (before ++ sub :: after) st' = Some st'' /\ shows st'' t sub.
Proof. exact recreated. Qed.
Print Assumptions C64_recreated_partial.
Example C64_recreated_nonvacuous :
  let calls := [CCollect (MkSpanID 1 3 2) [Ann "a" (Some "1")]; CCollect (MkSpanID 1 2 9) []; CCollect (MkSpanID 1 4 3) []] in
  let sub := Tree (MkSpanID 1 2 9) [] [Tree (MkSpanID 1 3 2) [Ann "a" (Some "1")] [Tree (MkSpanID 1 4 3) [] []]] in
  shows (final calls) 1 sub /\
  (forall n, In n (nodes sub) -> n <> sub -> sp_parent (tr_id n) <> 0 /\ sp_span (tr_id n) <> sp_parent (tr_id sub)).
Proof.
  split; [apply (shown_by 9); vm_compute; reflexivity|]. cbn. intuition subst; cbn in *; congruence.
Qed.

(** C64: the condition holds of every export of a trace in which no span ID is zero and exactly one span has no parent. *)
Theorem C64_rooted : forall calls st t tr sub root calls' st',
  ms_run calls ms_init = Some st -> shows st t tr -> In sub (nodes tr) ->
  (forall s, In s (spans_of (live t calls [])) -> sp_span s <> 0) ->
  In root (spans_of (live t calls [])) -> sp_parent root = 0 ->
  (forall s, In s (spans_of (live t calls [])) -> sp_parent s = 0 -> s = root) ->
  ms_run calls' ms_init = Some st' -> ms_trace_of st' t = None ->
  exists st'', upload_traces [sub] st' = Some st'' /\ shows st'' t sub.
Proof. exact rooted_recreated. Qed.
Print Assumptions C64_rooted.
Example C64_rooted_nonvacuous :
  let calls := [CCollect (MkSpanID 1 3 2) [Ann "a" (Some "1")]; CCollect (MkSpanID 1 5 8) []; CCollect (MkSpanID 1 1 0) []; CCollect (MkSpanID 1 2 1) []] in
  shows (final calls) 1 (Tree (MkSpanID 1 1 0) [] [Tree (MkSpanID 1 5 8) [] []; Tree (MkSpanID 1 2 1) [] [Tree (MkSpanID 1 3 2) [Ann "a" (Some "1")] []]]) /\
  spans_of (live 1 calls []) = [MkSpanID 1 3 2; MkSpanID 1 5 8; MkSpanID 1 1 0; MkSpanID 1 2 1] /\
  ms_trace_of (final [CCollect (MkSpanID 2 1 0) []]) 1 = None.
Proof. split_and!; [apply (shown_by 9); vm_compute; reflexivity|reflexivity|reflexivity]. Qed.

(** C64 is false of all traces: with two parentless spans, or with missing parents, the upload can show another tree. *)
Theorem C64_refuted : exists calls st tr st'' tr'',
  ms_run calls ms_init = Some st /\ shows st 1 tr /\ upload_traces [tr] ms_init = Some st'' /\ shows st'' 1 tr'' /\ tr'' <> tr.
Proof.
  exists wit_roots, (final wit_roots), wit_roots_tree, (final (map call_of (nodes wit_roots_tree))), (Tree (MkSpanID 1 1 0) [] [Tree (MkSpanID 1 2 0) [] []]).
  split; [apply final_run|]. split; [apply (shown_by 9); vm_compute; reflexivity|].
  split; [cbn [upload_traces]; change (ms_trace_of ms_init _) with (@None N); rewrite collect_trace_run, final_run; reflexivity|].
  split; [apply (shown_by 9); vm_compute; reflexivity|discriminate].
Qed.
Print Assumptions C64_refuted.
Theorem C64_incomplete_refuted : exists calls st tr st'' tr'',
  ms_run calls ms_init = Some st /\ (forall s, In s (spans_of (live 1 calls [])) -> sp_parent s <> 0 /\ sp_span s <> 0) /\
  shows st 1 tr /\ upload_traces [tr] ms_init = Some st'' /\ shows st'' 1 tr'' /\ tr'' <> tr.
Proof.
  exists wit_part, (final wit_part), wit_part_tree, (final (map call_of (nodes wit_part_tree))),
    (Tree (MkSpanID 1 2 9) [] [Tree (MkSpanID 1 3 2) [] [Tree (MkSpanID 1 7 3) [] []]]).
  split; [apply final_run|]. split; [vm_compute; intuition subst; discriminate|]. split; [apply (shown_by 9); vm_compute; reflexivity|].
  split; [cbn [upload_traces]; change (ms_trace_of ms_init _) with (@None N); rewrite collect_trace_run, final_run; reflexivity|].
  split; [apply (shown_by 9); vm_compute; reflexivity|discriminate].
Qed.
Print Assumptions C64_incomplete_refuted.

(** C64 (proved part): an upload never changes a trace that exists already, nor one that it does not name, provided
    that each uploaded tree is of one trace (exports are). *)
Theorem C64_existing_partial : forall traces calls st st' t,
  ms_run calls ms_init = Some st -> upload_traces traces st = Some st' ->
  (forall x n, In x traces -> In n (nodes x) -> sp_trace (tr_id n) = sp_trace (tr_id x)) ->
  ms_trace_of st t <> None \/ (forall x, In x traces -> sp_trace (tr_id x) <> t) ->
  ms_trace_of st' t = ms_trace_of st t /\ forall tr, shows st' t tr <-> shows st t tr.
Proof.
  intros traces calls st st' t Hrun Hup Hone Ht. apply (upload_keeps traces calls); [done|done|].
  intros x n Hx Hn E. rewrite (Hone x n Hx Hn) in E. destruct Ht as [Ht|Ht]; [congruence|]. exfalso. exact (Ht x Hx E).
Qed.
Print Assumptions C64_existing_partial.
Example C64_existing_nonvacuous :
  let st := final [CCollect (MkSpanID 1 1 0) []] in
  exists st', upload_traces [Tree (MkSpanID 1 1 0) [] [Tree (MkSpanID 1 2 1) [] []]; Tree (MkSpanID 2 4 0) [] [Tree (MkSpanID 2 5 4) [] []]] st = Some st' /\
  ms_trace_of st 1 <> None /\ ms_trace_of st' 2 <> None.
Proof.
  exists (final [CCollect (MkSpanID 1 1 0) []; CCollect (MkSpanID 2 4 0) []; CCollect (MkSpanID 2 5 4) []]). split_and!; [reflexivity|discriminate|discriminate].
Qed.

(** C64 is false of uploads in general: only the trace of the top span is checked, so that a sub-span of another trace
    is added to that trace although it exists. *)
Theorem C64_existing_refuted : exists calls st up st' tr tr',
  ms_run calls ms_init = Some st /\ upload_traces [up] st = Some st' /\ shows st 1 tr /\ shows st' 1 tr' /\ tr' <> tr.
Proof.
  exists [CCollect (MkSpanID 1 1 0) []], (final [CCollect (MkSpanID 1 1 0) []]), (Tree (MkSpanID 2 4 0) [] [Tree (MkSpanID 1 2 1) [] []]),
    (final [CCollect (MkSpanID 1 1 0) []; CCollect (MkSpanID 2 4 0) []; CCollect (MkSpanID 1 2 1) []]),
    (Tree (MkSpanID 1 1 0) [] []), (Tree (MkSpanID 1 1 0) [] [Tree (MkSpanID 1 2 1) [] []]).
  split; [apply final_run|]. split; [reflexivity|]. split; [apply (shown_by 9); vm_compute; reflexivity|].
  split; [apply (shown_by 9); vm_compute; reflexivity|discriminate].
Qed.
Print Assumptions C64_existing_refuted.

(** C64: whatever is uploaded, to whatever store, the upload ends without a panic. *)
Theorem C64_total : forall traces calls st, ms_run calls ms_init = Some st -> exists st', upload_traces traces st = Some st'.
Proof. intros traces calls st Hrun. destruct (run_state _ _ Hrun) as [Hok _]. destruct (upload_total traces st Hok) as (st' & H & _). by exists st'. Qed.
Print Assumptions C64_total.
