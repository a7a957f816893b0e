(** Property C143: a trace that is read while spans arrive. *)
From Verif Require Import Base MemModel MemSpec MemProofs MemProofs2 MemProofs3 MemProofs4 WalkModel WalkSpec WalkProofs.

(** Trace(t) has returned a pointer, and the calls [ops] are made while the caller follows it, seeing any of their single writes.  If the trace's spans have
    arrived, and arrive, parents first, then the reader is shown all that the trace had when Trace returned, in its place, and nothing but what the trace has in
    the end, in its place; the end is when the trace is deleted, if it is. *)
Theorem C143_partial : forall calls ops st st' t l hs k tr,
  ms_run calls ms_init = Some st -> ms_trace_of st t = Some l ->
  ms_run ops st = Some st' -> parents_first (spans_of (live t (calls ++ until t ops) [])) ->
  w_run ops st = Some hs -> walk (ms_heap st :: hs) 0 l k tr -> (k <= length hs)%nat ->
  exists st1 T T', ms_run (until t ops) st = Some st1 /\ shows st t T /\ shows st1 t T' /\ grows T tr /\ grows tr T'.
Proof. exact parents_first_until. Qed.
Print Assumptions C143_partial.
(** In whatever order the spans arrive, the reader is shown only spans of the trace, each with all annotations that it had when Trace returned, in order,
    followed by none or some of those that came after; nothing of what is collected under the same ID after a deletion. *)
Theorem C143_shown_partial : forall calls ops st st' t l hs k tr,
  ms_run calls ms_init = Some st -> ms_trace_of st t = Some l -> ms_run ops st = Some st' ->
  w_run ops st = Some hs -> walk (ms_heap st :: hs) 0 l k tr -> (k <= length hs)%nat -> forall n, In n (nodes tr) ->
  In (tr_id n) (spans_of (live t (calls ++ until t ops) [])) /\
  anns_of (sp_span (tr_id n)) (live t calls []) `prefix_of` tr_anns n /\ tr_anns n `prefix_of` anns_of (sp_span (tr_id n)) (live t (calls ++ until t ops) []).
Proof. exact shown_until. Qed.
Print Assumptions C143_shown_partial.
(** The single writes of a call end in the state that the call leaves. *)
Theorem C143_writes : forall ops st st', ms_run ops st = Some st' -> exists hs, w_run ops st = Some hs /\ default (ms_heap st) (last hs) = ms_heap st'.
Proof. exact w_run_last. Qed.
Print Assumptions C143_writes.

(** ** Children first *)
Definition before2 : list call := [CCollect (MkSpanID 1 1 0) []; CCollect (MkSpanID 1 4 3) []; CCollect (MkSpanID 1 2 1) []].
Definition during2 : list call := [CCollect (MkSpanID 1 3 2) []].
Lemma complete4 : complete (spans_of (live 1 (before2 ++ during2) [])) (MkSpanID 1 1 0).
Proof.
  replace (spans_of (live 1 (before2 ++ during2) [])) with [MkSpanID 1 1 0; MkSpanID 1 4 3; MkSpanID 1 2 1; MkSpanID 1 3 2] by reflexivity. split.
  - split; [cbn; auto|done].
  - intros s Hs. cbn in Hs. intuition subst; done.
  - intros s Hs. cbn in Hs. intuition subst; done.
  - intros s Hs Hne. destruct Hs as [<-|[<-|[<-|[<-|[]]]]]; [done| | |]; [exists (MkSpanID 1 3 2)|exists (MkSpanID 1 1 0)|exists (MkSpanID 1 2 1)]; cbn; auto 9.
  - exists N.to_nat. intros c p Hc Hp. cbn in Hc, Hp. intuition subst; cbn in *; lia.
Qed.
(** The property is false: a span is shown twice, once where it was and once where it has been moved to, ... *)
Theorem C143_refuted : exists calls ops st st' l hs k tr, complete (spans_of (live 1 (calls ++ ops) [])) (MkSpanID 1 1 0) /\
  ms_run calls ms_init = Some st /\ ms_trace_of st 1 = Some l /\ ms_run ops st = Some st' /\ (forall ts, In (CDelete ts) ops -> ~ In 1 ts) /\
  w_run ops st = Some hs /\ walk (ms_heap st :: hs) 0 l k tr /\ (k <= length hs)%nat /\
  tr = Tree (MkSpanID 1 1 0) [] [Tree (MkSpanID 1 4 3) [] []; Tree (MkSpanID 1 2 1) [] [Tree (MkSpanID 1 3 2) [] [Tree (MkSpanID 1 4 3) [] []]]].
Proof.
  set (hs := default [] (w_run during2 (final before2))).
  exists before2, during2, (final before2), (final (before2 ++ during2)), 0, hs, 4%nat. eexists. split; [exact complete4|]. split; [apply final_run|]. split; [by vm_compute|]. split; [apply final_app|].
  split; [intros ts [H|[]]; discriminate|]. split; [unfold hs; by vm_compute|]. split; [|split; [by vm_compute|reflexivity]].
  eapply (Walk _ 0 4 4 0 0 _ (MkNode (MkSpanID 1 1 0) [] [1; 2]) (MkNode (MkSpanID 1 1 0) [] [1; 2])); [lia|lia|by vm_compute|lia|by vm_compute| |lia].
  cbn [nd_sub]. eapply Walks_cons; [|eapply Walks_cons; [|apply Walks_nil]].
  - eapply (Walk _ 0 0 0 0 0 _ (MkNode (MkSpanID 1 4 3) [] []) (MkNode (MkSpanID 1 4 3) [] [])); [lia|lia|by vm_compute|lia|by vm_compute|apply Walks_nil|lia].
  - eapply (Walk _ 0 4 4 4 4 _ (MkNode (MkSpanID 1 2 1) [] [3]) (MkNode (MkSpanID 1 2 1) [] [3])); [lia|lia|by vm_compute|lia|by vm_compute| |lia].
    cbn [nd_sub]. eapply Walks_cons; [|apply Walks_nil].
    eapply (Walk _ 4 4 4 4 4 _ (MkNode (MkSpanID 1 3 2) [] [1]) (MkNode (MkSpanID 1 3 2) [] [1])); [lia|lia|by vm_compute|lia|by vm_compute| |lia].
    cbn [nd_sub]. eapply Walks_cons; [|apply Walks_nil].
    eapply (Walk _ 4 4 4 4 4 _ (MkNode (MkSpanID 1 4 3) [] []) (MkNode (MkSpanID 1 4 3) [] [])); [lia|lia|by vm_compute|lia|by vm_compute|apply Walks_nil|lia].
Qed.
Print Assumptions C143_refuted.
(** ... and a span that the trace had when Trace returned is not shown, as it has been moved away. *)
Definition before3 : list call := [CCollect (MkSpanID 1 2 1) []; CCollect (MkSpanID 1 3 1) []].
Definition during3 : list call := [CCollect (MkSpanID 1 1 0) []].
Theorem C143_missing_refuted : exists calls ops st st' l hs k tr, complete (spans_of (live 1 (calls ++ ops) [])) (MkSpanID 1 1 0) /\
  ms_run calls ms_init = Some st /\ shows st 1 (Tree (MkSpanID 1 2 1) [] [Tree (MkSpanID 1 3 1) [] []]) /\
  ms_trace_of st 1 = Some l /\ ms_run ops st = Some st' /\ (forall ts, In (CDelete ts) ops -> ~ In 1 ts) /\
  w_run ops st = Some hs /\ walk (ms_heap st :: hs) 0 l k tr /\ (k <= length hs)%nat /\ tr = Tree (MkSpanID 1 2 1) [] [].
Proof.
  set (hs := default [] (w_run during3 (final before3))).
  exists before3, during3, (final before3), (final (before3 ++ during3)), 0, hs, 3%nat. eexists. split.
  { replace (spans_of (live 1 (before3 ++ during3) [])) with [MkSpanID 1 2 1; MkSpanID 1 3 1; MkSpanID 1 1 0] by reflexivity. split.
    - split; [cbn; auto|done].
    - intros s Hs. cbn in Hs. intuition subst; done.
    - intros s Hs. cbn in Hs. intuition subst; done.
    - intros s Hs Hne. destruct Hs as [<-|[<-|[<-|[]]]]; [| |done]; exists (MkSpanID 1 1 0); cbn; auto 9.
    - exists N.to_nat. intros c p Hc Hp. cbn in Hc, Hp. intuition subst; cbn in *; lia. }
  split; [apply final_run|]. split; [apply (shown_by 9); by vm_compute|]. split; [by vm_compute|]. split; [apply final_app|].
  split; [intros ts [H|[]]; discriminate|]. split; [unfold hs; by vm_compute|]. split; [|split; [vm_compute; lia|reflexivity]].
  eapply (Walk _ 0 3 3 0 3 _ (MkNode (MkSpanID 1 2 1) [] [1]) (MkNode (MkSpanID 1 2 1) [] [])); [lia|lia|by vm_compute|lia|by vm_compute|apply Walks_nil|lia].
Qed.
Print Assumptions C143_missing_refuted.

(** ** Parents first *)
Definition before1 : list call := [CCollect (MkSpanID 1 1 0) [Ann "a" (Some "1")]; CCollect (MkSpanID 1 2 1) []].
Definition during1 : list call := [CCollect (MkSpanID 1 2 1) [Ann "b" (Some "2")]; CCollect (MkSpanID 1 3 2) []; CCollect (MkSpanID 1 1 0) [Ann "c" (Some "3")]].
(** The reader has read the root before its last annotation arrived, and its child after a grandchild did. *)
Example C143_nonvacuous : exists st st' l hs k tr, ms_run before1 ms_init = Some st /\ ms_trace_of st 1 = Some l /\ ms_run during1 st = Some st' /\
  parents_first (spans_of (live 1 (before1 ++ until 1 during1) [])) /\ w_run during1 st = Some hs /\
  walk (ms_heap st :: hs) 0 l k tr /\ (k <= length hs)%nat /\
  tr = Tree (MkSpanID 1 1 0) [Ann "a" (Some "1")] [Tree (MkSpanID 1 2 1) [Ann "b" (Some "2")] [Tree (MkSpanID 1 3 2) [] []]].
Proof.
  set (hs := default [] (w_run during1 (final before1))).
  exists (final before1), (final (before1 ++ during1)), 0, hs, (length hs). eexists. split; [apply final_run|]. split; [by vm_compute|]. split; [apply final_app|].
  split.
  { replace (spans_of (live 1 (before1 ++ until 1 during1) [])) with [MkSpanID 1 1 0; MkSpanID 1 2 1; MkSpanID 1 3 2] by reflexivity.
    exists (MkSpanID 1 1 0), [MkSpanID 1 2 1; MkSpanID 1 3 2]. split; [done|]. split; [done|]. intros b s a E.
    destruct b as [|x [|y [|z b]]]; cbn in E; simplify_eq; split; try done; split; try done; [exists (MkSpanID 1 1 0)|exists (MkSpanID 1 2 1)]; cbn; auto. }
  split; [unfold hs; by vm_compute|]. split; [|split; [lia|reflexivity]].
  set (m := length hs). assert (Hm : m = length hs) by done. vm_compute in Hm. 
  eapply (Walk _ 0 m m 0 0 _ (MkNode (MkSpanID 1 1 0) [Ann "a" (Some "1")] [1]) (MkNode (MkSpanID 1 1 0) [Ann "a" (Some "1")] [1])); [lia|lia|by vm_compute|lia|by vm_compute| |lia].
  cbn [nd_sub]. eapply Walks_cons; [|apply Walks_nil].
  eapply (Walk _ 0 m m m m _ (MkNode (MkSpanID 1 2 1) [Ann "b" (Some "2")] [2]) (MkNode (MkSpanID 1 2 1) [Ann "b" (Some "2")] [2])); [lia|lia|by vm_compute|lia|by vm_compute| |lia].
  cbn [nd_sub]. eapply Walks_cons; [|apply Walks_nil].
  eapply (Walk _ m m m m m _ (MkNode (MkSpanID 1 3 2) [] []) (MkNode (MkSpanID 1 3 2) [] [])); [lia|lia|by vm_compute|lia|by vm_compute|apply Walks_nil|lia].
Qed.
(** The trace is deleted, and spans are collected under its ID again, while it is read: the reader keeps what it has. *)
Definition during4 : list call := [CCollect (MkSpanID 1 3 2) []; CDelete [1]; CCollect (MkSpanID 1 1 0) [Ann "z" None]; CCollect (MkSpanID 1 7 2) []].
Example C143_deleted_nonvacuous : exists st st' l hs k tr, ms_run before1 ms_init = Some st /\ ms_trace_of st 1 = Some l /\ ms_run during4 st = Some st' /\
  parents_first (spans_of (live 1 (before1 ++ until 1 during4) [])) /\ w_run during4 st = Some hs /\
  walk (ms_heap st :: hs) 0 l k tr /\ (k <= length hs)%nat /\
  tr = Tree (MkSpanID 1 1 0) [Ann "a" (Some "1")] [Tree (MkSpanID 1 2 1) [] [Tree (MkSpanID 1 3 2) [] []]].
Proof.
  set (hs := default [] (w_run during4 (final before1))).
  exists (final before1), (final (before1 ++ during4)), 0, hs, (length hs). eexists. split; [apply final_run|]. split; [by vm_compute|]. split; [apply final_app|].
  split.
  { replace (spans_of (live 1 (before1 ++ until 1 during4) [])) with [MkSpanID 1 1 0; MkSpanID 1 2 1; MkSpanID 1 3 2] by reflexivity.
    exists (MkSpanID 1 1 0), [MkSpanID 1 2 1; MkSpanID 1 3 2]. split; [done|]. split; [done|]. intros b s a E.
    destruct b as [|x [|y [|z b]]]; cbn in E; simplify_eq; split; try done; split; try done; [exists (MkSpanID 1 1 0)|exists (MkSpanID 1 2 1)]; cbn; auto. }
  split; [unfold hs; by vm_compute|]. split; [|split; [lia|reflexivity]].
  set (m := length hs). assert (Hm : m = length hs) by done. vm_compute in Hm.
  eapply (Walk _ 0 m m 0 m _ (MkNode (MkSpanID 1 1 0) [Ann "a" (Some "1")] [1]) (MkNode (MkSpanID 1 1 0) [Ann "a" (Some "1")] [1])); [lia|lia|by vm_compute|lia|by vm_compute| |lia].
  cbn [nd_sub]. eapply Walks_cons; [|apply Walks_nil].
  eapply (Walk _ m m m m m _ (MkNode (MkSpanID 1 2 1) [] [2]) (MkNode (MkSpanID 1 2 1) [] [2])); [lia|lia|by vm_compute|lia|by vm_compute| |lia].
  cbn [nd_sub]. eapply Walks_cons; [|apply Walks_nil].
  eapply (Walk _ m m m m m _ (MkNode (MkSpanID 1 3 2) [] []) (MkNode (MkSpanID 1 3 2) [] [])); [lia|lia|by vm_compute|lia|by vm_compute|apply Walks_nil|lia].
Qed.
