(** Model of uploads and permalinks that are handled at the same time (traceapp/app.go:313-329, traceapp/trace.go:8-23),
    with a MemoryStore, whose methods are atomic (store.go: mutex). *)
From Verif Require Import Base MemModel.

(** trace.go:8-23 collectTrace: the Collect calls it makes, in order (MemoryStore.Collect returns no error). *)
Fixpoint collect_calls (t : tree) : list (SpanID * list Annotation) :=
  let 'Tree id anns subs := t in
  (id, anns) :: (fix loop (subs : list tree) : list (SpanID * list Annotation) :=
     match subs with [] => [] | s :: subs => collect_calls s ++ loop subs end) subs.
(** A request in uploadTraces: the rest of its traces, and the calls that it has yet to make for the present one. *)
Record request := MkReq { rq_traces : list tree; rq_calls : list (SpanID * list Annotation) }.
(** What happens: request number i asks for a trace of its list and finds it or not (app.go:317-321); it makes the next call of collectTrace (trace.go:10);
    some other part of the program calls the store. *)
Inductive uevent := UAsk (i : nat) (t : N) (found : bool) | UCollect (i : nat) (id : SpanID) (anns : list Annotation) | UOther (c : call).
Inductive ustep : uevent -> MS * list request -> MS * list request -> Prop :=
| U_found i st rs x xs l : rs !! i = Some (MkReq (x :: xs) []) -> ms_trace_of st (sp_trace (tr_id x)) = Some l ->
    ustep (UAsk i (sp_trace (tr_id x)) true) (st, rs) (st, <[i := MkReq xs []]> rs)
| U_missing i st rs x xs : rs !! i = Some (MkReq (x :: xs) []) -> ms_trace_of st (sp_trace (tr_id x)) = None ->
    ustep (UAsk i (sp_trace (tr_id x)) false) (st, rs) (st, <[i := MkReq xs (collect_calls x)]> rs)
| U_collect i st rs xs id anns cs st' : rs !! i = Some (MkReq xs ((id, anns) :: cs)) -> ms_collect id anns st = Some st' ->
    ustep (UCollect i id anns) (st, rs) (st', <[i := MkReq xs cs]> rs)
| U_other c st rs st' : ms_step c st = Some st' -> ustep (UOther c) (st, rs) (st', rs).
Inductive usteps : list uevent -> MS * list request -> MS * list request -> Prop :=
| Us_nil s : usteps [] s s
| Us_cons e es s s' s'' : ustep e s s' -> usteps es s' s'' -> usteps (e :: es) s s''.
(** The requests as they begin and end. *)
Definition begun (uploads : list (list tree)) : list request := map (fun xs => MkReq xs []) uploads.
Definition ended (rs : list request) : Prop := Forall (fun r => r = MkReq [] []) rs.
