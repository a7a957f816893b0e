(** Model of traceapp/trace.go and of the upload of traces (traceapp/app.go), with a MemoryStore as the store. *)
From Verif Require Import Base MemModel.

(** trace.go:8-23 collectTrace; [None] is a panic (MemoryStore.Collect returns no error). *)
Fixpoint collect_trace (t : tree) (st : MS) : option MS :=
  let 'Tree id anns subs := t in
  st ← ms_collect id anns st;
  (fix loop (subs : list tree) (st : MS) : option MS :=
     match subs with
     | [] => Some st
     | s :: subs => st ← collect_trace s st; loop subs st
     end) subs st.

(** app.go:313-329 uploadTraces.  A nil trace in the list, at which the code panics, is not modelled: the list is
    one of trees. *)
Fixpoint upload_traces (traces : list tree) (st : MS) : option MS :=
  match traces with
  | [] => Some st
  | t :: traces =>
      match ms_trace_of st (sp_trace (tr_id t)) with
      | Some _ => upload_traces traces st
      | None => st ← collect_trace t st; upload_traces traces st
      end
  end.
