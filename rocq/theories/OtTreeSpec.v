(** How the spans of an OpenTracing trace reach a store. *)
From Verif Require Import Base MemModel TimeModel TraceModel OtModel OtSpec OtSampleModel OtSampleSpec.

(** The Collect calls of a Recorder. *)
Definition calls_made (os : list obs) : list (SpanID * list Annotation) :=
  omap (fun o => match o with OCollect id anns _ => Some (id, anns) | OLine _ => None end) os.
(** The calls [col] of all programs that use the store, in the order of their effects.  For the spans of the trace that began with span
    [r] they are, span by span, those of RecordSpan, for all finished spans; the calls of different spans come in any order, and nobody
    else uses the trace's ID. *)
Definition delivered (json : gmap string string -> string) (cs : list ocall) (st : ostate) (r : nat) (t : N) (col : list (SpanID * list Annotation)) : Prop :=
  (forall c, c ∈ col -> sp_trace (fst c) = t -> exists i raw, in_trace cs i r /\ (i, raw) ∈ o_recorded st /\ fst c = sp_id raw) /\
  (forall i raw, in_trace cs i r -> (i, raw) ∈ o_recorded st ->
    exists rec os rec', record_span json raw rec os rec' /\ all_accepted os /\ filter (fun c => fst c = sp_id raw) col = calls_made os).
