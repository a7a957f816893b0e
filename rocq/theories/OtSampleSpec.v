(** Traces of OpenTracing spans. *)
From Verif Require Import Base TimeModel TraceModel OtModel OtSampleModel.

(** The references of the spans that are started, in order. *)
Definition starts (cs : list ocall) : list (nat * option nat * N) :=
  omap (fun c => match c with OStart tr ref trace _ => Some (tr, ref, trace) | _ => None end) cs.
(** Span [i] belongs to the trace that began with span [r]: it is [r], or its reference does. *)
Inductive in_trace (cs : list ocall) : nat -> nat -> Prop :=
| it_root r tr trace : starts cs !! r = Some (tr, None, trace) -> in_trace cs r r
| it_child i tr p trace r : starts cs !! i = Some (tr, Some p, trace) -> (p < i)%nat -> in_trace cs p r -> in_trace cs i r.
(** No random trace ID is 0. *)
Definition nonzero_traces (cs : list ocall) : Prop := forall i tr ref trace, starts cs !! i = Some (tr, ref, trace) -> trace <> 0.

(** The numbers that the spans were given, in the order in which they were started. *)
Definition numbers (cs : list ocall) : list N := omap (fun c => match c with OStart _ _ _ span => Some span | _ => None end) cs.
