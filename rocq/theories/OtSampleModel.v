(** Model of opentracing/tracer.go: sampling.  The tracer is basictracer's (outside /repo: modelled after its documented
    behaviour); its Recorder is that of [OtModel]. *)
From Verif Require Import Base TimeModel TraceModel OtModel.

(** opentracing/tracer.go:16-34 Options, as far as sampling goes: ShouldSample may be nil. *)
Notation options := (option (N -> bool)).
(** opentracing/tracer.go:42-47 DefaultOptions *)
Definition default_options : options := Some (fun _ => true).

(** A span: the tracer that started it, its IDs, whether it is sampled, its baggage. *)
Record ospan := MkOspan { os_tracer : nat; os_id : SpanID; os_sampled : bool; os_baggage : gmap string string }.
(** Calls: StartSpan on a tracer, with the context of another span as reference or without one ([trace] and [span] are the random
    numbers); SetBaggageItem; Finish, with what the span was given (operation, logs, tags, times).  A reference may be
    a span of another process, whose context was injected and extracted. *)
Inductive ocall :=
| OStart (tracer : nat) (ref : option nat) (trace span : N)
| OBaggage (i : nat) (k v : string)
| OFinish (i : nat) (op : string) (logs : list (time * list (string * string))) (tags : gmap string string) (start : time) (duration : Z).
(** All spans in the order in which they were started; the spans that were handed to the Recorders. *)
Record ostate := MkOstate { o_spans : list ospan; o_recorded : list (nat * raw_span) }.
Definition o_init : ostate := MkOstate [] [].

(** tracer.StartSpan: the first reference counts; without one (or with one of trace 0) a new trace begins,
    and opentracing/tracer.go:78 ShouldSample is asked.  None: panic (nil function). *)
Definition start_span (os : list options) (st : ostate) (tr : nat) (ref : option nat) (trace span : N) : option ospan :=
  match (r ← ref; o_spans st !! r) with
  | Some p =>
      if sp_trace (os_id p) =? 0 then
        f ← mjoin (os !! tr); Some (MkOspan tr (MkSpanID trace span (sp_span (os_id p))) (f trace) (os_baggage p))
      else Some (MkOspan tr (MkSpanID (sp_trace (os_id p)) span (sp_span (os_id p))) (os_sampled p) (os_baggage p))
  | None => f ← mjoin (os !! tr); Some (MkOspan tr (MkSpanID trace span 0) (f trace) ∅)
  end.
Definition o_step (os : list options) (st : ostate) (c : ocall) : option ostate :=
  match c with
  | OStart tr ref trace span =>
      s ← start_span os st tr ref trace span; Some (MkOstate (o_spans st ++ [s]) (o_recorded st))
  | OBaggage i k v =>
      Some (MkOstate (alter (fun s => MkOspan (os_tracer s) (os_id s) (os_sampled s) (<[k := v]> (os_baggage s))) i (o_spans st)) (o_recorded st))
  | OFinish i op logs tags start duration =>
      match o_spans st !! i with
      | Some s => Some (MkOstate (o_spans st) (o_recorded st ++ [(i, MkRaw (os_sampled s) (os_id s) op logs tags (os_baggage s) start duration)]))
      | None => Some st
      end
  end.
Fixpoint o_run (os : list options) (cs : list ocall) (st : ostate) : option ostate :=
  match cs with [] => Some st | c :: cs => st ← o_step os st c; o_run os cs st end.
