(** Specification for profiles and aggregation. *)
From Verif Require Import Base IdModel TimeModel ReflModel EventModel TraceModel TraceSpec ProfModel.
Local Open Scope Z_scope.

Definition sum (l : list Z) : Z := foldr Z.add 0 l.

(** The nanoseconds from [s] to [e]; a Duration holds at most 292 years, in either direction. *)
Definition elapsed (s e : time) : Z :=
  let d := instant e - instant s in
  if 9223372036854775807 <? d then 9223372036854775807 else if d <? -9223372036854775808 then -9223372036854775808 else d.

(** The longest timespan event of the span, in rounded milliseconds (see C60_rounding), is [ms]; 0 if it has none
    (or none that ends after it starts). *)
Definition longest (reg : registry) (t : tree) (ms : Z) : Prop :=
  let spans := timespans (fst (unmarshal_events reg (tr_anns t))) in
  (ms = 0 \/ exists s e, (s, e) ∈ spans /\ ms = millis (elapsed s e)) /\
  0 <= ms /\ forall s e, (s, e) ∈ spans -> millis (elapsed s e) <= ms.

(** The amounts that count for a label. *)
Definition amounts (label : string) (l : list (string * Z)) : list Z := map snd (filter (fun x => fst x = label) l).

(** The labels and amounts that count in each mode, from the profiles of the traces (the root's first). *)
Definition counted (mode : agg_mode) (prof : list profile) : list (string * Z) :=
  match mode, prof with
  | _, [] => []
  | TraceOnly, root :: _ => [(pf_name root, pf_cum root)]
  | SpanOnly, _ :: spans => map (fun p => (pf_name p, pf_time p)) spans
  | TraceAndSpan, root :: spans => map (fun p => (pf_name root +:+ ": " +:+ pf_name p, pf_time p)%string) spans
  end.
