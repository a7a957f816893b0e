(** Model of traceapp/prof.go and traceapp/aggregate.go: profiles of traces and their aggregation. *)
From Verif Require Import Base FloatModel IdModel TimeModel ReflModel EventModel TraceModel.
From Coq Require Import Floats.SpecFloat.
Local Open Scope Z_scope.

(** time.Time.Sub: saturates at the largest and smallest Duration. *)
Definition time_sub (e s : time) : Z := Z.max (- 2 ^ 63) (Z.min (2 ^ 63 - 1) (instant e - instant s)).
(** prof.go:62-63 *)
Definition millis (d : Z) : Z := int_of_f64 (f64_add (f64_div (f64_of_int d) (f64_of_int 1000000)) f64_half).

(** prof.go:13-17 *)
Record profile := MkProfile { pf_name : string; pf_url : string; pf_time : Z; pf_children : Z; pf_cum : Z }.
(** An error, a panic (of UnmarshalEvents) or the result. *)
Inductive res (A : Type) := RErr | RPanic | ROk (x : A).
Arguments RErr {A}. Arguments RPanic {A}. Arguments ROk {A} x.

(** The URLs of traces and spans (router.go:56-65); None: an error. *)
Record urls := MkUrls { u_trace : N -> option string; u_span : N -> N -> option string }.
(** prof.go:31-42 *)
Definition url_of (us : urls) (i : SpanID) : option string :=
  if N.eqb (sp_parent i) 0 then u_trace us (sp_trace i) else u_span us (sp_trace i) (sp_span i).
(** prof.go:46-52 *)
Definition prof_name (t : tree) : string :=
  let n := span_name (tr_anns t) in if decide (n = ""%string) then id_string (sp_span (tr_id t)) else n.
(** prof.go:56-67 *)
Definition prof_time (events : list (string * val)) : Z :=
  fold_left (fun acc e =>
    match as_timespan e with
    | None => acc
    | Some (s, r) => let ms := millis (time_sub r s) in if acc <? ms then ms else acc
    end) events 0.

(** prof.go:23-92 calcProfile.  The result is the list of the profiles that are appended to the buffer;
    the first one is that of t itself (childProf). *)
Fixpoint calc_profile (reg : registry) (us : urls) (t : tree) : res (list profile) :=
  let 'Tree i anns subs := t in
  match unmarshal_events reg anns with
  | (_, EsErr) => RErr
  | (_, EsPanic) => RPanic
  | (events, EsOk) =>
      match url_of us i with
      | None => RErr
      | Some u =>
          let tm := prof_time events in
          (* prof.go:77-90 *)
          (fix loop (subs : list tree) (buf : list profile) (children cum : Z) : res (list profile) :=
             match subs with
             | [] => ROk (MkProfile (prof_name t) u tm children cum :: buf)
             | c :: subs =>
                 match calc_profile reg us c with
                 | ROk (p :: ps) => loop subs (buf ++ p :: ps) (int64 (children + pf_time p)) (int64 (cum + pf_cum p))
                 | ROk [] => RErr
                 | RErr => RErr
                 | RPanic => RPanic
                 end
             end) subs [] tm tm
      end
  end.

(** ** traceapp/aggregate.go *)

(** aggregate.go:18-22 *)
Inductive agg_mode := TraceOnly | SpanOnly | TraceAndSpan.
(** aggregate.go:30-41 parseAggMode *)
Definition parse_agg_mode (s : string) : agg_mode :=
  if decide (s = "span-only"%string) then SpanOnly
  else if decide (s = "trace-and-span"%string) then TraceAndSpan else TraceOnly.
(** aggregate.go:48-63: one call of up *)
Definition up (m : gmap string Z) (x : string * Z) : gmap string Z :=
  let v := int64 (default 0 (m !! fst x) + snd x) in <[fst x := if v =? 0 then 1 else v]> m.
(** aggregate.go:72-82: the calls of up for a trace; its profile [p :: ps]. *)
Definition ups (mode : agg_mode) (p : profile) (ps : list profile) : list (string * Z) :=
  match mode with
  | TraceOnly => [(pf_name p, pf_cum p)]
  | SpanOnly => map (fun q => (pf_name q, pf_time q)) ps
  | TraceAndSpan => map (fun q => (pf_name p +:+ ": " +:+ pf_name q, pf_time q)%string) ps
  end.
(** aggregate.go:65-84 *)
Fixpoint aggregate_loop (reg : registry) (us : urls) (mode : agg_mode) (traces : list tree) (m : gmap string Z) : res (gmap string Z) :=
  match traces with
  | [] => ROk m
  | t :: traces =>
      match calc_profile reg us t with
      | ROk (p :: ps) => aggregate_loop reg us mode traces (fold_left up (ups mode p ps) m)
      | ROk [] => RErr
      | RErr => RErr
      | RPanic => RPanic
      end
  end.
(** aggregate.go:44-91 aggregate: the items, in any order. *)
Inductive aggregate (reg : registry) (us : urls) (mode : agg_mode) (traces : list tree) : res (list (string * Z)) -> Prop :=
| aggregate_ok m l : aggregate_loop reg us mode traces ∅ = ROk m -> Permutation l (map_to_list m) -> aggregate reg us mode traces (ROk l)
| aggregate_err : aggregate_loop reg us mode traces ∅ = RErr -> aggregate reg us mode traces RErr
| aggregate_panic : aggregate_loop reg us mode traces ∅ = RPanic -> aggregate reg us mode traces RPanic.
