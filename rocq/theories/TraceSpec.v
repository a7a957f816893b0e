(** Specification for trace.go and Span.Name. *)
From Verif Require Import Base TimeModel ReflModel EventModel TraceModel.

(** All subtrees, in depth-first order. *)
Fixpoint subtrees (t : tree) : list tree := let 'Tree i a subs := t in t :: concat (map subtrees subs).

(** The annotation [a] is the first one with its key. *)
Definition first_with_key (a : Annotation) (anns : list Annotation) : Prop :=
  exists before after, anns = before ++ a :: after /\ Forall (fun b => ann_key b <> ann_key a) before.

(** Times with which programs work: the zero time, or one from September 1754 to the end of 2261. *)
Definition ordinary (t : time) : Prop :=
  (instant t = 0 \/
   instant (MkTime 1754 9 1 0 0 0 0 0) <= instant t < instant (MkTime 2262 1 1 0 0 0 0 0))%Z.
(** [s] and [r] are the earliest start and the latest end. *)
Definition range_of (ts : list (time * time)) (s r : time) : Prop :=
  s ∈ map fst ts /\ r ∈ map snd ts /\
  forall s' r', (s', r') ∈ ts -> (instant s <= instant s')%Z /\ (instant r' <= instant r)%Z.
(** The start and end times of the timespan events among [events]. *)
Definition timespans (events : list (string * val)) : list (time * time) := omap as_timespan events.

(** The library's timespan events with their starts and ends. *)
Inductive timespan_event : string * val -> time -> time -> Prop :=
| timespan_plain s e : timespan_event ("timespan"%string, VStruct [("S", VTime s); ("E", VTime e)]) s e
| timespan_opentracing s e : timespan_event ("Timespan"%string, VStruct [("Span.Start", VTime s); ("Span.End", VTime e)]) s e
| timespan_client req resp s e : timespan_event ("HTTPClient"%string,
    VStruct [("Client.Request", req); ("Client.Response", resp); ("Client.Send", VTime s); ("Client.Recv", VTime e)]) s e
| timespan_server req resp route user s e : timespan_event ("HTTPServer"%string,
    VStruct [("Server.Request", req); ("Server.Response", resp); ("Server.Route", route); ("Server.User", user);
             ("Server.Recv", VTime s); ("Server.Send", VTime e)]) s e
| timespan_sql q tag s e : timespan_event ("SQL"%string,
    VStruct [("SQL", q); ("Tag", tag); ("ClientSend", VTime s); ("ClientRecv", VTime e)]) s e.
