(** Services that call each other over HTTP, all with the Middleware and the Transport of package httptrace:
    HttpModel.serve and TransportModel.round_trip put together. *)
From Verif Require Import Base IdModel TimeModel ReflModel EventModel RecorderModel HttpModel TransportModel.

(** The outgoing requests of a handler: [gc], [gs] are the IDs that generateID gave the Transport, [sub] the
    outgoing requests of the handler that served it, [None] if it reached no server with the Middleware. *)
Inductive req := Req (gc gs : N) (sub : option (list req)).

(** The span a handler is given: through the request's context (server.go:81-83) or by SetContextSpan. *)
Definition handler_span (out : outcome) (s : SpanID) : Prop :=
  (exists r, oc_nexts out = [(r, Some s)]) \/ oc_spans_set out = [s].

(** [makes p rs cs]: code that runs within span [p] has made the requests [rs] through a Transport whose Recorder
    is for [p] (client.go:133-173), and they were served as [rs] says (server.go:69-112); [cs] are the Collect calls of
    all services, not in the order of time.  Collectors succeed.  No transport or handler panics.  On the way a request's
    header may change except for its span ID. *)
Inductive makes : SpanID -> list req -> list (SpanID * list Annotation) -> Prop :=
| makes_none p : makes p [] []
| makes_unserved p names set_name tr gc gs lg mem q trip rs cs :
    is_Some (mem !! q_map q) ->
    round_trip names p set_name tr gc gs None lg mem q trip -> tp_result trip <> TPanic ->
    makes p rs cs -> makes p (Req gc gs None :: rs) (tp_collects trip ++ cs)
| makes_served p names set_name tr gc gs lg mem q trip sent names' cf next g1 g2 lg' r w out s sub cs1 rs cs2 :
    is_Some (mem !! q_map q) ->
    round_trip names p set_name tr gc gs None lg mem q trip -> tp_result trip <> TPanic ->
    tp_sent trip = [sent] -> rq_header r !! "Span-Id"%string = rq_header sent !! "Span-Id"%string ->
    serve names' cf next g1 g2 None lg' r w out -> oc_panics out = false -> handler_span out s ->
    makes s sub cs1 -> makes p rs cs2 ->
    makes p (Req gc gs (Some sub) :: rs) (tp_collects trip ++ oc_collects out ++ cs1 ++ cs2).

(** A request from outside, without span headers, that is served with the Middleware; its handler makes
    requests in turn.  [g1], [g2] are the IDs of the trace and its first span. *)
Inductive enters : N -> N -> list req -> list (SpanID * list Annotation) -> Prop :=
| enters_intro names cf next g1 g2 lg r w out s rs cs :
    header_get (rq_header r) "Span-ID" = ""%string -> header_get (rq_header r) "Parent-Span-ID" = ""%string ->
    serve names cf next g1 g2 None lg r w out -> oc_panics out = false -> handler_span out s ->
    makes s rs cs -> enters g1 g2 rs (oc_collects out ++ cs).
