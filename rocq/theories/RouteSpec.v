(** Specification for traceapp's addresses. *)
From Verif Require Import Base IdSpec WebModel.
Local Open Scope string_scope.

(** A path is written plainly: it starts with a slash, and of its components none is "." or "..", and none
    but the last is empty. *)
Definition plain_path (path : string) (cs : list string) : Prop :=
  joined ("" :: cs) path /\ cs <> [] /\
  (forall c, In c cs -> c <> "." /\ c <> "..") /\
  (forall before c after, cs = (before ++ c :: after)%list -> after <> [] -> c <> "").

(** The addresses: method, components of the path, handler, variables. *)
Inductive address_of : string -> list string -> route_name -> vars -> Prop :=
| A_root : address_of "GET" [""] RootRoute []
| A_static c cs : address_of "GET" ("static" :: c :: cs) StaticRoute []
| A_traces : address_of "GET" ["traces"] TracesRoute []
| A_trace t : t <> "" -> address_of "GET" ["traces"; t] TraceRoute [("Trace", t)]
| A_profile t : t <> "" -> address_of "GET" ["traces"; t; "profile"] TraceProfileRoute [("Trace", t)]
| A_span t s : t <> "" -> s <> "" -> s <> "profile" -> address_of "GET" ["traces"; t; s] TraceSpanRoute [("Trace", t); ("Span", s)]
| A_span_profile t s : t <> "" -> s <> "" -> address_of "GET" ["traces"; t; s; "profile"] TraceSpanProfileRoute [("Trace", t); ("Span", s)]
| A_upload : address_of "POST" ["traces"; "upload"] TraceUploadRoute []
| A_dashboard : address_of "GET" ["dashboard"] DashboardRoute []
| A_dashboard_data : address_of "GET" ["dashboard"; "data"] DashboardDataRoute []
| A_aggregate : address_of "GET" ["aggregate"] AggregateRoute [].
