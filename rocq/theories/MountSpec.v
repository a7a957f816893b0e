(** Specification for traceapp below a path of its user's router. *)
From Verif Require Import Base IdSpec IdModel WebModel RouteSpec HrefModel HrefSpec MountModel.
Local Open Scope string_scope.

(** The components of a path prefix are written plainly. *)
Definition plain_prefix (P : list string) : Prop :=
  forall c, In c P -> c <> "" /\ c <> "." /\ c <> ".." /\ ~ In "/"%char (bytes c).
(** The user's routes that come first leave the paths below the prefix alone. *)
Definition leaves_alone {A} (before : string -> string -> option A) (P : list string) : Prop :=
  forall m path cs, plain_path path (P ++ cs) -> before m path = None.
(** What the user's router answers without traceapp. *)
Definition alone {A} (before after : string -> string -> option A) (method path : string) (x : answered A) : Prop :=
  (forall cs, ~ plain_path path cs) /\ x = Redirected \/
  exists cs, plain_path path cs /\
    match before method path, after method path with
    | Some a, _ => x = Users a
    | None, Some a => x = Users a
    | None, None => x = NothingFound
    end.

(** What the router makes addresses for: routes with their variables. *)
Inductive linked : route_name -> vars -> Prop :=
| L_root : linked RootRoute []
| L_static : linked StaticRoute []
| L_traces : linked TracesRoute []
| L_upload : linked TraceUploadRoute []
| L_dashboard : linked DashboardRoute []
| L_data : linked DashboardDataRoute []
| L_aggregate : linked AggregateRoute []
| L_trace t : is_id t -> linked TraceRoute [("Trace", id_string t)]
| L_profile t : is_id t -> linked TraceProfileRoute [("Trace", id_string t)]
| L_span t s : is_id t -> is_id s -> linked TraceSpanRoute [("Trace", id_string t); ("Span", id_string s)]
| L_span_profile t s : is_id t -> is_id s -> linked TraceSpanProfileRoute [("Trace", id_string t); ("Span", id_string s)].

(** As [leads] (HrefSpec), for an application below [P] of the user's router: the reference is resolved to a path
    and query on the site; a request for the path is answered by the handler of the reference's destination. *)
Definition leads_below {A} (before after : string -> string -> option A) (b : base_url) (P : list string) (r : reference) : Prop :=
  (exists target, resolves b (r_text r) target) /\
  forall target, resolves b (r_text r) target ->
    exists m cs path query route v, target = path +:+ query /\ joined ("" :: P ++ cs) path /\
      destination (r_for r) m cs query route v /\
      serve before after P m path = Traceapp route v.
(** Requests that the pages' fixed references lead to: layout.html:9, 103; root.html:32-37; traces.html:52;
    dashboard.html:59, 117. *)
Definition fixed_requests : list (string * string) :=
  [ ("GET", "/static/favicon.png"); ("GET", "/static/logo_white.png"); ("GET", "/static/logo_red.png"); ("GET", "/static/red_spinner.png");
    ("GET", "/traces"); ("POST", "/traces/upload"); ("GET", "/dashboard/data") ].
