(** Specification for the references of traceapp's pages. *)
From Verif Require Import Base IdSpec IdModel WebModel WebSpec RouteSpec HrefModel.
Local Open Scope string_scope.

(** How a browser reads a reference on a page whose base (<base href>) is [b]: the path and query that it asks for
    on the base's site (RFC 3986, section 5; references without "." and ".." components). *)
Inductive resolves (b : base_url) : string -> string -> Prop :=
| R_absolute p : resolves b (u_scheme b +:+ "://" +:+ u_host b +:+ "/" +:+ p) ("/" +:+ p)
| R_path p : String.prefix "/" p = false -> resolves b ("/" +:+ p) ("/" +:+ p)
| R_relative dir last p : u_path b = dir +:+ "/" +:+ last -> ~ In "/"%char (bytes last) ->
    p <> "" -> String.prefix "/" p = false -> ~ In ":"%char (bytes p) ->
    resolves b p (dir +:+ "/" +:+ p).

(** Where a reference is to lead: method and path components within the application, query, and the handler of the
    address in the application's table of addresses. *)
Inductive destination : purpose -> string -> list string -> string -> route_name -> vars -> Prop :=
| D_home : destination ToHome "GET" [""] "" RootRoute []
| D_static f fs : destination (ToStatic (f :: fs)) "GET" ("static" :: f :: fs) "" StaticRoute []
| D_dashboard : destination ToDashboard "GET" ["dashboard"] "" DashboardRoute []
| D_data : destination ToDashboardData "GET" ["dashboard"; "data"] "" DashboardDataRoute []
| D_traces : destination ToTraces "GET" ["traces"] "" TracesRoute []
| D_slowest ids show : (ids = [] /\ show = "" \/ comma_list (map id_string ids) show) -> destination (ToSlowest ids) "GET" ["traces"] ("?show=" +:+ show) TracesRoute []
| D_trace t : destination (ToTrace t) "GET" ["traces"; id_string t] "" TraceRoute [("Trace", id_string t)]
| D_permalink t text : destination (ToPermalink t text) "GET" ["traces"; id_string t] ("?permalink=" +:+ text) TraceRoute [("Trace", id_string t)]
| D_span t s : destination (ToSpan t s) "GET" ["traces"; id_string t; id_string s] "" TraceSpanRoute [("Trace", id_string t); ("Span", id_string s)]
| D_profile t : destination (ToProfile t) "GET" ["traces"; id_string t; "profile"] "" TraceProfileRoute [("Trace", id_string t)]
| D_span_profile t s : destination (ToSpanProfile t s) "GET" ["traces"; id_string t; id_string s; "profile"] "" TraceSpanProfileRoute [("Trace", id_string t); ("Span", id_string s)]
| D_upload : destination ToUpload "POST" ["traces"; "upload"] "" TraceUploadRoute []
| D_aggregate : destination ToAggregate "GET" ["aggregate"] "" AggregateRoute []
| D_selection ids sel : comma_list (map id_string ids) sel -> destination (ToSelection ids) "GET" ["aggregate"] ("?selection=" +:+ sel) AggregateRoute [].

(** The application is reached at the base URL: for a base path "/p" or "/p/" a request for "/p/x" is a request
    for the application's "/x", and one for "/p" a request for its "/".  [mount] is the base path without a last slash. *)
Definition mounted (b : base_url) (mount : string) : Prop :=
  String.prefix "/" mount = true /\ (exists p c, mount = p +:+ String c "" /\ c <> "/"%char) /\ (u_path b = mount \/ u_path b = mount +:+ "/") \/
  mount = "" /\ (u_path b = "" \/ u_path b = "/").
(** On a page with base [b], of an application reached at [mount], the reference [r] leads to its destination:
    a request for the destination's path within the application, with its query, which the handler of the
    destination answers. *)
Definition leads (b : base_url) (mount : string) (r : reference) : Prop :=
  (exists target, resolves b (r_text r) target) /\
  forall target, resolves b (r_text r) target ->
    exists m cs path query route v, (target = mount +:+ path +:+ query \/ target = mount /\ path = "/" /\ query = "") /\ joined ("" :: cs) path /\
      destination (r_for r) m cs query route v /\
      dispatch m path = DRoute route v.
(** The URL is written as URLs are. *)
Definition plain_base (b : base_url) : Prop := ~ In "/"%char (bytes (u_scheme b)) /\ ~ In "/"%char (bytes (u_host b)).
(** All IDs of a page are IDs. *)
Definition page_ids (p : page) : Prop :=
  match p with
  | TracesPage listed => Forall is_id listed
  | TracePage i _ spans => Forall (fun i => is_id (sp_trace i) /\ is_id (sp_span i)) (i :: spans)
  | DashboardPage rows => Forall (Forall is_id) rows
  | RootPage | AggregatePage => True
  end.
