(** Model of traceapp.New's base URL (traceapp/app.go) and of the references that the pages contain
    (traceapp/tmpl/data/*.html): links, scripts, images, and the addresses their scripts go to. *)
From Verif Require Import Base IdModel TraceModel WebModel.
Local Open Scope string_scope.

(** The parts of a url.URL that a base URL has.  (User, query, fragment and escaped paths: not modelled.) *)
Record base_url := MkBase { u_scheme : string; u_host : string; u_path : string }.
(** url.URL's String *)
Definition url_string (b : base_url) : string := u_scheme b +:+ "://" +:+ u_host b +:+ u_path b.
(** app.go:65-74: the base URL that New keeps; None: an error. *)
Definition new_base (b : base_url) : option base_url :=
  if (String.eqb (u_scheme b) "" || String.eqb (u_host b) "")%bool then None
  else Some (if String.eqb (u_path b) "" then MkBase (u_scheme b) (u_host b) "/" else b).

(** What a reference is for, according to the page's text or the script around it. *)
Inductive purpose :=
| ToHome                               (* the logo *)
| ToStatic (file : list string)        (* a file of the application *)
| ToDashboard
| ToDashboardData
| ToTraces                             (* all traces *)
| ToSlowest (ids : list N)             (* the traces of a row of the dashboard *)
| ToTrace (t : N)                      (* the page of a trace *)
| ToPermalink (t : N) (text : string)
| ToSpan (t s : N)                     (* the page of a sub-span *)
| ToProfile (t : N)
| ToSpanProfile (t s : N)
| ToUpload
| ToAggregate                          (* the aggregated view of all traces *)
| ToSelection (ids : list N).          (* ... of some *)
Record reference := MkRef { r_for : purpose; r_text : string }.

(** layout.html:9, 89-91, 103, 108-123: on every page.  {{.BaseURL}} is the text of the base URL.  [have]: there is
    an Aggregator (tmpl.go:69). *)
Definition layout_refs (b : base_url) (have : bool) : list reference :=
  [ MkRef (ToStatic ["favicon.png"]) "/static/favicon.png";
    MkRef (ToStatic ["jiahuang"; "d3-timeline"; "d3-timeline.js"]) (url_string b +:+ "static/jiahuang/d3-timeline/d3-timeline.js");
    MkRef (ToStatic ["krisk"; "fuse"; "fuse.min.js"]) (url_string b +:+ "static/krisk/fuse/fuse.min.js");
    MkRef (ToStatic ["zeroclipboard"; "zeroclipboard"; "ZeroClipboard.min.js"]) (url_string b +:+ "static/zeroclipboard/zeroclipboard/ZeroClipboard.min.js");
    MkRef ToHome (url_string b);
    MkRef (ToStatic ["logo_white.png"]) "/static/logo_white.png" ] ++
  (if have then [MkRef ToDashboard "dashboard"] else []) ++ [MkRef ToTraces "traces"].
(** root.html:32-37 *)
Definition root_refs : list reference :=
  [ MkRef (ToStatic ["logo_red.png"]) "/static/logo_red.png"; MkRef (ToStatic ["red_spinner.png"]) "/static/red_spinner.png"; MkRef ToTraces "/traces" ].
(** JavaScript's Array.join(): with commas. *)
Definition js_join (ids : list string) : string := join "," ids.
(** traces.html:52, 107 *)
Definition traces_refs (listed : list N) : list reference :=
  MkRef ToUpload "/traces/upload" :: map (fun t => MkRef (ToTrace t) (url_to_trace t)) listed.
(** traces.html:167-186: the button "Aggregate View", with [checked] of the [listed] traces selected. *)
Definition aggregate_query (listed checked : list N) : string :=
  if Nat.eqb (length checked) (length listed) then "" else "?selection=" +:+ js_join (map id_string checked).
Definition aggregate_button (b : base_url) (listed checked : list N) : string := url_string b +:+ "aggregate" +:+ aggregate_query listed checked.
(** app.go:259-261: r.URL.Query().Get("selection"), for these queries. *)
Definition selection_param (query : string) : string :=
  if String.prefix "?selection=" query then unbytes (drop (String.length "?selection=") (bytes query)) else "".
(** app.go:250-284: the traces in the aggregated view that the button leads to; [traces] are the Queryer's. *)
Definition aggregated_view (traces : list tree) (listed checked : list N) : option (list tree) :=
  selected traces (selection_param (aggregate_query listed checked)).
(** vis.go:60-73 and prof.go:33-44: the URL of a span, followed by a click on its bar (trace.html:400, 436) or its
    row (trace.html:694-695). *)
Definition span_ref (i : SpanID) : reference :=
  if N.eqb (sp_parent i) 0 then MkRef (ToTrace (sp_trace i)) (url_to_trace (sp_trace i))
  else MkRef (ToSpan (sp_trace i) (sp_span i)) (url_to_trace_span (sp_trace i) (sp_span i)).
(** trace.html:5-6, 15-19, 666; app.go:168-174, 201-205: the page of the span [i] with the [spans] below it. *)
Definition trace_refs (b : base_url) (i : SpanID) (permalink : string) (spans : list SpanID) : list reference :=
  [ MkRef (ToStatic ["Caged"; "d3-tip"; "index.js"]) (url_string b +:+ "static/Caged/d3-tip/index.js");
    MkRef (ToStatic ["Caged"; "d3-tip"; "example-styles.css"]) (url_string b +:+ "static/Caged/d3-tip/example-styles.css") ] ++
  (if N.eqb (sp_parent i) 0 then [MkRef (ToPermalink (sp_trace i) permalink) (url_to_trace (sp_trace i) +:+ "?permalink=" +:+ permalink);
                                  MkRef (ToProfile (sp_trace i)) (url_to_trace_profile (sp_trace i))]
   else [MkRef (ToSpanProfile (sp_trace i) (sp_span i)) (url_to_trace_span_profile (sp_trace i) (sp_span i))]) ++
  map span_ref spans.
(** dashboard.html:5-6, 59, 117; dashboard.go:87-103: [rows] gives the slowest traces of each row. *)
Definition dashboard_refs (b : base_url) (rows : list (list N)) : list reference :=
  [ MkRef (ToStatic ["seiyria"; "bootstrap-slider"; "bootstrap-slider.min.js"]) (url_string b +:+ "static/seiyria/bootstrap-slider/bootstrap-slider.min.js");
    MkRef (ToStatic ["seiyria"; "bootstrap-slider"; "bootstrap-slider.css"]) (url_string b +:+ "static/seiyria/bootstrap-slider/bootstrap-slider.css");
    MkRef ToDashboardData "/dashboard/data" ] ++
  map (fun ids => MkRef (ToSlowest ids) ("/traces?show=" +:+ row_show ids)) rows.
(** aggregate.html:49 *)
Definition aggregate_refs (b : base_url) : list reference :=
  [ MkRef (ToStatic ["benkeen"; "d3pie"; "d3pie.min.js"]) (url_string b +:+ "static/benkeen/d3pie/d3pie.min.js") ].

Inductive page :=
| RootPage | TracesPage (listed : list N) | TracePage (i : SpanID) (permalink : string) (spans : list SpanID)
| DashboardPage (rows : list (list N)) | AggregatePage.
(** The references of a page. *)
Definition page_refs (b : base_url) (have : bool) (p : page) : list reference :=
  layout_refs b have ++
  match p with
  | RootPage => root_refs
  | TracesPage listed => traces_refs listed ++ [MkRef ToAggregate (aggregate_button b listed listed)]
  | TracePage i permalink spans => trace_refs b i permalink spans
  | DashboardPage rows => dashboard_refs b rows
  | AggregatePage => aggregate_refs b
  end.
