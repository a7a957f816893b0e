(** Model of the demo command's web application (cmd/appdash/example_app.go). *)
From Verif Require Import Base IdModel TimeModel ReflModel EventModel RecorderModel HttpModel ChainModel.

Definition quote : string := """".
Definition newline : string := String "010" "".
(** example_app.go:60-65: the address of Appdash, from --appdash-http.  Only for addresses that consist of letters, digits, dots and one colon with
    digits after it, which net/url leaves as they are. *)
Definition demo_url (addr : string) : string := "http://localhost" +:+ addr.
(** example_app.go:158-159: the link below the page; ResolveReference of an absolute path replaces the path of the address, which has none. *)
Definition demo_span_url (addr : string) (span : SpanID) : string := demo_url addr +:+ "/traces/" +:+ id_string (sp_trace span).
Definition demo_footer (addr : string) (span : SpanID) : string :=
  "<br><br><hr><a href=" +:+ quote +:+ demo_span_url addr span +:+ quote +:+ ">View request trace on appdash</a> (trace ID is " +:+ id_string (sp_trace span) +:+ ")".
(** example_app.go:122-126 *)
Definition demo_home : string :=
  "<h1>Appdash demo</h1>" +:+ newline +:+
  "<p>Welcome! Click some links and then view the traces for each HTTP request by following the link at the bottom of the page." +:+ newline +:+
  "<ul>" +:+ newline +:+
  "<li><a href=" +:+ quote +:+ "/api-calls" +:+ quote +:+ ">Visit a page that issues some API calls</a></li>" +:+ newline +:+ "</ul>".
(** example_app.go:142 *)
Definition demo_calls : string := "<a href=" +:+ quote +:+ "/" +:+ quote +:+ ">Home</a><br><br><p>I just made 3 API calls. Check the trace below to see them!</p>".
(** example_app.go:117-160 demoApp.ServeHTTP: what it writes.  httptrace.SpanID (server.go:137-142) takes the span from the request's context, and panics
    if there is none, which the Middleware excludes. *)
Definition demo_app (addr : string) : handler := fun r ctx =>
  match ctx with
  | None => ([], r, true)
  | Some span =>
      let p := rq_url_path r in
      if decide (p = "/") then ([HWrite demo_home; HWrite (demo_footer addr span)], r, false)
      else if decide (p = "/api-calls") then ([HWrite demo_calls; HWrite (demo_footer addr span)], r, false)
      else if decide (p = "/endpoint-A") then ([HWrite "performed an operation!"], r, false)
      else if decide (p = "/endpoint-B") then ([HWrite "performed another operation!"], r, false)
      else if decide (p = "/endpoint-C") then ([HWrite "performed yet another operation!"], r, false)
      else ([HWrite (demo_footer addr span)], r, false)
  end%string.
(** example_app.go:127-142: the requests that it makes meanwhile, through a Transport for its span; errors are ignored. *)
Definition demo_requests (path : string) : list string :=
  if decide (path = "/api-calls") then ["/endpoint-A"; "/endpoint-B"; "/endpoint-C"] else [].
(** The requests are made to the demo itself, which serves them, or not (a request may fail). *)
Inductive demo_req : string -> req -> Prop :=
| demo_lost path gc gs : demo_req path (Req gc gs None)
| demo_served path gc gs sub : demo_reqs (demo_requests path) sub -> demo_req path (Req gc gs (Some sub))
with demo_reqs : list string -> list req -> Prop :=
| demo_nil : demo_reqs [] []
| demo_cons path paths r rs : demo_req path r -> demo_reqs paths rs -> demo_reqs (path :: paths) (r :: rs).
(** example_app.go:94-96: the Middleware's configuration. *)
Definition demo_config : config := MkConfig (Some rq_url_path) None None.
