(** Model of the example web application (examples/cmd/webapp/main.go). *)
From Verif Require Import Base IdModel TimeModel ReflModel EventModel RecorderModel HttpModel ChainModel.
Local Open Scope N_scope.

Definition wquote : string := """".
(** main.go:31-41: the store keeps traces for 20 s (20 * time.Second, in nanoseconds). *)
Definition webapp_age : Z := 20 * 1000000000.
(** main.go:118-119: the page of Home. *)
Definition webapp_text : string := "<p>Three API requests have been made!</p>".
Definition webapp_link (span : SpanID) : string :=
  "<p><a href=" +:+ wquote +:+ "http://localhost:8700/traces/" +:+ id_string (sp_trace span) +:+ wquote +:+ " target=" +:+ wquote +:+ "_" +:+ wquote +:+
  ">View the trace (ID:" +:+ id_string (sp_trace span) +:+ ")</a></p>".
(** main.go:81-90, 93-120, 128-131: the router and its handlers: what they write.  gorilla/mux's other answers (redirects of paths that are not clean) and
    negroni's own middleware (logging, recovery, files in ./public) are not modelled; the two headers of http.NotFound are left out. *)
Definition webapp : handler := fun r ctx =>
  let p := rq_url_path r in
  if decide (p = "/") then
    match ctx with
    | None => ([], r, true)  (* server.go:137-142 SpanID panics *)
    | Some span => ([HWrite webapp_text; HWrite (webapp_link span)], r, false)
    end
  else if decide (p = "/endpoint") then ([HWrite "Slept for 200ms!"], r, false)
  else ([HWriteHeader 404; HWrite ("404 page not found" +:+ String "010" "")], r, false)%string.
(** main.go:97-115: the requests made meanwhile, through a Transport for the request's span; errors are logged. *)
Definition webapp_requests (path : string) : list string := if decide (path = "/") then ["/endpoint"; "/endpoint"; "/endpoint"] else [].
(** The requests are made to the application itself, which serves them, or not. *)
Inductive webapp_req : string -> req -> Prop :=
| webapp_lost path gc gs : webapp_req path (Req gc gs None)
| webapp_served path gc gs sub : webapp_reqs (webapp_requests path) sub -> webapp_req path (Req gc gs (Some sub))
with webapp_reqs : list string -> list req -> Prop :=
| webapp_nil : webapp_reqs [] []
| webapp_cons path paths r rs : webapp_req path r -> webapp_reqs paths rs -> webapp_reqs (path :: paths) (r :: rs).
(** main.go:77-79: the Middleware's configuration. *)
Definition webapp_config : config := MkConfig (Some rq_url_path) None None.
