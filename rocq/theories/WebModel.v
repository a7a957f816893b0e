(** Model of traceapp's router (router.go), of the page handlers' choice of what to show (app.go), of the
    permalink's encoding and of the dashboard's query (dashboard.go).  Templates and JSON are not modelled. *)
From Verif Require Import Base FloatModel IdModel ReflModel TraceModel ProfModel Base64Model MemModel UploadModel.

(** ** Routes *)

(** router.go:12-24 *)
Inductive route_name := RootRoute | StaticRoute | TraceRoute | TraceSpanRoute | TraceProfileRoute | TraceSpanProfileRoute
  | TraceUploadRoute | TracesRoute | DashboardRoute | DashboardDataRoute | AggregateRoute.
(** gorilla/mux templates: "/a/{B}" is the anchored expression /a/[^/]+, so each variable is one non-empty
    component of the path. *)
Inductive seg := Lit (s : string) | Var (name : string).
Inductive pattern := Exact (segs : list seg) | Prefix (p : string).
Record route := MkRoute { rt_name : route_name; rt_method : string; rt_pat : pattern }.
(** router.go:35-45, without a base router (or with one that has no routes of its own): in this order. *)
Definition routes : list route := [
  MkRoute RootRoute "GET" (Exact [Lit ""]);
  MkRoute StaticRoute "GET" (Prefix "/static/");
  MkRoute TraceRoute "GET" (Exact [Lit "traces"; Var "Trace"]);
  MkRoute TraceProfileRoute "GET" (Exact [Lit "traces"; Var "Trace"; Lit "profile"]);
  MkRoute TraceSpanProfileRoute "GET" (Exact [Lit "traces"; Var "Trace"; Var "Span"; Lit "profile"]);
  MkRoute TraceUploadRoute "POST" (Exact [Lit "traces"; Lit "upload"]);
  MkRoute TraceSpanRoute "GET" (Exact [Lit "traces"; Var "Trace"; Var "Span"]);
  MkRoute TracesRoute "GET" (Exact [Lit "traces"]);
  MkRoute DashboardRoute "GET" (Exact [Lit "dashboard"]);
  MkRoute DashboardDataRoute "GET" (Exact [Lit "dashboard"; Lit "data"]);
  MkRoute AggregateRoute "GET" (Exact [Lit "aggregate"]) ].

(** The components of a path after its leading slash; None: there is none (mux then redirects). *)
Definition components (path : string) : option (list string) :=
  match split_on "/" (bytes path) with [] :: ((_ :: _) as cs) => Some (map unbytes cs) | _ => None end.
Notation vars := (list (string * string)).
Fixpoint match_segs (pat : list seg) (cs : list string) : option vars :=
  match pat, cs with
  | [], [] => Some []
  | Lit s :: pat, c :: cs => if String.eqb s c then match_segs pat cs else None
  | Var n :: pat, c :: cs => match c with "" => None | _ => v ← match_segs pat cs; Some ((n, c) :: v) end
  | _, _ => None
  end.
Definition match_route (r : route) (method path : string) : option vars :=
  if negb (String.eqb (rt_method r) method) then None else
  match rt_pat r with
  | Exact pat => cs ← components path; match_segs pat cs
  | Prefix p => if String.prefix p path then Some [] else None
  end.
(** mux's cleanPath: paths with empty components (except for a trailing slash), "." or ".." are redirected. *)
Fixpoint clean_components (cs : list string) : bool :=
  match cs with
  | [] => true
  | [c] => negb (String.eqb c "." || String.eqb c "..")
  | c :: cs => negb (String.eqb c "" || String.eqb c "." || String.eqb c "..") && clean_components cs
  end.
Inductive dispatched := DRedirect | DNotFound | DRoute (r : route_name) (v : vars).
(** mux's Router.ServeHTTP and Match: the first route whose method and path match. *)
Fixpoint first_match (rs : list route) (method path : string) : dispatched :=
  match rs with
  | [] => DNotFound
  | r :: rs => match match_route r method path with Some v => DRoute (rt_name r) v | None => first_match rs method path end
  end.
Definition dispatch (method path : string) : dispatched :=
  match components path with
  | Some cs => if clean_components cs then first_match routes method path else DRedirect
  | None => DRedirect
  end.

(** router.go:49-77: the paths of the URLs. *)
Definition url_to_trace (t : N) : string := ("/traces/" +:+ id_string t)%string.
Definition url_to_trace_span (t s : N) : string := ("/traces/" +:+ id_string t +:+ "/" +:+ id_string s)%string.
Definition url_to_trace_profile (t : N) : string := ("/traces/" +:+ id_string t +:+ "/profile")%string.
Definition url_to_trace_span_profile (t s : N) : string := ("/traces/" +:+ id_string t +:+ "/" +:+ id_string s +:+ "/profile")%string.

(** ** The trace page *)

(** mux.Vars(r)[name]; a missing key gives "". *)
Definition var (v : vars) (name : string) : string :=
  match list_find (fun e => fst e = name) v with Some (_, e) => snd e | None => ""%string end.
(** path.Base, for paths that start with a slash: the last non-empty component. *)
Definition path_base (path : string) : string :=
  default "/"%string (last (List.filter (fun c => negb (String.eqb c "")) (map unbytes (split_on "/" (bytes path))))).
(** What a request gives: the page of a trace or sub-span, with the link to its profile, its JSON profile, or
    an error. *)
Inductive shown := ShowPage (t : tree) (profile_url : string) | ShowProfile (t : tree) | ShowError.
(** app.go:109-220 serveTrace without a permalink; [store] is Store.Trace.  The timeline and the rendering
    (which may still fail) are not part of this. *)
Definition serve_trace (store : N -> option tree) (path : string) (v : vars) : shown :=
  match parse_id (var v "Trace") with
  | inr _ => ShowError
  | inl trace_id =>
      match store trace_id with
      | None => ShowError
      | Some trace =>
          let sub := if String.eqb (var v "Span") "" then Some trace else
            match parse_id (var v "Span") with inr _ => None | inl span_id => find_span trace span_id end in
          match sub with
          | None => ShowError
          | Some trace =>
              if String.eqb (path_base path) "profile" then ShowProfile trace
              else ShowPage trace
                (if sp_parent (tr_id trace) =? 0 then url_to_trace_profile (sp_trace (tr_id trace))
                 else url_to_trace_span_profile (sp_trace (tr_id trace)) (sp_span (tr_id trace)))
          end
      end
  end.
(** A GET request for a path, app.go:81-90: the handlers of the four routes.  None: another route. *)
Definition get_page (store : N -> option tree) (path : string) : option shown :=
  match dispatch "GET" path with
  | DRoute (TraceRoute | TraceSpanRoute | TraceProfileRoute | TraceSpanProfileRoute) v => Some (serve_trace store path v)
  | _ => None
  end.

(** ** The permalink *)

(** encoding/base64's encoder: bytes not yet encoded, output. *)
Definition enc_state := (list ascii * list ascii)%type.
(** Its Write: whole groups of three bytes are encoded, the rest is kept. *)
Definition enc_write (st : enc_state) (p : list ascii) : enc_state :=
  let all := fst st ++ p in
  let n := (length all / 3 * 3)%nat in
  (drop n all, snd st ++ b64_encode alphabet_url false (take n all)).
(** app.go:188-202: what gzip writes, in portions, through the encoder; the encoder is never closed. *)
Definition permalink_text (writes : list (list ascii)) : list ascii := snd (fold_left enc_write writes ([], [])).
(** app.go:115: base64.NewDecoder(base64.RawURLEncoding, permalink) *)
Definition permalink_bytes (text : list ascii) : option (list ascii) := b64_decode alphabet_url false text.

(** app.go:112-127: opening a permalink that decodes to [tr], up to the point where the trace is looked up. *)
Definition open_permalink (tr : tree) (st : MS) : option MS := upload_traces [tr] st.

(** ** The lists of traces *)

(** app.go:223-233: the IDs asked for; the query parameter's value is given. *)
Definition show_just (show : string) : list N :=
  match show with
  | "" => []
  | _ => omap (fun p => match parse_id (unbytes p) with inl id => Some id | inr _ => None end) (split_on "," (bytes show))
  end.
(** app.go:235-240: the traces on the page, with a MemoryStore as the Queryer; [order] as for ms_traces. *)
Definition traces_page (st : MS) (show : string) (order : list N) : option (list loc) := ms_traces st (0%Z, 0%Z) (show_just show) order.
(** app.go:261-280: the selected traces; None: an error. *)
Fixpoint select (traces : list tree) (parts : list (list ascii)) : option (list tree) :=
  match parts with
  | [] => Some []
  | p :: parts =>
      match parse_id (unbytes p) with
      | inr _ => None
      | inl id => r ← select traces parts; Some (filter (fun t => sp_trace (tr_id t) = id) traces ++ r)
      end
  end.
Definition selected (traces : list tree) (selection : string) : option (list tree) :=
  match selection with "" => Some traces | _ => select traces (split_on "," (bytes selection)) end.
(** dashboard.go:87-92: the query of a row's link. *)
Fixpoint join (sep : string) (l : list string) : string :=
  match l with [] => ""%string | [x] => x | x :: l => (x +:+ sep +:+ join sep l)%string end.
Definition row_show (slowest : list N) : string := join "," (map id_string slowest).

(** dashboard.go:58-73: a bound of the window in nanoseconds; None: an error.  Durations wrap around. *)
Definition window_bound (s : string) : option Z :=
  match s with
  | "" => Some 0%Z
  | _ => v ← parse_int s; Some (int64 (int64 (v * 3600000000000) - 72 * 3600000000000))%Z
  end.
