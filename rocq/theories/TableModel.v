(** Model of the profile's data (traceapp/prof.go) and of the tables that show it and the dashboard's data (traceapp/tmpl/data/trace.html,
    dashboard.html). *)
From Verif Require Import Base IdModel ReflModel EventModel JsonModel TraceModel WebModel ProfModel DashModel.
Local Open Scope Z_scope.

(** router.go:58-65 *)
Definition app_urls : urls := MkUrls (fun t => Some (url_to_trace t)) (fun t s => Some (url_to_trace_span t s)).
(** prof.go:13-17: a profile, as encoding/json sees it *)
Definition profile_json (p : profile) : json :=
  JObj [(Base.bytes "Name", JStr (Base.bytes (pf_name p))); (Base.bytes "URL", JStr (Base.bytes (pf_url p))); (Base.bytes "Time", json_int (pf_time p));
        (Base.bytes "TimeChildren", json_int (pf_children p)); (Base.bytes "TimeCum", json_int (pf_cum p))].
(** prof.go:95-111 (App).profile: what is written.  (The errors of io.Copy: not modelled.) *)
Definition profile_data (bf : bool) (reg : registry) (t : tree) : res text :=
  match calc_profile reg app_urls t with
  | ROk prof => ROk (print_compact bf (JArr (map profile_json prof)))
  | RErr => RErr
  | RPanic => RPanic
  end.
(** layout.html:87, trace.html:666-673, dashboard.html:54-74: the cells of a table's rows are made by bootstrap-table 1.6.0, which puts
    the values between tags.  What follows a cell's start tag, for the value [v] of a column without a formatter; the
    parser of HTML has normalised the line breaks.  (Not in /repo: read from the library's documentation; its option
    "escape" is of later versions.) *)
Definition cell (v : text) : text := v ++ Base.bytes "</td>".
