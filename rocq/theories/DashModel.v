(** Model of the dashboard: traceapp/dashboard.go and traceapp/tmpl/data/dashboard.html. *)
From Verif Require Import Base IdModel ReflModel JsonModel WebModel RouteModel HrefModel ModeModel.
Local Open Scope Z_scope.

(** store.go:47-64 AggregatedResult; times in nanoseconds. *)
Record result := MkResult { ar_name : string; ar_avg : Z; ar_min : Z; ar_max : Z; ar_std : Z; ar_samples : Z; ar_slowest : list N }.
(** dashboard.go:87-103 and 15-20: a row, as encoding/json sees it.  Go's division truncates; int has 64 bits. *)
Definition json_int (z : Z) : json := JNum (Base.bytes (fmt_int z)).
Definition row_json (traces_url : string) (r : result) : json :=
  let ms d := json_int (Z.quot d 1000000) in
  JObj [(Base.bytes "Name", JStr (Base.bytes (ar_name r))); (Base.bytes "Average", ms (ar_avg r)); (Base.bytes "Min", ms (ar_min r));
        (Base.bytes "Max", ms (ar_max r)); (Base.bytes "StdDev", ms (ar_std r)); (Base.bytes "Timespans", json_int (ar_samples r));
        (Base.bytes "URL", JStr (Base.bytes (traces_url +:+ "?show=" +:+ row_show (ar_slowest r))))].
(** dashboard.go:45-114 serveDashboardData.  The Aggregator is a parameter: its answer for a window (None: an error);
    None: there is none.  (The errors of io.Copy: not modelled.) *)
Inductive dash_response := DDisabled | DError | DData (body : text).
Definition dashboard_data (bf : bool) (agg : option (Z -> Z -> option (list result))) (query : list ascii) : dash_response :=
  match agg with
  | None => DDisabled
  | Some agg =>
      match window_bound (query_get query "start"), window_bound (query_get query "end") with
      | Some s, Some e =>
          match agg s e, url_to TracesRoute with
          | Some rs, Some u => DData (print_compact bf (JArr (map (row_json u) rs)))
          | _, _ => DError
          end
      | _, _ => DError
      end
  end.
(** dashboard.html:48-50, 97-99: the heading for the values of the slider. *)
Definition slider_label (a b : Z) : string := "Timeline: " +:+ fmt_int a +:+ "-" +:+ fmt_int b +:+ " hours ago".
(** dashboard.html:87-90 queryParams, with jQuery.param (as bootstrap-table sends it). *)
Definition slider_query (a b : Z) : list ascii := Base.bytes ("start=" +:+ fmt_int a +:+ "&end=" +:+ fmt_int b).
(** dashboard.html:51: the values that the slider takes. *)
Definition slider (a b : Z) : Prop := 0 <= a <= b /\ b <= 72.
