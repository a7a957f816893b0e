(** Specification for the tables of profiles. *)
From Verif Require Import Base IdModel ReflModel EventModel JsonModel JsonSpec JsonProofs TraceModel WebModel ProfModel ProfSpec DashModel HtmlSpec TraceSpec.
Local Open Scope Z_scope.

(** The text of the JSON number is an integer's. *)
Definition is_number (j : json) (z : Z) : Prop := exists s, j = JNum (Base.bytes s) /\ parse_int s = Some z.
(** The name of a span, or its ID if it has none. *)
Definition title (s : tree) : string :=
  if decide (span_name (tr_anns s) = ""%string) then id_string (sp_span (tr_id s)) else span_name (tr_anns s).
(** The page of a span: that of the trace for its root. *)
Definition page_of (s : tree) : string :=
  if decide (sp_parent (tr_id s) = 0%N) then url_to_trace (sp_trace (tr_id s)) else url_to_trace_span (sp_trace (tr_id s)) (sp_span (tr_id s)).
(** The row of a span: its name (with replacement characters for what is not UTF-8), its page, the milliseconds of its longest timespan,
    of those of it and its children, and of those of it and all its descendants. *)
Inductive profile_row (reg : registry) (s : tree) : json -> Prop :=
| ProfileRow jtime jchildren jcum time children all :
    longest reg s time -> Forall2 (longest reg) (s :: tr_subs s) children -> Forall2 (longest reg) (subtrees s) all ->
    is_number jtime time -> is_number jchildren (sum children) -> is_number jcum (sum all) ->
    profile_row reg s (JObj [(Base.bytes "Name", JStr (sanitize (Base.bytes (title s)))); (Base.bytes "URL", JStr (Base.bytes (page_of s)));
      (Base.bytes "Time", jtime); (Base.bytes "TimeChildren", jchildren); (Base.bytes "TimeCum", jcum)]).

(** What a browser makes of a cell's content: its text up to the first tag, and what follows.  The cell shows [t] if that is its end tag. *)
Definition cell_reads (names : list (text * text)) (char : N -> text) (content t rest : text) : Prop := reads names char InElement (normal content) t rest.
Definition shows (names : list (text * text)) (char : N -> text) (content t : text) : Prop := cell_reads names char content t (Base.bytes "</td>").
