(** Model of what the trace pages show of a span's annotations: traceapp/tmpl.go:146-155, span.go:179-194 and
    the tables of traceapp/tmpl/data/trace.html:634-660 and traces.html:63-70. *)
From Verif Require Import Base StrOrder ReflModel EventModel.

(** tmpl.go:146-155 filterAnnotations *)
Definition shown_key (k : string) : bool :=
  negb (bool_decide (k = ""%string)) && negb (has_prefix "_" k).
Fixpoint filter_annotations (anns : list Annotation) : list Annotation :=
  match anns with
  | [] => []
  | a :: anns => if shown_key (ann_key a) then a :: filter_annotations anns else filter_annotations anns
  end.

(** event.go:19-21: what Important returns for a registered event's zero value; None: no such method. *)
Notation importance := (list (option (list string))).
(** span.go:181-194 Annotation.Important; the order of the registered events does not matter. *)
Fixpoint important (reg : importance) (a : Annotation) : bool :=
  match reg with
  | [] => false
  | None :: reg => important reg a
  | Some ks :: reg => if existsb (String.eqb (ann_key a)) ks then true else important reg a
  end.

(** A table's row: the key and the value, as a string; escaping is html/template's. *)
Definition row (a : Annotation) : string * string := (ann_key a, val_bytes (ann_val a)).
(** trace.html:656-658: the verbose view *)
Definition verbose_rows (anns : list Annotation) : list (string * string) := map row (filter_annotations anns).
(** trace.html:635-639, traces.html:64-68: the default view *)
Fixpoint default_rows_of (reg : importance) (anns : list Annotation) : list (string * string) :=
  match anns with
  | [] => []
  | a :: anns => if important reg a then row a :: default_rows_of reg anns else default_rows_of reg anns
  end.
Definition default_rows (reg : importance) (anns : list Annotation) : list (string * string) :=
  default_rows_of reg (filter_annotations anns).

(** The registered events of the server: event.go:124-130 (none is an ImportantEvent), httptrace/client.go:62-69,
    httptrace/server.go:54-57, sqltrace/sql.go:23-25. *)
Definition builtin_importance : importance :=
  [None; None; None; None; None;
   Some ["Client.Request.Headers.If-Modified-Since"; "Client.Request.Headers.If-None-Match"; "Client.Response.StatusCode"]%string;
   Some ["Server.Response.StatusCode"]%string; Some ["SQL"; "Tag"]%string].
