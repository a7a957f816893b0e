(** What recording an OpenTracing span means. *)
From Verif Require Import Base TimeModel TraceModel OtModel.

(** The annotations of a span name, of a log event and of a timespan, up to the order of the fields. *)
Definition name_anns (name : string) (anns : list Annotation) : Prop :=
  anns = [Ann "Name" (Some name); Ann "_schema:name" None].
Definition log_anns (msg : string) (t : time) (anns : list Annotation) : Prop :=
  anns = [Ann "Msg" (Some msg); Ann "Time" (Some (fmt_time t)); Ann "_schema:log" None] \/
  anns = [Ann "Time" (Some (fmt_time t)); Ann "Msg" (Some msg); Ann "_schema:log" None].
Definition timespan_anns (start end_ : time) (anns : list Annotation) : Prop :=
  anns = [Ann "Span.Start" (Some (fmt_time start)); Ann "Span.End" (Some (fmt_time end_)); Ann "_schema:Timespan" None] \/
  anns = [Ann "Span.End" (Some (fmt_time end_)); Ann "Span.Start" (Some (fmt_time start)); Ann "_schema:Timespan" None].
(** The text of a log: the payload if the only field is "event", the JSON text of the fields otherwise; the
    last value of a field counts. *)
Definition last_value (fields : list (string * string)) (k : string) : option string :=
  snd <$> last (filter (fun f => fst f = k) fields).
Definition log_text (json : gmap string string -> string) (fields : list (string * string)) (text : string) : Prop :=
  ((forall f, f ∈ fields -> fst f = "event"%string) /\ last_value fields "event" = Some text) \/
  (~ (fields <> [] /\ (forall f, f ∈ fields -> fst f = "event"%string)) /\
   exists m : gmap string string, text = json m /\ forall k, m !! k = last_value fields k).
(** The writes for a span: its name, its logs, its tags, its baggage, its times. *)
Definition span_writes (json : gmap string string -> string) (sp : raw_span) (ws : list (list Annotation)) : Prop :=
  exists name logs tags baggage times end_,
    ws = name :: logs ++ tags ++ baggage ++ [times] /\
    name_anns (sp_operation sp) name /\
    Forall2 (fun l w => exists text, log_text json (snd l) text /\ log_anns text (fst l) w) (sp_logs sp) logs /\
    Permutation tags (map (fun e => [Ann (fst e) (Some (snd e))]) (map_to_list (sp_tags sp))) /\
    Permutation baggage (map (fun e => [Ann (fst e) (Some (snd e))]) (map_to_list (sp_baggage sp))) /\
    added (sp_start sp) (sp_duration sp) end_ /\ timespan_anns (sp_start sp) end_ times.
(** What happens for one write: it is collected; or the collector fails and the error is collected as a log
    event; or that fails too, and there may be a line for the logger. *)
Inductive attempt (id : SpanID) (w : list Annotation) : list obs -> Prop :=
| at_ok : attempt id w [OCollect id w None]
| at_reported err now report : log_anns err now report -> attempt id w [OCollect id w (Some err); OCollect id report None]
| at_silent err now report err2 : log_anns err now report -> attempt id w [OCollect id w (Some err); OCollect id report (Some err2)]
| at_line err now report err2 : log_anns err now report ->
    attempt id w [OCollect id w (Some err); OCollect id report (Some err2); OLine ("Appdash Recorder collect error: " +:+ err2)].
(** The lines among the observations, and the failed calls directly after failed calls (the failed reports). *)
Definition lines (os : list obs) : list string := omap (fun o => match o with OLine l => Some l | _ => None end) os.
Definition all_accepted (os : list obs) : Prop := forall id anns err, OCollect id anns (Some err) ∉ os.
(** All annotations of the span, in the order of the calls. *)
Definition collected (os : list obs) : list Annotation :=
  concat (omap (fun o => match o with OCollect _ anns None => Some anns | _ => None end) os).
(** The errors of the failed reports: a report is the call right after a failed one. *)
Fixpoint failed_reports (os : list obs) : list string :=
  match os with
  | OCollect _ _ (Some _) :: ((OCollect _ _ (Some e) :: os) as rest) => e :: failed_reports os
  | _ :: os => failed_reports os
  | [] => []
  end.
(** The keys under which RecordSpan stores names, logs and times. *)
Definition reserved : list string := ["Name"; "Msg"; "Time"; "Span.Start"; "Span.End"].
Definition in_map (m : gmap string string) (k : string) : Prop := is_Some (m !! k).
