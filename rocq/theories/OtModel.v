(** Model of opentracing/recorder.go and opentracing/json.go. *)
From Verif Require Import Base TimeModel ReflModel EventModel TraceModel.

(** basictracer.RawSpan, as far as RecordSpan reads it.  The values of tags are given as fmt.Sprintf("%+v")
    writes them, those of log fields as the Emit methods of opentracing/json.go:49-91 format them; a log
    field may emit any number of pairs (EmitLazyLogger). *)
Record raw_span := MkRaw {
  sp_sampled : bool;
  sp_id : SpanID;
  sp_operation : string;
  sp_logs : list (time * list (string * string));
  sp_tags : gmap string string;
  sp_baggage : gmap string string;
  sp_start : time;
  sp_duration : Z;
}.

(** opentracing/json.go:31-47 materializeWithJSON.  [json] is json.Marshal for maps of strings, which does
    not fail. *)
Definition fields_as_map (fields : list (string * string)) : gmap string string :=
  fold_left (fun m f => <[fst f := snd f]> m) fields ∅.
Definition materialize (json : gmap string string -> string) (fields : list (string * string)) : string :=
  let m := fields_as_map fields in
  if decide (size m = 1%nat) then match m !! "event" with Some event => event | None => json m end else json m.

(** What RecordSpan does to the outside: a Collect call with the collector's answer (None: nil), or a line
    for the logger. *)
Inductive obs := OCollect (span : SpanID) (anns : list Annotation) (answer : option string) | OLine (line : string).
(** opentracing/recorder.go:20-25: what a Recorder remembers: whether it is verbose, whether logOnce is used up. *)
Record ot := MkOt { ot_verbose : bool; ot_once : bool }.

(** opentracing/recorder.go:101 *)
Definition collect_error (err : string) : string := "Appdash Recorder collect error: " +:+ err.
(** opentracing/recorder.go:95-107 logError.  time.Now gives any time. *)
Inductive log_error (id : SpanID) (err : string) : ot -> list obs -> ot -> Prop :=
| le_collected r now anns : marshal log_event (VStruct [("Msg", VString err); ("Time", VTime now)]) anns ->
    log_error id err r [OCollect id anns None] r
| le_line r now anns err2 : marshal log_event (VStruct [("Msg", VString err); ("Time", VTime now)]) anns ->
    ot_verbose r || negb (ot_once r) = true ->
    log_error id err r [OCollect id anns (Some err2); OLine (collect_error err2)] (MkOt (ot_verbose r) (if ot_verbose r then ot_once r else true))
| le_silent r now anns err2 : marshal log_event (VStruct [("Msg", VString err); ("Time", VTime now)]) anns ->
    ot_verbose r || negb (ot_once r) = false ->
    log_error id err r [OCollect id anns (Some err2)] r.
(** opentracing/recorder.go:85-90 collectAnnotation *)
Inductive collect_annotation (id : SpanID) (anns : list Annotation) : ot -> list obs -> ot -> Prop :=
| ca_ok r : collect_annotation id anns r [OCollect id anns None] r
| ca_fail r err os r' : log_error id err r os r' -> collect_annotation id anns r (OCollect id anns (Some err) :: os) r'.
(** opentracing/recorder.go:76-83 collectEvent *)
Inductive collect_event (id : SpanID) (et : evtype) (x : val) : ot -> list obs -> ot -> Prop :=
| ce_ok r anns os r' : marshal et x anns -> collect_annotation id anns r os r' -> collect_event id et x r os r'
| ce_fail r err os r' : flatten x "" = None -> log_error id err r os r' -> collect_event id et x r os r'.
(** The loops of RecordSpan. *)
Inductive each {A} (body : A -> ot -> list obs -> ot -> Prop) : list A -> ot -> list obs -> ot -> Prop :=
| each_nil r : each body [] r [] r
| each_cons a l r os1 r1 os2 r2 : body a r os1 r1 -> each body l r1 os2 r2 -> each body (a :: l) r (os1 ++ os2) r2.

(** time.Time.Add: the zone stays, the instant moves.  (For results that the text format can write.) *)
Definition added (t : time) (d : Z) (t' : time) : Prop :=
  valid_time t' /\ t_off t' = t_off t /\ instant t' = (instant t + d)%Z.

Section Record.
  Context (json : gmap string string -> string).
  (** opentracing/recorder.go:43-73 RecordSpan.  Tags and baggage come in any order (Go's map iteration). *)
  Inductive record_span (sp : raw_span) : ot -> list obs -> ot -> Prop :=
  | rs_unsampled r : sp_sampled sp = false -> record_span sp r [] r
  | rs_sampled r0 r1 r2 r3 r4 r5 o1 o2 o3 o4 o5 tags baggage end_ :
      sp_sampled sp = true ->
      collect_event (sp_id sp) name_event (VStruct [("Name", VString (sp_operation sp))]) r0 o1 r1 ->
      each (fun l => collect_event (sp_id sp) log_event (VStruct [("Msg", VString (materialize json (snd l))); ("Time", VTime (fst l))]))
           (sp_logs sp) r1 o2 r2 ->
      Permutation tags (map_to_list (sp_tags sp)) ->
      each (fun e => collect_annotation (sp_id sp) [Ann (fst e) (Some (snd e))]) tags r2 o3 r3 ->
      Permutation baggage (map_to_list (sp_baggage sp)) ->
      each (fun e => collect_annotation (sp_id sp) [Ann (fst e) (Some (snd e))]) baggage r3 o4 r4 ->
      added (sp_start sp) (sp_duration sp) end_ ->
      collect_event (sp_id sp) Timespan_event (VStruct [("Span.Start", VTime (sp_start sp)); ("Span.End", VTime end_)]) r4 o5 r5 ->
      record_span sp r0 (o1 ++ o2 ++ o3 ++ o4 ++ o5) r5.
  (** Several spans, one after the other. *)
  Definition record_spans : list raw_span -> ot -> list obs -> ot -> Prop := each record_span.
End Record.
(** opentracing/recorder.go:29-39 NewRecorder *)
Definition new_ot (verbose : bool) : ot := MkOt verbose false.
