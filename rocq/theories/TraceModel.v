(** Model of trace.go (without its textual renderings) and of Span.Name (span.go). *)
From Verif Require Import Base FloatModel TimeModel ReflModel EventModel.
Local Open Scope Z_scope.

(** trace.go:30-40 FindSpan *)
Fixpoint find_span (t : tree) (id : N) : option tree :=
  let 'Tree i a subs := t in
  if N.eqb (sp_span i) id then Some t
  else (fix loop subs := match subs with
        | [] => None
        | s :: subs => match find_span s id with Some x => Some x | None => loop subs end
        end) subs.

(** span.go:150-157 Span.Name *)
Fixpoint span_name (anns : list Annotation) : string :=
  match anns with
  | [] => ""
  | a :: anns => if decide (ann_key a = "Name"%string) then val_bytes (ann_val a) else span_name anns
  end.

(** ** Times *)

(** Days from January 1, year 1 to January 1 of year y (proleptic Gregorian calendar, package time). *)
Definition days_before_year (y : Z) : Z := 365 * (y - 1) + (y - 1) / 4 - (y - 1) / 100 + (y - 1) / 400.
(** Days of the year before month m. *)
Fixpoint days_before_month (y : N) (m : nat) : Z :=
  match m with
  | O | S O => 0
  | S m => days_before_month y m + Z.of_N (days_in y (N.of_nat m))
  end.
(** The instant of a time: nanoseconds since January 1, year 1, 00:00 UTC. *)
Definition instant (t : time) : Z :=
  (((days_before_year (Z.of_N (t_year t)) + days_before_month (t_year t) (N.to_nat (t_month t)) + Z.of_N (t_day t) - 1) * 24
     + Z.of_N (t_hour t)) * 60 + Z.of_N (t_min t) - t_off t) * 60000000000
  + Z.of_N (t_sec t) * 1000000000 + Z.of_N (t_ns t).
(** time.Time.IsZero: the instant is January 1, year 1, 00:00 UTC. *)
Definition is_zero (t : time) : bool := instant t =? 0.
(** Nanoseconds from year 1 to 1970: 62135596800 s. *)
Definition unix_epoch : Z := 62135596800000000000.
(** time.Time.UnixNano: int64 arithmetic, wraps around outside 1677-2262. *)
Definition unix_nano (t : time) : Z := int64 (instant t - unix_epoch).

(** ** Timespan events *)

Definition time_field (fs : list (string * val)) (name : string) : time :=
  match list_find (fun f => fst f = name) fs with Some (_, (_, VTime t)) => t | _ => time_zero end.
(** The event types of the library with the methods Start and End, by schema and with the names of the
    fields that these return: event.go:185-186, 196-197, httptrace/client.go:72-75,
    httptrace/server.go:61-64, sqltrace/sql.go:29-33. *)
Definition timespan_fields : list (string * (string * string)) :=
  [("timespan", ("S", "E")); ("Timespan", ("Span.Start", "Span.End")); ("HTTPClient", ("Client.Send", "Client.Recv"));
   ("HTTPServer", ("Server.Recv", "Server.Send")); ("SQL", ("ClientSend", "ClientRecv"))]%string.
(** e.(TimespanEvent), with Start() and End() *)
Definition as_timespan (e : string * val) : option (time * time) :=
  match list_find (fun f => fst f = fst e) timespan_fields, snd e with
  | Some (_, (_, (s, r))), VStruct fs => Some (time_field fs s, time_field fs r)
  | _, _ => None
  end.

(** trace.go:95-115 findTraceTimes: one iteration of the loop, and the loop *)
Definition times_step (st : time * time) (e : string * val) : time * time :=
  match as_timespan e with
  | None => st
  | Some (s, r) =>
      if is_zero (fst st) then (s, r)
      else (if unix_nano s <? unix_nano (fst st) then s else fst st, if unix_nano (snd st) <? unix_nano r then r else snd st)
  end.
Definition find_trace_times (events : list (string * val)) : time * time * bool :=
  let st := fold_left times_step events (time_zero, time_zero) in (st, negb (is_zero (fst st))).

(** trace.go:50-60 Trace.TimespanEvent *)
Inductive tsres := TsUnmarshalError | TsNotFound | TsPanics | TsOk (s r : time).
Definition trace_timespan (reg : registry) (t : tree) : tsres :=
  match unmarshal_events reg (tr_anns t) with
  | (_, EsErr) => TsUnmarshalError
  | (_, EsPanic) => TsPanics
  | (events, EsOk) => let '(s, r, ok) := find_trace_times events in if ok then TsOk s r else TsNotFound
  end.
