(** What a Python program hands to its client, seen from the Go side. *)
From Verif Require Import Base WireModel ReflModel TimeModel EventModel PyModel.

(** The call of Collect that a call of collect stands for. *)
Definition as_call (c : pycall) : wcall := (fst c, map (fun a => Ann (fst a) (Some (snd a))) (snd c)).
Definition as_anns (anns : list pyann) : list Annotation := map (fun a => Ann (fst a) (Some (snd a))) anns.

(** The Go event type of the same name, and the Go event that says the same as a Python event.  The texts
    of its times have to be RFC 3339 times, as Go reads them.  HTTP events are treated separately. *)
Inductive same_event : pyevent -> evtype -> val -> Prop :=
| same_name n : same_event (PyName n) name_event (VStruct [("Name", VString n)])
| same_msg m : same_event (PyMsg m) msg_event (VStruct [("Msg", VString m)])
| same_log m text t : parse_time text = Some t -> same_event (PyLog m text) log_event (VStruct [("Msg", VString m); ("Time", VTime t)])
| same_timespan s e ts te : parse_time s = Some ts -> parse_time e = Some te ->
    same_event (PyTimespan s e) Timespan_event (VStruct [("Span.Start", VTime ts); ("Span.End", VTime te)])
| same_sql sql tag s r ts tr : parse_time s = Some ts -> parse_time r = Some tr ->
    same_event (PySQL sql tag s r) sql_event (VStruct [("SQL", VString sql); ("Tag", VString tag); ("ClientSend", VTime ts); ("ClientRecv", VTime tr)]).

(** The calls of a session that returned. *)
Definition returned (calls : list (pycall * list (option nat))) (oks : list bool) : list pycall :=
  map (fun e => fst (fst e)) (List.filter (fun e => snd e) (combine calls oks)).

(** What a program gave to one factory of the Twisted collector. *)
Definition collected_by (f : nat) (ops : list tw_op) : list pycall :=
  flat_map (fun o => match o with TCollect g c => if Nat.eqb g f then [c] else [] | _ => [] end) ops.
