(** Model of event.go and of the parts of span.go it uses: events as annotations. *)
From Verif Require Import Base StrOrder ReflModel.
From stdpp Require Import sorting.

(** event.go:40 *)
Definition schema_prefix : string := "_schema:".
(** event.go:11-38: an event type: a struct with its schema and exported fields and, when the type has the
    methods, its own MarshalEvent and UnmarshalEvent (None in their results: an error). *)
Record evtype := MkEvtype {
  ev_schema : string;
  ev_fields : list (string * ty);
  ev_marshaler : option (val -> option (list Annotation));
  ev_unmarshaler : option (list Annotation -> option val);
}.
Definition ev_ty (et : evtype) : ty := TStruct (ev_fields et).
Definition plain_event (schema : string) (fs : list (string * ty)) : evtype := MkEvtype schema fs None None.

(** event.go:54: Annotation{Key: k, Value: []byte(v)} *)
Definition ann_of (e : string * string) : Annotation := Ann (fst e) (Some (snd e)).
(** event.go:49, 57: Annotation{Key: SchemaPrefix + e.Schema()} *)
Definition schema_ann (s : string) : Annotation := Ann (schema_prefix +:+ s) None.

(** event.go:42-59 MarshalEvent.  Fields and map entries come in any order (Go's map iteration). *)
Inductive marshal (et : evtype) (x : val) : list Annotation -> Prop :=
| marshal_custom f anns : ev_marshaler et = Some f -> f x = Some anns -> marshal et x (anns ++ [schema_ann (ev_schema et)])
| marshal_plain fl fl' : ev_marshaler et = None -> flatten x "" = Some fl -> Permutation fl fl' ->
    marshal et x (map ann_of fl' ++ [schema_ann (ev_schema et)]).

(** span.go:209-218 schemas *)
Fixpoint schemas (anns : list Annotation) : list string :=
  match anns with
  | [] => []
  | a :: anns => if has_prefix schema_prefix (ann_key a) then trim_prefix schema_prefix (ann_key a) :: schemas anns else schemas anns
  end.

(** What UnmarshalEvent does: an EventSchemaUnmarshalError with the schemas found, an error of the
    type's own method, a panic, or nil with the new value of the event. *)
Inductive evres := ERefused (found : list string) | EFail | EPanics | EDone (x : val).
(** event.go:74-99 UnmarshalEvent.  [x] is the value that the given pointer refers to.  The calls of
    unflattenValue for the pointers and interfaces around the event end up at the struct with the prefix
    "", without touching the pairs: "" is a prefix of every key.  Line 97 ignores unflattenValue's error. *)
Definition unmarshal (et : evtype) (anns : list Annotation) (x : val) : evres :=
  if negb (bool_decide (ev_schema et ∈ schemas anns)) then ERefused (schemas anns) else
  match ev_unmarshaler et with
  | Some f => match f anns with Some y => EDone y | None => EFail end
  | None =>
      match unflat (ev_ty et) "" x (map_to_kvs (string_map anns)) with
      | UOk y _ | UErr y => EDone y
      | UPanic => EPanics
      end
  end.

(** event.go:112-120 RegisterEvent; None: it panics. *)
Notation registry := (gmap string evtype).
Definition register (reg : registry) (et : evtype) : option registry :=
  if decide (is_Some (reg !! ev_schema et)) then None else
  if decide (ev_schema et = "") then None else Some (<[ev_schema et := et]> reg).

(** event.go:135-149 UnmarshalEvents: the events appended and how it ended. *)
Inductive evsres := EsOk | EsErr | EsPanic.
Fixpoint unmarshal_loop (reg : registry) (anns : list Annotation) (ss : list string) : list (string * val) * evsres :=
  match ss with
  | [] => ([], EsOk)
  | s :: ss =>
      match reg !! s with
      | None => unmarshal_loop reg anns ss
      | Some et =>
          match unmarshal et anns (zero (ev_ty et)) with
          | EDone x => let r := unmarshal_loop reg anns ss in ((s, x) :: fst r, snd r)
          | ERefused _ | EFail => ([], EsErr)
          | EPanics => ([], EsPanic)
          end
      end
  end.
Definition unmarshal_events (reg : registry) (anns : list Annotation) : list (string * val) * evsres :=
  unmarshal_loop reg anns (schemas anns).

(** ** The event types of the library *)
Definition tstring := TScalar false KString.
Definition tint := TScalar false (KInt 64).
(** event.go:151-223 *)
Definition name_event := plain_event "name" [("Name", tstring)].
Definition msg_event := plain_event "msg" [("Msg", tstring)].
Definition timespan_event := plain_event "timespan" [("S", TTime); ("E", TTime)].
Definition Timespan_event := plain_event "Timespan" [("Span.Start", TTime); ("Span.End", TTime)].
Definition log_event := plain_event "log" [("Msg", tstring); ("Time", TTime)].
(** httptrace/client.go:29-38, httptrace/server.go:27-32: ContentLength is an int64, StatusCode an int. *)
Definition request_info := TStruct [("Method", tstring); ("URI", tstring); ("Proto", tstring); ("Headers", TMap tstring);
  ("Host", tstring); ("RemoteAddr", tstring); ("ContentLength", tint)].
Definition response_info := TStruct [("Headers", TMap tstring); ("ContentLength", tint); ("StatusCode", tint)].
(** httptrace/client.go:53-61 *)
Definition client_event := plain_event "HTTPClient"
  [("Client.Request", request_info); ("Client.Response", response_info); ("Client.Send", TTime); ("Client.Recv", TTime)].
(** httptrace/server.go:43-53 *)
Definition server_event := plain_event "HTTPServer"
  [("Server.Request", request_info); ("Server.Response", response_info); ("Server.Route", tstring); ("Server.User", tstring);
   ("Server.Recv", TTime); ("Server.Send", TTime)].
(** sqltrace/sql.go:12-21 *)
Definition sql_event := plain_event "SQL" [("SQL", tstring); ("Tag", tstring); ("ClientSend", TTime); ("ClientRecv", TTime)].
(** event.go:124-130 and the init functions of httptrace and sqltrace. *)
Definition library_events : list evtype :=
  [name_event; log_event; msg_event; timespan_event; Timespan_event; client_event; server_event; sql_event].
Definition register_all (ets : list evtype) : option registry :=
  fold_left (fun r et => r ← r; register r et) ets (Some ∅).
