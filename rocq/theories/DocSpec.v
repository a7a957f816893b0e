(** How events are sent by programs in other languages, as other-languages.md documents it. *)
From Verif Require Import Base TimeModel ReflModel EventModel LibEventSpec.
Local Open Scope string_scope.

(** The annotations, which come in no specific order (other-languages.md, "Annotation"). *)
Definition sent (kvs : list (string * string)) (anns : list Annotation) : Prop := Permutation (map (fun kv => Ann (fst kv) (Some (snd kv))) kvs) anns.

(** Names, messages, logs and SQL queries (other-languages.md, "SpanNameEvent" to "SQLEvent"), with the values that they stand for. *)
Inductive documented : evtype -> val -> list (string * string) -> Prop :=
| Doc_name n : documented name_event (VStruct [("Name", VString n)]) [("Name", n); ("_schema:name", "")]
| Doc_msg m : documented msg_event (VStruct [("Msg", VString m)]) [("Msg", m); ("_schema:msg", "")]
| Doc_log m t : valid_time t -> documented log_event (VStruct [("Msg", VString m); ("Time", VTime t)]) [("Msg", m); ("Time", fmt_time t); ("_schema:log", "")]
| Doc_sql q tag send recv : valid_time send -> valid_time recv ->
    documented sql_event (VStruct [("SQL", VString q); ("Tag", VString tag); ("ClientSend", VTime send); ("ClientRecv", VTime recv)])
      [("Tag", tag); ("ClientSend", fmt_time send); ("ClientRecv", fmt_time recv); ("SQL", q); ("_schema:SQL", "")].
(** HTTP events (other-languages.md, "HTTPServerEvent", "HTTPClientEvent"): the request's information is placed into Request.Foo keys and the response's
    into Response.Foo keys. *)
Definition documented_server (rq : request) (rs : response) (route user : string) (recv send : time) : list (string * string) :=
  (request_kvs "Request" rq ++ response_kvs "Response" rs ++
   [("Route", route); ("User", user); ("ServerRecv", fmt_time recv); ("ServerSend", fmt_time send); ("_schema:HTTPServer", "")])%list.
Definition documented_client (rq : request) (rs : response) (send recv : time) : list (string * string) :=
  ([("ClientSend", fmt_time send); ("ClientRecv", fmt_time recv)] ++ request_kvs "Request" rq ++ response_kvs "Response" rs ++ [("_schema:HTTPClient", "")])%list.
