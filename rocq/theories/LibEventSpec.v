(** How the events of the library are stored. *)
From Verif Require Import Base StrOrder TimeModel ReflModel EventModel.
From stdpp Require Import sorting.
Local Open Scope string_scope.

(** The annotations: one for each key, in any order, and one for the schema. *)
Definition stored (schema : string) (kvs : list (string * string)) (anns : list Annotation) : Prop :=
  exists kvs', Permutation kvs kvs' /\ anns = (map (fun kv => Ann (fst kv) (Some (snd kv))) kvs' ++ [Ann ("_schema:" +:+ schema) None])%list.

(** The information of a request and of a response (httptrace.RequestInfo, httptrace.ResponseInfo). *)
Record request := Req { rq_method : string; rq_uri : string; rq_proto : string; rq_headers : list (string * string); rq_host : string; rq_addr : string; rq_length : Z }.
Record response := Resp { rs_headers : list (string * string); rs_length : Z; rs_status : Z }.
Definition int64 (z : Z) : Prop := (- 9223372036854775808 <= z < 9223372036854775808)%Z.
Definition sorted_keys (hs : list (string * string)) : Prop := StronglySorted (fun a b => slt (fst a) (fst b) = true) hs.
Definition headers_val (hs : list (string * string)) : val :=
  VMap (match hs with [] => None | _ => Some (map (fun h => (fst h, VString (snd h))) hs) end).
Definition request_val (r : request) : val :=
  VStruct [("Method", VString (rq_method r)); ("URI", VString (rq_uri r)); ("Proto", VString (rq_proto r)); ("Headers", headers_val (rq_headers r));
           ("Host", VString (rq_host r)); ("RemoteAddr", VString (rq_addr r)); ("ContentLength", VInt (rq_length r))].
Definition response_val (r : response) : val :=
  VStruct [("Headers", headers_val (rs_headers r)); ("ContentLength", VInt (rs_length r)); ("StatusCode", VInt (rs_status r))].
Definition request_kvs (p : string) (r : request) : list (string * string) :=
  ([(p +:+ ".Method", rq_method r); (p +:+ ".URI", rq_uri r); (p +:+ ".Proto", rq_proto r)] ++
   map (fun h => (p +:+ ".Headers." +:+ fst h, snd h)) (rq_headers r) ++
   [(p +:+ ".Host", rq_host r); (p +:+ ".RemoteAddr", rq_addr r); (p +:+ ".ContentLength", fmt_int (rq_length r))])%list.
Definition response_kvs (p : string) (r : response) : list (string * string) :=
  (map (fun h => (p +:+ ".Headers." +:+ fst h, snd h)) (rs_headers r) ++
   [(p +:+ ".ContentLength", fmt_int (rs_length r)); (p +:+ ".StatusCode", fmt_int (rs_status r))])%list.
Definition request_ok (r : request) : Prop := sorted_keys (rq_headers r) /\ int64 (rq_length r).
Definition response_ok (r : response) : Prop := sorted_keys (rs_headers r) /\ int64 (rs_length r) /\ int64 (rs_status r).

(** The events, as values of their types, with their schemas and keys. *)
Inductive library_event : evtype -> val -> string -> list (string * string) -> Prop :=
| L_name n : library_event name_event (VStruct [("Name", VString n)]) "name" [("Name", n)]
| L_msg m : library_event msg_event (VStruct [("Msg", VString m)]) "msg" [("Msg", m)]
| L_log m t : valid_time t -> library_event log_event (VStruct [("Msg", VString m); ("Time", VTime t)]) "log" [("Msg", m); ("Time", fmt_time t)]
| L_timespan s e : valid_time s -> valid_time e -> library_event timespan_event (VStruct [("S", VTime s); ("E", VTime e)]) "timespan" [("S", fmt_time s); ("E", fmt_time e)]
| L_Timespan s e : valid_time s -> valid_time e ->
    library_event Timespan_event (VStruct [("Span.Start", VTime s); ("Span.End", VTime e)]) "Timespan" [("Span.Start", fmt_time s); ("Span.End", fmt_time e)]
| L_sql q tag send recv : valid_time send -> valid_time recv ->
    library_event sql_event (VStruct [("SQL", VString q); ("Tag", VString tag); ("ClientSend", VTime send); ("ClientRecv", VTime recv)]) "SQL"
      [("SQL", q); ("Tag", tag); ("ClientSend", fmt_time send); ("ClientRecv", fmt_time recv)]
| L_client rq rs send recv : request_ok rq -> response_ok rs -> valid_time send -> valid_time recv ->
    library_event client_event (VStruct [("Client.Request", request_val rq); ("Client.Response", response_val rs); ("Client.Send", VTime send); ("Client.Recv", VTime recv)]) "HTTPClient"
      (request_kvs "Client.Request" rq ++ response_kvs "Client.Response" rs ++ [("Client.Send", fmt_time send); ("Client.Recv", fmt_time recv)])
| L_server rq rs route user recv send : request_ok rq -> response_ok rs -> valid_time recv -> valid_time send ->
    library_event server_event (VStruct [("Server.Request", request_val rq); ("Server.Response", response_val rs); ("Server.Route", VString route); ("Server.User", VString user);
        ("Server.Recv", VTime recv); ("Server.Send", VTime send)]) "HTTPServer"
      (request_kvs "Server.Request" rq ++ response_kvs "Server.Response" rs ++ [("Server.Route", route); ("Server.User", user); ("Server.Recv", fmt_time recv); ("Server.Send", fmt_time send)]).
