(** Model of the Python client, python/appdash: the text form of span IDs, the events, the packets, the
    socket collector, the OpenTracing recorder and the Twisted collector.  Python 2 text is modelled as byte
    strings; strings that protobuf refuses (not UTF-8 for the string field "key") are not modelled. *)
From Verif Require Import Base IdModel WireModel.

(** ** Span IDs *)

(** spanid.py:57-59 __hexStr: format(i, 'x') zero-filled to an even number of digits. *)
Definition py_hex (i : N) : string :=
  let h := hex_loop (S (N.size_nat i)) i [] in unbytes (pad_left (length h + length h mod 2) h).
(** str.join *)
Fixpoint py_join (sep : string) (l : list string) : string :=
  match l with [] => ""%string | [x] => x | x :: l => (x +:+ sep +:+ py_join sep l)%string end.
(** spanid.py:63-68 SpanID.__str__ *)
Definition py_spanid (s : SpanID) : string :=
  let ids := if sp_parent s =? 0 then [sp_trace s; sp_span s] else [sp_trace s; sp_span s; sp_parent s] in
  py_join "/" (map py_hex ids).

(** ** Events *)

(** The events, event.py:21-256.  Times are the texts made by timeString (strict_rfc3339, outside /repo).
    The values in requestInfo and responseInfo are given as the texts that str() makes of them; the keys of
    a dictionary are distinct, in the order in which it is iterated. *)
Inductive pyevent :=
| PyName (name : string)
| PyMsg (msg : string)
| PyLog (msg time : string)
| PyTimespan (start end_ : string)
| PySQL (sql tag send recv : string)
| PyHTTPServer (request response : gmap string string) (route user send recv : string)
| PyHTTPClient (request response : gmap string string) (send recv : string).
(** The class attribute "schema" of each (event.py:22, 36, 51, 68, 84, 154, 225). *)
Definition py_schema (e : pyevent) : string :=
  match e with
  | PyName _ => "name" | PyMsg _ => "msg" | PyLog _ _ => "log" | PyTimespan _ _ => "Timespan" | PySQL _ _ _ _ => "SQL"
  | PyHTTPServer _ _ _ _ _ _ => "HTTPServer" | PyHTTPClient _ _ _ _ => "HTTPClient"
  end.
(** event.py:116-122 _flattenReqRes.  The keys it makes for different keys of the dictionary are different,
    so that the order of iteration does not matter (except for "Headers" and "Headers.Headers": which of
    them comes last in Python is not modelled). *)
Definition py_info_key (k : string) : string :=
  if String.eqb k "Headers" then ("Request.Headers." +:+ k)%string else ("Request." +:+ k)%string.
Definition py_flatten (info : gmap string string) (into : gmap string string) : gmap string string :=
  fold_left (fun d e => <[py_info_key (fst e) := snd e]> d) (map_to_list info) into.
(** The marshal methods (event.py:31, 45, 63, 76, 105-111, 185-194, 248-255). *)
Definition py_marshal (e : pyevent) : gmap string string :=
  match e with
  | PyName name => {["Name" := name]}
  | PyMsg msg => {["Msg" := msg]}
  | PyLog msg time => <["Msg" := msg]> {["Time" := time]}
  | PyTimespan s e => <["Span.Start" := s]> {["Span.End" := e]}
  | PySQL sql tag send recv => <["SQL" := sql]> (<["Tag" := tag]> (<["ClientSend" := send]> {["ClientRecv" := recv]}))
  | PyHTTPServer req resp route user send recv =>
      py_flatten resp (py_flatten req
        (<["Route" := route]> (<["User" := user]> (<["ServerRecv" := recv]> {["ServerSend" := send]}))))
  | PyHTTPClient req resp send recv =>
      py_flatten resp (py_flatten req (<["ServerRecv" := recv]> {["ServerSend" := send]}))
  end.
(** event.py:13-18 MarshalEvent: the dictionary's items in any order, then the schema with the value "". *)
Notation pyann := (string * string)%type.
Definition py_marshal_event (e : pyevent) (anns : list pyann) : Prop :=
  exists items, Permutation (map_to_list (py_marshal e)) items /\ anns = items ++ [(("_schema:" +:+ py_schema e)%string, ""%string)].

(** ** Packets *)

Notation pycall := (SpanID * list pyann)%type.
(** encode.py:14-31 _collect; collector_pb2.py:20-155 has the fields of collector.proto. *)
Definition py_collect (c : pycall) : wpacket :=
  WPacket (Some (WSpan (Some (sp_trace (fst c))) (Some (sp_span (fst c))) (Some (sp_parent (fst c)))))
    (map (fun a => WAnn (Some (fst a)) (Some (snd a))) (snd c)).
(** encode.py:8-10 _msg, varint.py:11-15; SerializeToString writes the fields in order of their numbers. *)
Definition py_msg (p : wpacket) : bytes := let data := enc_packet p in varint (N.of_nat (length data)) ++ data.

(** ** The socket collector *)

(** sockcollector.py:57-62: the loop around sock.send.  Each result is the number of bytes accepted, or None
    for an exception; the bytes written and whether the loop ends without an exception. *)
Fixpoint py_send (buf : bytes) (results : list (option nat)) : bytes * bool :=
  match buf, results with
  | [], _ => ([], true)
  | _, [] | _, None :: _ | _, Some O :: _ => ([], false)
  | _, Some n :: results => let r := py_send (drop n buf) results in (take n buf ++ fst r, snd r)
  end.
(** sockcollector.py:52-62 collect, called for each of the calls on one connected socket: everything
    written to the socket, and which calls returned. *)
Fixpoint py_session (calls : list (pycall * list (option nat))) : bytes * list bool :=
  match calls with
  | [] => ([], [])
  | (c, results) :: calls =>
      let r := py_send (py_msg (py_collect c)) results in
      let rest := py_session calls in (fst r ++ fst rest, snd r :: snd rest)
  end.

(** ** The recorder *)

(** A finished span of basictracer.  A tag value that is no string is None: protobuf refuses it with a
    TypeError (encode.py:28).  Start and end are the texts made by timeString. *)
Record py_span := MkPySpan {
  ps_sampled : bool; ps_trace : N; ps_id : N; ps_parent : option N; ps_name : string;
  ps_start : string; ps_end : string; ps_tags : option (gmap string (option string)); ps_baggage : option (gmap string string) }.
(** recorder.py:31-33: the tags, in the order of iteration; the calls made and whether all went well. *)
Fixpoint py_tags (id : SpanID) (tags : list (string * option string)) : list pycall * bool :=
  match tags with
  | [] => ([], true)
  | (k, Some v) :: tags => let r := py_tags id tags in ((id, [(k, v)]) :: fst r, snd r)
  | (_, None) :: _ => ([], false)
  end.
(** recorder.py:35-37: "span.contex" does not exist: AttributeError for the first item, before collect. *)
Definition py_baggage (baggage : list (string * string)) : bool := match baggage with [] => true | _ => false end.
Definition entries {A} (m : option (gmap string A)) (l : list (string * A)) : Prop :=
  match m with Some m => Permutation (map_to_list m) l | None => l = [] end.
(** recorder.py:17-24 *)
Definition py_span_id (sp : py_span) : SpanID := MkSpanID (ps_trace sp) (ps_id sp) (default 0 (ps_parent sp)).
(** recorder.py:17-37 record_span with a collector that does not raise: the calls of collect, and whether
    record_span returns (it raises otherwise). *)
Inductive py_record (sp : py_span) : list pycall -> bool -> Prop :=
| py_record_unsampled : ps_sampled sp = false -> py_record sp [] true
| py_record_sampled name times tags baggage :
    ps_sampled sp = true -> py_marshal_event (PyName (ps_name sp)) name ->
    py_marshal_event (PyTimespan (ps_start sp) (ps_end sp)) times ->
    entries (ps_tags sp) tags -> entries (ps_baggage sp) baggage ->
    py_record sp ((py_span_id sp, name) :: (py_span_id sp, times) :: fst (py_tags (py_span_id sp) tags))
      (snd (py_tags (py_span_id sp) tags) && py_baggage baggage).

(** ** The Twisted collector *)

(** twcollector.py:26-91.  Factories are numbered.  [tw_own]: the instance's _pending, None as long as only
    the class's one exists.  [tw_remote]: the connection of the factory's current protocol and whether it
    is up.  [tw_wire]: what was written to each connection (a lost transport discards writes). *)
Record tw := MkTw { tw_shared : list pycall; tw_own : gmap nat (list pycall); tw_remote : gmap nat (nat * bool); tw_wire : gmap nat (list pycall) }.
Definition tw_init : tw := MkTw [] ∅ ∅ ∅.
Inductive tw_op :=
| TCollect (f : nat) (c : pycall)    (* collect, lines 49-53 *)
| TConnect (f conn : nat)            (* buildProtocol, lines 76-86, on a new connection of f's server *)
| TLost (f : nat)                    (* the factory's connection goes down *)
| TFlush (f : nat).                  (* one run of __flush, lines 58-66, by a LoopingCall *)
Definition tw_pending (s : tw) (f : nat) : list pycall := match tw_own s !! f with Some l => l | None => tw_shared s end.
Definition tw_step (s : tw) (o : tw_op) : tw :=
  match o with
  | TCollect f c =>
      match tw_own s !! f with
      | Some l => MkTw (tw_shared s) (<[f := l ++ [c]]> (tw_own s)) (tw_remote s) (tw_wire s)
      | None => MkTw (tw_shared s ++ [c]) (tw_own s) (tw_remote s) (tw_wire s)   (* list.append on the class's list *)
      end
  | TConnect f conn => MkTw (tw_shared s) (tw_own s) (<[f := (conn, true)]> (tw_remote s)) (tw_wire s)
  | TLost f =>
      match (tw_remote s !! f : option (nat * bool)) with
      | Some (conn, _) => MkTw (tw_shared s) (tw_own s) (<[f := (conn, false)]> (tw_remote s)) (tw_wire s)
      | None => s
      end
  | TFlush f =>
      match tw_pending s f with
      | [] => s
      | l =>
          match (tw_remote s !! f : option (nat * bool)) with
          | None => s   (* no LoopingCall runs before buildProtocol *)
          | Some (conn, up) =>
              MkTw (tw_shared s) (<[f := ([] : list pycall)]> (tw_own s)) (tw_remote s)
                (if up then <[conn := (default [] (tw_wire s !! conn : option (list pycall)) ++ l)%list]> (tw_wire s) else tw_wire s)
          end
      end
  end.
Definition tw_run (ops : list tw_op) : tw := fold_left tw_step ops tw_init.
