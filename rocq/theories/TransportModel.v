(** Model of the client transport of package httptrace (httptrace/client.go:113-228). *)
From Verif Require Import Base StrOrder IdModel TimeModel ReflModel EventModel RecorderModel HttpModel.

(** Header maps live in memory: requests that share a map see each other's changes.  A request is given by
    its other parts (the rq_header of [q_parts] is not used) and the address of its map. *)
Record hrequest := MkHrequest { q_parts : request; q_map : N }.
Notation memory := (gmap N header).
Definition map_at (mem : memory) (a : N) : header := default ∅ (mem !! a).
(** The request as it looks now. *)
Definition seen (mem : memory) (q : hrequest) : request :=
  let r := q_parts q in
  MkRequest (rq_method r) (rq_uri r) (rq_proto r) (map_at mem (q_map q)) (rq_trailer r) (rq_host r) (rq_remote r) (rq_length r)
    (rq_url_host r) (rq_url_path r).

(** client.go:180-191 cloneRequest.  [a]: the address of the new map; [o]: the order in which the old
    one is iterated.  (The value slices are shared; nothing here writes to them.) *)
Definition clone_request (mem : memory) (q : hrequest) (a : N) (o : list (string * list string)) : memory * hrequest :=
  (<[a := fold_left (fun (h : header) kv => <[fst kv := snd kv]> h) o ∅]> mem, MkHrequest (q_parts q) a).

(** What the transport below does with a request. *)
Inductive tresult := TResponse (r : response) | TError (err : string) | TPanic.
Notation round_tripper := (request -> tresult).

(** What is seen of RoundTrip from outside. *)
Record trip := MkTrip {
  tp_sent : list request;                          (* the requests given to the transport below *)
  tp_result : tresult;                             (* what the caller gets *)
  tp_collects : list (SpanID * list Annotation);   (* the calls of Collect *)
  tp_memory : memory;
}.
Definition client_val (req resp : val) (snd recv : time) : val :=
  VStruct [("Client.Request", req); ("Client.Response", resp); ("Client.Send", VTime snd); ("Client.Recv", VTime recv)].
(** client.go:163-168: the response of the event; on an error only the status is set. *)
Inductive result_info_of (names : list string) : tresult -> val -> Prop :=
| result_info_response r v : response_info_of names r v -> result_info_of names (TResponse r) v
| result_info_error e : result_info_of names (TError e) (VStruct [("Headers", VMap None); ("ContentLength", VInt 0); ("StatusCode", VInt (-1))]).

(** client.go:133-173 RoundTrip, except for the bookkeeping of clones (see below).  [span]: that of the
    transport's Recorder; [g1], [g2]: the next results of generateID; [answer], [lg] as in HttpModel.serve. *)
Inductive round_trip (names : list string) (span : SpanID) (set_name : bool) (tr : round_tripper) (g1 g2 : N) (answer : option string)
    (lg : string -> list Annotation) (mem : memory) (q : hrequest) : trip -> Prop :=
| round_trip_panics mem1 mem2 a o q' :
    mem !! a = None -> Permutation o (map_to_list (map_at mem (q_map q))) ->
    (mem1, q') = clone_request mem q a o ->
    mem2 = <[q_map q' := set_span_id_header (map_at mem1 (q_map q')) (new_span_id span g2)]> mem1 ->
    tr (seen mem2 q') = TPanic ->
    round_trip names span set_name tr g1 g2 answer lg mem q (MkTrip [seen mem2 q'] TPanic [] mem2)
| round_trip_returns mem1 mem2 a o q' res req resp snd recv anns1 anns2 :
    (* client.go:137 *)
    mem !! a = None -> Permutation o (map_to_list (map_at mem (q_map q))) ->
    (mem1, q') = clone_request mem q a o ->
    (* client.go:142-144 *)
    (if set_name then marshal name_event (span_name_val ("Request " +:+ rq_url_host (q_parts q'))) anns1 else anns1 = []) ->
    (* client.go:149-151 *)
    mem2 = <[q_map q' := set_span_id_header (map_at mem1 (q_map q')) (new_span_id span g2)]> mem1 ->
    (* client.go:153-162 *)
    request_info_of names (seen mem2 q') req ->
    tr (seen mem2 q') = res -> res <> TPanic ->
    result_info_of names res resp ->
    marshal client_event (client_val req resp snd recv) anns2 ->
    (* client.go:142, 169-171 *)
    round_trip names span set_name tr g1 g2 answer lg mem q
      (MkTrip [seen mem2 q'] res
         (r_collects (rec_run (new_recorder false (new_span_id span g1))
            [MkCall (REvent (inl anns1)) None lg; MkCall (REvent (inl anns2)) None lg; MkCall RFinish answer lg]))
         mem2).

(** ** The bookkeeping for CancelRequest *)

(** Round trips run concurrently.  What happens to a Transport, in the order of its mutex: round trip [k] of the
    request at [o] registers its clone [c]; round trip [k] ends (the deferred call: also when the transport
    below fails or panics); CancelRequest(o). *)
Inductive tevent := TStart (k o c : N) | TEnd (k : N) | TCancel (o : N).
(** [ts_frames]: the running round trips with their variable original; [ts_requests]: the map requests
    (client.go:128); [ts_cancelled]: the calls of the transport's CancelRequest. *)
Record tstate := MkTstate { ts_frames : gmap N N; ts_requests : gmap N N; ts_cancelled : list N }.
Definition tinit : tstate := MkTstate ∅ ∅ [].
(** client.go:138-139, 195-207 setCloneRequest, 218-235 CancelRequest; the transport below is a canceler.
    None: there is no such round trip (or there is one already). *)
Definition tstep (s : tstate) (e : tevent) : option tstate :=
  match e with
  | TStart k o c =>
      match ts_frames s !! k with
      | Some _ => None
      | None => Some (MkTstate (<[k := o]> (ts_frames s)) (<[o := c]> (ts_requests s)) (ts_cancelled s))
      end
  | TEnd k =>
      match ts_frames s !! k with
      | Some o => Some (MkTstate (delete k (ts_frames s)) (delete o (ts_requests s)) (ts_cancelled s))
      | None => None
      end
  | TCancel o =>
      match ts_requests s !! o with
      | Some c => Some (MkTstate (ts_frames s) (ts_requests s) (ts_cancelled s ++ [c]))
      | None => Some s
      end
  end.
Definition trun (h : list tevent) : option tstate := fold_left (fun s e => s ← s; tstep s e) h (Some tinit).
