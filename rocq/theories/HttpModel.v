(** Model of package httptrace: headers, redaction, the server middleware and the client transport. *)
From Verif Require Import Base StrOrder IdModel TimeModel ReflModel EventModel RecorderModel.

(** ** net/http headers *)

Definition is_lower (c : ascii) : bool := (97 <=? N_of_ascii c) && (N_of_ascii c <=? 122).
Definition is_upper (c : ascii) : bool := (65 <=? N_of_ascii c) && (N_of_ascii c <=? 90).
Definition to_lower (c : ascii) : ascii := if is_upper c then ascii_of_N (N_of_ascii c + 32) else c.
Definition to_upper (c : ascii) : ascii := if is_lower c then ascii_of_N (N_of_ascii c - 32) else c.
(** net/textproto validHeaderFieldByte: the bytes of an RFC 7230 token *)
Definition token_byte (c : ascii) : bool :=
  is_lower c || is_upper c || ((48 <=? N_of_ascii c) && (N_of_ascii c <=? 57)) ||
  existsb (Ascii.eqb c) (bytes "!#$%&'*+-.^_`|~").
(** net/textproto canonicalMIMEHeaderKey's loop *)
Fixpoint canonical_loop (upper : bool) (l : list ascii) : list ascii :=
  match l with
  | [] => []
  | c :: l => (if upper then to_upper c else to_lower c) :: canonical_loop (Ascii.eqb c "-") l
  end.
(** http.CanonicalHeaderKey: names that are not tokens stay as they are. *)
Definition canonical_key (s : string) : string :=
  if forallb token_byte (bytes s) then unbytes (canonical_loop true (bytes s)) else s.

(** http.Header, as its method sees it *)
Notation header := (gmap string (list string)).
(** http.Header.Get: the first value, or "". *)
Definition header_get (h : header) (key : string) : string :=
  match h !! canonical_key key with Some (v :: _) => v | _ => "" end.
(** http.Header.Set *)
Definition header_set (h : header) (key value : string) : header := <[canonical_key key := [value]]> h.

(** ** httptrace/header.go *)

(** header.go:12, 20 *)
Definition header_span_id : string := "Span-ID".
Definition header_parent_span_id : string := "Parent-Span-ID".
(** header.go:24-26 SetSpanIDHeader *)
Definition set_span_id_header (h : header) (s : SpanID) : header := header_set h header_span_id (spanid_string s).
(** header.go:70-77 getSpanIDHeader: absent, an error, or the span. *)
Inductive span_header := NoSpan | BadSpan | GoodSpan (s : SpanID).
Definition get_span_id_header (h : header) (key : string) : span_header :=
  let s := header_get h key in
  if decide (s = ""%string) then NoSpan
  else match parse_spanid s with Some x => GoodSpan x | None => BadSpan end.
(** header.go:37-65 getSpanID: the span or an error, and the name of the header it is from.
    [g1], [g2]: the next results of generateID. *)
Definition get_span_id (g1 g2 : N) (h : header) : option SpanID * string :=
  match get_span_id_header h header_span_id with
  | BadSpan => (None, header_span_id)
  | GoodSpan s => (Some s, header_span_id)
  | NoSpan =>
      match get_span_id_header h header_parent_span_id with
      | BadSpan => (None, header_parent_span_id)
      | GoodSpan s => (Some (new_span_id s g1), header_parent_span_id)
      | NoSpan => (Some (new_root_span_id g1 g2), ""%string)
      end
  end.

(** ** Redaction (httptrace/client.go:77-111) *)

(** strings.EqualFold, for ASCII strings.  (It also identifies some letters outside ASCII.) *)
Definition fold_eq (s t : string) : bool := bool_decide (map to_lower (bytes s) = map to_lower (bytes t)).
(** client.go:104-111 isRedacted; [names] is RedactedHeaders. *)
Definition is_redacted (names : list string) (k : string) : bool := existsb (fold_eq k) names.
(** client.go:78 *)
Definition redacted : list string := ["REDACTED"]%string.
(** client.go:83-89, over the header in iteration order *)
Definition redact_header (names : list string) (h : header) (kv : string * list string) : header :=
  <[fst kv := if is_redacted names (fst kv) then redacted else snd kv]> h.
(** client.go:90-96, over the trailer *)
Definition redact_trailer (names : list string) (h : header) (kv : string * list string) : header :=
  <[fst kv := if is_redacted names (fst kv) then redacted else default [] (h !! fst kv) ++ snd kv]> h.
(** strings.Join *)
Fixpoint join (sep : string) (l : list string) : string :=
  match l with
  | [] => ""
  | [x] => x
  | x :: l => x +:+ sep +:+ join sep l
  end.
(** client.go:97-100 *)
Definition join_header (m : gmap string string) (kv : string * list string) : gmap string string :=
  <[canonical_key (fst kv) := join "," (snd kv)]> m.
(** client.go:81-102 redactHeaders.  [o1], [o2], [o3]: the orders in which the maps are iterated.  (That the
    slices of the header are shared with h, and that append may write behind their ends, has no effect
    on what any header shows.) *)
Inductive redact_headers (names : list string) (hdr trailer : header) : gmap string string -> Prop :=
| redact_headers_intro o1 o2 o3 :
    Permutation o1 (map_to_list hdr) -> Permutation o2 (map_to_list trailer) ->
    Permutation o3 (map_to_list (fold_left (redact_trailer names) o2 (fold_left (redact_header names) o1 ∅))) ->
    redact_headers names hdr trailer (fold_left join_header o3 ∅).

(** ** What is recorded of requests and responses *)

(** The parts of http.Request that matter; [rq_uri] is r.URL.RequestURI(). *)
Record request := MkRequest {
  rq_method : string; rq_uri : string; rq_proto : string; rq_header : header; rq_trailer : header;
  rq_host : string; rq_remote : string; rq_length : Z; rq_url_host : string; rq_url_path : string;
}.
Definition header_val (m : gmap string string) : val := VMap (Some (map (fun kv => (fst kv, VString (snd kv))) (map_to_kvs m))).
(** client.go:40-50 requestInfo *)
Inductive request_info_of (names : list string) (r : request) : val -> Prop :=
| request_info_intro m : redact_headers names (rq_header r) (rq_trailer r) m ->
    request_info_of names r (VStruct [("Method", VString (rq_method r)); ("URI", VString (rq_uri r)); ("Proto", VString (rq_proto r));
      ("Headers", header_val m); ("Host", VString (rq_host r)); ("RemoteAddr", VString (rq_remote r)); ("ContentLength", VInt (rq_length r))]).
(** server.go:34-40 responseInfo *)
Record response := MkResponse { rs_header : header; rs_trailer : header; rs_length : Z; rs_status : Z }.
Inductive response_info_of (names : list string) (r : response) : val -> Prop :=
| response_info_intro m : redact_headers names (rs_header r) (rs_trailer r) m ->
    response_info_of names r (VStruct [("Headers", header_val m); ("ContentLength", VInt (rs_length r)); ("StatusCode", VInt (rs_status r))]).

(** ** The response writer *)

(** The http.ResponseWriter of net/http's server, as documented: the first WriteHeader or Write sends the
    header; later ones do not change it.  (Codes 1xx, which may precede the final one, are not modelled.) *)
Record writer := MkWriter { w_header : header; w_sent : option (Z * header); w_body : string }.
Definition w_write_header (w : writer) (code : Z) : writer :=
  match w_sent w with Some _ => w | None => MkWriter (w_header w) (Some (code, w_header w)) (w_body w) end.
Definition w_write (w : writer) (b : string) : writer :=
  let w := w_write_header w 200 in MkWriter (w_header w) (w_sent w) (w_body w +:+ b).
(** What the client has received once the handler has returned. *)
Definition w_response (w : writer) : Z * header * string :=
  match w_sent w with Some (code, h) => (code, h, w_body w) | None => (200, w_header w, w_body w)%Z end.

(** server.go:148-153 responseInfoRecorder, around a writer *)
Record recorder := MkRecorder { rr_status : Z; rr_length : Z; rr_writer : writer }.
(** What a handler does with its http.ResponseWriter.  [HHeader f]: changes of the map that Header() returns. *)
Inductive hop := HHeader (f : header -> header) | HWriteHeader (code : Z) | HWrite (b : string) | HFlush.
(** server.go:156-162 Write, 172-175 WriteHeader, 190-194 Flush; Header is the writer's own. *)
Definition rr_step (r : recorder) (o : hop) : recorder :=
  match o with
  | HHeader f => let w := rr_writer r in MkRecorder (rr_status r) (rr_length r) (MkWriter (f (w_header w)) (w_sent w) (w_body w))
  | HWriteHeader code => MkRecorder code (rr_length r) (w_write_header (rr_writer r) code)
  | HWrite b =>
      MkRecorder (if (rr_status r =? 0)%Z then 200%Z else rr_status r) (rr_length r + Z.of_nat (String.length b))%Z (w_write (rr_writer r) b)
  | HFlush => MkRecorder (rr_status r) (rr_length r) (w_write_header (rr_writer r) 200)
  end.
(** server.go:164-169 StatusCode *)
Definition rr_code (r : recorder) : Z := if (rr_status r =? 0)%Z then 200%Z else rr_status r.
(** server.go:179-185 partialResponse *)
Definition partial_response (r : recorder) : response := MkResponse (w_header (rr_writer r)) ∅ (rr_length r) (rr_code r).

(** ** Middleware (server.go:69-112) *)

(** server.go:115-131 MiddlewareConfig; the functions see the request. *)
Record config := MkConfig {
  cf_route : option (request -> string);
  cf_user : option (request -> string);
  cf_set_context : option (request -> SpanID -> request);
}.
(** The next handler: from the request and the span in its context (if any) what it does with the writer,
    the request as it leaves it, and whether it panics in the end. *)
Notation handler := (request -> option SpanID -> list hop * request * bool).

(** What was seen of a request from outside. *)
Record outcome := MkOutcome {
  oc_panics : bool;
  oc_nexts : list (request * option SpanID);        (* the calls of next *)
  oc_spans_set : list SpanID;                       (* the calls of SetContextSpan *)
  oc_collects : list (SpanID * list Annotation);    (* the calls of Collect *)
  oc_writer : writer;
}.
Definition span_name_val (name : string) : val := VStruct [("Name", VString name)].
Definition server_val (req resp : val) (route user : string) (recv snd : time) : val :=
  VStruct [("Server.Request", req); ("Server.Response", resp); ("Server.Route", VString route); ("Server.User", VString user);
           ("Server.Recv", VTime recv); ("Server.Send", VTime snd)].
(** [answer]: what the collector returns for the span; [lg]: see RecorderModel.  [g1], [g2]: see get_span_id. *)
Inductive serve (names : list string) (cf : config) (next : handler) (g1 g2 : N) (answer : option string)
    (lg : string -> list Annotation) (r : request) (w : writer) : outcome -> Prop :=
| serve_bad_header from :
    (* server.go:71-80: the error is logged, then the nil *SpanID is dereferenced *)
    get_span_id g1 g2 (rq_header r) = (None, from) ->
    serve names cf next g1 g2 answer lg r w (MkOutcome true [] [] [] w)
| serve_panics span from r1 r2 ctx ops :
    get_span_id g1 g2 (rq_header r) = (Some span, from) ->
    (r1, ctx) = match cf_set_context cf with Some f => (f r span, None) | None => (r, Some span) end ->
    next r1 ctx = (ops, r2, true) ->
    serve names cf next g1 g2 answer lg r w
      (MkOutcome true [(r1, ctx)] (match cf_set_context cf with Some _ => [span] | None => [] end) []
         (rr_writer (fold_left rr_step ops (MkRecorder 0 0 w))))
| serve_done span from r1 r2 ctx ops req resp recv snd anns1 anns2 rr rr' route user name :
    get_span_id g1 g2 (rq_header r) = (Some span, from) ->
    (r1, ctx) = match cf_set_context cf with Some f => (f r span, None) | None => (r, Some span) end ->
    next r1 ctx = (ops, r2, false) ->
    rr = fold_left rr_step ops (MkRecorder 0 0 w) ->
    (* server.go:91 *)
    rr' = rr_step rr (HHeader (fun h => set_span_id_header h span)) ->
    (* server.go:86, 93-95 *)
    request_info_of names (if decide (from = header_span_id) then r1 else r2) req ->
    route = match cf_route cf with Some f => f r2 | None => ""%string end ->
    user = match cf_user cf with Some f => f r2 | None => ""%string end ->
    response_info_of names (partial_response rr') resp ->
    (* server.go:105-109 *)
    name = (if decide (route = ""%string) then "Serve " +:+ rq_url_host r2 +:+ rq_url_path r2 else "Serve " +:+ route)%string ->
    marshal name_event (span_name_val name) anns1 ->
    marshal server_event (server_val req resp route user recv snd) anns2 ->
    serve names cf next g1 g2 answer lg r w
      (MkOutcome false [(r1, ctx)] (match cf_set_context cf with Some _ => [span] | None => [] end)
         (r_collects (rec_run (new_recorder false span)
            [MkCall (REvent (inl anns1)) None lg; MkCall (REvent (inl anns2)) None lg; MkCall RFinish answer lg]))
         (rr_writer rr')).
