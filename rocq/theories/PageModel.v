(** Model of traceapp/handler.go and traceapp/httputil.go: the buffered page handlers. *)
From Verif Require Import Base IdModel TimeModel ReflModel EventModel RecorderModel HttpModel.
Local Open Scope Z_scope.

(** net/http response.Write: without a status the header goes out with 200; a status that allows no body (1xx, 204,
    304) makes Write fail and send nothing. *)
Definition body_allowed (code : Z) : bool := negb (((100 <=? code) && (code <=? 199)) || (code =? 204) || (code =? 304)).
Definition page_write (w : writer) (b : string) : writer :=
  let w := w_write_header w 200 in
  match w_sent w with
  | Some (code, _) => if body_allowed code then MkWriter (w_header w) (w_sent w) (w_body w +:+ b) else w
  | None => w
  end.
(** net/http response.WriteHeader panics at a code that does not have three digits (checkWriteHeaderCode); [None] is
    the panic. *)
Definition page_write_header (w : writer) (code : Z) : option writer :=
  if (code <? 100) || (999 <? code) then None else Some (w_write_header w code).

(** httputil.go:15-19 responseBuffer; a nil header is [None]. *)
Record buffer := MkBuffer { rb_buf : string; rb_status : Z; rb_header : option header }.
(** httputil.go:21-34 Write, WriteHeader, Header.  [HHeader f]: changes of the map that Header() returns.  The buffer
    is no http.Flusher: a handler that would flush cannot. *)
Definition rb_step (rb : buffer) (o : hop) : buffer :=
  match o with
  | HWrite b => MkBuffer (rb_buf rb +:+ b) (rb_status rb) (rb_header rb)
  | HWriteHeader code => MkBuffer (rb_buf rb) code (rb_header rb)
  | HHeader f => MkBuffer (rb_buf rb) (rb_status rb) (Some (f (default ∅ (rb_header rb))))
  | HFlush => rb
  end.
(** handler.go:14: the zero value *)
Definition rb_empty : buffer := MkBuffer "" 0 None.

(** httputil.go:40-56 WriteTo, with httputil.go:36-38 ContentLength: the writer afterwards, and whether WriteHeader
    panicked.  The result of WriteTo is dropped by its caller.  The keys of a map are distinct, so that the order of the
    range loop does not matter and the loop is a union. *)
Definition rb_write_to (rb : buffer) (w : writer) : writer * bool :=
  let h := default ∅ (rb_header rb) ∪ w_header w in
  let l := Z.of_nat (String.length (rb_buf rb)) in
  let h := if 0 <? l then header_set h "Content-Length" (fmt_int l) else h in
  let w := MkWriter h (w_sent w) (w_body w) in
  match (if rb_status rb =? 0 then Some w else page_write_header w (rb_status rb)) with
  | None => (w, true)
  | Some w => (if 0 <? l then page_write w (rb_buf rb) else w, false)
  end.

(** net/http Error, up to Go 1.22 (later versions also delete some headers) *)
Definition http_error (w : writer) (msg : string) (code : Z) : writer :=
  let h := header_set (header_set (w_header w) "Content-Type" "text/plain; charset=utf-8") "X-Content-Type-Options" "nosniff" in
  let w := w_write_header (MkWriter h (w_sent w) (w_body w)) code in
  page_write w (msg +:+ String (ascii_of_N 10) EmptyString).
(** handler.go:30-37 handleError, without the log line *)
Definition handle_error (w : writer) (msg : string) : writer :=
  http_error (MkWriter (header_set (w_header w) "cache-control" "no-cache, max-age=0") (w_sent w) (w_body w)) msg 500.

(** How a page handler ends. *)
Inductive page_end := PageOk | PageErr (msg : string) | PagePanic (rv : string).
(** handler.go:18: the error of a panic; [stack] is what debug.Stack returns. *)
Definition panic_msg (rv stack : string) : string :=
  let nl2 := String (ascii_of_N 10) (String (ascii_of_N 10) EmptyString) in
  ("handler panic" +:+ nl2 +:+ rv +:+ nl2 +:+ stack)%string.
(** handler.go:13-28 ServeHTTP of a handler that does [ops] with its writer and then ends so.  [bad rv]: the panic value
    of WriteHeader for a code. *)
Definition serve_page (stack : string) (bad : Z -> string) (ops : list hop) (e : page_end) (w : writer) : writer :=
  let rb := fold_left rb_step ops rb_empty in
  match e with
  | PageErr msg => handle_error w msg
  | PagePanic rv => handle_error w (panic_msg rv stack)
  | PageOk =>
      let (w, panicked) := rb_write_to rb w in
      if panicked then handle_error w (panic_msg (bad (rb_status rb)) stack) else w
  end.
