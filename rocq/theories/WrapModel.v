(** Model of httptrace's responseInfoRecorder (httptrace/server.go:148-199) around any http.ResponseWriter, for handlers that
    react to what they see: to the header, to the results of Write, to the optional interfaces of their writer. *)
From Verif Require Import Base HttpModel.

(** The optional interfaces of net/http's response writers: a handler finds out with a type assertion. *)
Inductive iface := Flusher | Hijacker | CloseNotifier | Pusher | ReaderFrom.
Global Instance iface_eq_dec : EqDecision iface.
Proof. solve_decision. Defined.

(** An http.ResponseWriter with states S: Header (as the map now is, and changing it), WriteHeader, Write (with the number of
    bytes and whether the error is nil), what it implements, and the methods of these interfaces (one each). *)
Record rw (S : Type) := MkRW {
  rw_header : S -> header;
  rw_set : S -> header -> S;
  rw_write_header : S -> Z -> S;
  rw_write : S -> string -> S * (Z * bool);
  rw_has : iface -> bool;
  rw_use : S -> iface -> string -> S * string;
}.
Arguments rw_header {S}. Arguments rw_set {S}. Arguments rw_write_header {S}. Arguments rw_write {S}. Arguments rw_has {S}. Arguments rw_use {S}.

(** server.go:153-158 the fields of responseInfoRecorder but the writer. *)
Record info := MkInfo { in_status : Z; in_length : Z }.
(** server.go:160-199: Header and the state are those of the embedded writer; of the optional interfaces it implements
    only Flusher, and that always (so rw_use is reached for Flusher only). *)
Definition wrap {S} (u : rw S) : rw (info * S) := {|
  rw_header x := rw_header u (snd x);
  rw_set x h := (fst x, rw_set u (snd x) h);
  rw_write_header x code := (MkInfo code (in_length (fst x)), rw_write_header u (snd x) code);
  rw_write x b :=
    let (s, r) := rw_write u (snd x) b in
    ((MkInfo (if (in_status (fst x) =? 0)%Z then 200%Z else in_status (fst x)) (in_length (fst x) + Z.of_nat (String.length b))%Z, s), r);
  rw_has i := match i with Flusher => true | _ => false end;
  rw_use x i arg :=
    if rw_has u Flusher then let (s, r) := rw_use u (snd x) i arg in ((fst x, s), r) else (x, ""%string);
|}.
(** server.go:169-174 StatusCode *)
Definition in_code (i : info) : Z := if (in_status i =? 0)%Z then 200%Z else in_status i.

(** What a handler does with its writer. *)
Inductive prog :=
| Done (panics : bool)
| GetHeader (k : header -> prog)
| SetHeader (h : header) (k : prog)
| WriteHeader (code : Z) (k : prog)
| Write (b : string) (k : Z * bool -> prog)
| Asks (i : iface) (k : bool -> prog)           (* _, ok := w.(I) *)
| Uses (i : iface) (arg : string) (k : string -> prog).  (* w.(I).Method(arg); panics if w does not implement I *)

(** What happens between a handler and its writer. *)
Inductive deed := DSet (h : header) | DWriteHeader (code : Z) | DWrite (b : string) (r : Z * bool) | DAsk (i : iface) (ok : bool) | DUse (i : iface) (arg r : string).
Fixpoint run {S} (w : rw S) (p : prog) (s : S) : list deed * bool * S :=
  match p with
  | Done b => ([], b, s)
  | GetHeader k => run w (k (rw_header w s)) s
  | SetHeader h k => let '(l, b, s') := run w k (rw_set w s h) in (DSet h :: l, b, s')
  | WriteHeader c k => let '(l, b, s') := run w k (rw_write_header w s c) in (DWriteHeader c :: l, b, s')
  | Write x k => let (s, r) := rw_write w s x in let '(l, b, s') := run w (k r) s in (DWrite x r :: l, b, s')
  | Asks i k => let '(l, b, s') := run w (k (rw_has w i)) s in (DAsk i (rw_has w i) :: l, b, s')
  | Uses i arg k =>
      if rw_has w i then let (s, r) := rw_use w s i arg in let '(l, b, s') := run w (k r) s in (DUse i arg r :: l, b, s')
      else ([DAsk i false], true, s)
  end.

(** server.go:87-89: the handler with the middleware: afterwards the span ID is put into the header, unless it panicked.  The
    first component: what happened, whether it panicked, and the status and length that are recorded. *)
Definition with_middleware {S} (u : rw S) (p : prog) (span : SpanID) (s : S) : (list deed * bool * Z * Z) * S :=
  let '(l, b, x) := run (wrap u) p (MkInfo 0 0, s) in
  let x := if b then x else rw_set (wrap u) x (set_span_id_header (rw_header (wrap u) x) span) in
  ((l, b, in_code (fst x), in_length (fst x)), snd x).
