(** The whole way of a span: Recorder, ChunkedCollector, RemoteCollector, CollectorServer,
    MemoryStore, UnmarshalEvents. *)
From Verif Require Import Base ReflModel EventModel EventSpec RecorderModel ChunkModel ChunkSpec
  WireModel WireSpec RemoteModel MemModel MemSpec.

(** A span of the application: its ID, and the events recorded on it. *)
Notation aspan := (SpanID * list (evtype * val))%type.

(** The program that uses a Recorder for the span: NewRecorder (with or without a Logger), Event for each
    event ([parts]: what MarshalEvent gives for each), then Finish, to which the collector answers nil.
    Other methods of the Recorder but Annotation and Finish may be called at any time: here, Errors at the
    end.  [out]: the call that the collector gets. *)
Definition records (s : aspan) (out : wcall) : Prop :=
  exists logger parts (report : string -> list Annotation),
    Forall2 (fun e a => marshal (fst e) (snd e) a) (snd s) parts /\
    r_collects (rec_run (new_recorder logger (fst s))
      (map (fun a => MkCall (REvent (inl a)) None report) parts ++
       [MkCall RFinish None report; MkCall RErrors None report])) = [out].

(** The events of a ChunkedCollector's history that concern its users, and its underlying collector. *)
Definition is_collect (ev : ChunkModel.event) : Prop := match ev with EvCollect _ _ _ => True | _ => False end.
Global Instance is_collect_dec ev : Decision (is_collect ev).
Proof. destruct ev; cbn; apply _. Defined.
Definition sends_in (log : list ChunkModel.event) : list (wcall * option cerr) :=
  omap (fun ev => match ev with EvSend _ id a e => Some ((id, a), e) | _ => None end) log.

(** One application: its Recorders, each in a goroutine of its own, hand their spans to a ChunkedCollector,
    which accepts them all, without an error, and passes everything on without dropping anything and without
    two Flushes at once; a RemoteCollector sends it over one connection that does not break.  [bs] are the
    bytes that arrive at the server. *)
Record app_sends (spans : list aspan) (outs : list wcall) (bs : bytes) : Prop := {
  as_records : Forall2 records spans outs;
  as_chunked : exists cfg log c,
    cc_run cfg log c /\ no_overlap false log /\
    Permutation (filter is_collect log) (map (fun o => EvCollect (fst o) (snd o) (OQueued None)) outs) /\
    (forall s, ~ was_dropped s log) /\ cc_pend c = ∅ /\ cc_fl c = ∅ /\
    exists ops r cn, rc_run ops rc_init = (r, map (fun o => (fst o, true)) (sends_in log)) /\
      (forall o, In o (sends_in log) -> snd o = None) /\
      rc_conns r = [cn] /\ cn_dead cn = false /\ cn_out cn = bs
}.

(** [l] is an interleaving of the lists [ls]: the server's goroutines run concurrently. *)
Inductive interleaved {A} : list (list A) -> list A -> Prop :=
| il_nil ls : Forall (eq []) ls -> interleaved ls []
| il_cons ls1 x l ls2 r : interleaved (ls1 ++ l :: ls2) r -> interleaved (ls1 ++ (x :: l) :: ls2) (x :: r).
