(** Model of the locking of stores and collectors: which mutexes a call takes and releases, which calls it makes meanwhile, and which goroutines it
    starts.  What a call computes is left out. *)
From Verif Require Import Base.

(** One action of a goroutine.  [Act] is anything that ends by itself; [Forever] does not return. *)
Inductive act := Acq (l : N) | Rel (l : N) | Act | Go (s : list act) | Forever.

(** A goroutine: the mutexes it holds and what it has still to do. *)
Definition thread := (list N * list act)%type.
(** sync.Mutex: not reentrant.  Any goroutine that can go on may be the next. *)
Inductive step : list thread -> list thread -> Prop :=
| St_acq a h l s b : (forall h' s', In (h', s') (a ++ (h, Acq l :: s) :: b) -> ~ In l h') ->
    step (a ++ (h, Acq l :: s) :: b) (a ++ (l :: h, s) :: b)
| St_rel a h1 l h2 s b : step (a ++ (h1 ++ l :: h2, Rel l :: s) :: b) (a ++ (h1 ++ h2, s) :: b)
| St_act a h s b : step (a ++ (h, Act :: s) :: b) (a ++ (h, s) :: b)
| St_go a h s' s b : step (a ++ (h, Go s' :: s) :: b) (a ++ (h, s) :: b ++ [([], s')]).
Inductive steps : nat -> list thread -> list thread -> Prop :=
| Ss_0 st : steps 0 st st
| Ss_S n st1 st2 st3 : steps n st1 st2 -> step st2 st3 -> steps (S n) st1 st3.

(** Stores and collectors; the numbers name their mutexes.  NewLocalCollector(s) is s (collector.go:32-34). *)
Inductive coll :=
| CMem (m : N)                (* MemoryStore, store.go:87-93 *)
| CLimit (m : N) (c : coll)   (* LimitStore, store.go:463-477 *)
| CRecent (m : N) (c : coll)  (* RecentStore, store.go:392-408 *)
| CMulti (cs : list coll)     (* MultiStore, MultiQueryer, multi.go *)
| CChunked (m : N) (c : coll) (* ChunkedCollector, collector.go:80-130 *)
| CRemote (m lm : N).         (* RemoteCollector, mu and logMu: collector.go:300-315 *)
Inductive meth := MCollect | MTrace | MTraces | MDelete | MWrite | MReadFrom | MFlush | MStop | MClose.

(** A critical section without calls. *)
Definition section (m : N) : list act := [Acq m; Act; Rel m].
Fixpoint sections (ms : list N) : list act := match ms with [] => [] | m :: ms => section m ++ sections ms end.

(** [runs wmem wnet c me s]: a call of the method me of c may do s.  Which branch is taken depends on data that is not modelled, so that all are possible.
    [wmem]: Write may be endless (a trace with a parent cycle, C73); [wnet]: dialling and writing to the collector server may hang. *)
Inductive runs (wmem wnet : bool) : coll -> meth -> list act -> Prop :=
(* store.go:105-109, 243-248, 259-270, 276-280, 327-333, 337-348: Lock; defer Unlock *)
| R_mem m me : In me [MCollect; MTrace; MTraces; MDelete; MWrite; MReadFrom] -> runs wmem wnet (CMem m) me (section m)
| R_mem_endless m : wmem = true -> runs wmem wnet (CMem m) MWrite [Acq m; Forever; Rel m]
(* store.go:481-512: Max = 0; the trace is known; the Delete fails; it succeeds or is not needed *)
| R_limit_off m c : runs wmem wnet (CLimit m c) MCollect [Act]
| R_limit_known m c s : runs wmem wnet c MCollect s -> runs wmem wnet (CLimit m c) MCollect (Acq m :: s ++ [Rel m])
| R_limit_fails m c s : runs wmem wnet c MDelete s -> runs wmem wnet (CLimit m c) MCollect (Acq m :: s ++ [Rel m])
| R_limit_full m c s1 s2 : runs wmem wnet c MDelete s1 -> runs wmem wnet c MCollect s2 -> runs wmem wnet (CLimit m c) MCollect (Acq m :: s1 ++ s2 ++ [Rel m])
(* store.go:470: the embedded store's methods *)
| R_limit_embedded m c me s : In me [MTrace; MDelete] -> runs wmem wnet c me s -> runs wmem wnet (CLimit m c) me s
(* store.go:412-427, 430-459: without and with something to evict *)
| R_recent m c s : runs wmem wnet c MCollect s -> runs wmem wnet (CRecent m c) MCollect (section m ++ s)
| R_recent_evict m c s d : runs wmem wnet c MCollect s -> runs wmem wnet c MDelete d -> runs wmem wnet (CRecent m c) MCollect ([Acq m; Act; Go d; Rel m] ++ s)
(* store.go:398 *)
| R_recent_embedded m c me s : In me [MTrace; MDelete] -> runs wmem wnet c me s -> runs wmem wnet (CRecent m c) me s
(* multi.go:11-36, 58-76: one store after the other, perhaps not all *)
| R_multi_none me : In me [MCollect; MTrace; MTraces] -> runs wmem wnet (CMulti []) me []
| R_multi_stop c cs me s : In me [MCollect; MTrace; MTraces] -> runs wmem wnet c me s -> runs wmem wnet (CMulti (c :: cs)) me s
| R_multi_next c cs me s1 s2 : In me [MCollect; MTrace; MTraces] -> runs wmem wnet c me s1 -> runs wmem wnet (CMulti cs) me s2 -> runs wmem wnet (CMulti (c :: cs)) me (s1 ++ s2)
(* collector.go:155-203; the first Collect starts the goroutine of 246-264 *)
| R_chunked m c : runs wmem wnet (CChunked m c) MCollect (section m)
| R_chunked_start m c b : loops wmem wnet m c b -> runs wmem wnet (CChunked m c) MCollect [Acq m; Go b; Act; Rel m]
(* collector.go:207-244; OnFlush (217-219) may use the collector *)
| R_flush m c o s : on_flush wmem wnet m c o -> sends wmem wnet m c s -> runs wmem wnet (CChunked m c) MFlush (section m ++ o ++ s)
(* collector.go:268-273 *)
| R_stop m c : runs wmem wnet (CChunked m c) MStop (section m)
(* collector.go:354-371, 374-386, 388-395: log messages, dialling and writing with mu held *)
| R_remote m lm n : runs wmem wnet (CRemote m lm) MCollect (Acq m :: sections (repeat lm n) ++ [Act; Rel m])
| R_remote_hangs m lm n : wnet = true -> runs wmem wnet (CRemote m lm) MCollect (Acq m :: sections (repeat lm n) ++ [Forever; Rel m])
(* collector.go:342-352 *)
| R_close m lm : runs wmem wnet (CRemote m lm) MClose (section m)
(* The background goroutine of a ChunkedCollector: any number of flushes (it then waits for the timer or for Stop, holding nothing), each perhaps
   followed by 255-257. *)
with loops (wmem wnet : bool) : N -> coll -> list act -> Prop :=
| L_end m c : loops wmem wnet m c []
| L_ok m c f b : runs wmem wnet (CChunked m c) MFlush f -> loops wmem wnet m c b -> loops wmem wnet m c (f ++ b)
| L_error m c f b : runs wmem wnet (CChunked m c) MFlush f -> loops wmem wnet m c b -> loops wmem wnet m c (f ++ section m ++ b)
(* The range loop of a Flush, collector.go:222-234: a time-out ends it. *)
with sends (wmem wnet : bool) : N -> coll -> list act -> Prop :=
| S_end m c : sends wmem wnet m c []
| S_one m c s r : runs wmem wnet c MCollect s -> sends wmem wnet m c r -> sends wmem wnet m c (s ++ r)
| S_timeout m c s : runs wmem wnet c MCollect s -> sends wmem wnet m c (s ++ section m)
(* The user's OnFlush: it returns, and it may call Collect and Stop. *)
with on_flush (wmem wnet : bool) : N -> coll -> list act -> Prop :=
| O_end m c : on_flush wmem wnet m c []
| O_act m c o : on_flush wmem wnet m c o -> on_flush wmem wnet m c (Act :: o)
| O_call m c me s o : In me [MCollect; MStop] -> runs wmem wnet (CChunked m c) me s -> on_flush wmem wnet m c o -> on_flush wmem wnet m c (s ++ o).

(** What a goroutine of a program does: calls of the objects it has, one after the other; sections of mutexes with no call inside, for
    Recorder.errorsMu (recorder.go:114-118, 133-136), the ID generator (id.go:58-74), CollectorServer.logMu (collector.go:477-483), Transport.reqMu
    (httptrace/client.go:187-198, 215-217), App.tmplLock (traceapp/tmpl.go:44-85: the page is written to a buffer, handler.go:13-28) and the cache of
    field names (reflect.go:316-335; its read lock is taken to be exclusive); starting further goroutines; and waiting for a client that may never
    read (traceapp/handler.go:27) or send (collector.go:450-456), which happens with no mutex held. *)
Inductive prog (wmem wnet : bool) (objs : list coll) : list act -> Prop :=
| P_end : prog wmem wnet objs []
| P_call c me s k : In c objs -> runs wmem wnet c me s -> prog wmem wnet objs k -> prog wmem wnet objs (s ++ k)
| P_section m k : prog wmem wnet objs k -> prog wmem wnet objs (section m ++ k)
| P_act k : prog wmem wnet objs k -> prog wmem wnet objs (Act :: k)
| P_go s k : prog wmem wnet objs s -> prog wmem wnet objs k -> prog wmem wnet objs (Go s :: k)
| P_client k : prog wmem wnet objs k -> prog wmem wnet objs (Forever :: k).
