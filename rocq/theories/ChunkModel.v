(** Model of ChunkedCollector: collector.go:55-273, as a labelled machine.  Each critical
    section (cc.mu held) and each call of the underlying collector is one step; steps of
    different goroutines interleave freely. *)
From Verif Require Import Base.

(** Errors: those of the underlying collector, ErrQueueDropped (49), "multiple errors" (241). *)
Inductive cerr := EUnder (n : N) | EQueueDropped | EMultiple (l : list cerr).

Notation entry := (SpanID * list Annotation)%type.

(** What a Collect call did: 159-161; 177-185; 186-201 (returning the last error, if any). *)
Inductive outcome := OStopped | ODropped (q : list entry) | OQueued (e : option cerr).

(** Observable events, in the order in which they happen. *)
Inductive event :=
| EvCollect (id : SpanID) (anns : list Annotation) (o : outcome)  (* a call of Collect *)
| EvBegin (f : nat) (q : list entry)      (* Flush f starts with q as its map, in iteration order *)
| EvSend (f : nat) (id : SpanID) (anns : list Annotation) (e : option cerr)  (* underlying Collect *)
| EvTimeout (f : nat) (rest : list entry) (* Flush f gives up on rest *)
| EvEnd (f : nat) (r : option cerr)       (* Flush f returns *)
| EvSetErr (e : cerr)                     (* background goroutine stores its error *)
| EvExit (g : nat)                        (* background goroutine ends *)
| EvStop (panicked : bool).               (* a call of Stop *)

(** collector.go:85-106 configuration. *)
Record ccfg := MkCfg { cf_max : N; cf_timeout : bool (* FlushTimeout != 0 *) }.

(** A running Flush (207-244): what is left of its range loop, and errs. *)
Record flush := MkFlush { fl_rest : list entry; fl_errs : list cerr }.

(** The background goroutine (249-263): waiting in select, in Flush, about to store an error. *)
Inductive bgstate := BWait | BFlush (f : nat) | BErr (e : cerr).

(** collector.go:117-131, plus the running goroutines.  stopChan: None is nil, Some b is a channel,
    closed iff b. *)
Record CC := MkCC {
  cc_lasterr : option cerr; cc_started : bool; cc_stopped : bool; cc_chan : option bool;
  cc_bytes : N; cc_pend : gmap SpanID (list Annotation);
  cc_fl : gmap nat flush; cc_bg : gmap nat bgstate
}.
Definition cc_init : CC := MkCC None false false None 0 ∅ ∅ ∅.

(** collector.go:246-264 start, [g] naming the new goroutine. *)
Definition cc_start (g : nat) (c : CC) : CC :=
  MkCC (cc_lasterr c) true (cc_stopped c) (Some false) (cc_bytes c) (cc_pend c) (cc_fl c) (<[g := BWait]> (cc_bg c)).

(** collector.go:169-173; len(nil) = 0.  Arithmetic is on uint64. *)
Definition ann_size (a : Annotation) : N :=
  N.of_nat (String.length (ann_key a)) + N.of_nat (String.length (default ""%string (ann_val a))).
Definition collection_size (anns : list Annotation) : N :=
  fold_left (fun n a => (n + ann_size a) mod two64) anns 24.

(** collector.go:155-203 Collect.  The event lists the dropped queue in some order, which is not
    observable. *)
Definition cc_collect (cfg : ccfg) (g : nat) (id : SpanID) (anns : list Annotation) (c : CC) : CC * outcome :=
  if cc_stopped c then (c, OStopped) else
  let c := if cc_started c then c else cc_start g c in
  let size := collection_size anns in
  if negb (cf_max cfg =? 0) && (cf_max cfg <? (cc_bytes c + size) mod two64) then
    (MkCC (cc_lasterr c) (cc_started c) (cc_stopped c) (cc_chan c) 0 ∅ (cc_fl c) (cc_bg c), ODropped (map_to_list (cc_pend c)))
  else
    let pend := match cc_pend c !! id with
                | Some p => if bool_decide (anns = []) then cc_pend c else <[id := p ++ anns]> (cc_pend c)
                | None => <[id := anns]> (cc_pend c)
                end in
    (MkCC None (cc_started c) (cc_stopped c) (cc_chan c) ((cc_bytes c + size) mod two64) pend (cc_fl c) (cc_bg c),
     OQueued (cc_lasterr c)).

(** collector.go:210-215: the queue is taken; the range loop (222) visits it in the order [q]. *)
Definition cc_begin (f : nat) (q : list entry) (c : CC) : CC :=
  MkCC (cc_lasterr c) (cc_started c) (cc_stopped c) (cc_chan c) 0 ∅ (<[f := MkFlush q []]> (cc_fl c)) (cc_bg c).

Definition set_flush (f : nat) (o : option flush) (c : CC) : CC :=
  MkCC (cc_lasterr c) (cc_started c) (cc_stopped c) (cc_chan c) (cc_bytes c) (cc_pend c)
    (partial_alter (fun _ => o) f (cc_fl c)) (cc_bg c).
Definition set_bg (g : nat) (o : option bgstate) (c : CC) : CC :=
  MkCC (cc_lasterr c) (cc_started c) (cc_stopped c) (cc_chan c) (cc_bytes c) (cc_pend c) (cc_fl c)
    (partial_alter (fun _ => o) g (cc_bg c)).

(** collector.go:223-225 *)
Definition add_err (errs : list cerr) (e : option cerr) : list cerr :=
  match e with Some e => errs ++ [e] | None => errs end.
(** collector.go:238-243 *)
Definition flush_result (errs : list cerr) : option cerr :=
  match errs with [] => None | [e] => Some e | _ => Some (EMultiple errs) end.

Inductive cc_step (cfg : ccfg) : CC -> list event -> CC -> Prop :=
| CS_collect c g id anns c' o : cc_bg c !! g = None -> cc_collect cfg g id anns c = (c', o) ->
    cc_step cfg c [EvCollect id anns o] c'
(* Flush called by a user: 207-215 *)
| CS_begin c f q : cc_fl c !! f = None -> q ≡ₚ map_to_list (cc_pend c) ->
    cc_step cfg c [EvBegin f q] (cc_begin f q c)
(* 222-225, the time limit (226) not being exceeded *)
| CS_send c f id anns rest errs e : cc_fl c !! f = Some (MkFlush ((id, anns) :: rest) errs) ->
    cc_step cfg c [EvSend f id anns e] (set_flush f (Some (MkFlush rest (add_err errs e))) c)
(* 222-235, the time limit being exceeded *)
| CS_send_timeout c f id anns rest errs e : cf_timeout cfg = true -> cc_fl c !! f = Some (MkFlush ((id, anns) :: rest) errs) ->
    cc_step cfg c [EvSend f id anns e; EvTimeout f rest]
      (set_flush f (Some (MkFlush [] (add_err errs e ++ [EQueueDropped]))) c)
(* 238-243, in a Flush called by a user *)
| CS_end c f errs : cc_fl c !! f = Some (MkFlush [] errs) -> (forall g, cc_bg c !! g <> Some (BFlush f)) ->
    cc_step cfg c [EvEnd f (flush_result errs)] (set_flush f None c)
(* 253-254: the background goroutine's timer fires *)
| CS_timer c g f q : cc_bg c !! g = Some BWait -> cc_fl c !! f = None -> q ≡ₚ map_to_list (cc_pend c) ->
    cc_step cfg c [EvBegin f q] (set_bg g (Some (BFlush f)) (cc_begin f q c))
(* 254: its Flush returns *)
| CS_bg_end c g f errs : cc_bg c !! g = Some (BFlush f) -> cc_fl c !! f = Some (MkFlush [] errs) ->
    cc_step cfg c [EvEnd f (flush_result errs)]
      (set_bg g (Some (match flush_result errs with Some e => BErr e | None => BWait end)) (set_flush f None c))
(* 255-257 *)
| CS_bg_err c g e : cc_bg c !! g = Some (BErr e) ->
    cc_step cfg c [EvSetErr e]
      (set_bg g (Some BWait) (MkCC (Some e) (cc_started c) (cc_stopped c) (cc_chan c) (cc_bytes c) (cc_pend c) (cc_fl c) (cc_bg c)))
(* 259-260 *)
| CS_bg_exit c g : cc_bg c !! g = Some BWait -> cc_chan c = Some true ->
    cc_step cfg c [EvExit g] (set_bg g None c)
(* 268-273 Stop: closing a nil or closed channel panics, before cc.stopped is set *)
| CS_stop c : cc_chan c = Some false ->
    cc_step cfg c [EvStop false] (MkCC (cc_lasterr c) (cc_started c) true (Some true) (cc_bytes c) (cc_pend c) (cc_fl c) (cc_bg c))
| CS_stop_panic c : cc_chan c <> Some false -> cc_step cfg c [EvStop true] c.

(** All executions: the log of events and the state reached. *)
Inductive cc_run (cfg : ccfg) : list event -> CC -> Prop :=
| CR_nil : cc_run cfg [] cc_init
| CR_step log c evs c' : cc_run cfg log c -> cc_step cfg c evs c' -> cc_run cfg (log ++ evs) c'.
