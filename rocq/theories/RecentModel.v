(** Model of RecentStore: store.go:390-459. *)
From Verif Require Import Base MemModel.
Open Scope Z_scope.

(** store.go:390-409: created and lastEvicted (None: the zero Time).  Times are nanoseconds. *)
Record RS := MkRS { rs_created : gmap N Z; rs_last : option Z }.
Definition rs_init : RS := MkRS ∅ None.

(** time.Since of the zero Time saturates at the largest Duration. *)
Definition max_duration : Z := 2 ^ 63 - 1.

(** The readings of the clock made by one Collect: 419 time.Now, 421 time.Since, 422 time.Now,
    431 time.Now. *)
Record clock := MkClock { ck_seen : Z; ck_since : Z; ck_now : Z; ck_evict : Z }.

(** One Collect up to rs.mu.Unlock: store.go:413-424, 430-442.  [ran] tells whether the eviction
    pass ran, [ev] is what it decided to delete, in the order of the map iteration; if not empty,
    a goroutine is started that deletes it (450-458).  The single clock stands for both Go's wall
    and monotonic clocks; UnixNano's overflow in year 2262 is not modelled. *)
Inductive rs_step (age : Z) (ck : clock) (id : SpanID) : RS -> bool -> list N -> RS -> Prop :=
| RS_quiet created last :
    (match last with None => max_duration | Some l => ck_since ck - l end <= age) ->
    rs_step age ck id (MkRS created last) false []
      (MkRS (match created !! sp_trace id with Some _ => created | None => <[sp_trace id := ck_seen ck]> created end) last)
| RS_evict created last created' ev :
    (age < match last with None => max_duration | Some l => ck_since ck - l end) ->
    created' = match created !! sp_trace id with Some _ => created | None => <[sp_trace id := ck_seen ck]> created end ->
    ev ≡ₚ map fst (filter (fun kv => kv.2 < ck_now ck - age) (map_to_list created')) ->
    rs_step age ck id (MkRS created last) true ev
      (MkRS (filter (fun kv => ~ kv.2 < ck_now ck - age) created') (Some (ck_evict ck))).

(** What one Collect call did: the span, the clock, the eviction decision. *)
Record revent := MkRev { re_id : SpanID; re_anns : list Annotation; re_clock : clock; re_ran : bool; re_ev : list N }.

(** A history of Collect calls in the order in which they took rs.mu. *)
Inductive rs_run (age : Z) : list revent -> RS -> Prop :=
| RR_nil : rs_run age [] rs_init
| RR_snoc h st e st' : rs_run age h st -> rs_step age (re_clock e) (re_id e) st (re_ran e) (re_ev e) st' ->
    rs_run age (h ++ [e]) st'.

(** The underlying store: after Unlock, the Collect (426) and the deleting goroutine (450-458) of
    each call run at any later time, in any order.  A schedule of the history h is a list of underlying
    calls. *)
Definition evict_calls (ev : list N) : list call := match ev with [] => [] | _ => [CDelete ev] end.
Definition actions (e : revent) : list call := evict_calls (re_ev e) ++ [CCollect (re_id e) (re_anns e)].

(** Executions: decisions and actions interleaved.  [pend] are the actions not yet run. *)
Inductive rs_exec (age : Z) : list revent -> RS -> list call -> list call -> Prop :=
| RX_nil : rs_exec age [] rs_init [] []
| RX_call h st pend done e st' : rs_exec age h st pend done ->
    rs_step age (re_clock e) (re_id e) st (re_ran e) (re_ev e) st' ->
    rs_exec age (h ++ [e]) st' (pend ++ actions e) done
| RX_act h st p1 a p2 done : rs_exec age h st (p1 ++ a :: p2) done ->
    rs_exec age h st (p1 ++ p2) (done ++ [a]).
