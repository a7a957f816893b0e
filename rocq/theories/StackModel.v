(** Model of a RecentStore and a LimitStore wrapped in one another, over a MemoryStore: store.go:388-512. *)
From Verif Require Import Base MemModel RecentModel LimitModel.

(** RecentStore{DeleteStore: &LimitStore{Max: max, DeleteStore: memory}}, used by any number of goroutines.

    [h] are the Collect calls in the order in which they took rs.mu, with their clocks and decisions; [pend] what they and the
    deleting goroutines have still to call on the LimitStore (store.go:425, 452); [arr] the spans whose Collect took ls.mu, in
    that order; [busy] what the Collect that holds ls.mu has still to call on the MemoryStore (495, 503, 511); [done] the
    calls that took effect on the MemoryStore.  The MemoryStore's Delete never fails. *)
Inductive rl_exec (age : Z) (max : nat) : list revent -> RS -> list call -> list (SpanID * list Annotation) -> LS -> list call -> list call -> Prop :=
| RL_nil : rl_exec age max [] rs_init [] [] ls_init [] []
  (** store.go:413-423: RecentStore.Collect up to Unlock *)
| RL_call h rs pend arr ls busy done e rs' : rl_exec age max h rs pend arr ls busy done ->
    rs_step age (re_clock e) (re_id e) rs (re_ran e) (re_ev e) rs' ->
    rl_exec age max (h ++ [e]) rs' (pend ++ actions e) arr ls busy done
  (** 452: the LimitStore's Delete is the embedded MemoryStore's (469); it does not wait for ls.mu *)
| RL_delete h rs p1 ts p2 arr ls busy done : rl_exec age max h rs (p1 ++ CDelete ts :: p2) arr ls busy done ->
    rl_exec age max h rs (p1 ++ p2) arr ls busy (done ++ [CDelete ts])
  (** 480-512: LimitStore.Collect takes ls.mu, which nobody else holds *)
| RL_collect h rs p1 id a p2 arr ls done ls' cs : rl_exec age max h rs (p1 ++ CCollect id a :: p2) arr ls [] done ->
    ls_collect max true id a ls = (ls', cs, false) ->
    rl_exec age max h rs (p1 ++ p2) (arr ++ [(id, a)]) ls' cs done
| RL_below h rs pend arr ls c busy done : rl_exec age max h rs pend arr ls (c :: busy) done ->
    rl_exec age max h rs pend arr ls busy (done ++ [c]).

(** LimitStore{Max: max, DeleteStore: &RecentStore{DeleteStore: memory}}.  The Collect that holds ls.mu calls the RecentStore; that
    one's Delete is the MemoryStore's (396), its Collect decides and then calls the MemoryStore's Collect (425). *)
Inductive below := ToRecent (c : call) | ToMemory (c : call).
(** [pend] are the deleting goroutines that have not yet called Delete (450-452); the rest as above. *)
Inductive lr_exec (age : Z) (max : nat) : list revent -> RS -> list (list N) -> list (SpanID * list Annotation) -> LS -> list below -> list call -> Prop :=
| LR_nil : lr_exec age max [] rs_init [] [] ls_init [] []
| LR_collect h rs pend arr ls done id a ls' cs : lr_exec age max h rs pend arr ls [] done ->
    ls_collect max true id a ls = (ls', cs, false) ->
    lr_exec age max h rs pend (arr ++ [(id, a)]) ls' (map ToRecent cs) done
  (** 503 *)
| LR_oldest h rs pend arr ls ts busy done : lr_exec age max h rs pend arr ls (ToRecent (CDelete ts) :: busy) done ->
    lr_exec age max h rs pend arr ls busy (done ++ [CDelete ts])
  (** 495, 511 and 413-423: the RecentStore's Collect up to Unlock *)
| LR_recent h rs pend arr ls e busy done rs' :
    lr_exec age max h rs pend arr ls (ToRecent (CCollect (re_id e) (re_anns e)) :: busy) done ->
    rs_step age (re_clock e) (re_id e) rs (re_ran e) (re_ev e) rs' ->
    lr_exec age max (h ++ [e]) rs' (pend ++ match re_ev e with [] => [] | ev => [ev] end) arr ls (ToMemory (CCollect (re_id e) (re_anns e)) :: busy) done
  (** 425 *)
| LR_memory h rs pend arr ls c busy done : lr_exec age max h rs pend arr ls (ToMemory c :: busy) done ->
    lr_exec age max h rs pend arr ls busy (done ++ [c])
  (** 452 *)
| LR_delete h rs p1 ts p2 arr ls busy done : lr_exec age max h rs (p1 ++ ts :: p2) arr ls busy done ->
    lr_exec age max h rs (p1 ++ p2) arr ls busy (done ++ [CDelete ts]).
