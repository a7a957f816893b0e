(** Model of RecentStore with calls of its Delete: store.go:390-459. *)
From Verif Require Import Base MemModel RecentModel.

(** Calls that have taken effect on the underlying store: the RecentStore's own, and Delete calls of its users, which go to the embedded DeleteStore
    (store.go:396) and nowhere else. *)
Inductive effect := EStore (c : call) | EUser (ts : list N).
Definition effect_call (x : effect) : call := match x with EStore c => c | EUser ts => CDelete ts end.
(** Executions as in RecentModel.rs_exec, in which users call Delete at any time. *)
Inductive rs_dexec (age : Z) : list revent -> RS -> list call -> list effect -> Prop :=
| RD_nil : rs_dexec age [] rs_init [] []
| RD_call h st pend done e st' : rs_dexec age h st pend done ->
    rs_step age (re_clock e) (re_id e) st (re_ran e) (re_ev e) st' ->
    rs_dexec age (h ++ [e]) st' (pend ++ actions e) done
| RD_act h st p1 a p2 done : rs_dexec age h st (p1 ++ a :: p2) done ->
    rs_dexec age h st (p1 ++ p2) (done ++ [EStore a])
| RD_delete h st pend done ts : rs_dexec age h st pend done -> rs_dexec age h st pend (done ++ [EUser ts]).
