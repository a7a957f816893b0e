(** Model of RecentStore over a store whose Delete may fail: store.go:450-458. *)
From Verif Require Import Base MemModel RecentModel.

(** Executions as in RecentModel.rs_exec, in which a Delete may also fail (store.go:452-454): then it has no effect, the error is logged, and that is all.
    [failed] are the Deletes that failed. *)
Inductive rs_fexec (age : Z) : list revent -> RS -> list call -> list call -> list call -> Prop :=
| RF_nil : rs_fexec age [] rs_init [] [] []
| RF_call h st pend done failed e st' : rs_fexec age h st pend done failed ->
    rs_step age (re_clock e) (re_id e) st (re_ran e) (re_ev e) st' ->
    rs_fexec age (h ++ [e]) st' (pend ++ actions e) done failed
| RF_act h st p1 a p2 done failed : rs_fexec age h st (p1 ++ a :: p2) done failed ->
    rs_fexec age h st (p1 ++ p2) (done ++ [a]) failed
| RF_fail h st p1 ts p2 done failed : rs_fexec age h st (p1 ++ CDelete ts :: p2) done failed ->
    rs_fexec age h st (p1 ++ p2) done (failed ++ [CDelete ts]).
