(** Executions of a ChunkedCollector that never end, and what fairness means for them. *)
From Verif Require Import Base ChunkModel ChunkSpec.

(** [st n] is the state before the n-th step, [ev n] what happens in it; nothing may happen. *)
Definition execution (cfg : ccfg) (st : nat -> CC) (ev : nat -> list event) : Prop :=
  st 0%nat = cc_init /\ forall n, cc_step cfg (st n) (ev n) (st (S n)) \/ (ev n = [] /\ st (S n) = st n).

(** No Flush stands still forever: the underlying collector's Collect returns, and Go schedules its goroutine. *)
Definition flushes_go_on (st : nat -> CC) : Prop :=
  forall n f fl, cc_fl (st n) !! f = Some fl -> exists m, (n <= m)%nat /\ cc_fl (st m) !! f <> Some fl.
(** The background goroutine does not wait forever, neither in select (MinInterval passes) nor for the mutex. *)
Definition background_goes_on (st : nat -> CC) : Prop :=
  (forall n g, cc_bg (st n) !! g = Some BWait -> exists m, (n <= m)%nat /\ cc_bg (st m) !! g <> Some BWait) /\
  (forall n g e, cc_bg (st n) !! g = Some (BErr e) -> exists m, (n <= m)%nat /\ cc_bg (st m) !! g <> Some (BErr e)).
Definition fair (st : nat -> CC) : Prop := flushes_go_on st /\ background_goes_on st.

(** Stop is not called (a call that panics does not count). *)
Definition never_stopped (ev : nat -> list event) : Prop := forall n, ~ In (EvStop false) (ev n).

(** What has happened before step n. *)
Definition log_at (ev : nat -> list event) (n : nat) : list event := flat_map ev (seq 0 n).
