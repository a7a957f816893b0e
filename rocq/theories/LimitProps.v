(** Properties C22-C24 (LimitStore over a MemoryStore). *)
From Verif Require Import Base MemModel MemSpec MemProofs4 LimitModel LimitSpec LimitProofs.

Definition c (t s p : N) (ok : bool) : lop := LCollect (MkSpanID t s p) [] ok.
Definition ops : list lop :=
  [c 1 1 0 true; c 2 1 0 true; c 1 2 1 true; c 3 1 0 true; LDelete [3]; c 1 3 1 true; c 3 2 1 true].

(** C22: at every moment [pre] of the underlying store's history, it holds at most max traces. *)
Theorem C22_limit_capacity : forall max ops ls calls pre post st l,
  (forall op, In op ops -> nonzero op) ->
  ls_run max ops ls_init = (ls, calls) -> calls = pre ++ post -> ms_run pre ms_init = Some st ->
  NoDup l -> (forall t, In t l -> ms_trace_of st t <> None) -> (length l <= max)%nat.
Proof. exact limit_capacity. Qed.
Print Assumptions C22_limit_capacity.
Example C22_nonvacuous : exists ls calls pre post st,
  (forall op, In op (ops ++ [c 9 9 9 false; c 8 1 0 true]) -> nonzero op) /\
  ls_run 2 (ops ++ [c 9 9 9 false; c 8 1 0 true]) ls_init = (ls, calls) /\ calls = pre ++ post /\ ms_run pre ms_init = Some st /\
  NoDup [1; 8] /\ (forall t, In t [1; 8] -> ms_trace_of st t <> None).
Proof.
  exists (fst (ls_run 2 (ops ++ [c 9 9 9 false; c 8 1 0 true]) ls_init)), (snd (ls_run 2 (ops ++ [c 9 9 9 false; c 8 1 0 true]) ls_init)).
  exists (snd (ls_run 2 (ops ++ [c 9 9 9 false; c 8 1 0 true]) ls_init)), [].
  exists (final (snd (ls_run 2 (ops ++ [c 9 9 9 false; c 8 1 0 true]) ls_init))).
  split_and!.
  - intros op Hop. apply elem_of_list_In in Hop. revert op Hop. apply Forall_forall. repeat constructor; done.
  - apply surjective_pairing.
  - by rewrite app_nil_r.
  - apply final_run.
  - repeat constructor; set_solver.
  - intros t [<-|[<-|[]]]; vm_compute; done.
Qed.

(** C23: the store shows exactly what a first-in-first-out window of max traces holds. *)
Theorem C23_limit_keeps_newest : forall max ops ls calls st,
  (0 < max)%nat -> (forall op, In op ops -> nonzero op /\ succeeds op) ->
  ls_run max ops ls_init = (ls, calls) -> ms_run calls ms_init = Some st ->
  forall t, let L := content t (win max ops) in
    (L = [] -> ms_trace_of st t = None) /\
    (L <> [] -> exists tr, shows st t tr /\ displays L tr /\
       (acyclic (spans_of L) -> Permutation (map tr_id (nodes tr)) (spans_of L))).
Proof. exact limit_window. Qed.
Print Assumptions C23_limit_keeps_newest.
Example C23_nonvacuous : (forall op, In op ops -> nonzero op /\ succeeds op) /\
  exists ls calls st, ls_run 2 ops ls_init = (ls, calls) /\ ms_run calls ms_init = Some st /\
  win 2 ops = [(3, [(MkSpanID 3 2 1, [])]); (1, [(MkSpanID 1 3 1, [])])] /\
  ms_trace_of st 2 = None /\ shows st 1 (Tree (MkSpanID 1 3 1) [] []).
Proof.
  split; [intros op Hop; apply elem_of_list_In in Hop; revert op Hop; apply Forall_forall; repeat constructor; done|].
  exists (fst (ls_run 2 ops ls_init)), (snd (ls_run 2 ops ls_init)), (final (snd (ls_run 2 ops ls_init))).
  split_and!; [apply surjective_pairing|apply final_run|vm_compute; reflexivity|vm_compute; reflexivity|].
  apply (shown_by 5). vm_compute. reflexivity.
Qed.

(** C24 is false: trace ID 0 is mistaken for an empty slot. *)
Theorem C24_limit_capacity_any_id_refuted : exists max ops ls calls st,
  max <> O /\ ls_run max ops ls_init = (ls, calls) /\ ms_run calls ms_init = Some st /\
  exists l, NoDup l /\ (forall t, In t l -> ms_trace_of st t <> None) /\ (max < length l)%nat.
Proof. exact limit_zero_refuted. Qed.
Print Assumptions C24_limit_capacity_any_id_refuted.

(** C24, what holds for arbitrary IDs: at most one trace more. *)
Theorem C24_limit_capacity_any_id_partial : forall max ops ls calls pre post st l,
  ls_run max ops ls_init = (ls, calls) -> calls = pre ++ post -> ms_run pre ms_init = Some st ->
  NoDup l -> (forall t, In t l -> ms_trace_of st t <> None) -> (length l <= max + 1)%nat.
Proof. exact limit_capacity_any. Qed.
Print Assumptions C24_limit_capacity_any_id_partial.
Example C24_nonvacuous : exists ls calls pre post st,
  ls_run 1 [c 0 1 0 true; c 7 1 0 true] ls_init = (ls, calls) /\ calls = pre ++ post /\ ms_run pre ms_init = Some st /\
  NoDup [0; 7] /\ (forall t, In t [0; 7] -> ms_trace_of st t <> None).
Proof.
  exists (fst (ls_run 1 [c 0 1 0 true; c 7 1 0 true] ls_init)), (snd (ls_run 1 [c 0 1 0 true; c 7 1 0 true] ls_init)).
  exists (snd (ls_run 1 [c 0 1 0 true; c 7 1 0 true] ls_init)), [].
  exists (final (snd (ls_run 1 [c 0 1 0 true; c 7 1 0 true] ls_init))).
  split_and!; [apply surjective_pairing|by rewrite app_nil_r|apply final_run|repeat constructor; set_solver|].
  intros t [<-|[<-|[]]]; vm_compute; done.
Qed.
