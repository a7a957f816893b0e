(** Property C72 (span IDs made through the API and the store together). *)
From Verif Require Import Base IdModel MemModel MemSpec MemProofs4 LinkProofs.

(** C72: if the generated IDs are distinct and non-zero, then whatever program of
    NewRootSpanID / NewSpanID calls made the span IDs, and whichever of them were collected in
    whatever order, each trace shows every collected span exactly once, under its parent. *)
Theorem C72_api_spans_all_shown : forall gen : nat -> N,
  (forall i j, gen i = gen j -> i = j) -> (forall i, gen i <> 0) ->
  forall ops calls st t,
  ms_run calls ms_init = Some st ->
  (forall id a, In (CCollect id a) calls -> In id (mk_run gen ops)) ->
  live t calls [] <> [] ->
  exists tr, shows st t tr /\ displays (live t calls []) tr /\
    Permutation (map tr_id (nodes tr)) (spans_of (live t calls [])).
Proof. exact api_spans_all_shown. Qed.
Print Assumptions C72_api_spans_all_shown.
Example C72_nonvacuous :
  let gen := fun k => N.of_nat k + 1 in
  let calls := [CCollect (MkSpanID 1 3 2) []; CCollect (MkSpanID 1 4 3) []; CCollect (MkSpanID 1 2 0) []] in
  (forall i j, gen i = gen j -> i = j) /\ (forall i, gen i <> 0) /\
  mk_run gen [None; Some 0%nat; Some 1%nat] = [MkSpanID 1 2 0; MkSpanID 1 3 2; MkSpanID 1 4 3] /\
  (forall id a, In (CCollect id a) calls -> In id (mk_run gen [None; Some 0%nat; Some 1%nat])) /\
  live 1 calls [] <> [].
Proof.
  cbv zeta. split_and!; [intros; lia|intros; lia|reflexivity| |by vm_compute].
  intros id a Hin. vm_compute in Hin. vm_compute. intuition congruence.
Qed.
