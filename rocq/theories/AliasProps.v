(** Slices shared between recorders, collectors and stores: when they behave like values, and when they do not. *)
From Verif Require Import Base AliasModel AliasSpec AliasProofs AliasMulti.
Local Open Scope nat_scope.

(** C112.  Without a MultiStore, and with no events recorded on finished recorders, all stores hold and all RemoteCollectors are given
    exactly what they would if lists of annotations were values: in every interleaving, whatever capacities the runtime chooses. *)
Theorem C112_values_partial cfg tr s : no_multi cfg -> no_late tr -> arun cfg tr a_init = Some s ->
  exists v, vrun cfg tr v_init = Some v /\ (forall i k, contents s i k = v_has v !! SStore i k) /\ a_sent s = v_sent v.
Proof. apply alias_values. Qed.
Print Assumptions C112_values_partial.
(** What a store has of a span stays; more may follow. *)
Theorem C112_stable_partial cfg tr1 tr2 s1 s2 i k l : no_multi cfg -> no_late (tr1 ++ tr2) ->
  arun cfg tr1 a_init = Some s1 -> arun cfg tr2 s1 = Some s2 -> contents s1 i k = Some l -> exists l', contents s2 i k = Some (l ++ l').
Proof.
  intros HN Hl H1 H2 E.
  assert (no_late tr1) as Hl1.
  { clear -Hl. induction tr1 as [|x tr1 IH]; [done|]. destruct x as [r xs|r c log spare|r c xs spare|c|j id c|j id]; cbn in Hl |- *; try by apply IH.
    destruct Hl as [Ha Hb]. split; [|by apply IH]. intros xs Hin. apply (Ha xs), elem_of_app. by left. }
  destruct (alias_values cfg tr1 s1 HN Hl1 H1) as (v1 & V1 & C1 & _).
  destruct (alias_values cfg (tr1 ++ tr2) s2 HN Hl) as (v2 & V2 & C2 & _). { rewrite arun_app. by rewrite H1. }
  rewrite vrun_app, V1 in V2. rewrite C1 in E. destruct (v_grow _ _ _ _ _ _ _ V2 E) as (l' & E'). exists l'. by rewrite C2.
Qed.
Print Assumptions C112_stable_partial.

Definition a1 (k : string) : Annotation := Ann k (Some "v"%string).
Definition one_store : acfg := MkACfg go_grow (fun _ => MkSpanID 1 2 0) (fun _ => [TStore 0]) (fun _ => []).
(** Three events of three annotations, Finish, and Finish by mistake, whose error is recorded on the span. *)
Definition late_tr : list label :=
  [LEvent 0 [a1 "a"; a1 "b"; a1 "c"]; LEvent 0 [a1 "d"; a1 "e"; a1 "f"]; LEvent 0 [a1 "g"; a1 "h"; a1 "i"];
   LFinish 0 0 [] 0; LDeliver 0; LFinish 0 1 [a1 "Msg"; a1 "Time"; a1 "_schema:log"] 0; LDeliver 1].
Definition nine : list Annotation := map a1 ["a"; "b"; "c"; "d"; "e"; "f"; "g"; "h"; "i"]%string.
(** An event recorded on a finished recorder is not only lost (C81): it overwrites what the store has. *)
Theorem C112_refuted : exists s s', no_multi one_store /\ arun one_store late_tr a_init = Some s /\
  astep one_store (LEvent 0 [a1 "x"; a1 "y"; a1 "z"]) s = Some s' /\
  contents s 0 (1, 2)%N = Some (nine ++ [a1 "Msg"; a1 "Time"; a1 "_schema:log"]) /\
  contents s' 0 (1, 2)%N = Some (nine ++ [a1 "x"; a1 "y"; a1 "z"]).
Proof.
  assert (match arun one_store late_tr a_init with
    | Some s => match astep one_store (LEvent 0 [a1 "x"; a1 "y"; a1 "z"]) s with
      | Some s' => contents s 0 (1, 2)%N = Some (nine ++ [a1 "Msg"; a1 "Time"; a1 "_schema:log"]) /\ contents s' 0 (1, 2)%N = Some (nine ++ [a1 "x"; a1 "y"; a1 "z"])
      | None => False end | None => False end) as H by (vm_compute; by split).
  destruct (arun one_store late_tr a_init) as [s|] eqn:E; [|destruct H]. destruct (astep _ _ s) as [s'|] eqn:E'; [|destruct H].
  exists s, s'. destruct H as [H1 H2]. split; [split; cbn; intros; lia|]. split; [reflexivity|]. split; [exact E'|]. split; [exact H1|exact H2].
Qed.
Print Assumptions C112_refuted.
(** Recorders over a ChunkedCollector over a store. *)
Definition chunked : acfg := MkACfg go_grow (fun _ => MkSpanID 1 2 0) (fun _ => [TChunk 0]) (fun _ => [TStore 0]).
Definition chunked_tr : list label :=
  [LEvent 0 [a1 "a"; a1 "b"]; LEvent 0 [a1 "c"]; LEvent 1 [a1 "d"]; LFinish 0 0 [] 0; LDeliver 0; LFinish 1 1 [] 0; LDeliver 1;
   LTake 0 (MkSpanID 1 2 0) 2; LAnnotate 1 3 [a1 "e"] 5; LDeliver 3; LDeliver 2; LTake 0 (MkSpanID 1 2 0) 4; LDeliver 4].
Example C112_nonvacuous : no_multi chunked /\ no_late chunked_tr /\
  exists s, arun chunked chunked_tr a_init = Some s /\ contents s 0 (1, 2)%N = Some (map a1 ["a"; "b"; "c"; "d"; "e"]%string).
Proof.
  split; [split; cbn; intros; lia|]. split.
  { cbn. split_and!; try done; intros xs; rewrite ?elem_of_cons, ?elem_of_nil; naive_solver. }
  assert (match arun chunked chunked_tr a_init with Some s => contents s 0 (1, 2)%N = Some (map a1 ["a"; "b"; "c"; "d"; "e"]%string) | None => False end) as H
    by by vm_compute.
  destruct (arun chunked chunked_tr a_init) as [s|] eqn:E; [|destruct H]. exists s. split; [reflexivity|exact H].
Qed.

(** C113.  A MultiStore of MemoryStores: if its Collects happen one after the other, every store holds what was collected. *)
Theorem C113_one_by_one_partial n cfg tr s : 0 < n -> multi_store n cfg -> one_by_one n tr -> no_late tr -> arun cfg tr a_init = Some s ->
  exists v, vrun cfg tr v_init = Some v /\ forall i k, contents s i k = v_has v !! SStore i k.
Proof. intros Hn Hc. by apply multi_values. Qed.
Print Assumptions C113_one_by_one_partial.
(** With three concurrent Collects the first store may lose an annotation for good: the stores append to the same array,
    in different orders, and one copies it at the wrong moment.  (MultiStore reads from the first store.) *)
Definition two_stores : acfg := MkACfg go_grow (fun _ => MkSpanID 1 2 0) (fun _ => map TStore (seq 0 2)) (fun _ => []).
Definition race_tr : list label :=
  [LEvent 0 [a1 "a"]; LEvent 0 [a1 "b"]; LEvent 0 [a1 "c"; a1 "d"]; LEvent 0 [a1 "e"; a1 "f"]; LFinish 0 0 [] 0; LDeliver 0; LDeliver 0;
   LAnnotate 1 1 [a1 "x"] 0; LAnnotate 2 2 [a1 "y"] 0; LAnnotate 3 3 [a1 "z"] 0;
   LDeliver 1; LDeliver 2 (* x and y reach store 0 *); LDeliver 2 (* y reaches store 1 *); LDeliver 3 (* z reaches store 0 *);
   LDeliver 1; LDeliver 3 (* x and z reach store 1 *)].
Theorem C113_refuted : exists s, multi_store 2 two_stores /\ no_late race_tr /\ arun two_stores race_tr a_init = Some s /\
  a_calls s = ∅ /\ LAnnotate 1 1 [a1 "x"] 0 ∈ race_tr /\
  contents s 0 (1, 2)%N = Some (map a1 ["a"; "b"; "c"; "d"; "e"; "f"; "y"; "y"; "z"]%string) /\
  contents s 1 (1, 2)%N = Some (map a1 ["a"; "b"; "c"; "d"; "e"; "f"; "y"; "x"; "z"]%string).
Proof.
  assert (no_late race_tr) as Hl. { cbn. split; [|done]. intros xs. rewrite !elem_of_cons, elem_of_nil. naive_solver. }
  assert (LAnnotate 1 1 [a1 "x"] 0 ∈ race_tr) as Hin. { do 7 apply elem_of_list_further. apply elem_of_list_here. }
  assert (match arun two_stores race_tr a_init with
    | Some s => bool_decide (a_calls s = ∅) = true /\ contents s 0 (1, 2)%N = Some (map a1 ["a"; "b"; "c"; "d"; "e"; "f"; "y"; "y"; "z"]%string) /\
        contents s 1 (1, 2)%N = Some (map a1 ["a"; "b"; "c"; "d"; "e"; "f"; "y"; "x"; "z"]%string)
    | None => False end) as H by (vm_compute; done).
  destruct (arun two_stores race_tr a_init) as [s|] eqn:E; [|destruct H]. destruct H as (H1 & H2 & H3).
  exists s. split; [intros r; reflexivity|]. split; [exact Hl|]. split; [reflexivity|]. split; [apply bool_decide_eq_true in H1; exact H1|].
  split; [exact Hin|]. split; [exact H2|exact H3].
Qed.
Print Assumptions C113_refuted.
Definition seq_tr : list label :=
  [LEvent 0 [a1 "a"; a1 "b"]; LFinish 0 0 [] 0; LDeliver 0; LDeliver 0; LAnnotate 1 1 [a1 "x"] 3; LDeliver 1; LDeliver 1;
   LEvent 2 [a1 "c"]; LFinish 2 2 [] 0; LDeliver 2; LDeliver 2].
Example C113_nonvacuous : multi_store 2 two_stores /\ one_by_one 2 seq_tr /\ no_late seq_tr /\
  exists s, arun two_stores seq_tr a_init = Some s /\ contents s 0 (1, 2)%N = Some (map a1 ["a"; "b"; "x"; "c"]%string) /\
    contents s 1 (1, 2)%N = Some (map a1 ["a"; "b"; "x"; "c"]%string).
Proof.
  split; [done|]. split.
  { apply obo_event, (obo_finish 2 0 0), (obo_annotate 2 1 1), obo_event, (obo_finish 2 2 2), obo_nil. }
  split. { cbn. split_and!; try done; intros xs; rewrite ?elem_of_cons, ?elem_of_nil; naive_solver. }
  assert (match arun two_stores seq_tr a_init with
    | Some s => contents s 0 (1, 2)%N = Some (map a1 ["a"; "b"; "x"; "c"]%string) /\ contents s 1 (1, 2)%N = Some (map a1 ["a"; "b"; "x"; "c"]%string)
    | None => False end) as H by (vm_compute; done).
  destruct (arun two_stores seq_tr a_init) as [s|] eqn:E; [|destruct H]. exists s. split; [reflexivity|exact H].
Qed.
