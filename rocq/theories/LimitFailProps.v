(** Property C145: a Collect that a LimitStore refuses. *)
From Verif Require Import Base MemModel MemSpec MemProofs MemProofs2 MemProofs3 MemProofs4 LimitModel LimitSpec.

(** A refused Collect makes no call that takes effect, and there is one trace such that all later calls are treated as if it had not been made, as long as nothing is
    collected for that trace. *)
Theorem C145_partial : forall max ops0 ls calls0 id anns ls' calls, ls_run max ops0 ls_init = (ls, calls0) -> ls_collect max false id anns ls = (ls', calls, true) ->
  calls = [] /\ exists old, forall ops, (forall i a ok, In (LCollect i a ok) ops -> sp_trace i <> old) -> snd (ls_run max ops ls') = snd (ls_run max ops ls).
Proof.
  intros max ops0 ls calls0 id anns ls' calls _ H. unfold ls_collect in H. destruct (max =? 0)%nat eqn:Em; [discriminate|].
  destruct (ls_ring ls) as [ring|] eqn:Er.
  2: { cbn in H. rewrite bool_decide_eq_false_2 in H by set_solver. assert (nth (ls_next ls) (repeat 0 max) 0 = 0) as E0.
       { clear. generalize (ls_next ls). induction max as [|m IH]; intros [|n]; cbn; auto. }
       rewrite E0 in H. cbn in H. discriminate. }
  rewrite Er in H. change (default [] (Some ring)) with ring in H. cbv zeta in H. destruct (bool_decide _) eqn:Ei; [discriminate|]. set (old := nth (ls_next ls) ring 0) in H.
  destruct (old =? 0) eqn:E0; cbn [negb andb] in H; [discriminate|]. injection H as <- <-. split; [done|]. exists old.
  assert (forall ops a b, (forall i an ok, In (LCollect i an ok) ops -> sp_trace i <> old) -> is_Some (ls_ring a) -> ls_ring a = ls_ring b -> ls_next a = ls_next b -> ls_traces a ∖ {[old]} = ls_traces b ∖ {[old]} ->
    snd (ls_run max ops a) = snd (ls_run max ops b)) as Hgen.
  2: { intros ops Hops. apply Hgen; cbn [ls_ring ls_next ls_traces]; [done|eauto|done|done|set_solver]. }
  induction ops as [|op ops IH]; intros a b Hops [r Hr] E1 E2 E3; [done|]. cbn [ls_run].
  destruct op as [i an ok|ts].
  - assert (sp_trace i <> old) as Hi by (apply (Hops i an ok); by left).
    assert (bool_decide (sp_trace i ∈ ls_traces a) = bool_decide (sp_trace i ∈ ls_traces b)) as Eb.
    { apply bool_decide_ext. assert (sp_trace i ∈ ls_traces a ∖ {[old]} <-> sp_trace i ∈ ls_traces b ∖ {[old]}) as Hx by (by rewrite E3). set_solver. }
    cbn [ls_step]. unfold ls_collect. rewrite Em, <- E1, Hr, <- E1, Hr, Eb, <- E2. change (default [] (Some r)) with r. cbv zeta.
    destruct (bool_decide (sp_trace i ∈ ls_traces b)) eqn:Ex.
    + cbn [fst]. assert (snd (ls_run max ops a) = snd (ls_run max ops b)) as Hn by (apply IH; [intros; eapply Hops; by right|rewrite Hr; eauto|done|done|done]).
      destruct (ls_run max ops a), (ls_run max ops b). cbn in *. by rewrite Hn.
    + destruct (negb (nth (ls_next a) r 0 =? 0) && negb ok) eqn:Ed; cbn [fst].
      * set (a' := MkLS (Some r) (ls_traces a ∖ _) _). set (b' := MkLS (Some r) (ls_traces b ∖ _) _).
        assert (snd (ls_run max ops a') = snd (ls_run max ops b')) as Hn by (apply IH; [intros; eapply Hops; by right|cbn; eauto|done|done|cbn [ls_traces a' b']; set_solver]).
        destruct (ls_run max ops a'), (ls_run max ops b'). cbn in *. by rewrite Hn.
      * set (a' := MkLS _ (_ ∪ (if negb (nth (ls_next a) r 0 =? 0) then ls_traces a ∖ _ else ls_traces a)) _). set (b' := MkLS _ (_ ∪ (if negb (nth (ls_next a) r 0 =? 0) then ls_traces b ∖ _ else ls_traces b)) _).
        assert (snd (ls_run max ops a') = snd (ls_run max ops b')) as Hn.
        { apply IH; [intros; eapply Hops; by right|cbn; eauto|done|done|cbn [ls_traces a' b']; destruct (negb (nth (ls_next a) r 0 =? 0)); set_solver]. }
        destruct (ls_run max ops a'), (ls_run max ops b'). cbn in *. by rewrite Hn.
  - cbn [ls_step]. assert (snd (ls_run max ops a) = snd (ls_run max ops b)) as Hn by (apply IH; [intros; eapply Hops; by right|rewrite Hr; eauto|done|done|done]).
    destruct (ls_run max ops a), (ls_run max ops b). cbn in *. by rewrite Hn.
Qed.
Print Assumptions C145_partial.

(** The property is false: what the oldest trace had is lost with the next Collect for it, which would have been added to it if the refused Collect had not been made. *)
Definition filled : list lop := [LCollect (MkSpanID 1 1 0) [Ann "a" (Some "1")] true; LCollect (MkSpanID 2 2 0) [] true].
Definition refused : lop := LCollect (MkSpanID 3 3 0) [] false.
Definition after_it : list lop := [LCollect (MkSpanID 1 4 1) [Ann "b" (Some "2")] true].
Theorem C145_refuted : exists id anns ls calls0 ls' with_ without_ st st',
  ls_run 2 filled ls_init = (ls, calls0) /\ ls_collect 2 false id anns ls = (ls', [], true) /\
  snd (ls_run 2 after_it ls') = with_ /\ snd (ls_run 2 after_it ls) = without_ /\
  ms_run (calls0 ++ with_) ms_init = Some st /\ shows st 1 (Tree (MkSpanID 1 4 1) [Ann "b" (Some "2")] []) /\
  ms_run (calls0 ++ without_) ms_init = Some st' /\ shows st' 1 (Tree (MkSpanID 1 1 0) [Ann "a" (Some "1")] [Tree (MkSpanID 1 4 1) [Ann "b" (Some "2")] []]).
Proof.
  set (x := ls_run 2 filled ls_init). exists (MkSpanID 3 3 0), [], (fst x), (snd x), (fst (fst (ls_collect 2 false (MkSpanID 3 3 0) [] (fst x)))).
  set (y := fst (fst _)). exists (snd (ls_run 2 after_it y)), (snd (ls_run 2 after_it (fst x))), (final (snd x ++ snd (ls_run 2 after_it y))), (final (snd x ++ snd (ls_run 2 after_it (fst x)))).
  split; [by destruct x|]. split; [subst y x; vm_compute; reflexivity|]. split; [done|]. split; [done|]. split; [apply final_run|].
  split; [apply (shown_by 9); subst y x; vm_compute; reflexivity|]. split; [apply final_run|]. apply (shown_by 9). subst y x. vm_compute. reflexivity.
Qed.
Print Assumptions C145_refuted.
Example C145_nonvacuous : exists ls calls0 ls', ls_run 2 filled ls_init = (ls, calls0) /\ ls_collect 2 false (MkSpanID 3 3 0) [] ls = (ls', [], true) /\
  snd (ls_run 2 [LCollect (MkSpanID 2 5 2) [] true; LCollect (MkSpanID 4 4 0) [] true; LCollect (MkSpanID 5 5 0) [] true] ls') =
    [CCollect (MkSpanID 2 5 2) []; CDelete [1]; CCollect (MkSpanID 4 4 0) []; CDelete [2]; CCollect (MkSpanID 5 5 0) []].
Proof.
  exists (fst (ls_run 2 filled ls_init)), (snd (ls_run 2 filled ls_init)), (fst (fst (ls_collect 2 false (MkSpanID 3 3 0) [] (fst (ls_run 2 filled ls_init))))).
  split; [by destruct (ls_run 2 filled ls_init)|]. split; vm_compute; reflexivity.
Qed.
