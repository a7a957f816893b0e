(** Properties C19-C21, C73 (persistence). *)
From Verif Require Import Base MemModel MemSpec MemProofs MemProofs4 PersistModel PersistProofs PersistEveryModel PersistEveryProofs GobSpec GobProofs.

Definition ann (k v : string) : Annotation := Ann k (Some v).
Definition hist : list call :=
  [CCollect (MkSpanID 1 3 2) [ann "a" "1"]; CCollect (MkSpanID 2 1 0) [ann "e" ""]; CCollect (MkSpanID 1 1 0) [ann "Name" "root"];
   CCollect (MkSpanID 3 1 0) []; CDelete [3; 9]; CCollect (MkSpanID 1 2 1) []].
Lemma hist_acyclic t : acyclic (spans_of (live t hist [])).
Proof.
  exists N.to_nat. intros c p Hc _ E.
  assert (sp_parent c < sp_span c); [|lia].
  unfold hist in Hc. cbn [live sp_trace app] in Hc.
  destruct (N.eqb_spec 1 t) as [<-|]; [|destruct (N.eqb_spec 2 t) as [<-|]; [|destruct (N.eqb_spec 3 t) as [<-|]]];
    cbn [app] in Hc; try (vm_compute in Hc; intuition (subst; cbn; lia)).
  destruct (bool_decide _); by vm_compute in Hc.
Qed.

(** C19: data written from one store and read into another makes the latter show the same
    traces, node by node (an empty annotation value may come back as a nil one: [like_tree]), and
    ReadFrom returns the number of traces. *)
Theorem C19_write_read_round_trip : forall calls st calls0 st0,
  ms_run calls ms_init = Some st -> ms_run calls0 ms_init = Some st0 ->
  (forall t, acyclic (spans_of (live t calls []))) ->
  (exists d, ms_writes st d) /\
  forall d st' n, ms_writes st d -> ms_read_from d st0 = (st', n) ->
    n = size (ms_trace st) /\
    (forall t, ms_trace_of st' t = None <-> ms_trace_of st t = None) /\
    (forall t tr, shows st t tr -> exists tr', shows st' t tr' /\ like_tree tr tr') /\
    (forall t tr', shows st' t tr' -> exists tr, shows st t tr /\ like_tree tr tr').
Proof.
  intros calls st calls0 st0 Hrun Hrun0 Hac. split; [exact (write_ends calls st Hrun Hac)|]. intros d st' n Hw Hr.
  destruct (restored_same calls st calls0 st0 d st' n Hrun Hw Hrun0 Hr) as (H1 & H2 & H3). split_and!; [done|done|..].
  - intros t tr Hs. exists (gob_tree tr). split; [apply H3; by exists tr|apply gob_like].
  - intros t tr' Hs. apply H3 in Hs as (tr & Hs & ->). exists tr. split; [done|apply gob_like].
Qed.
Print Assumptions C19_write_read_round_trip.
Example C19_nonvacuous : exists st d, ms_run hist ms_init = Some st /\ (forall t, acyclic (spans_of (live t hist []))) /\
  ms_writes st d /\ forall st', fst (ms_read_from d ms_init) = st' ->
  shows st' 1 (Tree (MkSpanID 1 1 0) [ann "Name" "root"] [Tree (MkSpanID 1 2 1) [] [Tree (MkSpanID 1 3 2) [ann "a" "1"] []]]) /\
  shows st' 2 (Tree (MkSpanID 2 1 0) [Ann "e" None] []).
Proof.
  exists (final hist). destruct (write_ends hist (final hist) (final_run _) hist_acyclic) as [d Hd]. exists d.
  split_and!; [apply final_run|exact hist_acyclic|done|]. intros st' Hst'.
  destruct (ms_read_from d ms_init) as [st1 n] eqn:E. cbn in Hst'. subst st'.
  destruct (restored_same hist _ [] ms_init d st1 n (final_run _) Hd eq_refl E) as (_ & _ & H). split; apply H.
  - exists (Tree (MkSpanID 1 1 0) [ann "Name" "root"] [Tree (MkSpanID 1 2 1) [] [Tree (MkSpanID 1 3 2) [ann "a" "1"] []]]).
    split; [apply (shown_by 9); vm_compute; reflexivity|reflexivity].
  - exists (Tree (MkSpanID 2 1 0) [ann "e" ""] []). split; [apply (shown_by 9); vm_compute; reflexivity|reflexivity].
Qed.

(** C20 is false: a Collect into a restored trace is not visible. *)
Theorem C20_collect_after_restore_refuted : exists calls st d st1 n c st2 st2' tr tr',
  ms_run calls ms_init = Some st /\ ms_writes st d /\ ms_read_from d ms_init = (st1, n) /\
  ms_step c st = Some st2 /\ ms_step c st1 = Some st2' /\
  shows st2 1 tr /\ shows st2' 1 tr' /\
  In (MkSpanID 1 2 1) (map tr_id (nodes tr)) /\ ~ In (MkSpanID 1 2 1) (map tr_id (nodes tr')).
Proof. exact collect_restored_refuted. Qed.
Print Assumptions C20_collect_after_restore_refuted.

(** C20, what holds: no later Collect or Delete panics, and every trace that was not restored,
    or has been deleted since, is shown as C10-C15 say.  Missing: later Collects into
    restored traces. *)
Theorem C20_collect_after_restore_partial : forall calls st calls0 st0 d st1 n ops,
  ms_run calls ms_init = Some st -> ms_writes st d ->
  ms_run calls0 ms_init = Some st0 -> ms_read_from d st0 = (st1, n) ->
  exists st2, ms_run ops st1 = Some st2 /\
  forall t, (ms_trace_of st t = None \/ exists c, In c ops /\ deletes c t) ->
    (live t ops [] = [] -> ms_trace_of st2 t = None) /\
    (live t ops [] <> [] -> exists tr, shows st2 t tr /\ displays (live t ops []) tr /\
      (forall i, In i (map tr_id (nodes tr)) <-> anchored (spans_of (live t ops [])) (tr_id tr) i)).
Proof. exact restored_other_traces. Qed.
Print Assumptions C20_collect_after_restore_partial.
Example C20_nonvacuous : exists st d st1 n, ms_run hist ms_init = Some st /\ ms_writes st d /\ ms_read_from d ms_init = (st1, n) /\
  ms_trace_of st 7 = None /\ deletes (CDelete [1]) 1 /\
  live 7 [CDelete [1]; CCollect (MkSpanID 7 1 0) []] [] <> [].
Proof.
  exists (final hist). destruct (write_ends hist (final hist) (final_run _) hist_acyclic) as [d Hd]. exists d.
  destruct (ms_read_from d ms_init) as [st1 n]. exists st1, n.
  split_and!; [apply final_run|done|done|vm_compute; reflexivity|by left|done].
Qed.

(** C73 is false: Write does not end on a store holding a parent cycle. *)
Theorem C73_write_always_ends_refuted : exists calls st, ms_run calls ms_init = Some st /\ ~ exists d, ms_writes st d.
Proof. exact write_refuted. Qed.
Print Assumptions C73_write_always_ends_refuted.

(** C73, what holds: Write ends when no trace holds a parent cycle. *)
Theorem C73_write_always_ends_partial : forall calls st, ms_run calls ms_init = Some st ->
  (forall t, acyclic (spans_of (live t calls []))) -> exists d, ms_writes st d.
Proof. exact write_ends. Qed.
Print Assumptions C73_write_always_ends_partial.
Example C73_nonvacuous : exists st, ms_run hist ms_init = Some st /\ forall t, acyclic (spans_of (live t hist [])).
Proof. exists (final hist). split; [apply final_run|exact hist_acyclic]. Qed.

(** C21: at every crash point the file is untouched, or holds the complete encoding of the
    store at one earlier moment k; and k never goes back. *)
Theorem C21_persist_crash_atomic : forall A file tmpname (snap : nat -> A) enc fs0 st,
  ~ tmpname file -> rtc (pe_step file tmpname snap enc) (pe_init fs0) st ->
  match pe_last st with
  | None => pe_fs st !! file = fs0 !! file
  | Some k => (k <= pe_now st)%nat /\ pe_fs st !! file = Some (enc (snap k))
  end.
Proof. exact (fun A file tmpname snap enc fs0 st Hn H => persist_atomic file tmpname snap enc Hn fs0 st H). Qed.
Print Assumptions C21_persist_crash_atomic.
Theorem C21_persist_never_goes_back : forall A file tmpname (snap : nat -> A) enc fs0 st st' k,
  ~ tmpname file -> rtc (pe_step file tmpname snap enc) (pe_init fs0) st ->
  rtc (pe_step file tmpname snap enc) st st' -> pe_last st = Some k ->
  exists k', pe_last st' = Some k' /\ (k <= k')%nat.
Proof. exact (fun A file tmpname snap enc fs0 st st' k Hn => persist_monotone file tmpname snap enc Hn fs0 st st' k). Qed.
Print Assumptions C21_persist_never_goes_back.
Example C21_nonvacuous : exists st,
  rtc (pe_step "f" (fun t => t = "t") (fun k => k) (fun k => match k with O => "ab" | _ => "cd" end)%string) (pe_init {["f" := "old"]}) st /\
  ~ "f" = "t" /\ pe_last st = Some 1%nat /\ pe_now st = 3%nat /\ pe_pc st = PWrite "t" 3 "d".
Proof.
  eexists. split.
  { eapply rtc_l; [apply PE_store; reflexivity|]. eapply rtc_l; [apply (PE_temp _ _ _ _ _ _ _ _ "t"); [done|vm_compute; reflexivity]|].
    eapply rtc_l; [apply PE_write_begin|]. eapply rtc_l; [apply (PE_write_some _ _ _ _ _ _ _ _ _ _ "" "c" "d"); vm_compute; reflexivity|].
    eapply rtc_l; [apply (PE_write_some _ _ _ _ _ _ _ _ _ _ "c" "d" ""); vm_compute; reflexivity|].
    eapply rtc_l; [apply PE_write_done|]. eapply rtc_l; [apply PE_store; reflexivity|].
    eapply rtc_l; [apply PE_close|]. eapply rtc_l; [apply (PE_rename _ _ _ _ _ _ _ _ _ "cd"); vm_compute; reflexivity|].
    eapply rtc_l; [apply PE_store; reflexivity|]. eapply rtc_l; [apply (PE_temp _ _ _ _ _ _ _ _ "t"); [done|vm_compute; reflexivity]|].
    eapply rtc_l; [apply PE_write_begin|]. eapply rtc_l; [apply (PE_write_some _ _ _ _ _ _ _ _ _ _ "" "c" "d"); vm_compute; reflexivity|].
    apply rtc_refl. }
  cbn. done.
Qed.
