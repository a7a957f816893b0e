(** C121, C122: a Recorder used by several goroutines. *)
From Verif Require Import Base RecorderModel RecConcModel RecConcSpec.

(** ** Errors (C121) *)
Definition errs_pc (p : pc) : list (string * string) := match p with PReport m e | PTell m e => [(m, e)] | _ => [] end.
Definition pending (calls : gmap nat pc) : list (string * string) := flat_map (fun ip : nat * pc => errs_pc ip.2) (map_to_list calls).

Lemma pending_insert calls i p : calls !! i = None -> pending (<[i := p]> calls) ≡ₚ errs_pc p ++ pending calls.
Proof. intros H. unfold pending. rewrite (map_to_list_insert calls i p H). reflexivity. Qed.
Lemma pending_delete calls i p : calls !! i = Some p -> pending calls ≡ₚ errs_pc p ++ pending (delete i calls).
Proof. intros H. rewrite <- (pending_insert (delete i calls) i p (lookup_delete _ _)). by rewrite insert_delete. Qed.
Lemma pending_update calls i p q :
  calls !! i = Some p -> pending (<[i := q]> calls) ≡ₚ errs_pc q ++ pending (delete i calls).
Proof. intros H. rewrite <- (insert_delete_insert calls i q). apply pending_insert, lookup_delete. Qed.
Lemma pending_silent calls i p q : calls !! i = Some p -> errs_pc p = errs_pc q -> pending (<[i := q]> calls) ≡ₚ pending calls.
Proof. intros H E. by rewrite (pending_update _ _ _ q H), <- E, <- (pending_delete _ _ _ H). Qed.
Lemma pending_gone calls i p : calls !! i = Some p -> errs_pc p = [] -> pending (delete i calls) ≡ₚ pending calls.
Proof. intros H E. by rewrite (pending_delete _ _ _ H), E. Qed.

Lemma errors_app l k : errors_of (l ++ k) = errors_of l ++ errors_of k.
Proof. apply flat_map_app. Qed.
Lemma returned_app l k : returned (l ++ k) = returned l ++ returned k.
Proof. apply flat_map_app. Qed.
Lemma lines_app l k : lines (l ++ k) = lines l ++ lines k.
Proof. apply flat_map_app. Qed.

Definition line_of (me : string * string) : string := log_msg me.1 me.2.

(** Without a logger: every error that occurred is returned, kept, or on its way to the list. *)
Lemma kept log st :
  rc_run false log st -> (errors_of log).*2 ≡ₚ returned log ++ rc_errors st ++ (pending (rc_calls st)).*2.
Proof.
  induction 1 as [|log st evs st' _ IH Hs]; [reflexivity|].
  rewrite errors_app, returned_app, fmap_app, IH. clear IH.
  destruct Hs; unfold at_pc, done_ in *; simpl; try discriminate; rewrite ?app_nil_r.
  - by rewrite (pending_insert _ _ _ H).
  - rewrite (pending_update _ _ _ _ H), (pending_delete _ _ _ H). simpl. solve_Permutation.
  - by rewrite (pending_silent _ _ _ _ H).
  - by rewrite (pending_gone _ _ _ H).
  - rewrite (pending_update _ _ _ _ H), (pending_delete _ _ _ H). simpl. solve_Permutation.
  - by rewrite (pending_silent _ _ _ _ H).
  - by rewrite (pending_silent _ _ _ _ H).
  - by rewrite (pending_silent _ _ _ _ H).
  - by rewrite (pending_silent _ _ _ _ H).
  - by rewrite (pending_gone _ _ _ H).
  - rewrite (pending_update _ _ _ _ H), (pending_delete _ _ _ H). simpl. solve_Permutation.
  - by rewrite (pending_silent _ _ _ _ H).
  - rewrite (pending_delete _ _ _ H). simpl. solve_Permutation.
  - rewrite (pending_gone _ _ _ H); [|done]. solve_Permutation.
Qed.
(** With one: its line is written or on its way; Errors has nothing. *)
Lemma logged log st :
  rc_run true log st -> line_of <$> errors_of log ≡ₚ lines log ++ (line_of <$> pending (rc_calls st)) /\ returned log = [] /\ rc_errors st = [].
Proof.
  induction 1 as [|log st evs st' _ [IH [IR IE]] Hs]; [done|].
  rewrite errors_app, returned_app, lines_app, fmap_app, IH, IR. clear IH.
  destruct Hs; unfold at_pc, done_ in *; simpl; try discriminate; rewrite ?app_nil_r; (split; [|by rewrite ?IE]).
  - by rewrite (pending_insert _ _ _ H).
  - rewrite (pending_update _ _ _ _ H), (pending_delete _ _ _ H). simpl. solve_Permutation.
  - by rewrite (pending_silent _ _ _ _ H).
  - by rewrite (pending_gone _ _ _ H).
  - rewrite (pending_update _ _ _ _ H), (pending_delete _ _ _ H). simpl. solve_Permutation.
  - by rewrite (pending_silent _ _ _ _ H).
  - by rewrite (pending_silent _ _ _ _ H).
  - by rewrite (pending_silent _ _ _ _ H).
  - by rewrite (pending_silent _ _ _ _ H).
  - by rewrite (pending_gone _ _ _ H).
  - rewrite (pending_update _ _ _ _ H), (pending_delete _ _ _ H). simpl. solve_Permutation.
  - by rewrite (pending_silent _ _ _ _ H).
  - rewrite (pending_delete _ _ _ H). simpl. solve_Permutation.
  - by rewrite (pending_gone _ _ _ H).
Qed.

Lemma running_app l k : running (l ++ k) = fold_left running_step k (running l).
Proof. apply fold_left_app. Qed.
Lemma running_calls logger log st : rc_run logger log st -> running log = dom (rc_calls st).
Proof.
  induction 1 as [|log st evs st' _ IH Hs]; [symmetry; apply dom_empty_L|].
  rewrite running_app, IH. clear IH.
  assert (forall i p, rc_calls st !! i = Some p -> i ∈ dom (rc_calls st)) as Hin by (intros i p E; by eapply elem_of_dom_2).
  destruct Hs; unfold at_pc, done_; simpl; rewrite ?dom_insert_L, ?dom_delete_L; try set_solver;
    apply Hin in H; set_solver.
Qed.

Lemma nobody logger log st : rc_run logger log st -> running log = ∅ -> rc_calls st = ∅.
Proof. intros R E. rewrite (running_calls _ _ _ R) in E. by apply dom_empty_inv_L. Qed.

Lemma ends_not logger log st : rc_run logger log st -> forall i errs, last log <> Some (EvErrors i errs).
Proof.
  induction 1 as [|log st evs st' _ IH Hs]; intros j errs; [done|].
  destruct Hs; simpl; rewrite ?app_nil_r; try apply IH; rewrite ?last_snoc; try done;
    match goal with |- context [log ++ [?a; ?b]] => replace (log ++ [a; b]) with ((log ++ [a]) ++ [b]) by (by rewrite <- app_assoc) end; by rewrite last_snoc.
Qed.

(** C121: whatever calls overlap, Errors returns no error twice and none that did not occur; and when Errors has returned while no other
    call was running, every error that occurred so far has been returned exactly once. *)
Theorem C121_once : forall log st,
  rc_run false log st ->
  returned log ⊆+ (errors_of log).*2 /\
  forall log' i errs, log = log' ++ [EvErrors i errs; EvReturn i] -> running log = ∅ -> returned log ≡ₚ (errors_of log).*2.
Proof.
  intros log st R. pose proof (kept _ _ R) as K. split.
  - rewrite K. apply submseteq_inserts_r. reflexivity.
  - intros log' i errs E Hr. pose proof (nobody _ _ _ R Hr) as N. rewrite K, N. unfold pending. rewrite map_to_list_empty. simpl. rewrite app_nil_r.
    enough (rc_errors st = []) as -> by (by rewrite app_nil_r).
    inversion R as [E0|l0 st0 evs st1 R0 Hs E1]; subst; [by destruct log'|].
    replace (log' ++ [EvErrors i errs; EvReturn i]) with ((log' ++ [EvErrors i errs]) ++ [EvReturn i]) in E1 by (by rewrite <- app_assoc).
    assert (forall e, l0 ++ [e] <> (log' ++ [EvErrors i errs]) ++ [EvReturn i]) as H1.
    { intros e F. apply app_inj_tail in F as [F _]. apply (ends_not _ _ _ R0 i errs). by rewrite F, last_snoc. }
    assert (forall d e, l0 ++ [d; e] = (log' ++ [EvErrors i errs]) ++ [EvReturn i] -> d = EvErrors i errs) as H2.
    { intros d e F. replace (l0 ++ [d; e]) with ((l0 ++ [d]) ++ [e]) in F by (by rewrite <- app_assoc).
      apply app_inj_tail in F as [F _]. by apply app_inj_tail in F as [_ F]. }
    destruct Hs; unfold at_pc, done_ in *; simpl in *; try done; try (by destruct (H1 _ E1)); try (by apply H2 in E1);
      by apply insert_non_empty in N.
Qed.
Print Assumptions C121_once.

(** With a logger: Errors never returns anything, every line is that of an error that occurred, and when no call is running every error has
    its line, once. *)
Theorem C121_logged : forall log st,
  rc_run true log st ->
  returned log = [] /\
  lines log ⊆+ ((fun me => "Recorder." +:+ me.1 +:+ " error: " +:+ me.2)%string <$> errors_of log) /\
  (running log = ∅ -> lines log ≡ₚ ((fun me => "Recorder." +:+ me.1 +:+ " error: " +:+ me.2)%string <$> errors_of log)).
Proof.
  intros log st R. destruct (logged _ _ R) as (K & HR & _). split; [done|].
  change (fun me : string * string => ("Recorder." +:+ me.1 +:+ " error: " +:+ me.2)%string) with line_of. split.
  - rewrite K. by apply submseteq_inserts_r.
  - intros Hr. rewrite K, (nobody _ _ _ R Hr). unfold pending. rewrite map_to_list_empty. simpl. by rewrite app_nil_r.
Qed.
Print Assumptions C121_logged.

(** Two calls of Annotation fail while Errors runs twice. *)
Definition anns1 : list Annotation := [Ann "k" (Some "v")].
Definition log121 : list event :=
  [EvCall 1 (OAnnotation anns1); EvCall 2 (OAnnotation anns1); EvCollect 2 KAnnotation anns1 (Some "refused");
   EvError 2 "Annotation" "refused"; EvCollect 1 KAnnotation anns1 (Some "down"); EvError 1 "Annotation" "down";
   EvCollect 1 KReport [] None; EvReturn 1; EvCall 3 OErrors; EvErrors 3 ["down"]; EvReturn 3;
   EvCollect 2 KReport [] (Some "down"); EvReturn 2; EvCall 3 OErrors; EvErrors 3 ["refused"]; EvReturn 3].
Tactic Notation "nxt" uconstr(c) := match goal with R : rc_run _ _ _ |- _ => eapply rc_more in R; [|(eapply c || refine c); reflexivity]; cbn [app] in R end.
Example C121_nonvacuous : exists st, rc_run false log121 st /\ running log121 = ∅ /\ returned log121 = ["down"; "refused"].
Proof.
  eexists. split; [|split; [unfold running; simpl; set_solver|done]].
  assert (rc_run false [] rc_new) as R by constructor.
  nxt (rs_call _ _ 1%nat (OAnnotation anns1)).
  nxt (rs_call _ _ 2%nat (OAnnotation anns1)).
  nxt (rs_annotation _ _ 2%nat anns1).
  nxt (rs_annotation _ _ 1%nat anns1).
  nxt (rs_refused _ _ 2%nat _ _ "refused").
  nxt (rs_refused _ _ 1%nat _ _ "down").
  nxt (rs_report _ _ 1%nat _ _ [] None).
  nxt (rs_keep _ _ 1%nat _ _).
  nxt (rs_call _ _ 3%nat OErrors).
  nxt (rs_errors _ _ 3%nat).
  nxt (rs_report _ _ 2%nat _ _ [] (Some "down")).
  nxt (rs_keep _ _ 2%nat _ _).
  nxt (rs_call _ _ 3%nat OErrors).
  nxt (rs_errors _ _ 3%nat).
  exact R.
Qed.

(** ** Events (C122) *)
Lemma recorded_app l k : recorded (l ++ k) = recorded l ++ recorded k.
Proof. apply flat_map_app. Qed.
Lemma delivered_app l k : delivered (l ++ k) = delivered l ++ delivered k.
Proof. apply flat_map_app. Qed.
Lemma at_finish_app b l k :
  at_finish b (l ++ k) = match at_finish b l with Some a => Some a | None => at_finish (b ++ recorded l) k end.
Proof.
  revert b. induction l as [|e l IH]; intros b; simpl; [by rewrite app_nil_r|].
  destruct e as [i [[anns|err]|anns| |]|i|i k0 anns ans|i m err|i errs|i line]; simpl; rewrite ?IH, <- ?app_assoc; done.
Qed.
(** The recording call that is running. *)
Fixpoint current (cur : option nat) (log : list event) : option nat :=
  match log with
  | [] => cur
  | EvCall i o :: log => current (if records o then Some i else cur) log
  | EvReturn i :: log => current (if decide (cur = Some i) then None else cur) log
  | _ :: log => current cur log
  end.
Lemma exclusive_app cur l k : exclusive cur (l ++ k) <-> exclusive cur l /\ exclusive (current cur l) k.
Proof.
  revert cur. induction l as [|e l IH]; intros cur; simpl; [tauto|].
  destruct e as [i o|i|i k0 anns ans|i m err|i errs|i line]; try apply IH. destruct (records o); rewrite IH; tauto.
Qed.
Lemma current_app cur l k : current cur (l ++ k) = current (current cur l) k.
Proof. revert cur. induction l as [|e l IH]; intros cur; [done|]. destruct e as [i o|i|i k0 anns ans|i m err|i errs|i line]; simpl; apply IH. Qed.

(** The steps at which a call is going to use what the Recorder has recorded. *)
Definition touches (p : pc) : bool :=
  match p with PStart o => records o | PAppend _ _ | PFinish | PFinished | PSend KFinish _ => true | _ => false end.
(** What the running call is going to record. *)
Definition coming (p : option pc) : list Annotation :=
  match p with Some (PStart (OEvent (inl anns))) | Some (PAppend _ anns) => anns | _ => [] end.
Definition cur_pc (cur : option nat) (st : RC) : option pc := i ← cur; rc_calls st !! i.

Definition finish_inv (a : option (list Annotation)) (fin : bool) (anns : list Annotation) (p : option pc) (dl : list (list Annotation)) : Prop :=
  match p with
  | Some (PStart OFinish) => (fin = false /\ a = Some anns /\ dl = []) \/ (fin = true /\ exists x, a = Some x /\ dl = [x])
  | Some PFinish => fin = false /\ a = Some anns /\ dl = []
  | Some PFinished => fin = true /\ a = Some anns /\ dl = []
  | Some (PSend KFinish x) => fin = true /\ a = Some x /\ dl = []
  | _ => (fin = false /\ a = None /\ dl = []) \/ (fin = true /\ exists x, a = Some x /\ dl = [x])
  end.
Definition inv (log : list event) (st : RC) : Prop :=
  (forall i, current None log = Some i -> is_Some (rc_calls st !! i)) /\
  (forall i p, rc_calls st !! i = Some p -> touches p = true -> current None log = Some i) /\
  rc_anns st ++ coming (cur_pc (current None log) st) = recorded log /\
  (forall seen anns, cur_pc (current None log) st = Some (PAppend seen anns) -> seen = rc_anns st) /\
  finish_inv (at_finish [] log) (rc_finished st) (rc_anns st) (cur_pc (current None log) st) (delivered log).

Lemma at_finish_more l k :
  at_finish [] (l ++ k) = match at_finish [] l with Some a => Some a | None => at_finish (recorded l) k end.
Proof. apply at_finish_app. Qed.

Ltac fin := unfold finish_inv in *; simpl in *; rewrite ?app_nil_r in *;
  repeat match goal with H : context [rc_calls _] |- _ => clear H end;
  repeat match goal with H : rc_finished _ = _ |- _ => rewrite H in *; clear H end;
  repeat match goal with |- context [at_finish [] ?l] => generalize dependent (at_finish [] l); intros [?|] end; naive_solver.
(** A step of the call that is recording, and one of another. *)
Ltac mine_by H tac :=
  match goal with HT : forall i p, rc_calls _ !! i = Some p -> _, HE : forall j, _ -> is_Some _ |- _ =>
    let E := fresh "E" in pose proof (HT _ _ H eq_refl) as E; subst; simpl in *; rewrite H in *; rewrite ?decide_True by done;
    simpl; rewrite ?lookup_insert; simpl;
    split; [|split; [|split; [|split]]];
    [ intros ? E'; try discriminate E'; injection E' as <-; rewrite lookup_insert; by eexists
    | intros ? ? E' T; (apply lookup_insert_Some in E' as [[? <-]|[? E']] || apply lookup_delete_Some in E' as [? E']);
      [..|exfalso; pose proof (HT _ _ E' T); congruence]; try congruence; try discriminate T
    | try (by rewrite ?app_nil_r) | try (intros ? ?; intros [= <- <-]; done); try done | tac ]
  end.
Ltac mine H := mine_by H ltac:(try fin).
Ltac other H HT HE c st i :=
    destruct (decide (c = Some i)) as [->|Nc];
    [ simpl in *; rewrite H in *; rewrite ?(decide_True (P := Some i = Some i)) by reflexivity; simpl; rewrite ?lookup_insert; simpl;
      split; [|split; [|split; [|split]]];
      [ intros ? E'; try discriminate E'; injection E' as <-; rewrite lookup_insert; by eexists
      | intros ? ? E' T; (apply lookup_insert_Some in E' as [[? <-]|[? E']] || apply lookup_delete_Some in E' as [? E']);
        try discriminate T; exfalso; pose proof (HT _ _ E' T); congruence
      | by rewrite ?app_nil_r | done | fin ]
    | rewrite ?decide_False by done;
      let Hc := fresh "Hc" in
      assert (forall q, (j ← c; <[i := q]> (rc_calls st) !! j) = (j ← c; rc_calls st !! j)) as Hc by
        (intros q; destruct c as [j|]; [simpl; apply lookup_insert_ne; congruence|done]);
      let Hd := fresh "Hd" in
      assert ((j ← c; delete i (rc_calls st) !! j) = (j ← c; rc_calls st !! j)) as Hd by
        (destruct c as [j|]; [simpl; apply lookup_delete_ne; congruence|done]);
      rewrite ?Hc, ?Hd; rewrite ?app_nil_r; split; [|split; [|split; [|split]]];
      [ intros ? E'; rewrite ?lookup_insert_ne, ?lookup_delete_ne by congruence; by apply HE
      | intros ? ? E' T; (apply lookup_insert_Some in E' as [[? <-]|[? E']] || apply lookup_delete_Some in E' as [? E']);
        try discriminate T; by apply (HT _ _ E' T)
      | done | done | by destruct (at_finish [] _) ] ].
Lemma inv_step logger log st evs st' : inv log st -> exclusive None (log ++ evs) -> rc_step logger st evs st' -> inv (log ++ evs) st'.
Proof.
  intros (HE & HT & HA & HS & HF) X Hs. apply exclusive_app in X as [_ X].
  unfold inv. rewrite recorded_app, delivered_app, current_app, at_finish_more.
  remember (current None log) as c eqn:Ec. clear Ec. rewrite <- HA. clear HA.
  destruct Hs; unfold at_pc, done_, cur_pc in *; simpl in *.
  - (* call *)
    destruct (records o) eqn:Ro.
    + destruct X as [-> _]. simpl in *. rewrite !lookup_insert. simpl.
      split_and!.
      * intros j [= <-]. rewrite lookup_insert. by eexists.
      * intros j p. rewrite lookup_insert_Some. intros [[-> <-]|[N E]] T; [done|]. exfalso. by discriminate (HT j p E T).
      * destruct o as [[a|e]|a| |]; simpl in *; try done; by rewrite ?app_nil_r.
      * done.
      * destruct o as [[a|e]|a| |]; simpl in *; try done; rewrite ?app_nil_r in *; destruct (at_finish [] log) eqn:EF; naive_solver.
    + assert (c <> Some i) as Nc by (intros ->; destruct (HE i eq_refl) as [x Hx]; congruence).
      assert (forall q, (j ← c; <[i := q]> (rc_calls st) !! j) = (j ← c; rc_calls st !! j)) as Hc.
      { intros q. destruct c as [j|]; [|done]. simpl. apply lookup_insert_ne. congruence. }
      rewrite !Hc. split_and!.
      * intros j Hj. rewrite lookup_insert_ne by congruence. by apply HE.
      * intros j p. rewrite lookup_insert_Some. intros [[-> <-]|[N E]] T; [simpl in T; congruence|]. by apply (HT j p).
      * destruct o as [[a|e]|a| |]; simpl in *; try done; by rewrite ?app_nil_r.
      * done.
      * destruct o as [[a|e]|a| |]; simpl in *; try done; rewrite ?app_nil_r; by destruct (at_finish [] log).
  - (* event_error *) mine H.
  - mine H.
  - mine H. rewrite (HS _ _ eq_refl). done.
  - mine H.
  - mine H.
  - mine H.
  - mine H.
  - other H HT HE c st i.
  - destruct k; [mine_by H ltac:(idtac); destruct HF as (HF1 & HF2 & HF3); rewrite HF1, HF2, HF3; right; split; [done|]; by eexists|other H HT HE c st i|other H HT HE c st i].
  - destruct k; [mine_by H ltac:(idtac); destruct HF as (HF1 & HF2 & HF3); rewrite HF1, HF2, HF3; right; split; [done|]; by eexists|other H HT HE c st i|other H HT HE c st i].
  - other H HT HE c st i.
  - other H HT HE c st i.
  - other H HT HE c st i.
  - other H HT HE c st i.
Qed.

Lemma inv_run logger log st : rc_run logger log st -> exclusive None log -> inv log st.
Proof.
  induction 1 as [|log st evs st' R IH Hs]; intros X.
  - split_and!; [done|done|done|done|]. left. done.
  - eapply inv_step; [|done|done]. apply IH. by apply exclusive_app in X as [X _].
Qed.

(** C122 (partial): if no calls of Event and Finish overlap each other — calls of Annotation and Errors may overlap them and each other, and
    errors are reported at any time —, then Finish gives the collector once, whole and in order, what had been recorded when it was first
    called: never anything else, never twice, and for certain once no call is running.
    Missing: overlapping calls of Event and Finish (C122_refuted: an event is lost; a span is delivered twice). *)
Theorem C122_partial : forall logger log st,
  rc_run logger log st -> exclusive None log ->
  (delivered log = [] \/ exists anns, at_finish [] log = Some anns /\ delivered log = [anns]) /\
  (running log = ∅ -> forall anns, at_finish [] log = Some anns -> delivered log = [anns]).
Proof.
  intros logger log st R X. destruct (inv_run _ _ _ R X) as (HE & _ & _ & _ & HF). split.
  - unfold finish_inv in HF. repeat case_match; naive_solver.
  - intros N anns E. pose proof (nobody _ _ _ R N) as Hc.
    assert (cur_pc (current None log) st = None) as Hp by (unfold cur_pc; rewrite Hc; by destruct (current None log)).
    rewrite Hp, E in HF. simpl in HF. naive_solver.
Qed.
Print Assumptions C122_partial.

Definition ann_a : list Annotation := [Ann "a" (Some "1")].
Definition ann_b : list Annotation := [Ann "b" (Some "2")].
Example C122_nonvacuous :
  exists log st, rc_run false log st /\ exclusive None log /\ running log = ∅ /\ at_finish [] log = Some (ann_a ++ ann_b) /\
    (length (errors_of log) = 2)%nat.
Proof.
  assert (rc_run false [] rc_new) as R by constructor.
  nxt (rs_call _ _ 1%nat (OEvent (inl ann_a))). nxt (rs_event_read _ _ 1%nat).
  nxt (rs_call _ _ 9%nat (OAnnotation ann_b)). nxt (rs_annotation _ _ 9%nat).
  nxt (rs_event_write _ _ 1%nat). nxt (rs_refused _ _ 9%nat _ _ "down").
  nxt (rs_call _ _ 2%nat (OEvent (inl ann_b))). nxt (rs_event_read _ _ 2%nat). nxt (rs_event_write _ _ 2%nat).
  nxt (rs_call _ _ 3%nat OFinish). nxt (rs_finish_first _ _ 3%nat). nxt (rs_report _ _ 9%nat _ _ [] None).
  nxt (rs_finish_set _ _ 3%nat). nxt (rs_finish_read _ _ 3%nat). nxt (rs_keep _ _ 9%nat). nxt (rs_sent _ _ 3%nat).
  nxt (rs_call _ _ 4%nat OFinish). nxt (rs_finish_again _ _ 4%nat). nxt (rs_report _ _ 4%nat _ _ [] None). nxt (rs_keep _ _ 4%nat).
  eexists _, _. split; [exact R|]. clear R. split; [vm_compute; intuition done|]. split; [unfold running; simpl; set_solver|]. done.
Qed.

(** Two calls of Event that overlap: both return before Finish is called, and Finish delivers one of the two. *)
Theorem C122_refuted : exists log st,
  rc_run false log st /\ running log = ∅ /\ at_finish [] log = Some (ann_a ++ ann_b) /\ delivered log = [ann_b].
Proof.
  assert (rc_run false [] rc_new) as R by constructor.
  nxt (rs_call _ _ 1%nat (OEvent (inl ann_a))). nxt (rs_event_read _ _ 1%nat).
  nxt (rs_call _ _ 2%nat (OEvent (inl ann_b))). nxt (rs_event_read _ _ 2%nat).
  nxt (rs_event_write _ _ 1%nat). nxt (rs_event_write _ _ 2%nat).
  nxt (rs_call _ _ 3%nat OFinish). nxt (rs_finish_first _ _ 3%nat).
  nxt (rs_finish_set _ _ 3%nat). nxt (rs_finish_read _ _ 3%nat). nxt (rs_sent _ _ 3%nat).
  eexists _, _. split; [exact R|]. clear R. split; [unfold running; simpl; set_solver|]. done.
Qed.
Print Assumptions C122_refuted.

(** Two calls of Finish that overlap: the span is delivered twice, and no error occurs. *)
Theorem C122_twice_refuted : exists log st,
  rc_run false log st /\ running log = ∅ /\ delivered log = [ann_a; ann_a] /\ errors_of log = [].
Proof.
  assert (rc_run false [] rc_new) as R by constructor.
  nxt (rs_call _ _ 1%nat (OEvent (inl ann_a))). nxt (rs_event_read _ _ 1%nat). nxt (rs_event_write _ _ 1%nat).
  nxt (rs_call _ _ 3%nat OFinish). nxt (rs_finish_first _ _ 3%nat).
  nxt (rs_call _ _ 4%nat OFinish). nxt (rs_finish_first _ _ 4%nat).
  nxt (rs_finish_set _ _ 3%nat). nxt (rs_finish_read _ _ 3%nat). nxt (rs_sent _ _ 3%nat).
  nxt (rs_finish_set _ _ 4%nat). nxt (rs_finish_read _ _ 4%nat). nxt (rs_sent _ _ 4%nat).
  eexists _, _. split; [exact R|]. clear R. split; [unfold running; simpl; set_solver|]. done.
Qed.
Print Assumptions C122_twice_refuted.
