(** Sampling of OpenTracing traces. *)
From Verif Require Import Base TimeModel TraceModel OtModel OtSpec OtProps OtSampleModel OtSampleSpec.

Lemma o_run_app os cs cs' st : o_run os (cs ++ cs') st = (st ← o_run os cs st; o_run os cs' st).
Proof. revert st. induction cs as [|c cs IH]; intros st; [done|]. cbn. destruct (o_step os st c); [apply IH|done]. Qed.
Lemma starts_app cs cs' : starts (cs ++ cs') = starts cs ++ starts cs'.
Proof. apply omap_app. Qed.
Lemma in_trace_app cs cs' i r : in_trace cs i r -> in_trace (cs ++ cs') i r.
Proof.
  induction 1 as [r tr trace H|i tr p trace r H Hp _ IH].
  - eapply it_root. rewrite starts_app. by apply lookup_app_l_Some.
  - eapply it_child; [rewrite starts_app; by apply lookup_app_l_Some|done|done].
Qed.
Lemma in_trace_lt cs i r : in_trace cs i r -> (i < length (starts cs))%nat.
Proof. by induction 1 as [r tr trace H|i tr p trace r H Hp _ IH]; apply lookup_lt_Some in H. Qed.
Lemma in_trace_old cs c i r : (i < length (starts cs))%nat -> in_trace (cs ++ [c]) i r -> in_trace cs i r.
Proof.
  intros Hi H. induction H as [r tr trace H|i tr p trace r H Hp _ IH]; rewrite starts_app in H; rewrite lookup_app_l in H by done.
  - by eapply it_root.
  - eapply it_child; [done|done|]. apply IH. lia.
Qed.
(** What is known of every span: it has the trace ID of its root, and the decision of the root's tracer. *)
Definition decided (os : list options) (cs : list ocall) (r : nat) (s : ospan) : Prop :=
  exists tr trace f, starts cs !! r = Some (tr, None, trace) /\ os !! tr = Some (Some f) /\ sp_trace (os_id s) = trace /\ os_sampled s = f trace.
Lemma decided_app os cs cs' r s : decided os cs r s -> decided os (cs ++ cs') r s.
Proof. intros (tr & trace & f & H & ?). exists tr, trace, f. split; [rewrite starts_app; by apply lookup_app_l_Some|done]. Qed.
Definition OInv (os : list options) (cs : list ocall) (st : ostate) : Prop :=
  length (o_spans st) = length (starts cs) /\
  (forall i r s, in_trace cs i r -> o_spans st !! i = Some s -> decided os cs r s) /\
  (forall i raw, (i, raw) ∈ o_recorded st -> exists s, o_spans st !! i = Some s /\ sp_id raw = os_id s /\ sp_sampled raw = os_sampled s).
Lemma nonzero_app cs cs' : nonzero_traces (cs ++ cs') -> nonzero_traces cs.
Proof. intros H i tr ref trace E. eapply H. rewrite starts_app. by apply lookup_app_l_Some. Qed.
Lemma OInv_run os cs st : nonzero_traces cs -> o_run os cs o_init = Some st -> OInv os cs st.
Proof.
  unfold OInv. revert st. induction cs as [|c cs IH] using rev_ind; intros st Hnz Hrun.
  { injection Hrun as <-. split; [done|]. split; [intros i r s _; done|]. intros i raw H. by apply elem_of_nil in H. }
  rewrite o_run_app in Hrun. destruct (o_run os cs o_init) as [st0|] eqn:E0; [|done]. cbn in Hrun.
  pose proof (nonzero_app _ _ Hnz) as Hnz0. specialize (IH st0 Hnz0 eq_refl). destruct IH as (Hlen & Hdec & Hrec).
  destruct (o_step os st0 c) as [st1|] eqn:Es; [|done]. injection Hrun as ->. destruct c as [tr ref trace span|i k v|i op logs tags start dur]; cbn [o_step] in Es.
  - destruct (start_span os st0 tr ref trace span) as [s|] eqn:Est; [|done]. injection Es as <-. cbn [o_spans o_recorded].
    assert (starts (cs ++ [OStart tr ref trace span]) !! length (starts cs) = Some (tr, ref, trace)) as Hnew.
    { rewrite starts_app. rewrite lookup_app_r by done. by rewrite Nat.sub_diag. }
    split; [rewrite starts_app, !app_length, Hlen; done|]. split.
    + intros i r s' Hin Hs'. apply lookup_app_Some in Hs' as [Hs'|[Hge Hs']].
      { apply decided_app. eapply Hdec; [|done]. eapply in_trace_old; [|done]. rewrite <- Hlen. by eapply lookup_lt_Some. }
      apply list_lookup_singleton_Some in Hs' as [Hi <-]. assert (i = length (starts cs)) as -> by lia.
      inversion Hin as [r' tr' trace' Hst|i' tr' p trace' r' Hst Hp Hin']; subst; rewrite Hnew in Hst; injection Hst as <- -> <-.
      * unfold start_span in Est. cbn in Est. destruct (os !! tr) as [[f|]|] eqn:Ef; try done. cbn in Est. injection Est as <-. exists tr, trace, f. done.
      * apply in_trace_old in Hin'; [|done]. assert (is_Some (o_spans st0 !! p)) as [sp Hsp] by (apply lookup_lt_is_Some; lia).
        pose proof (Hdec _ _ _ Hin' Hsp) as (tr1 & trace1 & f & H1 & H2 & H3 & H4). unfold start_span in Est. cbn in Est. rewrite Hsp in Est.
        rewrite H3 in Est. replace (trace1 =? 0) with false in Est by (symmetry; apply N.eqb_neq; by eapply Hnz0). injection Est as <-.
        apply decided_app. exists tr1, trace1, f. cbn. done.
    + intros i raw Hin. destruct (Hrec _ _ Hin) as (s' & H1 & H2). exists s'. split; [by apply lookup_app_l_Some|done].
  - injection Es as <-. cbn [o_spans o_recorded]. assert (starts (cs ++ [OBaggage i k v]) = starts cs) as Est by (rewrite starts_app; apply app_nil_r).
    split; [by rewrite alter_length, Est|]. split.
    + intros j r s Hin Hs. assert (in_trace cs j r) as Hin'. { eapply in_trace_old; [|done]. apply in_trace_lt in Hin. by rewrite Est in Hin. }
      apply decided_app. destruct (decide (i = j)) as [->|Hne]; [|rewrite list_lookup_alter_ne in Hs by done; by eapply Hdec].
      rewrite list_lookup_alter in Hs. destruct (o_spans st0 !! j) as [s0|] eqn:E; [|done]. injection Hs as <-.
      destruct (Hdec _ _ _ Hin' E) as (tr1 & trace1 & f & H). by exists tr1, trace1, f.
    + intros j raw Hin. destruct (Hrec _ _ Hin) as (s' & H1 & H2). destruct (decide (i = j)) as [->|Hne].
      * eexists. rewrite list_lookup_alter, H1. split; [reflexivity|done].
      * exists s'. by rewrite list_lookup_alter_ne.
  - assert (starts (cs ++ [OFinish i op logs tags start dur]) = starts cs) as Est by (rewrite starts_app; apply app_nil_r).
    assert (o_spans st = o_spans st0) as Esp. { destruct (o_spans st0 !! i); by injection Es as <-. }
    split; [by rewrite Esp, Est|]. split.
    + intros j r s Hin Hs. rewrite Esp in Hs. apply decided_app. eapply Hdec; [|done]. eapply in_trace_old; [|done]. apply in_trace_lt in Hin. by rewrite Est in Hin.
    + intros j raw Hin. rewrite Esp. destruct (o_spans st0 !! i) as [s0|] eqn:E; injection Es as <-; cbn [o_recorded] in Hin.
      * apply elem_of_app in Hin as [Hin|Hin%elem_of_list_singleton]; [by apply Hrec|]. injection Hin as -> ->. by exists s0.
      * by apply Hrec.
Qed.

(** ** C126: sampling *)

(** The decision on a trace is its first span's: every span of the trace, whatever tracer started it and whenever it ends, is recorded
    with the trace's ID and has the decision of ShouldSample, of the tracer that began the trace, on that ID. *)
Theorem C126_decision os cs st i r raw : nonzero_traces cs -> o_run os cs o_init = Some st -> (i, raw) ∈ o_recorded st -> in_trace cs i r ->
  exists tr trace f, starts cs !! r = Some (tr, None, trace) /\ os !! tr = Some (Some f) /\
    sp_trace (sp_id raw) = trace /\ sp_sampled raw = f trace.
Proof.
  intros Hnz Hrun Hin Htr. destruct (OInv_run _ _ _ Hnz Hrun) as (_ & Hdec & Hrec). destruct (Hrec _ _ Hin) as (s & Hs & -> & ->). by eapply Hdec.
Qed.
Print Assumptions C126_decision.
(** All or none: for the spans of a trace that is sampled everything is written, for those of another one nothing is. *)
Theorem C126_all_or_none os cs st r : nonzero_traces cs -> o_run os cs o_init = Some st ->
  (forall i raw, in_trace cs i r -> (i, raw) ∈ o_recorded st -> forall json rec obs rec', record_span json raw rec obs rec' -> obs = []) \/
  (forall i raw, in_trace cs i r -> (i, raw) ∈ o_recorded st -> forall json rec obs rec', record_span json raw rec obs rec' ->
    exists ws blocks, span_writes json raw ws /\ obs = concat blocks /\ Forall2 (attempt (sp_id raw)) ws blocks).
Proof.
  intros Hnz Hrun. destruct (starts cs !! r) as [[[tr ref] trace]|] eqn:E.
  2:{ left. intros i raw Htr Hin. destruct (C126_decision _ _ _ _ _ _ Hnz Hrun Hin Htr) as (? & ? & ? & H & _). congruence. }
  destruct (os !! tr) as [[f|]|] eqn:Ef.
  2,3: (left; intros i raw Htr Hin; destruct (C126_decision _ _ _ _ _ _ Hnz Hrun Hin Htr) as (? & ? & ? & H & H' & _); simplify_eq).
  destruct (f trace) eqn:Eft; [right|left]; intros i raw Htr Hin json rec obs rec' H;
    destruct (C126_decision _ _ _ _ _ _ Hnz Hrun Hin Htr) as (tr1 & trace1 & f1 & H1 & H2 & _ & H4); simplify_eq.
  - eapply C71_writes; [|exact H]. rewrite H4. exact Eft.
  - eapply C71_unsampled; [|exact H]. rewrite H4. exact Eft.
Qed.
Print Assumptions C126_all_or_none.
(** With DefaultOptions every span of every trace is recorded. *)
Theorem C126_default os cs st : (forall tr o, os !! tr = Some o -> o = default_options) -> nonzero_traces cs -> o_run os cs o_init = Some st ->
  forall i r raw, in_trace cs i r -> (i, raw) ∈ o_recorded st -> sp_sampled raw = true.
Proof.
  intros Ho Hnz Hrun i r raw Htr Hin. destruct (C126_decision _ _ _ _ _ _ Hnz Hrun Hin Htr) as (tr & trace & f & _ & H & _ & ->).
  specialize (Ho _ _ H). unfold default_options in Ho. by injection Ho as ->.
Qed.
Print Assumptions C126_default.
(** Options without ShouldSample: the first span without a reference panics. *)
Theorem C126_nil_refuted st tr trace span os : os !! tr = Some None -> o_step os st (OStart tr None trace span) = None.
Proof. intros H. cbn. by rewrite H. Qed.
Print Assumptions C126_nil_refuted.
(** An item of baggage goes to the spans that are started below the span later. *)
Theorem C126_baggage os cs cs' st p child tr trace span k v raw : nonzero_traces (cs ++ OStart tr (Some p) trace span :: cs') ->
  o_run os (cs ++ OStart tr (Some p) trace span :: cs') o_init = Some st ->
  (exists st0 s, o_run os cs o_init = Some st0 /\ o_spans st0 !! p = Some s /\ os_baggage s !! k = Some v) ->
  child = length (starts cs) -> (forall v', OBaggage child k v' ∉ cs') -> (child, raw) ∈ o_recorded st -> sp_baggage raw !! k = Some v.
Proof.
  intros Hnz Hrun (st0 & s & H0 & Hs & Hk) -> Hno Hin. rewrite o_run_app, H0 in Hrun. cbn [mbind option_bind] in Hrun. cbn [o_run] in Hrun.
  pose proof (OInv_run _ _ _ (nonzero_app _ _ Hnz) H0) as (Hlen & _ & Hrec).
  destruct (o_step os st0 _) as [st1|] eqn:E1; [|done]. cbn [mbind option_bind] in Hrun. cbn [o_step] in E1.
  destruct (start_span os st0 tr (Some p) trace span) as [s1|] eqn:Es; [|done]. cbn in E1. injection E1 as <-.
  assert (os_baggage s1 !! k = Some v) as Hk1.
  { unfold start_span in Es. cbn in Es. rewrite Hs in Es. destruct (_ =? 0); [destruct (os !! tr) as [[f|]|]; try done|]; cbn in Es; injection Es as <-; done. }
  assert (forall cs' st1 st, o_run os cs' st1 = Some st -> (forall v', OBaggage (length (starts cs)) k v' ∉ cs') ->
    (exists s, o_spans st1 !! length (starts cs) = Some s /\ os_baggage s !! k = Some v) ->
    (forall raw, (length (starts cs), raw) ∈ o_recorded st1 -> sp_baggage raw !! k = Some v) ->
    forall raw, (length (starts cs), raw) ∈ o_recorded st -> sp_baggage raw !! k = Some v) as Hind.
  { clear. intros cs'. induction cs' as [|c cs' IH]; intros st1 st Hrun Hno Hs Hr; [by injection Hrun as <-|].
    cbn [o_run] in Hrun. destruct (o_step os st1 c) as [st2|] eqn:E; [|done]. cbn [mbind option_bind] in Hrun. apply (IH st2 st Hrun).
    - intros v' Hin. apply (Hno v'). by right.
    - destruct Hs as (s & Hs & Hk). destruct c as [tr ref trace span|i k' v'|i op logs tags start dur]; cbn [o_step] in E.
      + destruct (start_span _ _ _ _ _ _); [|done]. injection E as <-. exists s. split; [by apply lookup_app_l_Some|done].
      + injection E as <-. cbn [o_spans]. destruct (decide (i = length (starts cs))) as [->|Hne].
        * eexists. rewrite list_lookup_alter, Hs. split; [reflexivity|]. cbn. destruct (decide (k' = k)) as [->|Hk'].
          -- exfalso. apply (Hno v'). by left.
          -- by rewrite lookup_insert_ne.
        * exists s. by rewrite list_lookup_alter_ne.
      + destruct (o_spans st1 !! i); injection E as <-; by exists s.
    - intros raw Hin. destruct c as [tr ref trace span|i k' v'|i op logs tags start dur]; cbn [o_step] in E.
      + destruct (start_span _ _ _ _ _ _); [|done]. injection E as <-. by apply Hr.
      + injection E as <-. by apply Hr.
      + destruct (o_spans st1 !! i) as [s0|] eqn:E0; injection E as <-; [|by apply Hr]. cbn [o_recorded] in Hin.
        apply elem_of_app in Hin as [Hin|Hin%elem_of_list_singleton]; [by apply Hr|]. injection Hin as <- ->. cbn.
        destruct Hs as (s & Hs & Hk). congruence. }
  apply (Hind cs' _ _ Hrun Hno); [|intros raw'|done].
  - exists s1. cbn [o_spans]. rewrite lookup_app_r by lia. by rewrite Hlen, Nat.sub_diag.
  - cbn [o_recorded]. intros Hin'. destruct (Hrec _ _ Hin') as (s' & Hs' & _). apply lookup_lt_Some in Hs'. lia.
Qed.
Print Assumptions C126_baggage.
(** Every recorded span has its own number and that of the span that it was started with as its parent's; without one it has none. *)
Definition places (cs : list ocall) (i : nat) (id : SpanID) : Prop :=
  numbers cs !! i = Some (sp_span id) /\
  forall tr ref trace, starts cs !! i = Some (tr, ref, trace) ->
    match ref with None => sp_parent id = 0 | Some p => (p < i)%nat -> numbers cs !! p = Some (sp_parent id) end.
Lemma places_app cs cs' i id : (i < length (starts cs))%nat -> places cs i id -> places (cs ++ cs') i id.
Proof.
  intros Hi [H1 H2]. unfold places, numbers in *. rewrite omap_app. split; [by apply lookup_app_l_Some|]. intros tr ref trace H.
  rewrite starts_app, lookup_app_l in H by done. specialize (H2 tr ref trace H). destruct ref as [p|]; [|done]. intros Hp. apply lookup_app_l_Some. by apply H2.
Qed.
Lemma places_run os cs st : o_run os cs o_init = Some st ->
  length (o_spans st) = length (starts cs) /\ length (numbers cs) = length (starts cs) /\
  (forall i s, o_spans st !! i = Some s -> places cs i (os_id s)) /\ (forall i raw, (i, raw) ∈ o_recorded st -> (i < length (starts cs))%nat /\ places cs i (sp_id raw)).
Proof.
  revert st. induction cs as [|c cs IH] using rev_ind; intros st Hrun.
  { injection Hrun as <-. split_and!; try done. intros i raw H. by apply elem_of_nil in H. }
  rewrite o_run_app in Hrun. destruct (o_run os cs o_init) as [st0|] eqn:E0; [|done]. cbn in Hrun. destruct (IH st0 eq_refl) as (Hlen & Hnum & Hsp & Hrec).
  destruct (o_step os st0 c) as [st1|] eqn:Es; [|done]. injection Hrun as ->. destruct c as [tr ref trace span|i k v|i op logs tags start dur]; cbn [o_step] in Es.
  - destruct (start_span os st0 tr ref trace span) as [s|] eqn:Est; [|done]. injection Es as <-. cbn [o_spans o_recorded]. unfold numbers in *. rewrite starts_app, omap_app, !app_length. cbn [length].
    split_and!; [cbn; lia|cbn; lia| |].
    + intros i s' Hs'. apply lookup_app_Some in Hs' as [Hs'|[Hge Hs']].
      { apply places_app; [rewrite <- Hlen; by eapply lookup_lt_Some|by apply Hsp]. }
      apply list_lookup_singleton_Some in Hs' as [Hi <-]. assert (i = length (starts cs)) as -> by lia. unfold places, numbers. rewrite omap_app, starts_app.
      assert (sp_span (os_id s) = span /\ match ref with None => sp_parent (os_id s) = 0 | Some p => (p < length (starts cs))%nat -> exists q, o_spans st0 !! p = Some q /\ sp_parent (os_id s) = sp_span (os_id q) end) as [E1 E2].
      { unfold start_span in Est. destruct ref as [p|]; cbn in Est.
        - destruct (o_spans st0 !! p) as [q|] eqn:Eq.
          + destruct (_ =? 0); [destruct (os !! tr) as [[f|]|]; try done|]; cbn in Est; injection Est as <-; (split; [done|]; intros _; by exists q).
          + apply lookup_ge_None in Eq. destruct (os !! tr) as [[f|]|]; try done; cbn in Est; injection Est as <-. split; [done|]. intros. lia.
        - destruct (os !! tr) as [[f|]|]; try done; cbn in Est; injection Est as <-. done. }
      split; [rewrite lookup_app_r, Hnum, Nat.sub_diag by lia; cbn; by rewrite E1|].
      intros tr' ref' trace' H. rewrite lookup_app_r, Nat.sub_diag in H by lia. cbn in H. injection H as <- <- <-. destruct ref as [p|]; [|done].
      intros Hp. destruct (E2 Hp) as (q & Hq & ->). apply lookup_app_l_Some. by apply Hsp.
    + intros i raw Hin. destruct (Hrec i raw Hin) as [H1 H2]. split; [lia|by apply places_app].
  - injection Es as <-. cbn [o_spans o_recorded]. assert (starts (cs ++ [OBaggage i k v]) = starts cs) as Est by (rewrite starts_app; apply app_nil_r).
    assert (numbers (cs ++ [OBaggage i k v]) = numbers cs) as En by (unfold numbers; rewrite omap_app; apply app_nil_r).
    unfold places. rewrite Est, En, alter_length. split_and!; try done. intros j s Hs. destruct (decide (i = j)) as [->|Hne]; [|rewrite list_lookup_alter_ne in Hs by done; by apply Hsp].
    rewrite list_lookup_alter in Hs. destruct (o_spans st0 !! j) as [s0|] eqn:E; [|done]. injection Hs as <-. exact (Hsp _ _ E).
  - assert (starts (cs ++ [OFinish i op logs tags start dur]) = starts cs) as Est by (rewrite starts_app; apply app_nil_r).
    assert (numbers (cs ++ [OFinish i op logs tags start dur]) = numbers cs) as En by (unfold numbers; rewrite omap_app; apply app_nil_r).
    unfold places. rewrite Est, En. destruct (o_spans st0 !! i) as [s0|] eqn:E; injection Es as <-; cbn [o_spans o_recorded]; [|done]. split_and!; try done.
    intros j raw Hin. apply elem_of_app in Hin as [Hin|Hin%elem_of_list_singleton]; [by apply Hrec|]. injection Hin as -> ->. cbn.
    split; [rewrite <- Hlen; by eapply lookup_lt_Some|by apply Hsp].
Qed.
Theorem C126_parent os cs st i raw tr ref trace : o_run os cs o_init = Some st -> (i, raw) ∈ o_recorded st -> starts cs !! i = Some (tr, ref, trace) ->
  numbers cs !! i = Some (sp_span (sp_id raw)) /\
  match ref with None => sp_parent (sp_id raw) = 0 | Some p => (p < i)%nat -> numbers cs !! p = Some (sp_parent (sp_id raw)) end.
Proof.
  intros Hrun Hin Hs. destruct (places_run _ _ _ Hrun) as (_ & _ & _ & Hrec). destruct (Hrec _ _ Hin) as (_ & H1 & H2). split; [done|]. exact (H2 _ _ _ Hs).
Qed.
Print Assumptions C126_parent.
(** Two processes, of which the second samples nothing itself: it records the span of the first one's trace, not its own. *)
Example C126_nonvacuous : let os := [Some (fun t => N.even t); Some (fun _ => false)] in
  let cs := [OStart 0 None 8 1; OBaggage 0 "user" "u"; OStart 1 (Some 0%nat) 5 2; OStart 1 None 9 3; OFinish 1 "op" [] ∅ time_zero 0%Z; OFinish 2 "op" [] ∅ time_zero 0%Z] in
  nonzero_traces cs /\ in_trace cs 1 0 /\ in_trace cs 2 2 /\
  exists st raw1 raw2, o_run os cs o_init = Some st /\ (1%nat, raw1) ∈ o_recorded st /\ (2%nat, raw2) ∈ o_recorded st /\
    sp_id raw1 = MkSpanID 8 2 1 /\ sp_sampled raw1 = true /\ sp_baggage raw1 !! "user" = Some "u" /\ sp_id raw2 = MkSpanID 9 3 0 /\ sp_sampled raw2 = false.
Proof.
  cbv zeta. split.
  { intros i tr ref trace H. cbn in H. destruct i as [|[|[|i]]]; cbn in H; [injection H as <- <- <-; lia..|done]. }
  split; [eapply it_child; [reflexivity|lia|by eapply it_root]|]. split; [by eapply it_root|].
  do 3 eexists. split; [reflexivity|]. cbn [o_recorded]. split; [left|]. split; [right; left|]. done.
Qed.
