(** Properties C102 and C103 (sample data). *)
From Verif Require Import Base IdModel EventModel RecorderModel SplitModel SplitProps SampleModel.
From Coq Require Import ssreflect.
Local Open Scope general_if_scope.
Local Open Scope Z_scope.

(** * C103 *)
(** Each span is a child of the one before it. *)
Fixpoint descends (p : SpanID) (l : list (SpanID * list sevent)) : Prop :=
  match l with
  | [] => True
  | (id, _) :: l => sp_trace id = sp_trace p /\ sp_parent id = sp_span p /\ descends id l
  end.
(** The times of the events of a span, and its name. *)
Definition times_of (evs : list sevent) : list (Z * Z) := omap (fun e => match e with EvSQL _ s r => Some (s, r) | _ => None end) evs.
Definition names_of (evs : list sevent) : list string := omap (fun e => match e with EvName n => Some n | _ => None end) evs.
(** Intervals that follow one another without gap or overlap, from a to b. *)
Fixpoint tiles (a b : Z) (l : list (Z * Z)) : Prop :=
  match l with
  | [] => a = b
  | (s, e) :: l => s = a /\ s <= e /\ tiles e b l
  end.

Lemma drop_total times k d : times !! k = Some d -> total (drop k times) = d + total (drop (S k) times).
Proof. intros H. by rewrite (drop_S times d k H). Qed.
Lemma loop_shape ch times n : forall j last start, 1 <= j -> Z.of_nat (length times) = j - 1 + Z.of_nat n -> Forall (fun x => 0 <= x) times ->
  exists l ivs, span_loop ch times n j last start = Some l /\ length l = n /\ descends last l /\
    Forall2 (fun s iv => times_of (snd s) = [iv]) l ivs /\ Forall (fun s => exists x, names_of (snd s) = [x]) l /\
    tiles start (start + total (drop (Z.to_nat (j - 1)) times) * ms) ivs.
Proof.
  induction n as [|n IH]; intros j last start Hj Hlen Hpos.
  - exists [], []. split_and!; try done; try constructor. rewrite drop_ge; [lia|]. cbn [tiles total fold_right]. lia.
  - cbn [span_loop]. destruct (times !! Z.to_nat (j - 1)) as [d|] eqn:E.
    2: { apply lookup_ge_None_1 in E. lia. }
    assert (0 <= d) as Hd by (eapply Forall_lookup_1 in Hpos; eauto).
    destruct (IH (j + 1) (new_span_id last (ch_ids ch (Z.to_nat (j - 1)))) (start + d * ms)) as (l & ivs & -> & Hl & Hds & Hiv & Hnm & Ht); [lia|lia|done|].
    eexists _, ((start, start + d * ms) :: ivs). split; [reflexivity|]. split_and!.
    + cbn [length]. by rewrite Hl.
    + cbn [descends]. done.
    + constructor; [|done]. cbn [snd]. destruct (j mod 3 =? 0), (j mod 5 =? 0); reflexivity.
    + constructor; [|done]. exists (ch_names ch j). cbn [snd]. destruct (j mod 3 =? 0), (j mod 5 =? 0); reflexivity.
    + cbn [tiles]. split_and!; [done|rewrite /ms; lia|]. rewrite (drop_total _ _ _ E).
      replace (Z.to_nat (j + 1 - 1)) with (S (Z.to_nat (j - 1))) in Ht by lia.
      replace (start + (d + total (drop (S (Z.to_nat (j - 1))) times)) * ms) with (start + d * ms + total (drop (S (Z.to_nat (j - 1))) times) * ms) by lia. done.
Qed.

(** C103: for all draws, a sample trace is a root with a chain of 3 to 6 descendants, one name and one timed
    event each, whose times tile the root's. *)
Theorem C103_sample_trace : forall ch, fair (ch_draw ch) -> 0 <= ch_length ch < 1000 -> 0 <= ch_spans ch < 4 ->
  exists root evs rest ivs, sample_trace ch = Some ((root, evs) :: rest) /\
    sp_parent root = 0%N /\ descends root rest /\ (3 <= length rest <= 6)%nat /\
    Forall (fun s => exists x, names_of (snd s) = [x]) ((root, evs) :: rest) /\
    times_of evs = [(ch_start ch, ch_start ch + ch_length ch * 1000000)] /\
    Forall2 (fun s iv => times_of (snd s) = [iv]) rest ivs /\ tiles (ch_start ch) (ch_start ch + ch_length ch * 1000000) ivs.
Proof.
  intros ch Hf Hl Hs. rewrite /sample_trace.
  destruct (C70_partial (ch_draw ch) (ch_length ch) (ch_spans ch + 3) Hf ltac:(lia) ltac:(lia)) as (times & -> & Hlen & Htot & Hpos).
  destruct (loop_shape ch times (Z.to_nat (ch_spans ch + 3)) 1 (new_root_span_id (fst (ch_root ch)) (snd (ch_root ch))) (ch_start ch)) as
    (l & ivs & -> & Hn & Hd & Hiv & Hnm & Ht); [lia|lia|done|].
  eexists _, _, l, ivs. split; [reflexivity|]. split_and!; try done; try lia.
  - constructor; [|done]. eexists. reflexivity.
  - change (Z.to_nat (1 - 1)) with O in Ht. rewrite drop_0 Htot in Ht. done.
Qed.
Print Assumptions C103_sample_trace.

Definition sample_choices : choices :=
  MkChoices (1%N, 2%N) "go.na" 100 0 2 (fun i r => r - 1) (fun k => 10%N + N.of_nat k)%N (fun j => "Gona"%string) (fun _ => 0).
Example C103_nonvacuous : fair (ch_draw sample_choices) /\
  (match sample_trace sample_choices with Some l => map (fun s => (fst s, times_of (snd s))) l | None => [] end) =
    [(MkSpanID 1 2 0, [(0, 100 * ms)]); (MkSpanID 1 10 2, [(0, 25 * ms)]); (MkSpanID 1 11 10, [(25 * ms, 50 * ms)]);
     (MkSpanID 1 12 11, [(50 * ms, 75 * ms)]); (MkSpanID 1 13 12, [(75 * ms, 100 * ms)]); (MkSpanID 1 14 13, [(100 * ms, 100 * ms)])].
Proof. split; [intros i r Hr; cbn [ch_draw sample_choices]; lia|]. vm_compute. reflexivity. Qed.

(** * C102 *)
Section c102.
  Context (marshal : sevent -> list Annotation + string) (report : string -> list Annotation).
  Definition fits (e : sevent) : Prop := exists anns, marshal e = inl anns.
  Definition anns_of_events (evs : list sevent) : list Annotation :=
    concat (map (fun e => match marshal e with inl a => a | inr _ => [] end) evs).

  Lemma events_ok evs r : Forall fits evs -> rec_run r (map (fun e => MkCall (REvent (marshal e)) None report) evs) =
    MkRec (r_logger r) (r_span r) (r_anns r ++ anns_of_events evs) (r_finished r) (r_errors r) (r_collects r) (r_lines r) (r_returned r).
  Proof.
    intros H. revert r. induction H as [|e evs [a Ha] _ IH]; intros r.
    - rewrite /anns_of_events. cbn [map concat]. rewrite app_nil_r. by destruct r.
    - cbn [map]. change (rec_run r (?x :: ?l)) with (rec_run (rec_step r x) l). rewrite IH. rewrite /rec_step. cbn [c_op].
      rewrite Ha. cbn [r_logger r_span r_anns r_finished r_errors r_collects r_lines r_returned]. f_equal.
      rewrite /anns_of_events. cbn [map concat]. by rewrite Ha app_assoc.
  Qed.
  Lemma event_step r e : r_logger r = false -> let r' := rec_step r (MkCall (REvent (marshal e)) None report) in
    r_logger r' = false /\ r_returned r' = r_returned r /\ (r_errors r <> [] -> r_errors r' <> []) /\ (~ fits e -> r_errors r' <> []).
  Proof.
    intros Hl. rewrite /rec_step. cbn [c_op]. rewrite /fits. destruct (marshal e) as [a|err] eqn:E.
    - cbn [r_logger r_returned r_errors]. split_and!; try done. intros H. exfalso. apply H. by exists a.
    - rewrite /rec_error. cbn [send r_logger]. rewrite Hl. cbn [r_logger r_returned r_errors]. split_and!; try done; intros _; by destruct (r_errors (send _ _)).
  Qed.
  Lemma events_bad evs r : r_logger r = false -> (r_errors r <> [] \/ ~ Forall fits evs) ->
    let r' := rec_run r (map (fun e => MkCall (REvent (marshal e)) None report) evs) in
    r_errors r' <> [] /\ r_returned r' = r_returned r.
  Proof.
    revert r. induction evs as [|e evs IH]; intros r Hl H; cbn [map].
    - split; [|done]. destruct H as [H|H]; [done|]. exfalso. apply H. constructor.
    - change (rec_run r (?x :: ?l)) with (rec_run (rec_step r x) l). destruct (event_step r e Hl) as (H1 & H2 & H3 & H4). cbn zeta in *.
      rewrite -H2. apply (IH _ H1). destruct H as [H|H]; [left; by apply H3|].
      assert (~ Forall fits evs \/ ~ fits e) as [Hf|Hf]; [|by right|left; by apply H4].
      assert (Decision (fits e)) as [Hd|Hd]; [|left; intros ?; apply H; by constructor|by right].
      rewrite /fits. destruct (marshal e); [left; by eexists|right; by intros [? ?]].
  Qed.
  Lemma fits_dec e : fits e \/ ~ fits e.
  Proof. rewrite /fits. destruct (marshal e); [left; by eexists|right; by intros [? ?]]. Qed.
  Lemma all_fit_dec evs : Forall fits evs \/ ~ Forall fits evs.
  Proof.
    induction evs as [|e evs [IH|IH]]; [left; constructor| |].
    - destruct (fits_dec e) as [He|He]; [left; by constructor|right]. intros H. by inversion H.
    - right. intros H. by inversion H.
  Qed.

  Definition delivered (answer : option string) (id : SpanID) (anns : list Annotation) : list (SpanID * list Annotation) :=
    (id, anns) :: match answer with None => [] | Some err => [(id, report (log_msg "Annotation" err))] end.
  Lemma span_ok answer id evs : Forall fits evs -> record_span marshal report answer (id, evs) = (delivered answer id (anns_of_events evs), []).
  Proof.
    intros H. rewrite /record_span /record_ops. cbn [fst snd].
    replace (removelast _) with (map (fun e => MkCall (REvent (marshal e)) None report) evs ++ [MkCall RErrors None report]).
    2: { rewrite removelast_app; [done|]. done. }
    rewrite /rec_run !fold_left_app. fold (rec_run (new_recorder false id) (map (fun e => MkCall (REvent (marshal e)) None report) evs)).
    rewrite (events_ok evs _ H). cbn. by destruct answer.
  Qed.
  Lemma root_ok answer id evs : Forall fits evs -> record_root marshal report answer (id, evs) = delivered answer id (anns_of_events evs).
  Proof.
    intros H. rewrite /record_root /record_ops. cbn [fst snd app].
    rewrite /rec_run fold_left_app. fold (rec_run (new_recorder false id) (map (fun e => MkCall (REvent (marshal e)) None report) evs)).
    rewrite (events_ok evs _ H). cbn. by destruct answer.
  Qed.
  Lemma span_bad answer id evs : ~ Forall fits evs -> snd (record_span marshal report answer (id, evs)) <> [].
  Proof.
    intros H. rewrite /record_span /record_ops. cbn [fst snd].
    replace (removelast _) with (map (fun e => MkCall (REvent (marshal e)) None report) evs ++ [MkCall RErrors None report]).
    2: { rewrite removelast_app; [done|]. done. }
    rewrite /rec_run !fold_left_app. fold (rec_run (new_recorder false id) (map (fun e => MkCall (REvent (marshal e)) None report) evs)).
    destruct (events_bad evs (new_recorder false id) eq_refl (or_intror H)) as [H1 H2]. cbn zeta in *.
    set (r := rec_run _ _) in *. change (fold_left rec_step [MkCall RErrors None report] r) with (rec_step r (MkCall RErrors None report)).
    rewrite {1 2 3 4}/rec_step. cbn [c_op r_returned]. rewrite H2. cbn [new_recorder r_returned app]. by destruct (r_errors r).
  Qed.
  Lemma spans_errs answers l : snd (record_spans marshal report answers l) = [] <-> Forall (fun s => Forall fits (snd s)) l.
  Proof.
    revert answers. induction l as [|[id evs] l IH]; intros answers; [done|]. cbn [record_spans].
    destruct (all_fit_dec evs) as [Hf|Hf].
    - rewrite (span_ok _ _ _ Hf). specialize (IH (tl answers)). destruct (record_spans marshal report (tl answers) l) as [cs errs]. cbn [snd] in *.
      rewrite IH Forall_cons. cbn [snd]. tauto.
    - pose proof (span_bad (hd None answers) id evs Hf) as Hb. destruct (record_span _ _ _ _) as [c [|x errs]]; [done|]. cbn [snd].
      rewrite Forall_cons. cbn [snd]. split; [done|tauto].
  Qed.
  Lemma trace_errs answers l : snd (record_trace marshal report answers l) = [] <-> Forall (fun s => Forall fits (snd s)) (tl l).
  Proof.
    destruct l as [|root l]; [split; [intros _; constructor|done]|]. cbn [record_trace tl]. rewrite -(spans_errs (tl answers)). by destruct (record_spans _ _ _ _) as [cs errs].
  Qed.
End c102.

(** C102 is false: sampleData, and so the send command, returns nil exactly if the events of all spans but the
    roots could be marshaled, whatever the collector answers... *)
Theorem C102_nil_iff : forall marshal report traces cs errs, send_cmd marshal report traces = Some (cs, errs) ->
  (errs = [] <-> forall ch answers spans s e, In (ch, answers) traces -> sample_trace ch = Some spans -> In s (tl spans) -> In e (snd s) ->
    exists anns, marshal e = inl anns).
Proof.
  intros marshal report traces. rewrite /send_cmd. induction traces as [|[ch answers] traces IH]; intros cs errs; cbn [sample_data].
  - intros [= <- <-]. split; [intros _ ch an sp s e []|done].
  - destruct (sample_trace ch) as [l|] eqn:E; [|done].
    pose proof (trace_errs marshal report answers l) as Ht. destruct (record_trace marshal report answers l) as [c es]. cbn [snd] in Ht.
    assert (es = [] <-> forall s e, In s (tl l) -> In e (snd s) -> exists anns, marshal e = inl anns) as Hiff.
    { rewrite Ht. rewrite Forall_forall. split.
      - intros H s e Hs He. specialize (H s (proj2 (elem_of_list_In _ _) Hs)). rewrite Forall_forall in H. apply H. by apply elem_of_list_In.
      - intros H s Hs. apply Forall_forall. intros e He. apply (H s e); by apply elem_of_list_In. }
    destruct es as [|x es].
    + destruct (sample_data marshal report traces) as [[cs' errs']|]; [|done]. intros [= <- <-]. rewrite (IH cs' errs' eq_refl). split.
      * intros H ch' an' sp s e [[= <- <-]|Hin] Hsp Hs He.
        -- rewrite E in Hsp. injection Hsp as <-. by apply (proj1 Hiff eq_refl s e).
        -- by apply (H ch' an' sp s e).
      * intros H ch' an' sp s e Hin. apply (H ch' an' sp s e). by right.
    + intros [= <- <-]. split; [done|]. intros H. assert (x :: es = []) as Hbad; [|done]. apply Hiff. intros s e. apply (H ch answers l s e); [by left|done].
Qed.
Print Assumptions C102_nil_iff.
(** ... so that the command succeeds although every single delivery failed. *)
Theorem C102_refuted : exists marshal report traces cs, send_cmd marshal report traces = Some (cs, []) /\ cs <> [] /\
  forall ch answers a, In (ch, answers) traces -> In a answers -> a = Some "connection refused"%string.
Proof.
  exists (fun _ => inl [Ann "k" (Some "v"%string)]), (fun m => [Ann "Log" (Some m)]),
    (repeat (sample_choices, repeat (Some "connection refused"%string) 6) 60).
  destruct (send_cmd (fun _ => inl [Ann "k" (Some "v"%string)]) (fun m => [Ann "Log" (Some m)])
    (repeat (sample_choices, repeat (Some "connection refused"%string) 6) 60)) as [[cs errs]|] eqn:E.
  2: { vm_compute in E. done. }
  exists cs. split_and!.
  - f_equal. f_equal. apply (C102_nil_iff _ _ _ _ _ E). intros. by eexists.
  - vm_compute in E. injection E as <- _. done.
  - intros ch answers a Hin Ha. apply repeat_spec in Hin. injection Hin as _ E2. rewrite E2 in Ha. cbn in Ha. intuition.
Qed.
Print Assumptions C102_refuted.

(** C102, what holds: if every event can be marshaled, each span of each trace is given to the collector once,
    with its annotations, followed by a report if that failed. *)
Theorem C102_delivered_partial : forall marshal report ch answers spans, sample_trace ch = Some spans ->
  (forall s e, In s spans -> In e (snd s) -> exists anns, marshal e = inl anns) -> length answers = length spans ->
  send_cmd marshal report [(ch, answers)] =
    Some (concat (zip_with (fun answer s => (fst s, concat (map (fun e => match marshal e with inl a => a | inr _ => [] end) (snd s))) ::
             match answer with None => [] | Some err => [(fst s, report ("Recorder.Annotation error: " +:+ err)%string)] end) answers spans), []).
Proof.
  intros marshal report ch answers spans Hsp Hm Hlen. rewrite /send_cmd. cbn [sample_data]. rewrite Hsp.
  assert (forall ans l, (forall s e, In s l -> In e (snd s) -> exists anns, marshal e = inl anns) -> length ans = length l ->
    record_spans marshal report ans l = (concat (zip_with (fun answer s => delivered report answer (fst s) (anns_of_events marshal (snd s))) ans l), [])) as Hs.
  { intros ans l. revert ans. induction l as [|[id evs] l IH]; intros [|a ans] H Hl; try done. cbn [record_spans hd tl].
    rewrite span_ok. { apply Forall_forall. intros e He%elem_of_list_In. apply (H (id, evs)); [by left|done]. }
    rewrite IH; [intros s e ? ?; apply (H s e); [by right|done]|cbn [length] in Hl; lia|]. done. }
  destruct spans as [|[id evs] spans], answers as [|a answers]; try done. cbn [record_trace hd tl].
  rewrite (Hs answers spans); [intros s e ? ?; apply (Hm s e); [by right|done]|cbn [length] in Hlen; lia|].
  rewrite root_ok. { apply Forall_forall. intros e He%elem_of_list_In. apply (Hm (id, evs)); [by left|done]. }
  rewrite app_nil_r. reflexivity.
Qed.
Print Assumptions C102_delivered_partial.
Example C102_nonvacuous : exists spans, sample_trace sample_choices = Some spans /\ length spans = 6%nat.
Proof.
  destruct (C103_sample_trace sample_choices (proj1 C103_nonvacuous) ltac:(vm_compute; intuition discriminate) ltac:(vm_compute; intuition discriminate))
    as (root & evs & rest & ivs & E & _). exists ((root, evs) :: rest). split; [done|].
  vm_compute in E. by injection E as <- <- <-.
Qed.
