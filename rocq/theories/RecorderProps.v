(** C44, C45, C81: Recorder. *)
From Verif Require Import Base ReflModel TimeModel EventModel RecorderModel RecorderSpec.
From Coq Require Import ssreflect.

Lemma met_after_app before calls1 calls2 :
  met_after before (calls1 ++ calls2) = met_after before calls1 ++ met_after (before ++ calls1) calls2.
Proof.
  revert before. induction calls1 as [|c calls1 IH]=> before /=; first by rewrite app_nil_r.
  by rewrite IH -!app_assoc.
Qed.
Lemma met_snoc calls c : met (calls ++ [c]) = met calls ++ error_of calls c.
Proof. by rewrite /met met_after_app /= app_nil_r. Qed.

(** The whole state after any calls. *)
Lemma run_state logger span calls :
  let r := rec_run (new_recorder logger span) calls in
  r_logger r = logger /\ r_span r = span /\ r_anns r = recorded_anns calls /\
  (r_finished r = true <-> Exists is_finish calls) /\
  (logger = false -> concat (r_returned r) ++ r_errors r = map snd (met calls) /\ r_lines r = []) /\
  (logger = true -> r_lines r = map error_line (met calls) /\ r_errors r = [] /\ Forall (eq []) (r_returned r)).
Proof.
  induction calls as [|c calls IH] using rev_ind.
  - cbn. rewrite Exists_nil. split_and!; try done.
  - cbn zeta. rewrite /rec_run fold_left_app /= -/(rec_run _ calls).
    destruct IH as (Hl & Hs & Ha & Hf & He & Hg).
    remember (rec_run (new_recorder logger span) calls) as r.
    rewrite met_snoc Exists_app Exists_cons Exists_nil /recorded_anns bind_app /= app_nil_r -/(recorded_anns calls).
    rewrite /rec_step /error_of /is_finish.
    destruct (c_op c) as [[anns|err]|anns| |] eqn:Hop; cbn.
    + rewrite Ha app_nil_r. split_and!; try done. rewrite Hf. tauto.
    + rewrite /rec_error /= Hl. destruct logger; cbn; rewrite ?app_nil_r.
      * split_and!; try done; first (rewrite Hf; tauto). intros _. destruct (Hg eq_refl) as (H1 & H2 & H3).
        rewrite H1 map_app. done.
      * split_and!; try done; first (rewrite Hf; tauto). intros _. destruct (He eq_refl) as (H1 & H2).
        rewrite map_app -H1 -app_assoc. done.
    + rewrite /rec_annotation /rec_error. destruct (c_answer c) as [err|]; cbn; last first.
      { rewrite !app_nil_r. split_and!; try done. rewrite Hf. tauto. }
      rewrite Hl. destruct logger; cbn; rewrite ?app_nil_r.
      * split_and!; try done; first (rewrite Hf; tauto). intros _. destruct (Hg eq_refl) as (H1 & H2 & H3).
        rewrite H1 map_app. done.
      * split_and!; try done; first (rewrite Hf; tauto). intros _. destruct (He eq_refl) as (H1 & H2).
        rewrite map_app -H1 -app_assoc. done.
    + rewrite app_nil_r. destruct (r_finished r) eqn:Hfin.
      * assert (Exists is_finish calls) as Hex by by apply Hf. rewrite decide_True //.
        rewrite /rec_error /= Hl. destruct logger; cbn.
        -- split_and!; try done; first (rewrite Hfin; tauto). intros _. destruct (Hg eq_refl) as (H1 & H2 & H3).
           rewrite H1 map_app. done.
        -- split_and!; try done; first (rewrite Hfin; tauto). intros _. destruct (He eq_refl) as (H1 & H2).
           rewrite map_app -H1 -app_assoc. done.
      * assert (~ Exists is_finish calls) as Hex by (intros H; apply Hf in H; congruence). rewrite decide_False //.
        rewrite /rec_annotation /rec_error. destruct (c_answer c) as [err|]; cbn; last first.
        { rewrite !app_nil_r. split_and!; try done. tauto. }
        rewrite Hl. destruct logger; cbn.
        -- split_and!; try done; first tauto. intros _. destruct (Hg eq_refl) as (H1 & H2 & H3).
           rewrite H1 map_app. done.
        -- split_and!; try done; first tauto. intros _. destruct (He eq_refl) as (H1 & H2).
           rewrite map_app -H1 -app_assoc. done.
    + rewrite !app_nil_r. split_and!; try done; first (rewrite Hf; tauto).
      * intros Hlf. destruct (He Hlf) as (H1 & H2). by rewrite concat_app /= app_nil_r.
      * intros Hlt. destruct (Hg Hlt) as (H1 & H2 & H3). split_and!; try done. apply Forall_app. split; first done.
        by repeat constructor.
Qed.

(** One call: what is given to the collector. *)
Lemma step_collects r c :
  r_collects (rec_step r c) = r_collects r ++
    (match c_op c with
     | RAnnotation anns => [(r_span r, anns)]
     | RFinish => if r_finished r then [] else [(r_span r, r_anns r)]
     | _ => []
     end) ++
    map (fun e => (r_span r, c_marshal c (error_line e)))
      (match c_op c with
       | REvent (inr err) => [("Event", err)]
       | RAnnotation _ => match c_answer c with Some err => [("Annotation", err)] | None => [] end
       | RFinish => if r_finished r then [("Finish", multiple_finish)]
                    else match c_answer c with Some err => [("Annotation", err)] | None => [] end
       | _ => []
       end)%string.
Proof.
  rewrite /rec_step. destruct (c_op c) as [[anns|err]|anns| |]; cbn; rewrite ?app_nil_r //.
  - rewrite /rec_error /=. by destruct (r_logger r).
  - rewrite /rec_annotation /rec_error. destruct (c_answer c); cbn; last done. destruct (r_logger r); by rewrite -app_assoc.
  - destruct (r_finished r); cbn.
    + rewrite /rec_error /=. by destruct (r_logger r).
    + rewrite /rec_annotation /rec_error. destruct (c_answer c); cbn; last done. destruct (r_logger r); by rewrite -app_assoc.
Qed.

Lemma reports_marshal span c e : marshals_log c -> reports span e (span, c_marshal c (error_line e)).
Proof. intros H. split; first done. apply H. Qed.

(** Calls without Finish and raw annotations only report errors. *)
Lemma collects_quiet logger span calls calls' :
  Forall marshals_log calls' -> Forall (fun c => ~ is_raw c) calls' ->
  Forall (fun c => ~ is_finish c) calls' \/ Exists is_finish calls ->
  exists L, r_collects (rec_run (new_recorder logger span) (calls ++ calls')) =
            r_collects (rec_run (new_recorder logger span) calls) ++ L /\
            Forall2 (reports span) (met_after calls calls') L.
Proof.
  induction calls' as [|c calls' IH] using rev_ind; intros Hm Hr Hf.
  - exists []. rewrite !app_nil_r. split; first done. constructor.
  - apply Forall_app in Hm as [Hm1 Hm2]. apply Forall_app in Hr as [Hr1 Hr2].
    pose proof (proj1 (Forall_singleton _ _) Hm2) as Hm2'; clear Hm2; rename Hm2' into Hm2. pose proof (proj1 (Forall_singleton _ _) Hr2) as Hr2'; clear Hr2; rename Hr2' into Hr2.
    assert (Forall (fun c => ~ is_finish c) calls' \/ Exists is_finish calls) as Hf1.
    { destruct Hf as [Hf|]; last by right. left. by apply Forall_app in Hf as [??]. }
    destruct (IH Hm1 Hr1 Hf1) as (L & HL1 & HL2).
    rewrite app_assoc /rec_run fold_left_app -/(rec_run _ (calls ++ calls')) /= step_collects HL1.
    destruct (run_state logger span (calls ++ calls')) as (_ & Hs & _ & Hfin & _).
    remember (rec_run (new_recorder logger span) (calls ++ calls')) as r.
    rewrite met_after_app /= app_nil_r.
    eexists. rewrite -!app_assoc. split; first reflexivity.
    apply Forall2_app; first done.
    rewrite /error_of. destruct (c_op c) as [[anns|err]|anns| |] eqn:Hop; cbn.
    + constructor.
    + rewrite Hs. constructor; last constructor. by apply (reports_marshal span c ("Event", err)%string).
    + exfalso. apply Hr2. by rewrite /is_raw Hop.
    + destruct (decide (Exists is_finish (calls ++ calls'))) as [Hex|Hex].
      * rewrite (proj2 Hfin Hex). cbn. rewrite Hs. constructor; last constructor. by apply (reports_marshal span c ("Finish", _)%string).
      * exfalso. destruct Hf as [Hf|Hf]; last by apply Hex, Exists_app; left.
        apply Forall_app in Hf as [_ Hf]. pose proof (proj1 (Forall_singleton _ _) Hf) as Hf'; clear Hf; rename Hf' into Hf. apply Hf. by rewrite /is_finish Hop.
    + constructor.
Qed.

(** C44: nothing but error reports reaches the collector before Finish; Finish passes all annotations of
    the events recorded so far in one Collect call, for the recorder's span and in recording order;
    after it nothing but error reports reaches the collector. *)
Theorem C44_finish logger span before fin after :
  Forall marshals_log (before ++ fin :: after) ->
  Forall (fun c => ~ is_raw c) (before ++ after) -> Forall (fun c => ~ is_finish c) before -> is_finish fin ->
  exists L1 L2,
    r_collects (rec_run (new_recorder logger span) before) = L1 /\
    r_collects (rec_run (new_recorder logger span) (before ++ fin :: after)) = L1 ++ [(span, recorded_anns before)] ++ L2 /\
    Forall2 (reports span) (met before) L1 /\
    Forall2 (reports span) (met_after before (fin :: after)) L2.
Proof.
  intros Hm Hr Hf Hfin. apply Forall_app in Hm as [Hm1 Hm2]. apply Forall_cons in Hm2 as [Hm2 Hm3].
  apply Forall_app in Hr as [Hr1 Hr2].
  destruct (collects_quiet logger span [] before) as (L1 & HL1 & HL1'); [done..|by left|].
  change ([] ++ before) with before in HL1. change (r_collects (rec_run (new_recorder logger span) [])) with (@nil (SpanID * list Annotation)) in HL1. rewrite app_nil_l in HL1.
  destruct (collects_quiet logger span (before ++ [fin]) after) as (L2 & HL2 & HL2'); [done..| |].
  { right. apply Exists_app. right. by constructor. }
  rewrite -app_assoc /= in HL2. rewrite HL2.
  rewrite {2}/rec_run fold_left_app -/(rec_run _ before) /= step_collects.
  destruct (run_state logger span before) as (_ & Hs & Ha & Hfn & _).
  remember (rec_run (new_recorder logger span) before) as r.
  assert (r_finished r = false) as Hnf.
  { destruct (r_finished r); last done. exfalso. pose proof (proj1 Hfn eq_refl) as Hex.
    apply Exists_exists in Hex as (c & Hc & Hc'). rewrite Forall_forall in Hf. by apply (Hf c). }
  rewrite /is_finish in Hfin. destruct (c_op fin) eqn:Hop; try done. rewrite Hnf Hs Ha HL1 /=.
  eexists _, _. split; first done. rewrite -!app_assoc /=. split; first reflexivity. split; first done.
  apply Forall2_app; last done.
  assert (~ Exists is_finish before) as Hnex by (intros Hex; apply Hfn in Hex; congruence).
  rewrite /error_of Hop decide_False //.
  destruct (c_answer fin) as [err|]; cbn; last constructor.
  constructor; last constructor. by apply (reports_marshal span fin ("Annotation", err)%string).
Qed.
Print Assumptions C44_finish.

(** C44 as stated: when nothing fails, the collector is called once, by Finish. *)
Theorem C44_finish_success logger span before fin after :
  Forall marshals_log (before ++ fin :: after) ->
  Forall (fun c => ~ is_raw c) (before ++ after) -> Forall (fun c => ~ is_finish c) (before ++ after) -> is_finish fin ->
  c_answer fin = None -> Forall (fun c => forall err, c_op c <> REvent (inr err)) (before ++ after) ->
  r_collects (rec_run (new_recorder logger span) before) = [] /\
  r_collects (rec_run (new_recorder logger span) (before ++ fin :: after)) = [(span, recorded_anns before)].
Proof.
  intros Hm Hr Hf Hfin Hans Hev. pose proof Hf as Hf'. apply Forall_app in Hf' as [Hf1 Hf2].
  destruct (C44_finish logger span before fin after) as (L1 & L2 & H1 & H2 & H3 & H4); [done..|].
  assert (forall pre cs, Forall (fun c => ~ is_raw c) cs -> Forall (fun c => ~ is_finish c) cs ->
    Forall (fun c => forall err, c_op c <> REvent (inr err)) cs -> met_after pre cs = []) as Hnone.
  { intros pre cs. revert pre. induction cs as [|c cs IH]=> pre A B C; first done. cbn.
    apply Forall_cons in A as [A1 A2]. apply Forall_cons in B as [B1 B2]. apply Forall_cons in C as [C1 C2].
    rewrite IH // app_nil_r /error_of. rewrite /is_raw in A1. rewrite /is_finish in B1.
    destruct (c_op c) as [[?|?]| | |]; try done. by destruct (C1 s). }
  apply Forall_app in Hr as [Hr1 Hr2]. apply Forall_app in Hev as [He1 He2].
  rewrite /met Hnone // in H3. apply Forall2_nil_inv_l in H3. subst L1.
  cbn in H4. rewrite (Hnone _ after) // app_nil_r /error_of in H4. rewrite /is_finish in Hfin.
  destruct (c_op fin); try done.
  assert (~ Exists is_finish before) as Hnex.
  { intros (c & Hc & Hc')%Exists_exists. rewrite Forall_forall in Hf1. by apply (Hf1 c). }
  rewrite decide_False // in H4.
  rewrite Hans in H4. apply Forall2_nil_inv_l in H4. subst L2.
  rewrite H2 H3. done.
Qed.
Print Assumptions C44_finish_success.

Definition a_call (o : rop) (ans : option string) : call :=
  MkCall o ans (fun msg => [ann_of ("Msg", msg); ann_of ("Time", fmt_time time_zero); schema_ann "log"]).
Lemma a_call_marshals o ans : marshals_log (a_call o ans).
Proof.
  intros msg. exists time_zero.
  apply (marshal_plain log_event (VStruct [("Msg", VString msg); ("Time", VTime time_zero)])
    [("Msg", msg); ("Time", fmt_time time_zero)]%string [("Msg", msg); ("Time", fmt_time time_zero)]%string); done.
Qed.
Definition a_span : SpanID := MkSpanID 1 2 3.
Definition ann_a : Annotation := Ann "a" (Some "1").
Definition ann_b : Annotation := Ann "b" (Some "2").
Example C44_nonvacuous :
  let before := [a_call (REvent (inl [ann_a])) None; a_call RErrors None; a_call (REvent (inl [ann_b; ann_a])) None] in
  let fin := a_call RFinish None in
  r_collects (rec_run (new_recorder false a_span) before) = [] /\
  r_collects (rec_run (new_recorder false a_span) (before ++ [fin])) = [(a_span, [ann_a; ann_b; ann_a])] /\
  Forall marshals_log (before ++ [fin]) /\ is_finish fin /\
  length (r_collects (rec_run (new_recorder false a_span) (before ++ [fin; fin]))) = 2%nat.
Proof. cbn zeta. split; first done. split; first done. split; first (repeat constructor; apply a_call_marshals). done. Qed.

(** C45, without a Logger: after every Errors call, the results of the Errors calls so far are together
    exactly the errors met so far, each once and in order; nothing is logged. *)
Theorem C45_errors span calls c : is_errors c ->
  let r := rec_run (new_recorder false span) (calls ++ [c]) in
  concat (r_returned r) = map snd (met calls) /\ r_lines r = [] /\
  length (r_returned r) = S (length (r_returned (rec_run (new_recorder false span) calls))).
Proof.
  intros Hc r. subst r. destruct (run_state false span calls) as (_ & _ & _ & _ & He & _). destruct (He eq_refl) as [H1 H2].
  rewrite /rec_run fold_left_app -/(rec_run _ calls) /=.
  rewrite /is_errors in Hc. rewrite /rec_step. destruct (c_op c); try done. cbn.
  rewrite concat_app /= app_nil_r app_length /=. split; first done. split; first done. lia.
Qed.
Print Assumptions C45_errors.

(** An error is never returned before it is met, and none is lost in between. *)
Theorem C45_errors_pending span calls :
  exists pending, concat (r_returned (rec_run (new_recorder false span) calls)) ++ pending = map snd (met calls).
Proof. destruct (run_state false span calls) as (_ & _ & _ & _ & He & _). destruct (He eq_refl) as [H1 _]. eauto. Qed.
Print Assumptions C45_errors_pending.

(** C45, with a Logger: each error is logged once, in order, and Errors returns nothing. *)
Theorem C45_logger span calls :
  let r := rec_run (new_recorder true span) calls in
  r_lines r = map error_line (met calls) /\ Forall (eq []) (r_returned r).
Proof. intros r. destruct (run_state true span calls) as (_ & _ & _ & _ & _ & Hg). destruct (Hg eq_refl) as (? & ? & ?). done. Qed.
Print Assumptions C45_logger.

Example C45_nonvacuous :
  let calls := [a_call (REvent (inr "bad")) None; a_call RErrors None; a_call RFinish (Some "down"); a_call RFinish None; a_call RErrors None] in
  met calls = [("Event", "bad"); ("Annotation", "down"); ("Finish", "multiple Recorder.Finish calls")]%string /\
  r_returned (rec_run (new_recorder false a_span) calls) = [["bad"]; ["down"; "multiple Recorder.Finish calls"]]%string /\
  length (r_lines (rec_run (new_recorder true a_span) calls)) = 3%nat.
Proof. vm_compute. done. Qed.

(** C81: "every event recorded reaches the collector or an error is met" is false: an event recorded after
    Finish is dropped in silence. *)
Theorem C81_refuted : exists span before ann after,
  let calls := before ++ a_call (REvent (inl [ann])) None :: after in
  Exists is_finish calls /\ met calls = [] /\
  forall logger, Forall (fun col => ~ In ann (snd col)) (r_collects (rec_run (new_recorder logger span) calls)).
Proof.
  exists a_span, [a_call RFinish None], ann_a, []. cbn zeta. split; first by constructor. split; first done.
  intros logger. destruct logger; repeat constructor; cbn; tauto.
Qed.
Print Assumptions C81_refuted.

(** C81, partial: it holds of the events recorded before the first Finish. *)
Theorem C81_before_finish_partial logger span before fin after anns c :
  Forall marshals_log (before ++ fin :: after) ->
  Forall (fun c => ~ is_raw c) (before ++ after) -> Forall (fun c => ~ is_finish c) before -> is_finish fin ->
  c ∈ before -> c_op c = REvent (inl anns) ->
  exists col pre post, col ∈ r_collects (rec_run (new_recorder logger span) (before ++ fin :: after)) /\
    fst col = span /\ snd col = pre ++ anns ++ post.
Proof.
  intros Hm Hr Hf Hfin Hc Hop.
  destruct (C44_finish logger span before fin after) as (L1 & L2 & _ & H2 & _ & _); [done..|].
  apply elem_of_list_split in Hc as (pre & post & ->).
  eexists (span, _), (recorded_anns pre), (recorded_anns post). split; last split.
  - rewrite H2. apply elem_of_app. right. apply elem_of_app. left. apply elem_of_list_singleton. reflexivity.
  - done.
  - cbn. by rewrite /recorded_anns bind_app bind_cons Hop.
Qed.
Print Assumptions C81_before_finish_partial.

Example C81_nonvacuous :
  let calls := [a_call (REvent (inl [ann_a])) None] ++ a_call RFinish (Some "down") :: [a_call (REvent (inl [ann_b])) None] in
  Forall marshals_log calls /\ length (r_collects (rec_run (new_recorder true a_span) calls)) = 2%nat.
Proof. split; first (repeat constructor; apply a_call_marshals). done. Qed.
