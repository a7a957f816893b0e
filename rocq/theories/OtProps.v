(** Properties of recorded OpenTracing spans: C71, C87. *)
From Verif Require Import Base StrOrder TimeModel ReflModel ReflSpec ReflProofs3 EventModel EventSpec EventProofs TraceModel OtModel OtSpec.
From Coq Require Import ssreflect.
Local Open Scope general_if_scope.

(** ** The annotations of the events *)
Lemma perm2 {A} (a b : A) l : Permutation [a; b] l -> l = [a; b] \/ l = [b; a].
Proof.
  intros H. pose proof (Permutation_length H) as Hl. destruct l as [|x [|y [|]]]; try done.
  assert (a ∈ [x; y]) as Ha by (rewrite <- H; left). apply elem_of_cons in Ha as [<-|Ha%elem_of_list_singleton].
  - apply Permutation_cons_inv, Permutation_singleton_l in H. injection H as <-. by left.
  - subst y. assert (Permutation [a; b] [a; x]) as H' by (rewrite H; apply perm_swap).
    apply Permutation_cons_inv, Permutation_singleton_l in H'. injection H' as ->. by right.
Qed.
Lemma marshal_name n anns : marshal name_event (VStruct [("Name", VString n)]) anns <-> name_anns n anns.
Proof.
  split.
  - intros H. inversion H as [f a Hf|fl fl' _ Hfl Hp Heq]; [done|]. injection Hfl as <-. apply Permutation_singleton_l in Hp. subst. done.
  - intros ->. apply (marshal_plain name_event _ [("Name", n)] [("Name", n)]); done.
Qed.
Lemma marshal_log m t anns : marshal log_event (VStruct [("Msg", VString m); ("Time", VTime t)]) anns <-> log_anns m t anns.
Proof.
  split.
  - intros H. inversion H as [f a Hf|fl fl' _ Hfl Hp Heq]; [done|]. injection Hfl as <-. apply perm2 in Hp as [Hp|Hp]; subst; [by left|by right].
  - assert (flatten (VStruct [("Msg", VString m); ("Time", VTime t)]) "" = Some [("Msg", m); ("Time", fmt_time t)]) as Hf by done.
    intros [->| ->].
    + apply (marshal_plain log_event _ _ [("Msg", m); ("Time", fmt_time t)] eq_refl Hf). done.
    + apply (marshal_plain log_event _ _ [("Time", fmt_time t); ("Msg", m)] eq_refl Hf). apply perm_swap.
Qed.
Lemma marshal_timespan s e anns :
  marshal Timespan_event (VStruct [("Span.Start", VTime s); ("Span.End", VTime e)]) anns <-> timespan_anns s e anns.
Proof.
  split.
  - intros H. inversion H as [f a Hf|fl fl' _ Hfl Hp Heq]; [done|]. injection Hfl as <-. apply perm2 in Hp as [Hp|Hp]; subst; [by left|by right].
  - assert (flatten (VStruct [("Span.Start", VTime s); ("Span.End", VTime e)]) "" = Some [("Span.Start", fmt_time s); ("Span.End", fmt_time e)]) as Hf by done.
    intros [->| ->].
    + apply (marshal_plain Timespan_event _ _ [("Span.Start", fmt_time s); ("Span.End", fmt_time e)] eq_refl Hf). done.
    + apply (marshal_plain Timespan_event _ _ [("Span.End", fmt_time e); ("Span.Start", fmt_time s)] eq_refl Hf). apply perm_swap.
Qed.

(** ** The text of logs *)
Lemma fields_snoc l f : fields_as_map (l ++ [f]) = <[fst f := snd f]> (fields_as_map l).
Proof. unfold fields_as_map. by rewrite fold_left_app. Qed.
Lemma last_value_snoc l f k : last_value (l ++ [f]) k = if decide (fst f = k) then Some (snd f) else last_value l k.
Proof.
  unfold last_value. rewrite filter_app filter_cons filter_nil. case_decide; [by rewrite last_snoc|by rewrite app_nil_r].
Qed.
Lemma fields_lookup l k : fields_as_map l !! k = last_value l k.
Proof.
  induction l as [|f l IH] using rev_ind; [done|]. rewrite fields_snoc last_value_snoc. case_decide as H.
  - by rewrite -H lookup_insert.
  - by rewrite lookup_insert_ne.
Qed.
Lemma last_value_some l k : is_Some (last_value l k) <-> exists f, f ∈ l /\ fst f = k.
Proof.
  induction l as [|f l IH] using rev_ind.
  { split; [by intros [? ?]|by intros (? & ?%elem_of_nil & _)]. }
  rewrite last_value_snoc. case_decide as H.
  - split; [|done]. intros _. exists f. split; [apply elem_of_app; right; left|done].
  - rewrite IH. split; intros (g & Hg & Hk); exists g; (split; [|done]); [apply elem_of_app; by left|].
    apply elem_of_app in Hg as [Hg|Hg%elem_of_list_singleton]; [done|by subst].
Qed.
Lemma materialize_text json fields : log_text json fields (materialize json fields).
Proof.
  unfold materialize. assert (forall k, fields_as_map fields !! k = last_value fields k) as Hm by apply fields_lookup.
  assert ((fields <> [] /\ forall f, f ∈ fields -> fst f = "event"%string) -> size (fields_as_map fields) = 1%nat /\ is_Some (fields_as_map fields !! "event")) as Hone.
  { intros [Hne Hall]. assert (is_Some (fields_as_map fields !! "event")) as Hs.
    { rewrite Hm. apply last_value_some. destruct fields as [|f fs]; [done|]. exists f. split; [left|apply Hall; left]. }
    split; [|done]. destruct Hs as [v Hv]. assert (fields_as_map fields = {["event" := v]}) as ->; [|apply map_size_singleton].
    apply map_eq. intros k. destruct (decide (k = "event"%string)) as [->|Hk]; [by rewrite lookup_singleton|].
    rewrite lookup_singleton_ne; [congruence|]. rewrite Hm. destruct (last_value fields k) eqn:E; [|done].
    assert (is_Some (last_value fields k)) as (f & Hf & <-)%last_value_some by (rewrite E; eauto). by destruct Hk; apply Hall. }
  case_decide as Hsz.
  - destruct (fields_as_map fields !! "event") as [v|] eqn:Hv.
    + left. split; [|by rewrite -Hm]. intros f Hf.
      destruct (decide (fst f = "event"%string)) as [|Hne]; [done|]. exfalso.
      assert (is_Some (fields_as_map fields !! fst f)) as [w Hw]. { rewrite Hm. apply last_value_some. by exists f. }
      rewrite -(insert_delete _ _ _ Hv) in Hsz. rewrite map_size_insert_None in Hsz; [apply lookup_delete|].
      assert (size (delete "event" (fields_as_map fields)) = 0%nat) as H0%map_size_empty_iff by lia.
      assert (delete "event" (fields_as_map fields) !! fst f = Some w) as H1 by (rewrite lookup_delete_ne; [congruence|done]).
      by rewrite H0 lookup_empty in H1.
    + right. split; [|by exists (fields_as_map fields)]. intros [_ [? ?]]%Hone. done.
  - right. split; [|by exists (fields_as_map fields)]. by intros [? _]%Hone.
Qed.

(** ** One write *)
Lemma log_error_inv id err r os r' : log_error id err r os r' -> exists now report, log_anns err now report /\
  (os = [OCollect id report None] \/ (exists e2, os = [OCollect id report (Some e2)]) \/
   (exists e2, os = [OCollect id report (Some e2); OLine ("Appdash Recorder collect error: " +:+ e2)])).
Proof.
  intros H. destruct H as [r now anns Hm|r now anns err2 Hm Hv|r now anns err2 Hm Hv]; apply marshal_log in Hm; exists now, anns; (split; [done|]).
  - by left.
  - right; right. by exists err2.
  - right; left. by exists err2.
Qed.
Lemma annotation_attempt id w r os r' : collect_annotation id w r os r' -> attempt id w os.
Proof.
  intros H. destruct H as [r|r err os r' H]; [constructor|].
  apply log_error_inv in H as (now & report & Hl & [->|[[e2 ->]|[e2 ->]]]); [eapply at_reported|eapply at_silent|eapply at_line]; exact Hl.
Qed.
Lemma event_attempt id et x r os r' fl : flatten x "" = Some fl -> collect_event id et x r os r' -> exists w, marshal et x w /\ attempt id w os.
Proof.
  intros Hfl H. destruct H as [r anns os r' Hm H|r err os r' Hf H]; [|congruence].
  exists anns. split; [done|]. eapply annotation_attempt; eassumption.
Qed.
Lemma each_attempts {A} (body : A -> ot -> list obs -> ot -> Prop) id (Q : A -> list Annotation -> Prop) l r os r' :
  (forall a r os r', body a r os r' -> exists w, Q a w /\ attempt id w os) -> each body l r os r' ->
  exists ws blocks, Forall2 Q l ws /\ os = concat blocks /\ Forall2 (attempt id) ws blocks.
Proof.
  intros Hb H. induction H as [r|a l r os1 r1 os2 r2 H1 _ (ws & blocks & HQ & -> & HF)]; [by exists [], []|].
  apply Hb in H1 as (w & Hw & Ha). exists (w :: ws), (os1 :: blocks). split_and!; [by constructor|done|by constructor].
Qed.
Lemma Forall2_eq_map {A B} (f : A -> B) l l' : Forall2 (fun a b => b = f a) l l' -> l' = map f l.
Proof. induction 1 as [|a b l l' -> _ IH]; [done|]. cbn. by rewrite IH. Qed.

(** C71: nothing is collected or logged for an unsampled span. *)
Theorem C71_unsampled json sp r os r' : sp_sampled sp = false -> record_span json sp r os r' -> os = [].
Proof. intros Hs H. by destruct H; [|congruence]. Qed.
Print Assumptions C71_unsampled.

(** C71: for a sampled span every write is attempted once and in order, for the span's own ID, whatever the
    collector answers; a failure is reported as a log event of the same span, and a failure of that by at
    most one line. *)
Theorem C71_writes json sp r os r' : sp_sampled sp = true -> record_span json sp r os r' ->
  exists ws blocks, span_writes json sp ws /\ os = concat blocks /\ Forall2 (attempt (sp_id sp)) ws blocks.
Proof.
  intros Hs H. destruct H as [r Hn|r0 r1 r2 r3 r4 r5 o1 o2 o3 o4 o5 tags baggage end_ _ H1 H2 Ht H3 Hb H4 Ha H5]; [congruence|].
  eapply event_attempt in H1 as (w1 & Hw1 & A1); [|done]. apply marshal_name in Hw1.
  eapply event_attempt in H5 as (w5 & Hw5 & A5); [|done]. apply marshal_timespan in Hw5.
  eapply (each_attempts _ (sp_id sp) (fun l w => exists text, log_text json (snd l) text /\ log_anns text (fst l) w)) in H2 as (w2 & b2 & Hw2 & -> & A2).
  2: { intros l r os r' H. eapply event_attempt in H as (w & Hw & Hat); [|done]. apply marshal_log in Hw. exists w. split; [|done]. eexists. split; [|exact Hw]. apply materialize_text. }
  eapply (each_attempts _ (sp_id sp) (fun e w => w = [Ann (fst e) (Some (snd e))])) in H3 as (w3 & b3 & Hw3 & -> & A3).
  2: { intros e r os r' H. eexists. split; [done|]. eapply annotation_attempt; eassumption. }
  eapply (each_attempts _ (sp_id sp) (fun e w => w = [Ann (fst e) (Some (snd e))])) in H4 as (w4 & b4 & Hw4 & -> & A4).
  2: { intros e r os r' H. eexists. split; [done|]. eapply annotation_attempt; eassumption. }
  apply Forall2_eq_map in Hw3 as ->, Hw4 as ->.
  exists (w1 :: w2 ++ map (fun e => [Ann (fst e) (Some (snd e))]) tags ++ map (fun e => [Ann (fst e) (Some (snd e))]) baggage ++ [w5]), (o1 :: b2 ++ b3 ++ b4 ++ [o5]).
  split_and!.
  - eexists w1, w2, _, _, w5, end_. split_and!; [done|done|done|by rewrite Ht|by rewrite Hb|done|done].
  - cbn. rewrite !concat_app. cbn. by rewrite app_nil_r.
  - constructor; [done|]. repeat apply Forall2_app; try done. by constructor.
Qed.
Print Assumptions C71_writes.

(** C71: when the collector accepts everything the calls carry exactly the name, the logs, the tags, the
    baggage and the timespan. *)
Theorem C71_accepted json sp r os r' : sp_sampled sp = true -> record_span json sp r os r' -> all_accepted os ->
  exists ws, span_writes json sp ws /\ os = map (fun w => OCollect (sp_id sp) w None) ws.
Proof.
  intros Hs H Hok. destruct (C71_writes _ _ _ _ _ Hs H) as (ws & blocks & Hw & -> & HF). exists ws. split; [done|]. clear H Hw.
  induction HF as [|w b ws blocks Hb _ IH]; [done|]. cbn [concat map]. assert (b = [OCollect (sp_id sp) w None]) as ->.
  { destruct Hb; [done|..]; exfalso; (eapply Hok; apply elem_of_app; left; left). }
  cbn. f_equal. apply IH. intros id anns err Hin. eapply Hok. apply elem_of_app. right. exact Hin.
Qed.
Print Assumptions C71_accepted.

(** C71: all calls are for the same SpanID. *)
Theorem C71_id json sp r os r' : record_span json sp r os r' -> forall id anns answer, OCollect id anns answer ∈ os -> id = sp_id sp.
Proof.
  intros H id anns answer Hin. destruct (sp_sampled sp) eqn:Hs.
  - destruct (C71_writes _ _ _ _ _ Hs H) as (ws & blocks & _ & -> & HF).
    apply elem_of_list_In, in_concat in Hin as (b & Hb & Hin). apply elem_of_list_In in Hb, Hin.
    apply elem_of_list_lookup in Hb as [i Hi]. destruct (Forall2_lookup_r _ _ _ _ _ HF Hi) as (w & _ & Hat).
    destruct Hat; set_solver.
  - rewrite (C71_unsampled _ _ _ _ _ Hs H) in Hin. by apply elem_of_nil in Hin.
Qed.
Print Assumptions C71_id.

(** ** Lines *)
Definition line_ok (r : ot) (os : list obs) (r' : ot) : Prop :=
  (forall rest, failed_reports (os ++ rest) = failed_reports os ++ failed_reports rest) /\
  ot_verbose r' = ot_verbose r /\
  ot_once r' = (ot_once r || negb (ot_verbose r) && negb (bool_decide (failed_reports os = []))) /\
  lines os = map collect_error (if ot_verbose r then failed_reports os else if ot_once r then [] else take 1 (failed_reports os)).
Lemma line_nil r : line_ok r [] r.
Proof. split_and!; [done..| |]; cbn; by destruct (ot_verbose r), (ot_once r). Qed.
Lemma line_app r o1 r1 o2 r2 : line_ok r o1 r1 -> line_ok r1 o2 r2 -> line_ok r (o1 ++ o2) r2.
Proof.
  intros (F1 & V1 & O1 & L1) (F2 & V2 & O2 & L2). split_and!.
  - intros rest. rewrite -app_assoc F1 F2 F1 app_assoc. done.
  - congruence.
  - rewrite O2 O1 V1 F1. destruct (ot_once r), (ot_verbose r); cbn; try done. destruct (failed_reports o1); cbn; [done|]. done.
  - unfold lines in *. rewrite omap_app L1 L2 V1 O1 F1 -map_app. f_equal.
    destruct (ot_verbose r), (ot_once r); cbn; try done. destruct (failed_reports o1) as [|e l]; cbn; [by destruct (failed_reports o2)|done].
Qed.
Lemma log_error_shape id err r os r' w rest : log_error id err r os r' -> 
  failed_reports (OCollect id w (Some err) :: os ++ rest) = failed_reports (OCollect id w (Some err) :: os) ++ failed_reports rest.
Proof.
  intros H. destruct H as [r now anns Hm|r now anns err2 Hm Hv|r now anns err2 Hm Hv]; cbn; done.
Qed.
Lemma annotation_line id w r os r' : collect_annotation id w r os r' -> line_ok r os r'.
Proof.
  intros H. destruct H as [r|r err os r' H].
  - split_and!; [done..| |]; cbn; by destruct (ot_verbose r), (ot_once r).
  - split; [intros rest; eapply log_error_shape; eassumption|]. destruct H as [r now anns Hm|r now anns err2 Hm Hv|r now anns err2 Hm Hv]; destruct r as [[] []]; try done.
Qed.
Lemma event_line id et x r os r' fl : collect_event id et x r os r' -> flatten x "" = Some fl -> line_ok r os r'.
Proof. intros H Hfl. destruct H as [r anns os r' Hm H|r err os r' Hf H]; [|congruence]. eapply annotation_line; eassumption. Qed.
Lemma each_line {A} (body : A -> ot -> list obs -> ot -> Prop) l r os r' :
  (forall a r os r', body a r os r' -> line_ok r os r') -> each body l r os r' -> line_ok r os r'.
Proof. intros Hb H. induction H as [r|a l r os1 r1 os2 r2 H1 _ IH]; [apply line_nil|]. eapply line_app; [eapply Hb; eassumption|done]. Qed.
Lemma span_line json sp r os r' : record_span json sp r os r' -> line_ok r os r'.
Proof.
  intros H. destruct H as [r Hn|r0 r1 r2 r3 r4 r5 o1 o2 o3 o4 o5 tags baggage end_ _ H1 H2 Ht H3 Hb H4 Ha H5]; [apply line_nil|].
  pose proof (event_line _ _ _ _ _ _ _ H1 eq_refl) as L1. pose proof (event_line _ _ _ _ _ _ _ H5 eq_refl) as L5.
  apply each_line in H2; [|intros a r os r' H; exact (event_line _ _ _ _ _ _ _ H eq_refl)].
  apply each_line in H3; [|intros a r os r' H; exact (annotation_line _ _ _ _ _ H)].
  apply each_line in H4; [|intros a r os r' H; exact (annotation_line _ _ _ _ _ H)].
  repeat (eapply line_app; [eassumption|]). done.
Qed.
(** C71: over all spans that a Recorder is given, a verbose one writes a line for every failed report, another
    one for the first only. *)
Theorem C71_lines json verbose sps os r' : record_spans json sps (new_ot verbose) os r' ->
  lines os = map collect_error (if verbose then failed_reports os else take 1 (failed_reports os)).
Proof. intros H. apply (each_line _ _ _ _ _ (span_line json)) in H as (_ & _ & _ & H). exact H. Qed.
Print Assumptions C71_lines.

(** ** Executions exist *)
Lemma each_ok {A} (body : A -> ot -> list obs -> ot -> Prop) (f : A -> obs) l r :
  (forall a, body a r [f a] r) -> each body l r (map f l) r.
Proof. intros Hb. induction l as [|a l IH]; [constructor|]. cbn. change (f a :: map f l) with ([f a] ++ map f l). by econstructor. Qed.
(** C71: with a collector that accepts everything, every span whose end time exists can be recorded. *)
Theorem C71_possible json sp r end_ : sp_sampled sp = true -> added (sp_start sp) (sp_duration sp) end_ ->
  exists os, record_span json sp r os r /\ all_accepted os.
Proof.
  intros Hs Ha. eexists. split.
  - eapply (rs_sampled json sp r r r r r r [_] _ _ _ [_] (map_to_list (sp_tags sp)) (map_to_list (sp_baggage sp)) end_); try done.
    + eapply ce_ok; [by apply marshal_name|constructor].
    + eapply (each_ok _ (fun l => OCollect (sp_id sp) [Ann "Msg" (Some (materialize json (snd l))); Ann "Time" (Some (fmt_time (fst l))); Ann "_schema:log" None] None)).
      intros l. eapply ce_ok; [apply marshal_log; by left|constructor].
    + eapply (each_ok _ (fun e => OCollect (sp_id sp) [Ann (fst e) (Some (snd e))] None)). constructor.
    + eapply (each_ok _ (fun e => OCollect (sp_id sp) [Ann (fst e) (Some (snd e))] None)). constructor.
    + eapply ce_ok; [apply marshal_timespan; by left|constructor].
  - intros id anns err Hin. apply elem_of_app in Hin as [Hin|Hin]; [by apply elem_of_list_singleton in Hin|].
    repeat (apply elem_of_app in Hin as [Hin|Hin]; [apply elem_of_list_fmap in Hin as (? & [=] & _)|]). by apply elem_of_list_singleton in Hin.
Qed.
Print Assumptions C71_possible.

Definition a_start : time := MkTime 2016 2 29 23 59 59 0 0.
Definition a_span : raw_span := MkRaw true (MkSpanID 1 2 0) "op" [(a_start, [("event", "e"); ("event", "f")]); (a_start, [("k", "v")])]
  {["a" := "1"; "b" := "2"]} {["a" := "3"]} a_start 1000000001.
Example C71_nonvacuous : sp_sampled a_span = true /\ added (sp_start a_span) (sp_duration a_span) (MkTime 2016 3 1 0 0 0 1 0) /\
  materialize (fun _ => "{}"%string) [("event", "e"); ("event", "f")] = "f"%string /\
  materialize (fun _ => "{}"%string) [("k", "v")] = "{}"%string /\
  exists os r', record_span (fun _ => "{}"%string) (MkRaw true (MkSpanID 1 2 0) "op" [] ∅ ∅ a_start 0) (new_ot false) os r' /\
    lines os = [collect_error "down"].
Proof.
  split; [done|]. split; [split_and!; by vm_compute|]. split; [done|]. split; [done|].
  eexists [_; _; _; _; _], _. split.
  - eapply (rs_sampled _ _ _ _ _ _ _ _ [_; _; _] [] [] [] [_; _] [] [] a_start); try done.
    + eapply ce_ok; [by apply marshal_name|]. eapply (ca_fail _ _ _ "down"). eapply (le_line _ _ _ a_start _ "down"); [apply marshal_log; by left|done].
    + constructor. + constructor. + constructor.
    + eapply ce_ok; [apply marshal_timespan; by left|]. eapply (ca_fail _ _ _ "down"). eapply (le_silent _ _ _ a_start _ "down"); [apply marshal_log; by left|done].
  - done.
Qed.

(** ** Reading a recorded span *)
Lemma string_map_none anns k : (forall a, a ∈ anns -> ann_key a <> k) -> string_map anns !! k = None.
Proof.
  induction anns as [|a anns IH] using rev_ind; intros H; [done|]. rewrite string_map_app. cbn [fold_left].
  rewrite lookup_insert_ne; [apply H, elem_of_app; right; left|]. apply IH. intros b Hb. apply H, elem_of_app. by left.
Qed.
Lemma string_map_app_lookup a b k : string_map (a ++ b) !! k = match string_map b !! k with Some s => Some s | None => string_map a !! k end.
Proof.
  induction b as [|x b IH] using rev_ind; [by rewrite app_nil_r|]. rewrite app_assoc (string_map_app (a ++ b)) (string_map_app b). cbn [fold_left].
  destruct (decide (ann_key x = k)) as [<-|E]; [by rewrite !lookup_insert|]. rewrite !lookup_insert_ne; [done..|]. exact IH.
Qed.
Lemma plain_fields_read et l fl anns : ev_unmarshaler et = None -> good (ev_ty et) (VStruct l) -> (forall f k, f ∈ ev_fields et -> foreign (snd f) (fst f) k) ->
  flatten (VStruct l) "" = Some fl -> ev_schema et ∈ schemas anns -> (forall k s, (k, s) ∈ fl -> string_map anns !! k = Some s) ->
  unmarshal et anns (zero (ev_ty et)) = EDone (VStruct l).
Proof.
  intros Hu Hg Hfor Hfl Hs Hm. unfold unmarshal. rewrite bool_decide_eq_true_2; [done|]. cbn [negb]. rewrite Hu.
  destruct (restores_top (ev_fields et) l (map_to_kvs (string_map anns)) fl Hg (kvs_sorted _) Hfl) as [kv' Hr].
  - intros [k s] He. apply kvs_elem. by apply Hm.
  - intros [k s] _ _. apply ReflProofs.foreign_struct, Forall_forall. intros f Hf. cbn [nest]. by apply Hfor.
  - unfold ev_ty. by rewrite Hr.
Qed.
Lemma collected_accepted json sp r os r' : sp_sampled sp = true -> record_span json sp r os r' -> all_accepted os ->
  exists ws, span_writes json sp ws /\ collected os = concat ws.
Proof.
  intros Hs H Hok. destruct (C71_accepted _ _ _ _ _ Hs H Hok) as (ws & Hw & ->). exists ws. split; [done|].
  unfold collected. f_equal. clear. induction ws as [|w ws IH]; [done|]. cbn. by f_equal.
Qed.
Lemma schema_key k k' s : has_prefix schema_prefix k = false -> k' = (schema_prefix +:+ s)%string -> k' <> k.
Proof. intros H -> <-. by rewrite has_prefix_app in H. Qed.
(** The keys of the parts. *)
Lemma logs_keys json ls ws : Forall2 (fun l w => exists text, log_text json (snd l) text /\ log_anns text (fst l) w) ls ws ->
  forall a, a ∈ concat ws -> ann_key a ∈ ["Msg"; "Time"; "_schema:log"].
Proof.
  intros H. induction H as [|l w ls ws (text & _ & Hl) _ IH]; intros a Ha; [by apply elem_of_nil in Ha|].
  cbn in Ha. apply elem_of_app in Ha as [Ha|Ha]; [|by apply IH]. destruct Hl as [-> | ->]; set_solver.
Qed.
Lemma pairs_concat (m : gmap string string) ws : Permutation ws (map (fun e => [Ann (fst e) (Some (snd e))]) (map_to_list m)) ->
  forall a, a ∈ concat ws <-> exists v, m !! ann_key a = Some v /\ ann_val a = Some v.
Proof.
  intros Hp a. rewrite Hp elem_of_list_In in_concat. split.
  - intros (w & Hw & Ha). apply elem_of_list_In, elem_of_list_fmap in Hw as ([k v] & -> & Hm). apply elem_of_list_In, elem_of_list_singleton in Ha. subst.
    exists v. split; [by apply elem_of_map_to_list in Hm|done].
  - intros (v & Hv & Ha). exists [a]. split; [|by left]. apply elem_of_list_In, elem_of_list_fmap. exists (ann_key a, v). split; [|by apply elem_of_map_to_list].
    destruct a as [k w]. cbn in *. by subst.
Qed.
Lemma pairs_lookup (m : gmap string string) ws k : Permutation ws (map (fun e => [Ann (fst e) (Some (snd e))]) (map_to_list m)) ->
  string_map (concat ws) !! k = m !! k.
Proof.
  intros Hp. pose proof (pairs_concat m ws Hp) as Hin. destruct (m !! k) as [v|] eqn:Hk.
  - apply string_map_lookup.
    + assert (map ann_key (concat ws) = concat (map (map ann_key) ws)) as -> by by rewrite concat_map.
      assert (Permutation (map (map ann_key) ws) (map (fun e => [e]) (map fst (map_to_list m)))) as ->.
      { rewrite Hp !map_map. done. }
      assert (forall l : list string, concat (map (fun e => [e]) l) = l) as -> by (intros l; induction l as [|x l IH]; [done|]; cbn; by rewrite IH).
      apply NoDup_fst_map_to_list.
    + exists (Ann k (Some v)). split; [|done]. apply Hin. by exists v.
  - apply string_map_none. intros a Ha Ek. apply Hin in Ha as (v & Hv & _). congruence.
Qed.
(** What a reader finds under a key: the baggage counts before the tags. *)
Lemma writes_lookup json sp ws k : span_writes json sp ws -> k ∉ reserved -> has_prefix schema_prefix k = false ->
  string_map (concat ws) !! k = match sp_baggage sp !! k with Some v => Some v | None => sp_tags sp !! k end.
Proof.
  intros (name & logs & tags & baggage & times & end_ & -> & Hn & Hl & Ht & Hb & _ & Hs) Hk Hsch.
  assert (forall s, schema_prefix +:+ s <> k)%string as Hnk by (intros s; by apply (schema_key k _ s Hsch)).
  cbn [concat]. rewrite !concat_app. cbn [concat]. rewrite app_nil_r !string_map_app_lookup (pairs_lookup _ _ _ Ht) (pairs_lookup _ _ _ Hb).
  assert (string_map times !! k = None) as ->.
  { pose proof (Hnk "Timespan"). apply string_map_none. intros a Ha E. unfold reserved in Hk. destruct Hs as [-> | ->];
    (repeat (apply elem_of_cons in Ha as [->|Ha]; [cbn in E; set_solver|])); by apply elem_of_nil in Ha. }
  assert (string_map (concat logs) !! k = None) as ->.
  { pose proof (Hnk "log"). apply string_map_none. intros a Ha%(logs_keys _ _ _ Hl) E. unfold reserved in Hk. rewrite E in Ha. set_solver. }
  assert (string_map name !! k = None) as ->.
  { pose proof (Hnk "name"). apply string_map_none. intros a Ha E. unfold reserved in Hk. rewrite Hn in Ha.
    (repeat (apply elem_of_cons in Ha as [->|Ha]; [cbn in E; set_solver|])); by apply elem_of_nil in Ha. }
  destruct (sp_baggage sp !! k); [done|]. by destruct (sp_tags sp !! k).
Qed.

(** C87: the name of the span, as shown, is the operation. *)
Theorem C87_name json sp r os r' : sp_sampled sp = true -> record_span json sp r os r' -> all_accepted os ->
  span_name (collected os) = sp_operation sp.
Proof.
  intros Hs H Hok. destruct (collected_accepted _ _ _ _ _ Hs H Hok) as (ws & (name & logs & tags & baggage & times & end_ & -> & -> & _) & ->). done.
Qed.
Print Assumptions C87_name.

(** C87: tags and baggage are found under their keys if these are not taken; an item of the baggage hides the
    tag with its key. *)
Theorem C87_tags_partial json sp r os r' k : sp_sampled sp = true -> record_span json sp r os r' -> all_accepted os ->
  k ∉ reserved -> has_prefix "_schema:" k = false ->
  string_map (collected os) !! k = match sp_baggage sp !! k with Some v => Some v | None => sp_tags sp !! k end.
Proof.
  intros Hs H Hok Hk Hsch. destruct (collected_accepted _ _ _ _ _ Hs H Hok) as (ws & Hw & ->). exact (writes_lookup _ _ _ _ Hw Hk Hsch).
Qed.
Print Assumptions C87_tags_partial.

Lemma schema_in s anns parts : Ann (schema_prefix +:+ s) None ∈ anns -> anns ∈ parts -> s ∈ schemas (concat parts).
Proof. intros H1 H2. apply schemas_elem. exists None. apply elem_of_list_In, in_concat. exists anns. split; by apply elem_of_list_In. Qed.
Definition free (sp : raw_span) (k : string) : Prop := sp_tags sp !! k = None /\ sp_baggage sp !! k = None.

(** C87: the name and the times are read back if no tag and no baggage item has a key of theirs. *)
Theorem C87_events_partial json sp r os r' : sp_sampled sp = true -> record_span json sp r os r' -> all_accepted os -> valid_time (sp_start sp) ->
  free sp "Name" -> free sp "Span.Start" -> free sp "Span.End" ->
  unmarshal name_event (collected os) (zero (ev_ty name_event)) = EDone (VStruct [("Name", VString (sp_operation sp))]) /\
  exists end_, added (sp_start sp) (sp_duration sp) end_ /\
    unmarshal Timespan_event (collected os) (zero (ev_ty Timespan_event)) =
    EDone (VStruct [("Span.Start", VTime (sp_start sp)); ("Span.End", VTime end_)]).
Proof.
  intros Hs H Hok Hv [HN1 HN2] [HS1 HS2] [HE1 HE2]. destruct (collected_accepted _ _ _ _ _ Hs H Hok) as (ws & Hw & ->).
  destruct Hw as (name & logs & tags & baggage & times & end_ & -> & Hn & Hl & Ht & Hb & Ha & Htm). split.
  - apply (plain_fields_read _ _ [("Name", sp_operation sp)]); [done| | |done| |].
    + refine (conj eq_refl (conj _ (conj I (conj (or_intror eq_refl) I)))). apply names_ok_b_ok; vm_compute; reflexivity.
    + intros f k ->%elem_of_list_singleton. done.
    + apply (schema_in _ name); [rewrite Hn; right; left|left].
    + intros k s [= -> ->]%elem_of_list_singleton. cbn [concat]. rewrite !concat_app. cbn [concat].
      rewrite app_nil_r !string_map_app_lookup (pairs_lookup _ _ _ Ht) (pairs_lookup _ _ _ Hb) HN1 HN2.
      assert (string_map times !! "Name" = None) as ->. { apply string_map_none. intros a Ha' E. destruct Htm as [-> | ->]; set_solver. }
      assert (string_map (concat logs) !! "Name" = None) as ->. { apply string_map_none. intros a Ha'%(logs_keys _ _ _ Hl) E. rewrite E in Ha'. set_solver. }
      rewrite Hn. done.
  - exists end_. split; [done|]. apply (plain_fields_read _ _ [("Span.Start", fmt_time (sp_start sp)); ("Span.End", fmt_time end_)]); [done| | |done| |].
    + refine (conj eq_refl (conj _ (conj Hv (conj (or_intror eq_refl) (conj (proj1 Ha) (conj (or_intror eq_refl) I)))))). apply names_ok_b_ok; vm_compute; reflexivity.
    + intros f k [-> | ->%elem_of_list_singleton]%elem_of_cons; done.
    + apply (schema_in _ times); [destruct Htm as [-> | ->]; right; right; left|]. right. rewrite !elem_of_app. right. right. right. left.
    + intros k s Hk. cbn [concat]. rewrite !concat_app. cbn [concat]. rewrite app_nil_r !string_map_app_lookup.
      assert (string_map times !! k = Some s) as ->; [|done].
      apply string_map_lookup; [destruct Htm as [-> | ->]; cbn [map ann_key]; apply (bool_decide_unpack _); vm_compute; reflexivity|].
      exists (Ann k (Some s)). split; [|done]. destruct Htm as [-> | ->]; set_solver.
Qed.
Print Assumptions C87_events_partial.

(** C87: of the logs only the last one is read back, if no tag and no baggage item has one of its keys. *)
Theorem C87_logs_partial json sp r os r' before t fields : sp_sampled sp = true -> record_span json sp r os r' -> all_accepted os ->
  sp_logs sp = before ++ [(t, fields)] -> valid_time t -> free sp "Msg" -> free sp "Time" ->
  exists text, log_text json fields text /\
    unmarshal log_event (collected os) (zero (ev_ty log_event)) = EDone (VStruct [("Msg", VString text); ("Time", VTime t)]).
Proof.
  intros Hs H Hok Hlogs Hv [HM1 HM2] [HT1 HT2]. destruct (collected_accepted _ _ _ _ _ Hs H Hok) as (ws & Hw & ->).
  destruct Hw as (name & logs & tags & baggage & times & end_ & -> & Hn & Hl & Ht & Hb & Ha & Htm). rewrite Hlogs in Hl.
  apply Forall2_app_inv_l in Hl as (logs1 & logs2 & Hl1 & Hl2 & ->). apply Forall2_cons_inv_l in Hl2 as (w & ? & (text & Htext & Hlog) & Hnil & ->).
  apply Forall2_nil_inv_l in Hnil as ->. cbn [fst snd] in *. exists text. split; [done|].
  apply (plain_fields_read _ _ [("Msg", text); ("Time", fmt_time t)]); [done| | |done| |].
  - refine (conj eq_refl (conj _ (conj I (conj (or_intror eq_refl) (conj Hv (conj (or_intror eq_refl) I)))))). apply names_ok_b_ok; vm_compute; reflexivity.
  - intros f k [-> | ->%elem_of_list_singleton]%elem_of_cons; done.
  - apply (schema_in _ w); [destruct Hlog as [-> | ->]; right; right; left|]. right. rewrite !elem_of_app. left. right. left.
  - intros k s Hk. cbn [concat]. rewrite !concat_app. cbn [concat]. rewrite !app_nil_r !string_map_app_lookup (pairs_lookup _ _ _ Ht) (pairs_lookup _ _ _ Hb).
    assert (sp_tags sp !! k = None /\ sp_baggage sp !! k = None /\ string_map times !! k = None) as (-> & -> & ->).
    { assert (string_map times !! "Msg" = None) by (apply string_map_none; intros a Ha' E; destruct Htm as [-> | ->]; set_solver).
      assert (string_map times !! "Time" = None) by (apply string_map_none; intros a Ha' E; destruct Htm as [-> | ->]; set_solver).
      apply elem_of_cons in Hk as [[= -> ->]|[= -> ->]%elem_of_list_singleton]; done. }
    assert (string_map w !! k = Some s) as ->; [|done].
    apply string_map_lookup; [destruct Hlog as [-> | ->]; cbn [map ann_key]; apply (bool_decide_unpack _); vm_compute; reflexivity|].
    exists (Ann k (Some s)). split; [|done]. destruct Hlog as [-> | ->]; set_solver.
Qed.
Print Assumptions C87_logs_partial.

(** C87 is false as stated for logs: the first of two logs with different texts is lost in every accepted
    recording of a span, whatever its tags are called (if they spare the log's keys). *)
Theorem C87_refuted json sp r os r' l1 l2 text1 : sp_sampled sp = true -> record_span json sp r os r' -> all_accepted os ->
  sp_logs sp = [l1; l2] -> valid_time (fst l2) -> free sp "Msg" -> free sp "Time" ->
  log_text json (snd l1) text1 -> (forall text2, log_text json (snd l2) text2 -> text2 <> text1) ->
  forall reg evs res, reg !! "log" = Some log_event -> unmarshal_events reg (collected os) = (evs, res) ->
  forall t, ("log"%string, VStruct [("Msg", VString text1); ("Time", VTime t)]) ∉ evs.
Proof.
  intros Hs H Hok Hlogs Hv HM HT H1 H2 reg evs res Hreg Hev t.
  destruct l2 as [t2 fields2]. destruct (C87_logs_partial json sp r os r' [l1] t2 fields2 Hs H Hok Hlogs Hv HM HT) as (text & Htext & Hun).
  unfold unmarshal_events in Hev. revert evs res Hev. generalize (schemas (collected os)) as ss. intros ss. induction ss as [|s ss IH]; intros evs res Hev; cbn [unmarshal_loop fst snd] in Hev.
  - injection Hev as <- <-. apply not_elem_of_nil.
  - destruct (reg !! s) as [et|] eqn:Hs'; [|eapply IH; exact Hev]. destruct (unmarshal et (collected os) (zero (ev_ty et))) as [f| | |x] eqn:Hx; try (injection Hev as <- <-; apply not_elem_of_nil).
    destruct (unmarshal_loop reg (collected os) ss) as [evs' res'] eqn:Hloop. cbn [unmarshal_loop fst snd] in Hev. injection Hev as <- <-. apply not_elem_of_cons. split; [|eapply IH; reflexivity].
    intros [= <- <-]. rewrite Hreg in Hs'. injection Hs' as <-. apply (H2 text Htext). congruence.
Qed.
Print Assumptions C87_refuted.

(** C87 is false as stated for names: a tag "Name" replaces the name that is read back. *)
Theorem C87_name_refuted : exists json sp os r', sp_sampled sp = true /\ record_span json sp (new_ot false) os r' /\ all_accepted os /\
  sp_operation sp = "op"%string /\
  unmarshal name_event (collected os) (zero (ev_ty name_event)) = EDone (VStruct [("Name", VString "tag")]).
Proof.
  set (sp := MkRaw true (MkSpanID 1 2 0) "op" [] {["Name" := "tag"]} ∅ a_start 0).
  destruct (C71_possible (fun _ => ""%string) sp (new_ot false) a_start) as (os & H & Hok); [done|by split_and!; vm_compute|].
  exists (fun _ => ""%string), sp, os, (new_ot false). split_and!; [done|done|done|done|].
  destruct (collected_accepted _ sp _ _ _ eq_refl H Hok) as (ws & (name & logs & tags & baggage & times & end_ & -> & Hn & Hl & Ht & Hb & Ha & Htm) & ->).
  apply (plain_fields_read _ _ [("Name", "tag"%string)]); [done| | |done| |].
  - refine (conj eq_refl (conj _ (conj I (conj (or_intror eq_refl) I)))). apply names_ok_b_ok; vm_compute; reflexivity.
  - intros f k ->%elem_of_list_singleton. done.
  - apply (schema_in _ name); [rewrite Hn; right; left|left].
  - intros k s [= -> ->]%elem_of_list_singleton. cbn [concat]. rewrite !concat_app. cbn [concat].
    rewrite app_nil_r !string_map_app_lookup (pairs_lookup _ _ _ Ht) (pairs_lookup _ _ _ Hb).
    assert (string_map times !! "Name" = None) as ->. { apply string_map_none. intros a Ha' E. destruct Htm as [-> | ->]; set_solver. }
    done.
Qed.
Print Assumptions C87_name_refuted.

Example C87_nonvacuous : exists os, record_span (fun _ => "{}"%string) a_span (new_ot false) os (new_ot false) /\ all_accepted os /\
  valid_time (sp_start a_span) /\ free a_span "Name" /\ free a_span "Span.Start" /\ free a_span "Span.End" /\ free a_span "Msg" /\ free a_span "Time" /\
  "a"%string ∉ reserved /\ string_map (collected os) !! "a" = Some "3"%string /\ string_map (collected os) !! "b" = Some "2"%string /\
  log_text (fun _ => "{}"%string) [("event", "e"); ("event", "f")] "f" /\
  (forall text, log_text (fun _ => "{}"%string) [("k", "v")] text -> text <> "f"%string).
Proof.
  destruct (C71_possible (fun _ => "{}"%string) a_span (new_ot false) (MkTime 2016 3 1 0 0 0 1 0)) as (os & H & Hok); [done|split_and!; by vm_compute|].
  exists os. assert (forall k, k ∉ reserved -> has_prefix "_schema:" k = false -> _) as Hk by (intros k; exact (C87_tags_partial _ a_span _ _ _ k eq_refl H Hok)).
  split_and!; try done.
  - unfold reserved. set_solver.
  - rewrite Hk; [unfold reserved; set_solver|done|done].
  - rewrite Hk; [unfold reserved; set_solver|done|done].
  - left. split; [set_solver|done].
  - intros text [[H1 _]|[_ (m & -> & _)]]; [|done]. specialize (H1 ("k", "v")%string). set_solver.
Qed.
