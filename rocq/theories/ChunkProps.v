(** Properties C31-C37, C75-C77 (ChunkedCollector), for every schedule [cc_run]. *)
From Verif Require Import Base ChunkModel ChunkSpec ChunkProofs.

Definition s1 : SpanID := MkSpanID 1 1 0.
Definition a (n : nat) : Annotation := Ann "k" (Some (String (Ascii.ascii_of_nat n) "")).
Definition big : Annotation := Ann "kkkkkkkkkk" (Some "vvvvvvvvvvvvvvvvvvvv"%string).
Definition q1 (n : nat) (e : option cerr) : event := EvCollect s1 [a n] (OQueued e).
Definition cfg : ccfg := MkCfg 60 true.
Definition e7 : cerr := EMultiple [EUnder 7; EQueueDropped].
Ltac next H tac := let H' := fresh in
  eassert (cc_run cfg _ _) as H' by (eapply CR_step; [exact H|tac]); clear H; rename H' into H.
Ltac coll H n x := next H ltac:(eapply CS_collect with (g := n) (id := s1) (anns := [x]); [reflexivity|apply surjective_pairing]).
Ltac beg H n x := next H ltac:(eapply CS_begin with (f := n) (q := [(s1, [x])]); reflexivity).
Ltac send H n x r := next H ltac:(eapply CS_send with (f := n) (id := s1) (anns := [x]) (e := r); reflexivity).
(** Two overlapping flushes of one span. *)
Definition racy : list event :=
  [q1 1 None; EvBegin 0 [(s1, [a 1])]; q1 2 None; EvBegin 1 [(s1, [a 2])]; EvSend 1 s1 [a 2] None; EvSend 0 s1 [a 1] None].
(** A background flush with errors, a full queue, Stop during a flush. *)
Definition busy : list event :=
  [q1 1 None; EvBegin 0 [(s1, [a 1])]; EvSend 0 s1 [a 1] (Some (EUnder 7)); EvTimeout 0 []; EvEnd 0 (Some e7); EvSetErr e7;
   q1 2 (Some e7); EvCollect s1 [big] (ODropped [(s1, [a 2])]);
   q1 3 None; EvBegin 2 [(s1, [a 3])]; q1 4 None; EvStop false; EvCollect s1 [a 5] OStopped; EvSend 2 s1 [a 3] None].

Lemma racy_run : exists c, cc_run cfg racy c.
Proof.
  pose proof (CR_nil cfg) as H. coll H 0%nat (a 1). beg H 0%nat (a 1). coll H 1%nat (a 2). beg H 1%nat (a 2).
  send H 1%nat (a 2) (@None cerr). send H 0%nat (a 1) (@None cerr). eexists. exact H.
Qed.
Lemma busy_run : exists c, cc_run cfg busy c.
Proof.
  pose proof (CR_nil cfg) as H. coll H 0%nat (a 1).
  next H ltac:(eapply CS_timer with (g := 0%nat) (f := 0%nat) (q := [(s1, [a 1])]); reflexivity).
  next H ltac:(eapply CS_send_timeout with (f := 0%nat) (id := s1) (anns := [a 1]) (e := Some (EUnder 7)); reflexivity).
  next H ltac:(eapply CS_bg_end with (g := 0%nat) (f := 0%nat); reflexivity).
  next H ltac:(eapply CS_bg_err with (g := 0%nat) (e := e7); reflexivity).
  coll H 1%nat (a 2). coll H 1%nat big. coll H 1%nat (a 3). beg H 2%nat (a 3). coll H 1%nat (a 4).
  next H ltac:(eapply CS_stop; reflexivity).
  coll H 1%nat (a 5). send H 2%nat (a 3) (@None cerr). eexists. exact H.
Qed.

Lemma stop_panics :
  (exists cfg c, cc_run cfg [EvStop true] c) /\
  (exists cfg log c, cc_run cfg log c /\ In (EvStop false) log /\ In (EvStop true) log).
Proof.
  split.
  - exists cfg, cc_init. apply (CR_step cfg [] cc_init [EvStop true]); [constructor|by constructor].
  - destruct busy_run as [c H]. exists cfg, (busy ++ [EvStop true]), c. split; [|cbn; tauto].
    eapply CR_step; [exact H|]. apply CS_stop_panic. destruct (stop_inv _ _ _ H) as (H1 & H2 & H3 & H4).
    rewrite H2. assert (cc_stopped c = true) as Hs by (apply H1; cbn; tauto). by rewrite (H4 Hs), Hs.
Qed.
Lemma sends_after_stop : exists cfg log c l1 l2 f id a e,
  cc_run cfg log c /\ log = l1 ++ EvStop false :: l2 /\ In (EvSend f id a e) l2.
Proof.
  destruct busy_run as [c H]. exists cfg, busy, c, (take 11 busy), (drop 12 busy), 2%nat, s1, [a 3], None.
  split; [exact H|]. split; [done|]. cbn. tauto.
Qed.
Lemma error_but_queued : exists cfg log c id b e,
  cc_run cfg (log ++ [EvCollect id b (OQueued (Some e))]) c /\ queued id c = b /\ b <> [].
Proof.
  pose proof (CR_nil cfg) as H. coll H 0%nat (a 1).
  next H ltac:(eapply CS_timer with (g := 0%nat) (f := 0%nat) (q := [(s1, [a 1])]); reflexivity).
  next H ltac:(eapply CS_send_timeout with (f := 0%nat) (id := s1) (anns := [a 1]) (e := Some (EUnder 7)); reflexivity).
  next H ltac:(eapply CS_bg_end with (g := 0%nat) (f := 0%nat); reflexivity).
  next H ltac:(eapply CS_bg_err with (g := 0%nat) (e := e7); reflexivity).
  coll H 1%nat (a 2). exists cfg. eexists _, _, s1, [a 2], e7. split; [exact H|]. split; [reflexivity|done].
Qed.
Lemma dropped_nothing : exists cfg log c f c' l1 q l2,
  cc_run cfg log c /\ cc_step cfg c [EvEnd f (Some EQueueDropped)] c' /\ log = l1 ++ EvBegin f q :: l2 /\ sends f l2 = q /\ q <> [].
Proof.
  pose proof (CR_nil cfg) as H. coll H 0%nat (a 1). beg H 0%nat (a 1).
  next H ltac:(eapply CS_send_timeout with (f := 0%nat) (id := s1) (anns := [a 1]) (e := None); reflexivity).
  exists cfg. eexists _, _, 0%nat, _, [q1 1 None], [(s1, [a 1])], [EvSend 0 s1 [a 1] None; EvTimeout 0 []].
  split; [exact H|]. split; [|split_and!; done].
  change (Some EQueueDropped) with (flush_result [EQueueDropped]). apply CS_end; [reflexivity|].
  intros g. change ((<[0%nat := BWait]> (∅ : gmap nat bgstate)) !! g <> Some (BFlush 0%nat)).
  intros E. apply lookup_insert_Some in E as [[_ E]|[_ E]]; [done|]. by apply lookup_empty_Some in E.
Qed.

(** C31: accepted = sent + queued + being flushed + dropped, per span, with multiplicity; and no
    span disappears, even one without annotations. *)
Theorem C31_chunked_conservation : forall cfg log c s, cc_run cfg log c ->
  Permutation (accepted s log) (sent s log ++ queued s c ++ flying s c ++ dropped s log).
Proof. exact conservation. Qed.
Print Assumptions C31_chunked_conservation.
Theorem C31_chunked_spans : forall cfg log c s, cc_run cfg log c ->
  was_accepted s log <-> was_sent s log \/ was_dropped s log \/
    (exists a, cc_pend c !! s = Some a) \/ (exists f fl, cc_fl c !! f = Some fl /\ exists a, In (s, a) (fl_rest fl)).
Proof. exact presence. Qed.
Print Assumptions C31_chunked_spans.
Example C31_nonvacuous : (exists c, cc_run cfg busy c) /\
  accepted s1 busy = [a 1; a 2; a 3; a 4] /\ sent s1 busy = [a 1; a 3] /\ dropped s1 busy = [a 2].
Proof. split; [exact busy_run|done]. Qed.

(** C32: without overlapping flushes, each span's annotations arrive in order, and when nothing of
    the span is dropped what has been sent is exactly the first part of what was accepted. *)
Theorem C32_chunked_order : forall cfg log c s, cc_run cfg log c -> no_overlap false log ->
  sublist (sent s log ++ flying s c ++ queued s c) (accepted s log) /\
  (dropped s log = [] -> accepted s log = sent s log ++ flying s c ++ queued s c).
Proof. exact order_kept. Qed.
Print Assumptions C32_chunked_order.
Example C32_nonvacuous : (exists c, cc_run cfg busy c) /\ no_overlap false busy /\ sent s1 busy = [a 1; a 3].
Proof. split; [exact busy_run|]. cbn. auto. Qed.

(** C33 is false: a manual Flush may overtake a running one. *)
Theorem C33_chunked_order_refuted : exists cfg log c s, cc_run cfg log c /\ dropped s log = [] /\
  accepted s log = [a 1; a 2] /\ sent s log = [a 2; a 1] /\ a 1 <> a 2.
Proof. destruct racy_run as [c H]. exists cfg, racy, c, s1. by split_and!. Qed.
Print Assumptions C33_chunked_order_refuted.
(** Without the hypothesis on overlaps: the sent annotations are, as a multiset, among the accepted ones. *)
Theorem C33_chunked_multiset_partial : forall cfg log c s, cc_run cfg log c -> submseteq (sent s log) (accepted s log).
Proof. exact sent_submseteq. Qed.
Print Assumptions C33_chunked_multiset_partial.
Example C33_nonvacuous : exists c, cc_run cfg racy c.
Proof. exact racy_run. Qed.

(** C34: the queue never exceeds MaxQueueSize; a Collect is dropped iff it would not fit, and then
    the queue is empty. *)
Theorem C34_chunked_queue_bounded : forall cfg log c, cf_max cfg <> 0 -> cc_run cfg log c -> small cfg log ->
  queue_bytes (cc_pend c) <= cf_max cfg.
Proof. exact queue_size. Qed.
Print Assumptions C34_chunked_queue_bounded.
Theorem C34_chunked_collect_limit : forall cfg log c id a o c', cf_max cfg <> 0 -> cc_run cfg log c ->
  small cfg (log ++ [EvCollect id a o]) -> cc_step cfg c [EvCollect id a o] c' ->
  match o with
  | OStopped => cc_pend c' = cc_pend c
  | ODropped q => cf_max cfg < account log + (24 + bytes_of a) /\ Permutation q (map_to_list (queue log)) /\ cc_pend c' = ∅
  | OQueued _ => account log + (24 + bytes_of a) <= cf_max cfg /\
      forall s, queued s c' = queued s c ++ (if bool_decide (id = s) then a else [])
  end.
Proof. exact collect_limit. Qed.
Print Assumptions C34_chunked_collect_limit.
Theorem C34_chunked_zero_means_unlimited : forall cfg log c id a o c', cf_max cfg = 0 -> cc_run cfg log c ->
  cc_step cfg c [EvCollect id a o] c' -> forall q, o <> ODropped q.
Proof. exact collect_unlimited. Qed.
Print Assumptions C34_chunked_zero_means_unlimited.
Example C34_nonvacuous : cf_max cfg <> 0 /\ (exists c, cc_run cfg busy c) /\ small cfg busy /\ account (take 7 busy) = 26 /\
  In (EvCollect s1 [big] (ODropped [(s1, [a 2])])) busy.
Proof.
  split; [done|]. split; [exact busy_run|]. split; [|split; [reflexivity|cbn; tauto]].
  intros id b o Hin. apply elem_of_list_In in Hin. 
  repeat (apply elem_of_cons in Hin as [Hin|Hin]; [try discriminate Hin; injection Hin as -> -> ->; reflexivity|]).
  by apply elem_of_nil in Hin.
Qed.

(** C35: after Stop every Collect fails, and what is sent afterwards was accepted before. *)
Theorem C35_chunked_refuses_after_stop : forall cfg log c l1 l2 s, cc_run cfg log c -> log = l1 ++ EvStop false :: l2 ->
  (forall id a o, In (EvCollect id a o) l2 -> o = OStopped) /\ accepted s log = accepted s l1.
Proof. exact accepted_after_stop. Qed.
Print Assumptions C35_chunked_refuses_after_stop.
Theorem C35_chunked_sends_only_earlier_data : forall cfg log c l1 l2 s, cc_run cfg log c -> log = l1 ++ EvStop false :: l2 ->
  submseteq (sent s log) (accepted s l1).
Proof. exact sent_after_stop. Qed.
Print Assumptions C35_chunked_sends_only_earlier_data.
Example C35_nonvacuous : (exists c, cc_run cfg busy c) /\
  busy = take 11 busy ++ EvStop false :: [EvCollect s1 [a 5] OStopped; EvSend 2 s1 [a 3] None].
Proof. split; [exact busy_run|done]. Qed.

(** C36 is false: Stop panics before the first Collect, and when called twice. *)
Theorem C36_stop_panics_refuted :
  (exists cfg c, cc_run cfg [EvStop true] c) /\
  (exists cfg log c, cc_run cfg log c /\ In (EvStop false) log /\ In (EvStop true) log).
Proof. exact stop_panics. Qed.
Print Assumptions C36_stop_panics_refuted.
(** Exactly when Stop does not panic. *)
Theorem C36_stop_panics_iff_partial : forall cfg log c p c', cc_run cfg log c -> cc_step cfg c [EvStop p] c' ->
  p = false <-> (exists id a o, In (EvCollect id a o) log) /\ ~ In (EvStop false) log.
Proof. exact stop_panics_iff. Qed.
Print Assumptions C36_stop_panics_iff_partial.
Example C36_nonvacuous : exists c c', cc_run cfg [] c /\ cc_step cfg c [EvStop true] c'.
Proof. exists cc_init, cc_init. split; [constructor|]. by constructor. Qed.

(** C37: what Flush returns, in terms of the calls it made; [queue] is what had been queued. *)
Theorem C37_flush_returns : forall cfg log c f r c', cc_run cfg log c -> cc_step cfg c [EvEnd f r] c' -> exists l1 q l2,
  log = l1 ++ EvBegin f q :: l2 /\ not_about f l2 /\ Permutation q (map_to_list (queue l1)) /\
  q = sends f l2 ++ given_up f l2 /\
  r = (match errors f l2 with [] => None | [e] => Some e | es => Some (EMultiple es) end).
Proof. exact flush_returns. Qed.
Print Assumptions C37_flush_returns.
Theorem C37_flush_nil_means_all_delivered : forall cfg log c f c', cc_run cfg log c -> cc_step cfg c [EvEnd f None] c' -> exists l1 q l2,
  log = l1 ++ EvBegin f q :: l2 /\ not_about f l2 /\ Permutation q (map_to_list (queue l1)) /\ sends f l2 = q /\
  (forall id a e, In (EvSend f id a e) l2 -> e = None) /\ (forall r, ~ In (EvTimeout f r) l2).
Proof. exact flush_ok. Qed.
Print Assumptions C37_flush_nil_means_all_delivered.
(** Collect returns the last background error since the last accepted Collect, if any. *)
Theorem C37_collect_returns_background_error : forall cfg log c id a e c', cc_run cfg log c ->
  cc_step cfg c [EvCollect id a (OQueued e)] c' -> e = last_err log.
Proof. exact collect_returns_err. Qed.
Print Assumptions C37_collect_returns_background_error.
Theorem C37_background_error_from_flush : forall cfg log c e c', cc_run cfg log c -> cc_step cfg c [EvSetErr e] c' ->
  exists f, In (EvEnd f (Some e)) log.
Proof. exact set_err_from_flush. Qed.
Print Assumptions C37_background_error_from_flush.
Example C37_nonvacuous : (exists c, cc_run cfg busy c) /\ In (EvEnd 0 (Some e7)) busy /\ last_err (take 6 busy) = Some e7 /\ last_err busy = None.
Proof. split; [exact busy_run|]. split; [cbn; tauto|done]. Qed.

(** C75 is false: "After stopping, no more data will be sent": a flush in progress goes on. *)
Theorem C75_nothing_sent_after_stop_refuted : exists cfg log c l1 l2 f id a e,
  cc_run cfg log c /\ log = l1 ++ EvStop false :: l2 /\ In (EvSend f id a e) l2.
Proof. exact sends_after_stop. Qed.
Print Assumptions C75_nothing_sent_after_stop_refuted.
(** But the flushes that begin after Stop together send at most what was queued at Stop, once. *)
Theorem C75_only_queued_before_partial : forall cfg log c, cc_run cfg log c -> forall l1 l2, log = l1 ++ EvStop false :: l2 ->
  Permutation (taken l2 ++ map_to_list (queue log)) (map_to_list (queue l1)).
Proof. exact taken_after_stop. Qed.
Print Assumptions C75_only_queued_before_partial.
Example C75_nonvacuous : (exists c, cc_run cfg busy c) /\ busy = take 11 busy ++ EvStop false :: drop 12 busy /\ map_to_list (queue (take 11 busy)) = [(s1, [a 4])].
Proof. split; [exact busy_run|]. split; [done|]. reflexivity. Qed.

(** C76 is false: a Collect whose error is that of an earlier background flush has queued its data. *)
Theorem C76_error_means_not_queued_refuted : exists cfg log c id b e,
  cc_run cfg (log ++ [EvCollect id b (OQueued (Some e))]) c /\ queued id c = b /\ b <> [].
Proof. exact error_but_queued. Qed.
Print Assumptions C76_error_means_not_queued_refuted.
(** But a nil error means queued, and the two errors that Collect itself produces mean not queued. *)
Theorem C76_nil_means_queued_partial : forall cfg log c id b o c', cc_run cfg log c -> cc_step cfg c [EvCollect id b o] c' ->
  forall s, queued s c' = match o with
    | OQueued _ => queued s c ++ (if bool_decide (id = s) then b else [])
    | OStopped => queued s c
    | ODropped _ => []
    end.
Proof. exact collect_effect. Qed.
Print Assumptions C76_nil_means_queued_partial.
Example C76_nonvacuous : exists c, cc_run cfg busy c.
Proof. exact busy_run. Qed.

(** C77 is false: Flush may return ErrQueueDropped although everything was delivered. *)
Theorem C77_dropped_means_dropped_refuted : exists cfg log c f c' l1 q l2,
  cc_run cfg log c /\ cc_step cfg c [EvEnd f (Some EQueueDropped)] c' /\ log = l1 ++ EvBegin f q :: l2 /\ sends f l2 = q /\ q <> [].
Proof. exact dropped_nothing. Qed.
Print Assumptions C77_dropped_means_dropped_refuted.
(** Conversely whenever something is given up, the error says so. *)
Theorem C77_dropped_is_reported_partial : forall cfg log c f r c', cc_run cfg log c -> cc_step cfg c [EvEnd f r] c' -> exists l1 q l2,
  log = l1 ++ EvBegin f q :: l2 /\ not_about f l2 /\ (sends f l2 <> q -> r = Some EQueueDropped \/ exists es, r = Some (EMultiple es) /\ In EQueueDropped es).
Proof. exact drop_reported. Qed.
Print Assumptions C77_dropped_is_reported_partial.
