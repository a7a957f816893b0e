(** Property C159: OpenTracing traces in the store. *)
From Verif Require Import Base MemModel MemSpec MemProofs MemProofs2 MemProofs3 MemProofs4 MemProps TimeModel TraceModel OtModel OtSpec OtProps OtSampleModel OtSampleSpec OtSampleProps EndProofs OtTreeSpec.
From Coq Require Import ssreflect.
Local Open Scope N_scope.
Local Open Scope general_if_scope.

Lemma in_trace_root cs i r tr trace : in_trace cs i r -> starts cs !! i = Some (tr, None, trace) -> i = r.
Proof. intros H E. inversion H; [done|congruence]. Qed.
Lemma in_trace_ref cs i r tr p trace : in_trace cs i r -> starts cs !! i = Some (tr, Some p, trace) -> (p < i)%nat /\ in_trace cs p r.
Proof. intros H E. inversion H; [congruence|]. by simplify_eq. Qed.
Lemma nodup_index (l : list N) i j n : NoDup l -> l !! i = Some n -> l !! j = Some n -> i = j.
Proof. intros H H1 H2. exact (NoDup_lookup _ _ _ _ H H1 H2). Qed.

Lemma filter_same {A} (P Q : A -> Prop) `{!forall x, Decision (P x)} `{!forall x, Decision (Q x)} (l : list A) : (forall x, x ∈ l -> (P x <-> Q x)) -> filter P l = filter Q l.
Proof.
  induction l as [|x l IH]; intros HPQ; [done|]. rewrite !filter_cons IH; [intros y Hy; apply HPQ; by right|].
  pose proof (HPQ x (elem_of_list_here x l)). repeat case_decide; tauto.
Qed.

Section Trace.
  Context (json : gmap string string -> string) (os : list options) (cs : list ocall) (st : ostate) (r tr : nat) (t : N) (f : N -> bool).
  Context (col : list (SpanID * list Annotation)).
  Context (Hnz : nonzero_traces cs) (Hnd : NoDup (numbers cs)) (Hz : 0 ∉ numbers cs) (Hrun : o_run os cs o_init = Some st).
  Context (Hroot : starts cs !! r = Some (tr, None, t)) (Htr : os !! tr = Some (Some f)) (Hf : f t = true).
  Context (Hall : forall i, in_trace cs i r -> exists raw, (i, raw) ∈ o_recorded st).
  Context (Hdel : delivered json cs st r t col).

  Let L := filter (fun c : SpanID * list Annotation => sp_trace (fst c) = t) col.

  Lemma rec_facts i raw : in_trace cs i r -> (i, raw) ∈ o_recorded st ->
    sp_trace (sp_id raw) = t /\ sp_sampled raw = true /\ numbers cs !! i = Some (sp_span (sp_id raw)) /\
    (sp_parent (sp_id raw) = 0 <-> i = r) /\
    (i <> r -> exists tr' p trace, starts cs !! i = Some (tr', Some p, trace) /\ in_trace cs p r /\ (p < i)%nat /\ numbers cs !! p = Some (sp_parent (sp_id raw))).
  Proof using All.
    intros Hi Hr. destruct (C126_decision _ _ _ _ _ _ Hnz Hrun Hr Hi) as (tr1 & t1 & f1 & E1 & E2 & E3 & E4). simplify_eq.
    destruct (starts cs !! i) as [[[tr' ref] trace]|] eqn:Es; [|by inversion Hi; congruence].
    destruct (C126_parent _ _ _ _ _ _ _ _ Hrun Hr Es) as [H1 H2]. split_and!; [done|congruence|done| |].
    - destruct ref as [p|].
      + destruct (in_trace_ref _ _ _ _ _ _ Hi Es) as [Hp _]. specialize (H2 Hp). split; [|intros ->; congruence].
        intros E. rewrite E in H2. exfalso. apply Hz. exact (elem_of_list_lookup_2 _ _ _ H2).
      + split; [intros _; exact (in_trace_root _ _ _ _ _ Hi Es)|done].
    - intros Hne. destruct ref as [p|]; [|by destruct (Hne (in_trace_root _ _ _ _ _ Hi Es))].
      destruct (in_trace_ref _ _ _ _ _ _ Hi Es) as [Hp Hpt]. exists tr', p, trace. split_and!; [done..|by apply H2].
  Qed.
  Lemma rec_once i raw raw' : in_trace cs i r -> (i, raw) ∈ o_recorded st -> (i, raw') ∈ o_recorded st -> sp_id raw = sp_id raw'.
  Proof using All.
    intros Hi H1 H2. destruct (OInv_run _ _ _ Hnz Hrun) as (_ & _ & Hrec). destruct (Hrec _ _ H1) as (s & Hs & E & _). destruct (Hrec _ _ H2) as (s' & Hs' & E' & _). congruence.
  Qed.
  Lemma id_inj i raw j raw' : in_trace cs i r -> (i, raw) ∈ o_recorded st -> in_trace cs j r -> (j, raw') ∈ o_recorded st -> sp_span (sp_id raw) = sp_span (sp_id raw') -> i = j /\ sp_id raw = sp_id raw'.
  Proof using All.
    intros Hi H1 Hj H2 E. destruct (rec_facts _ _ Hi H1) as (_ & _ & N1 & _). destruct (rec_facts _ _ Hj H2) as (_ & _ & N2 & _).
    rewrite E in N1. pose proof (nodup_index _ _ _ _ Hnd N1 N2) as ->. split; [done|]. exact (rec_once _ _ _ Hj H1 H2).
  Qed.
  Lemma writes_of i raw : in_trace cs i r -> (i, raw) ∈ o_recorded st -> exists ws, ws <> [] /\ span_writes json raw ws /\
    filter (fun c => fst c = sp_id raw) col = map (fun w => (sp_id raw, w)) ws.
  Proof using All.
    intros Hi Hr. destruct Hdel as [_ Hd]. destruct (Hd i raw Hi Hr) as (rec & obs & rec' & Hrec & Hacc & E). destruct (rec_facts _ _ Hi Hr) as (_ & Hs & _).
    destruct (C71_accepted _ _ _ _ _ Hs Hrec Hacc) as (ws & Hw & ->). exists ws. split_and!; [|done|].
    - destruct Hw as (? & ? & ? & ? & ? & ? & -> & _). done.
    - rewrite E /calls_made. clear. induction ws as [|w ws IH]; [done|]. cbn. by rewrite IH.
  Qed.
  Lemma spans_iff id : In id (spans_of L) <-> exists i raw, in_trace cs i r /\ (i, raw) ∈ o_recorded st /\ id = sp_id raw.
  Proof using All.
    assert (forall j, In j (map fst L) -> exists i raw, in_trace cs i r /\ (i, raw) ∈ o_recorded st /\ j = sp_id raw) as HL.
    { intros j (c & <- & Hc)%in_map_iff. apply elem_of_list_In, elem_of_list_filter in Hc as [Ht Hc]. exact (proj1 Hdel c Hc Ht). }
    split.
    - intros Hin. apply HL. by apply first_ids_elem in Hin as [Hin _].
    - intros (i & raw & Hi & Hr & ->). apply first_ids_all; [|by apply not_elem_of_nil|].
      + destruct (writes_of i raw Hi Hr) as (ws & Hne & _ & E). destruct ws as [|w ws]; [done|]. apply in_map_iff. exists (sp_id raw, w). split; [done|].
        apply elem_of_list_In, elem_of_list_filter. split; [exact (proj1 (rec_facts _ _ Hi Hr))|].
        assert ((sp_id raw, w) ∈ filter (fun c => fst c = sp_id raw) col) as Hin by (rewrite E; left). by apply elem_of_list_filter in Hin as [_ Hin].
      + intros j Hj E. destruct (HL j Hj) as (i' & raw' & Hi' & Hr' & ->). symmetry. exact (proj2 (id_inj _ _ _ _ Hi Hr Hi' Hr' (eq_sym E))).
  Qed.
  Lemma trace_complete raw : (r, raw) ∈ o_recorded st -> complete (spans_of L) (sp_id raw).
  Proof using All.
    intros Hr. assert (in_trace cs r r) as Hrr by (eapply it_root; exact Hroot). split.
    - split; [apply spans_iff; eauto|]. by apply (rec_facts _ _ Hrr Hr).
    - intros s (i & raw' & Hi & Hr' & ->)%spans_iff E. apply (rec_facts _ _ Hi Hr') in E as ->. exact (rec_once _ _ _ Hrr Hr' Hr).
    - intros s (i & raw' & Hi & Hr' & ->)%spans_iff E. destruct (rec_facts _ _ Hi Hr') as (_ & _ & N1 & _). rewrite E in N1. apply Hz. exact (elem_of_list_lookup_2 _ _ _ N1).
    - intros s (i & raw' & Hi & Hr' & ->)%spans_iff Hne. destruct (rec_facts _ _ Hi Hr') as (_ & _ & _ & _ & Hp).
      destruct Hp as (tr' & p & trace & _ & Hpt & _ & Np); [intros ->; apply Hne; exact (rec_once _ _ _ Hrr Hr' Hr)|].
      destruct (Hall p Hpt) as [rawp Hrp]. destruct (rec_facts _ _ Hpt Hrp) as (_ & _ & N1 & _). exists (sp_id rawp). split; [apply spans_iff; eauto|]. congruence.
    - exists (fun n => match list_find (fun m => m = n) (numbers cs) with Some (i, _) => i | None => O end).
      assert (forall i n, numbers cs !! i = Some n -> list_find (fun m => m = n) (numbers cs) = Some (i, n)) as Hfind.
      { intros i n H. apply list_find_Some. split_and!; [done|done|]. intros j y Hj Hlt ->. pose proof (nodup_index _ _ _ _ Hnd H Hj). lia. }
      intros c p (i & rawc & Hi & Hrc & ->)%spans_iff (j & rawp & Hj & Hrp & ->)%spans_iff E.
      destruct (rec_facts _ _ Hi Hrc) as (_ & _ & N1 & Hp0 & Hp). destruct (rec_facts _ _ Hj Hrp) as (_ & _ & N2 & _).
      rewrite (Hfind _ _ N1) (Hfind _ _ N2). destruct Hp as (tr' & p & trace & _ & _ & Hlt & Np).
      + intros ->. pose proof (proj2 Hp0 eq_refl) as E0. rewrite E in E0. rewrite E0 in N2. apply Hz. exact (elem_of_list_lookup_2 _ _ _ N2).
      + rewrite E in Np. by rewrite (nodup_index _ _ _ _ Hnd N2 Np).
  Qed.
  Lemma anns_written i raw : in_trace cs i r -> (i, raw) ∈ o_recorded st -> exists ws, span_writes json raw ws /\ anns_of (sp_span (sp_id raw)) L = concat ws.
  Proof using All.
    intros Hi Hr. destruct (writes_of i raw Hi Hr) as (ws & _ & Hw & E). exists ws. split; [done|].
    assert (filter (fun c : SpanID * list Annotation => sp_span (fst c) = sp_span (sp_id raw)) L = filter (fun c => fst c = sp_id raw) col) as EL.
    { rewrite /L list_filter_filter. apply filter_same. intros c Hc. split.
      - intros [E1 E2]. destruct (proj1 Hdel c Hc E2) as (i' & raw' & Hi' & Hr' & E3). rewrite E3 in E1. rewrite E3. exact (proj2 (id_inj _ _ _ _ Hi' Hr' Hi Hr E1)).
      - intros ->. split; [done|]. exact (proj1 (rec_facts _ _ Hi Hr)). }
    rewrite /anns_of EL E map_map /=. by rewrite map_id.
  Qed.
End Trace.

(** The trace is shown: its root is the span that began it, every other span is directly below the one that it was started with, each has
    exactly what RecordSpan wrote for it. *)
Theorem C159_shown : forall json os cs st r tr t f col ms,
  nonzero_traces cs -> NoDup (numbers cs) -> 0 ∉ numbers cs -> o_run os cs o_init = Some st ->
  starts cs !! r = Some (tr, None, t) -> os !! tr = Some (Some f) -> f t = true ->
  (forall i, in_trace cs i r -> exists raw, (i, raw) ∈ o_recorded st) -> delivered json cs st r t col ->
  ms_run (map (fun c => CCollect (fst c) (snd c)) col) ms_init = Some ms ->
  exists x, shows ms t x /\ numbers cs !! r = Some (sp_span (tr_id x)) /\ NoDup (map (fun n => sp_span (tr_id n)) (nodes x)) /\
    (forall i raw, in_trace cs i r -> (i, raw) ∈ o_recorded st -> exists n ws, In n (nodes x) /\ numbers cs !! i = Some (sp_span (tr_id n)) /\
       span_writes json raw ws /\ tr_anns n = concat ws) /\
    (forall n, In n (nodes x) -> exists i, in_trace cs i r /\ numbers cs !! i = Some (sp_span (tr_id n))) /\
    (forall n m i j tr' trace, In n (nodes x) -> In m (nodes x) -> numbers cs !! i = Some (sp_span (tr_id n)) -> numbers cs !! j = Some (sp_span (tr_id m)) ->
       starts cs !! j = Some (tr', Some i, trace) -> edge x n m) /\
    (forall n m, edge x n m -> exists i j tr' trace, numbers cs !! i = Some (sp_span (tr_id n)) /\ numbers cs !! j = Some (sp_span (tr_id m)) /\
       starts cs !! j = Some (tr', Some i, trace)).
Proof.
  intros json os cs st r tr t f col ms Hnz Hnd Hz Hrun Hroot Htr Hf Hall Hdel Hms.
  assert (in_trace cs r r) as Hrr by (eapply it_root; exact Hroot). destruct (Hall r Hrr) as [raw0 H0].
  pose proof (rec_facts json os cs st r tr t f col Hnz Hnd Hz Hrun Hroot Htr Hf Hall Hdel) as Hfacts.
  pose proof (trace_complete json os cs st r tr t f col Hnz Hnd Hz Hrun Hroot Htr Hf Hall Hdel raw0 H0) as Hc.
  pose proof (spans_iff json os cs st r tr t f col Hnz Hnd Hz Hrun Hroot Htr Hf Hall Hdel) as Hiff.
  pose proof (live_collects t col []) as HL. cbn [app] in HL. rewrite -HL in Hc, Hiff.
  destruct (C11_arrival_order_irrelevant _ _ _ _ Hms Hc) as (x & Hs & Ex & Hp & Ha & He). exists x.
  assert (forall n, In n (nodes x) -> exists i raw, in_trace cs i r /\ (i, raw) ∈ o_recorded st /\ tr_id n = sp_id raw) as Hn.
  { intros n Hin. apply Hiff. eapply Permutation_in; [exact Hp|]. by apply List.in_map. }
  split_and!.
  - done.
  - rewrite Ex. by apply Hfacts.
  - rewrite -(map_map tr_id sp_span) Hp. apply spans_of_nodup.
  - intros i raw Hi Hr. assert (In (sp_id raw) (map tr_id (nodes x))) as (n & En & Hin)%in_map_iff.
    { eapply Permutation_in; [symmetry; exact Hp|]. apply Hiff. eauto. }
    destruct (anns_written json os cs st r tr t f col Hnz Hnd Hz Hrun Hroot Htr Hf Hall Hdel i raw Hi Hr) as (ws & Hw & Ew). exists n, ws.
    split_and!; [done|rewrite En; by apply Hfacts|done|]. rewrite (Ha n Hin) En HL. exact Ew.
  - intros n Hin. destruct (Hn n Hin) as (i & raw & Hi & Hr & ->). exists i. split; [done|]. by apply Hfacts.
  - intros n m i j tr' trace Hin Him Ni Nj Ej. apply He; [done..|]. destruct (Hn m Him) as (j' & raw & Hj & Hr & Em). rewrite Em.
    destruct (Hfacts _ _ Hj Hr) as (_ & _ & N1 & H1 & H2). rewrite Em in Nj. pose proof (nodup_index _ _ _ _ Hnd Nj N1) as <-.
    destruct H2 as (tr2 & p & trace2 & E2 & _ & _ & Np); [intros ->; congruence|]. congruence.
  - intros n m Hedge. destruct (edge_nodes _ _ _ Hedge) as [Hin Him]. destruct (Hn n Hin) as (i & rawn & Hi & Hrn & En). destruct (Hn m Him) as (j & rawm & Hj & Hrm & Em).
    apply (He n m Hin Him) in Hedge. destruct (Hfacts _ _ Hi Hrn) as (_ & _ & N1 & _). destruct (Hfacts _ _ Hj Hrm) as (_ & _ & N2 & H0' & H2).
    rewrite En Em in Hedge. rewrite En Em. destruct H2 as (tr2 & p & trace2 & E2 & _ & _ & Np).
    + intros ->. pose proof (proj2 H0' eq_refl) as E0. rewrite Hedge in E0. rewrite E0 in N1. apply Hz. exact (elem_of_list_lookup_2 _ _ _ N1).
    + exists i, j, tr2, trace2. split_and!; [done..|]. rewrite Hedge in Np. by rewrite (nodup_index _ _ _ _ Hnd N1 Np).
Qed.
Print Assumptions C159_shown.

(** Of a trace that is not sampled nothing is collected. *)
Theorem C159_unsampled : forall json os cs st r tr t f, nonzero_traces cs -> o_run os cs o_init = Some st ->
  starts cs !! r = Some (tr, None, t) -> os !! tr = Some (Some f) -> f t = false ->
  forall i raw, in_trace cs i r -> (i, raw) ∈ o_recorded st -> forall rec obs rec', record_span json raw rec obs rec' -> obs = [].
Proof.
  intros json os cs st r tr t f Hnz Hrun Hroot Htr Hf i raw Hi Hr rec obs rec'. destruct (C126_decision _ _ _ _ _ _ Hnz Hrun Hr Hi) as (tr1 & t1 & f1 & E1 & E2 & E3 & E4).
  apply C71_unsampled. simplify_eq. by rewrite E4.
Qed.
Print Assumptions C159_unsampled.

(** Three spans in two processes, finished in another order than they were started, and a trace that is not sampled. *)
Lemma calls_filter json raw rec obs rec' id : record_span json raw rec obs rec' ->
  filter (fun c => fst c = id) (calls_made obs) = if decide (sp_id raw = id) then calls_made obs else [].
Proof.
  intros H. pose proof (C71_id _ _ _ _ _ H) as Hid. clear H. induction obs as [|o obs IH]; [by destruct (decide _)|].
  assert (forall i a x, OCollect i a x ∈ obs -> i = sp_id raw) as H' by (intros i a x Hx; apply (Hid i a x); by right).
  destruct o as [i a x|l]; cbn; rewrite ?filter_cons; fold (calls_made obs).
  - cbn. rewrite (Hid i a x); [left|]. rewrite (IH H'). by repeat case_decide.
  - exact (IH H').
Qed.
Example C159_nonvacuous : let os := [Some (fun t => N.even t); Some (fun _ => false)] in
  let cs := [OStart 0 None 8 1; OBaggage 0 "user" "u"; OStart 1 (Some 0%nat) 5 2; OStart 1 None 9 3; OStart 0 (Some 1%nat) 6 4;
             OFinish 3 "leaf" [] ∅ time_zero 0%Z; OFinish 2 "other" [] ∅ time_zero 0%Z; OFinish 0 "root" [] ∅ time_zero 0%Z; OFinish 1 "mid" [] ∅ time_zero 0%Z] in
  exists st json col, nonzero_traces cs /\ NoDup (numbers cs) /\ 0 ∉ numbers cs /\ o_run os cs o_init = Some st /\
    starts cs !! 0%nat = Some (0%nat, None, 8) /\ (forall i, in_trace cs i 0 -> exists raw, (i, raw) ∈ o_recorded st) /\ delivered json cs st 0 8 col /\
    in_trace cs 1 0 /\ in_trace cs 3 0 /\ ~ in_trace cs 2 0.
Proof.
  cbv zeta. eexists _, (fun _ => ""%string).
  assert (added time_zero 0 time_zero) as Hadd by (split; [|split; [done|rewrite Z.add_0_r //]]; by vm_compute).
  set (raw0 := MkRaw true (MkSpanID 8 1 0) "root" [] ∅ {["user" := "u"]} time_zero 0).
  set (raw1 := MkRaw true (MkSpanID 8 2 1) "mid" [] ∅ {["user" := "u"]} time_zero 0).
  set (raw3 := MkRaw true (MkSpanID 8 4 2) "leaf" [] ∅ {["user" := "u"]} time_zero 0).
  destruct (C71_possible (fun _ => ""%string) raw0 (new_ot true) time_zero eq_refl Hadd) as (o0 & H0 & A0).
  destruct (C71_possible (fun _ => ""%string) raw1 (new_ot true) time_zero eq_refl Hadd) as (o1 & H1 & A1).
  destruct (C71_possible (fun _ => ""%string) raw3 (new_ot true) time_zero eq_refl Hadd) as (o3 & H3 & A3).
  exists (calls_made o3 ++ calls_made o0 ++ calls_made o1).
  assert (forall i, in_trace [OStart 0 None 8 1; OBaggage 0 "user" "u"; OStart 1 (Some 0%nat) 5 2; OStart 1 None 9 3; OStart 0 (Some 1%nat) 6 4;
             OFinish 3 "leaf" [] ∅ time_zero 0%Z; OFinish 2 "other" [] ∅ time_zero 0%Z; OFinish 0 "root" [] ∅ time_zero 0%Z; OFinish 1 "mid" [] ∅ time_zero 0%Z] i 0 -> i = 0%nat \/ i = 1%nat \/ i = 3%nat) as Hin.
  { intros i H. pose proof (in_trace_lt _ _ _ H) as Hlt. cbn in Hlt. destruct i as [|[|[|[|i]]]]; [auto..| |auto|lia].
    exfalso. inversion H as [|? ? ? ? ? E]; cbn in E; simplify_eq. }
  split_and!.
  - intros i tr ref trace H. cbn in H. destruct i as [|[|[|[|i]]]]; cbn in H; [injection H as <- <- <-; lia..|done].
  - cbn. repeat (constructor; [set_solver|]). constructor.
  - cbn. set_solver.
  - reflexivity.
  - done.
  - intros i Hi; destruct (Hin i Hi) as [-> |[-> | ->]]; eexists; cbn [o_recorded app]; [right; right; left|right; right; right; left|left].
  - split.
    + intros c Hc _. assert (c ∈ calls_made o3 \/ c ∈ calls_made o0 \/ c ∈ calls_made o1) as Hc' by set_solver. clear Hc.
      assert (forall raw rec o rec', record_span (fun _ => ""%string) raw rec o rec' -> c ∈ calls_made o -> fst c = sp_id raw) as Hid.
      { intros raw rec o rec' H Hx. apply elem_of_list_omap in Hx as ([i a x|l] & Hx & E); [|done]. injection E as <-. exact (C71_id _ _ _ _ _ H _ _ _ Hx). }
      destruct Hc' as [Hc|[Hc|Hc]].
      * exists 3%nat, raw3. split_and!; [|cbn [o_recorded]; left|exact (Hid _ _ _ _ H3 Hc)].
        eapply it_child; [reflexivity|lia|]. eapply it_child; [reflexivity|lia|by eapply it_root].
      * exists 0%nat, raw0. split_and!; [by eapply it_root|cbn [o_recorded]; right; right; left|exact (Hid _ _ _ _ H0 Hc)].
      * exists 1%nat, raw1. split_and!; [eapply it_child; [reflexivity|lia|by eapply it_root]|cbn [o_recorded]; right; right; right; left|exact (Hid _ _ _ _ H1 Hc)].
    + intros i raw Hi Hr. cbn [o_recorded app] in Hr. rewrite !filter_app.
      rewrite (calls_filter _ _ _ _ _ _ H0) (calls_filter _ _ _ _ _ _ H1) (calls_filter _ _ _ _ _ _ H3).
      apply Hin in Hi. repeat (apply elem_of_cons in Hr as [E|Hr]; [injection E as -> ->; try (exfalso; lia)|]); [..|by apply elem_of_nil in Hr].
      * exists (new_ot true), o3, (new_ot true). split_and!; [exact H3|done|]. cbn. by rewrite app_nil_r.
      * exists (new_ot true), o0, (new_ot true). split_and!; [exact H0|done|]. cbn. by rewrite app_nil_r.
      * exists (new_ot true), o1, (new_ot true). split_and!; [exact H1|done|]. done.
  - eapply it_child; [reflexivity|lia|by eapply it_root].
  - eapply it_child; [reflexivity|lia|]. eapply it_child; [reflexivity|lia|by eapply it_root].
  - intros H. apply Hin in H. lia.
Qed.
