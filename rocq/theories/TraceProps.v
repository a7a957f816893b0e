(** C51, C66, C67, C68: span names, FindSpan, the time range of a span. *)
From Verif Require Import Base FloatModel TimeModel ReflModel EventModel TraceModel TraceSpec.
From Coq Require Import ssreflect.

(** ** C51 *)
Lemma span_name_app before after :
  Forall (fun b => ann_key b <> "Name"%string) before -> span_name (before ++ after) = span_name after.
Proof. induction 1 as [|b before Hb _ IH]; first done. cbn. by rewrite decide_False. Qed.
Lemma span_name_none anns : Forall (fun b => ann_key b <> "Name"%string) anns -> span_name anns = ""%string.
Proof. intros H. rewrite -(app_nil_r anns) span_name_app //. Qed.
Lemma name_split anns :
  Forall (fun b => ann_key b <> "Name"%string) anns \/ exists a, ann_key a = "Name"%string /\ first_with_key a anns.
Proof.
  induction anns as [|a anns IH]; first by left.
  destruct (decide (ann_key a = "Name"%string)) as [Ha|Ha].
  - right. exists a. split; first done. exists [], anns. done.
  - destruct IH as [IH|(b & Hb & pre & post & -> & Hp)]; first by left; constructor.
    right. exists b. split; first done. exists (a :: pre), post. split; first done. constructor; last done. by rewrite Hb.
Qed.

(** C51: the name is the value of the first Name annotation, and it is "" without one. *)
Theorem C51_name anns :
  (forall a, ann_key a = "Name"%string -> first_with_key a anns -> span_name anns = val_bytes (ann_val a)) /\
  (Forall (fun a => ann_key a <> "Name"%string) anns -> span_name anns = ""%string).
Proof.
  split; last apply span_name_none.
  intros a Ha (pre & post & -> & Hp). rewrite Ha in Hp. rewrite span_name_app //. cbn. by rewrite decide_True.
Qed.
Print Assumptions C51_name.

(** C51: it is empty only if there is no Name annotation or the first one is empty. *)
Theorem C51_empty anns : span_name anns = ""%string ->
  Forall (fun a => ann_key a <> "Name"%string) anns \/
  exists a, ann_key a = "Name"%string /\ first_with_key a anns /\ val_bytes (ann_val a) = ""%string.
Proof.
  intros H. destruct (name_split anns) as [?|(a & Ha & Hf)]; first by left.
  right. exists a. split_and!; try done. by rewrite -(proj1 (C51_name anns) a Ha Hf).
Qed.
Print Assumptions C51_empty.

(** C51: annotations collected later cannot change the name of a span that has one. *)
Theorem C51_stable anns later : Exists (fun a => ann_key a = "Name"%string) anns ->
  span_name (anns ++ later) = span_name anns.
Proof.
  induction anns as [|a anns IH]; first by intros H%Exists_nil.
  intros H. cbn. case_decide as Ha; first done. apply IH.
  apply Exists_cons in H as [H|H]; [done|done].
Qed.
Print Assumptions C51_stable.

(** C51: recording a span name on a span without one sets it. *)
Theorem C51_recorded before name anns later :
  Forall (fun a => ann_key a <> "Name"%string) before ->
  marshal name_event (VStruct [("Name", VString name)]) anns -> span_name (before ++ anns ++ later) = name.
Proof.
  intros Hb Hm. rewrite span_name_app //.
  inversion Hm as [f anns' Hf|fl fl' _ Hfl Hp Heq]; first done.
  cbn in Hfl. injection Hfl as <-. apply Permutation_singleton_l in Hp. subst. done.
Qed.
Print Assumptions C51_recorded.

Example C51_nonvacuous :
  let anns := [Ann "x" (Some "0"); Ann "Name" (Some "a"); Ann "Name" (Some "b")] in
  first_with_key (Ann "Name" (Some "a")) anns /\ span_name anns = "a"%string /\
  Exists (fun a => ann_key a = "Name"%string) anns /\ span_name [Ann "name" (Some "a")] = ""%string.
Proof.
  cbn zeta. split.
  { exists [Ann "x" (Some "0"%string)], [Ann "Name" (Some "b"%string)]. split; first done. by repeat constructor. }
  split; first done. split; last done. by right; left.
Qed.

(** ** C66 *)
Lemma find_span_head t id :
  find_span t id = head (filter (fun s => sp_span (tr_id s) = id) (subtrees t)).
Proof.
  revert t. apply tree_ind'. intros i a subs IH. cbn [find_span subtrees]. rewrite filter_cons. cbn [tr_id].
  destruct (N.eqb_spec (sp_span i) id) as [He|He].
  { rewrite decide_True //. }
  rewrite decide_False //.
  induction IH as [|s subs Hs _ IH]; first done. cbn. rewrite Hs filter_app.
  destruct (filter _ (subtrees s)) as [|x xs]; cbn; last done. apply IH.
Qed.

(** C66: FindSpan returns the first span with the ID in depth-first order... *)
Theorem C66_first t id s : find_span t id = Some s <->
  exists before after, subtrees t = before ++ s :: after /\ sp_span (tr_id s) = id /\
    Forall (fun x => sp_span (tr_id x) <> id) before.
Proof.
  rewrite find_span_head. generalize (subtrees t) as l. intros l. split.
  - induction l as [|x l IH]; first done. rewrite filter_cons. case_decide as Hx.
    + intros [= ->]. exists [], l. done.
    + intros (b & c & -> & ? & ?)%IH. exists (x :: b), c. split; first done. split; first done. by constructor.
  - intros (b & c & -> & Hs & Hb). induction Hb as [|x b Hx _ IH].
    + rewrite app_nil_l filter_cons decide_True //.
    + rewrite -app_comm_cons filter_cons decide_False //.
Qed.
Print Assumptions C66_first.

(** ... and nil iff no span has it. *)
Theorem C66_none t id : find_span t id = None <-> Forall (fun s => sp_span (tr_id s) <> id) (subtrees t).
Proof.
  rewrite find_span_head. induction (subtrees t) as [|x l IH]; first by split; intros; [constructor|].
  rewrite filter_cons Forall_cons. case_decide as Hx; cbn; [|rewrite IH]; naive_solver.
Qed.
Print Assumptions C66_none.

Example C66_nonvacuous :
  let leaf := Tree (MkSpanID 1 4 2) [] [] in
  let t := Tree (MkSpanID 1 2 0) [] [Tree (MkSpanID 1 3 2) [] [leaf]; Tree (MkSpanID 1 4 2) [Ann "x" None] []] in
  find_span t 4 = Some leaf /\ find_span t 5 = None /\ length (subtrees t) = 4%nat.
Proof. done. Qed.

(** ** C67, C68 *)

(** The instants are what package time computes. *)
Example instant_epoch : instant (MkTime 1970 1 1 0 0 0 0 0) = unix_epoch. Proof. done. Qed.
Example instant_zero : instant time_zero = 0%Z. Proof. done. Qed.
(** 2016-02-29T12:00:00.5+01:00 is 1456743600.5 s after 1970 *)
Example instant_2016 : unix_nano (MkTime 2016 2 29 12 0 0 500000000 60) = 1456743600500000000%Z. Proof. done. Qed.

Lemma instant_1754 : instant (MkTime 1754 9 1 0 0 0 0 0) = 55340323200000000000%Z.
Proof. vm_compute. reflexivity. Qed.
Lemma instant_2262 : instant (MkTime 2262 1 1 0 0 0 0 0) = 71350243200000000000%Z.
Proof. vm_compute. reflexivity. Qed.
Lemma unix_nano_lt a b : ordinary a -> ordinary b -> (unix_nano a < unix_nano b)%Z <-> (instant a < instant b)%Z.
Proof.
  rewrite /ordinary /unix_nano instant_1754 instant_2262.
  generalize (instant a) as x, (instant b) as y. intros x y Hx Hy. rewrite /int64 /unix_epoch.
  assert (forall z, z = 0 \/ 55340323200000000000 <= z < 71350243200000000000 ->
    (z - 62135596800000000000 + 2 ^ 63) mod 2 ^ 64 =
    if z =? 0 then 2428007457983430656 else z - 62135596800000000000 + 2 ^ 63)%Z as Hz.
  { intros z [->|Hz]; first done. destruct (Z.eqb_spec z 0); first lia. apply Z.mod_small. lia. }
  rewrite (Hz x Hx) (Hz y Hy). clear Hz. change (2 ^ 63)%Z with 9223372036854775808%Z.
  destruct (Z.eqb_spec x 0), (Z.eqb_spec y 0); lia.
Qed.

Lemma is_zero_spec t : is_zero t = true <-> instant t = 0%Z.
Proof. apply Z.eqb_eq. Qed.

Local Opaque instant unix_nano.
(** The loop, on the timespans only. *)
Definition ts_step (st : time * time) (e : time * time) : time * time :=
  if is_zero (fst st) then e
  else (if (unix_nano (fst e) <? unix_nano (fst st))%Z then fst e else fst st,
        if (unix_nano (snd st) <? unix_nano (snd e))%Z then snd e else snd st).
Lemma omap_step {A B} (f : A -> option B) x l : omap f (x :: l) = match f x with Some y => y :: omap f l | None => omap f l end.
Proof. done. Qed.
Lemma fold_step {A B} (f : A -> B -> A) x l a : fold_left f (x :: l) a = fold_left f l (f a x).
Proof. done. Qed.
Lemma times_step_spec st e : times_step st e = match as_timespan e with Some x => ts_step st x | None => st end.
Proof. rewrite /times_step. generalize (as_timespan e). by intros [[s r]|]. Qed.
Lemma loop_timespans events st : fold_left times_step events st = fold_left ts_step (timespans events) st.
Proof.
  revert st. induction events as [|e events IH]=> st; first done.
  rewrite fold_step IH times_step_spec /timespans omap_step. destruct (as_timespan e); [by rewrite fold_step|reflexivity].
Qed.

Definition ordinary2 (e : time * time) : Prop := ordinary (fst e) /\ ordinary (snd e).
Lemma range_ordinary ts s r : Forall ordinary2 ts -> range_of ts s r -> ordinary s /\ ordinary r.
Proof.
  intros Ho (Hs & Hr & _). rewrite Forall_forall in Ho.
  apply elem_of_list_fmap in Hs as (x & -> & Hx). apply elem_of_list_fmap in Hr as (y & -> & Hy).
  split; [apply (Ho x Hx)|apply (Ho y Hy)].
Qed.
Lemma range_snoc ts s r e : Forall ordinary2 ts -> ordinary2 e -> range_of ts s r -> is_zero s = false ->
  let st := ts_step (s, r) e in range_of (ts ++ [e]) (fst st) (snd st).
Proof.
  intros Ho [He1 He2] Hr Hz. destruct (range_ordinary _ _ _ Ho Hr) as [Hos Hor].
  destruct Hr as (Hs & Hr & Hall). rewrite /ts_step /= Hz.
  pose proof (unix_nano_lt _ _ He1 Hos) as H1. pose proof (unix_nano_lt _ _ Hor He2) as H2.
  destruct e as [es er]. cbn in *. rewrite /range_of !map_app /=.
  split; [|split].
  - apply elem_of_app. destruct (_ <? _)%Z; [right|by left]. by apply elem_of_list_singleton.
  - apply elem_of_app. destruct (unix_nano r <? _)%Z; [right|by left]. by apply elem_of_list_singleton.
  - intros s' r' [Hin|Hin]%elem_of_app.
    + apply Hall in Hin as [??]. destruct (Z.ltb_spec (unix_nano es) (unix_nano s)), (Z.ltb_spec (unix_nano r) (unix_nano er)); lia.
    + apply elem_of_list_singleton in Hin as [= -> ->].
      destruct (Z.ltb_spec (unix_nano es) (unix_nano s)), (Z.ltb_spec (unix_nano r) (unix_nano er)); lia.
Qed.

Lemma loop_range ts st : is_zero (fst st) = true -> ts <> [] ->
  Forall ordinary2 ts -> Forall (fun e => is_zero (fst e) = false) ts ->
  let st := fold_left ts_step ts st in range_of ts (fst st) (snd st) /\ is_zero (fst st) = false.
Proof.
  intros Hst. induction ts as [|e ts IH] using rev_ind; first done. intros _ Ho Hz.
  apply Forall_app in Ho as [Ho1 Ho2]. apply Forall_app in Hz as [Hz1 Hz2].
  assert (ordinary2 e) as Hoe by by inversion Ho2. assert (is_zero (fst e) = false) as Hze by by inversion Hz2.
  cbn zeta. rewrite fold_left_app /=.
  destruct (decide (ts = [])) as [->|Hne].
  - cbn. rewrite /ts_step Hst. split; last done. destruct e as [s r]. cbn.
    split; [by apply elem_of_list_singleton|split; first by apply elem_of_list_singleton].
    intros s' r' [= -> ->]%elem_of_list_singleton. lia.
  - destruct (IH Hne Ho1 Hz1) as [Hr Hnz]. remember (fold_left ts_step ts st) as st'.
    destruct st' as [s r]. cbn in *. pose proof (range_snoc ts s r e Ho1 Hoe Hr Hnz) as Hr'. split; first done.
    rewrite /ts_step Hnz /=. destruct (_ <? _)%Z; done.
Qed.

(** C67, partial: when all start times are non-zero and all times are ordinary, the reported start is the
    earliest start and the reported end the latest end; nothing is reported iff there is no timespan event.
    Missing: times before 1754 or after 2261 (false of them, below). *)
Theorem C67_range_partial events s r ok :
  Forall (fun e => ordinary (fst e) /\ ordinary (snd e) /\ is_zero (fst e) = false) (timespans events) ->
  find_trace_times events = (s, r, ok) ->
  (ok = false <-> timespans events = []) /\ (ok = true -> range_of (timespans events) s r).
Proof.
  intros H. rewrite /find_trace_times loop_timespans. intros [= Hsr Hok].
  destruct (decide (timespans events = [])) as [Hnil|Hne].
  { rewrite Hnil in Hsr, Hok. cbn in Hok. subst ok. rewrite Hnil. done. }
  destruct (loop_range (timespans events) (time_zero, time_zero)) as [Hr Hz]; [done|done| | |].
  { eapply Forall_impl; first exact H. cbn. intros x (?&?&?). done. }
  { eapply Forall_impl; first exact H. cbn. intros x (?&?&?). done. }
  rewrite Hsr in Hr, Hz. rewrite Hsr Hz in Hok. cbn in Hok. subst ok. done.
Qed.
Print Assumptions C67_range_partial.

(** C67 for a span: TimespanEvent reports the range of the span's timespan events. *)
Theorem C67_span_partial reg t events :
  unmarshal_events reg (tr_anns t) = (events, EsOk) ->
  Forall (fun e => ordinary (fst e) /\ ordinary (snd e) /\ is_zero (fst e) = false) (timespans events) ->
  match trace_timespan reg t with
  | TsOk s r => range_of (timespans events) s r
  | TsNotFound => timespans events = []
  | _ => False
  end.
Proof.
  intros Hu H. rewrite /trace_timespan Hu.
  destruct (find_trace_times events) as [[s r] ok] eqn:Hf.
  destruct (C67_range_partial events s r ok H Hf) as [H1 H2]. destruct ok; [by apply H2|by apply H1].
Qed.
Print Assumptions C67_span_partial.

Local Ltac ordinaries := cbn; repeat first [apply List.Forall_nil | apply List.Forall_cons];
  repeat split; first [done | by left | right; split; vm_compute; done].
Definition span_at (s r : time) : string * val := ("timespan", VStruct [("S", VTime s); ("E", VTime r)])%string.
Definition year (y : N) : time := MkTime y 1 1 0 0 0 0 0.

(** C67 is false without that limit: of an event of 1900 and one of 2300, the reported start is the latter's. *)
Theorem C67_refuted : exists events s r,
  Forall (fun e => is_zero (fst e) = false) (timespans events) /\
  find_trace_times events = (s, r, true) /\ ~ range_of (timespans events) s r.
Proof.
  exists [span_at (year 1900) (year 1900); span_at (year 2300) (year 2300)], (year 2300), (year 1900).
  split; first by repeat constructor. split; first done. intros (_ & _ & H).
  destruct (H (year 1900) (year 1900)) as [H1 _]; first by left. by vm_compute in H1.
Qed.
Print Assumptions C67_refuted.

Example C67_nonvacuous :
  let events := [span_at (year 2001) (year 2003); ("msg", VStruct [])%string; span_at (year 2000) time_zero] in
  Forall (fun e => ordinary (fst e) /\ ordinary (snd e) /\ is_zero (fst e) = false) (timespans events) /\
  find_trace_times events = (year 2000, year 2003, true).
Proof.
  cbn zeta. split; last done. ordinaries.
Qed.

(** C68 is false: an event with a zero start makes the code forget the events before it... *)
Theorem C68_refuted : exists events s r,
  Forall (fun e => ordinary (fst e) /\ ordinary (snd e)) (timespans events) /\
  find_trace_times events = (s, r, true) /\
  exists s' r', (s', r') ∈ timespans events /\ is_zero s' = false /\ (instant s' < instant s)%Z.
Proof.
  exists [span_at (year 2000) (year 2001); span_at time_zero (year 2005); span_at (year 2003) (year 2004)], (year 2003), (year 2004).
  split.
  { ordinaries. }
  split; first done. exists (year 2000), (year 2001). split; first by left. split; done.
Qed.
Print Assumptions C68_refuted.
(** ... and if it is the last one, no range is reported at all. *)
Theorem C68_refuted_lost : exists events s r,
  (exists s' r', (s', r') ∈ timespans events /\ is_zero s' = false /\ is_zero r' = false) /\ find_trace_times events = (s, r, false).
Proof.
  exists [span_at (year 2000) (year 2001); span_at time_zero time_zero]. eexists _, _. split; last reflexivity.
  exists (year 2000), (year 2001). split; first by left. done.
Qed.
Print Assumptions C68_refuted_lost.

(** C68, partial: exactly the timespan events after the last one with a zero start count. *)
Theorem C68_after_zero_partial events before z rest s r ok :
  timespans events = before ++ z :: rest -> is_zero (fst z) = true ->
  Forall (fun e => ordinary (fst e) /\ ordinary (snd e)) (timespans events) ->
  Forall (fun e => is_zero (fst e) = false) rest ->
  find_trace_times events = (s, r, ok) ->
  (ok = false <-> rest = []) /\ (ok = true -> range_of rest s r).
Proof.
  intros Hts Hz Ho Hrest. rewrite /find_trace_times loop_timespans Hts fold_left_app fold_step.
  remember (fold_left ts_step before (time_zero, time_zero)) as st eqn:Hst.
  rewrite Hts in Ho. apply Forall_app in Ho as [Ho1 Ho2]. apply Forall_cons in Ho2 as [Hoz Ho2].
  assert (ordinary (fst st)) as Hos.
  { subst st. clear -Ho1. induction before as [|e before IH] using rev_ind; first by left.
    apply Forall_app in Ho1 as [Ho1 Ho2]. assert (ordinary (fst e)) as He by (inversion Ho2; naive_solver).
    rewrite fold_left_app /= /ts_step. specialize (IH Ho1).
    destruct (is_zero _); first exact He. cbn [fst]. destruct (_ <? _)%Z; assumption. }
  assert (is_zero (fst (ts_step st z)) = true) as Hz'.
  { rewrite /ts_step. destruct (is_zero (fst st)) eqn:Hzs; first done. cbn.
    destruct (Z.ltb_spec (unix_nano (fst z)) (unix_nano (fst st))) as [|Hge]; first done.
    exfalso. assert (~ (unix_nano (fst z) < unix_nano (fst st))%Z) as Hnlt by lia.
    rewrite (unix_nano_lt _ _ (proj1 Hoz) Hos) in Hnlt. apply is_zero_spec in Hz. rewrite Hz in Hnlt.
    assert (instant (fst st) <> 0%Z) by (intros H; apply is_zero_spec in H; congruence).
    destruct Hos as [|[Hlo _]]; first done.
    rewrite instant_1754 in Hlo. lia. }
  remember (ts_step st z) as st'. intros [= Hsr Hok].
  destruct (decide (rest = [])) as [->|Hne].
  { cbn in *. rewrite Hsr in Hz'. cbn in Hz'. rewrite Hsr Hz' in Hok. cbn in Hok. subst ok. done. }
  destruct (loop_range rest st' Hz' Hne Ho2 Hrest) as [Hr Hnz].
  rewrite Hsr in Hr, Hnz. rewrite Hsr Hnz in Hok. cbn in Hok. subst ok. done.
Qed.
Print Assumptions C68_after_zero_partial.
(** Which events are timespan events, with which start and end. *)
Theorem C67_timespan_events :
  (forall e s r, timespan_event e s r -> as_timespan e = Some (s, r)) /\
  (forall schema x, schema ∈ ["name"; "msg"; "log"]%string -> as_timespan (schema, x) = None).
Proof.
  split; first by intros e s r []. intros schema x H. rewrite !elem_of_cons elem_of_nil in H. destruct H as [->|[->|[->|?]]]; done.
Qed.
Print Assumptions C67_timespan_events.

Example C68_nonvacuous :
  let events := [span_at (year 2000) (year 2001); span_at time_zero (year 2005); span_at (year 2003) (year 2004)] in
  timespans events = [(year 2000, year 2001)] ++ (time_zero, year 2005) :: [(year 2003, year 2004)] /\
  is_zero time_zero = true /\ find_trace_times events = (year 2003, year 2004, true).
Proof. done. Qed.
