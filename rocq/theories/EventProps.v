(** Properties C46-C50, C79, C80: events as annotations. *)
From Verif Require Import Base StrOrder TimeModel TimeProofs ReflModel ReflSpec ReflProofs ReflProofs3 EventModel EventSpec EventProofs.
From stdpp Require Import sorting.

(** ** C46: the schema gate *)

(** UnmarshalEvent refuses exactly the annotations without the target's schema. *)
Theorem C46_schema_gate et anns x :
  (exists found, unmarshal et anns x = ERefused found) <-> (forall v, Ann ("_schema:" +:+ ev_schema et) v ∉ anns).
Proof.
  unfold unmarshal. pose proof (schemas_elem anns (ev_schema et)) as Hs. split.
  - intros [found H] v Hv. rewrite bool_decide_eq_true_2 in H by (apply Hs; eauto). cbn [negb] in H.
    destruct (ev_unmarshaler et) as [f|]; [by destruct (f anns)|]. by destruct (unflat _ _ _ _).
  - intros H. rewrite bool_decide_eq_false_2; [cbn; eauto|]. intros [v Hv]%Hs. by apply (H v).
Qed.
Print Assumptions C46_schema_gate.
(** The error lists the schemas of the annotations, in order. *)
Theorem C46_found et anns x found : unmarshal et anns x = ERefused found ->
  map (fun s => "_schema:" +:+ s)%string found = filter (fun k => has_prefix "_schema:" k = true) (map ann_key anns).
Proof.
  unfold unmarshal. destruct (negb _).
  - intros [= <-]. apply schemas_spec.
  - destruct (ev_unmarshaler et) as [f|]; [by destruct (f anns)|]. by destruct (unflat _ _ _ _).
Qed.
Print Assumptions C46_found.
(** Annotations that contain a marshalled event are never refused for its type. *)
Theorem C46_marshalled et y anns : marshal et y anns -> forall x before after found, unmarshal et (before ++ anns ++ after) x <> ERefused found.
Proof.
  intros Hm x before after found H. assert (exists f, unmarshal et (before ++ anns ++ after) x = ERefused f) as Hr by eauto. pose proof (proj1 (C46_schema_gate _ _ _) Hr) as Hr'.
  assert (exists v, Ann ("_schema:" +:+ ev_schema et) v ∈ anns) as [v Hv] by (apply schemas_elem; by eapply marshal_schema).
  exfalso. apply (Hr' v). rewrite !elem_of_app. auto.
Qed.
Print Assumptions C46_marshalled.
Example C46_nonvacuous :
  marshal msg_event (VStruct [("Msg", VString "hi")]) [Ann "Msg" (Some "hi"); Ann "_schema:msg" None] /\
  unmarshal msg_event [Ann "_schema:log" None; Ann "Msg" (Some "hi"); Ann "_schema:SQL" None] (zero (ev_ty msg_event)) = ERefused ["log"; "SQL"].
Proof.
  split; [|reflexivity]. apply (marshal_plain msg_event (VStruct [("Msg", VString "hi")]) [("Msg", "hi")] [("Msg", "hi")]); done.
Qed.

(** ** C47: round trip *)

(** Marshalling an event with restorable values does not panic, and reading the annotations into a zero event of
    the type gives it back. *)
Theorem C47_round_trip et x : good_event (et, x) -> separate [et] ->
  (exists anns, marshal et x anns) /\ forall anns, marshal et x anns -> unmarshal et anns (zero (ev_ty et)) = EDone x.
Proof.
  intros Hg Hs. split.
  - destruct Hg as (H1 & H2 & H3). cbn [fst snd] in H1, H3. destruct (flatten_total _ _ "" H3) as [fl Hfl]; [right; unfold ev_ty; eauto|].
    eexists. by eapply marshal_plain.
  - intros anns Hm. eapply (event_recovered [(et, x)] anns); [by constructor|exact Hs|exists [anns]|left].
    split; [by constructor|]. cbn. by rewrite app_nil_r.
Qed.
Print Assumptions C47_round_trip.
(** All event types of the library are covered. *)
Theorem C47_library et : et ∈ library_events -> separate [et] /\ ev_marshaler et = None /\ ev_unmarshaler et = None.
Proof.
  intros H. unfold library_events in H. repeat (apply elem_of_cons in H as [->|H]; [split; [apply separate_b_ok; vm_compute; reflexivity|done]|]). by apply elem_of_nil in H.
Qed.
Print Assumptions C47_library.
Definition a_time : time := MkTime 2014 11 30 23 59 58 120000000 (-480).
Lemma a_time_valid : valid_time a_time.
Proof. unfold valid_time, a_time. cbn. repeat split; try lia; try (vm_compute; congruence). Qed.
Definition a_request : val := VStruct [("Method", VString "GET"); ("URI", VString "/x?a=b"); ("Proto", VString "HTTP/1.1");
  ("Headers", VMap (Some [("Accept", VString "*/*"); ("Accept-Language", VString "")])); ("Host", VString ""); ("RemoteAddr", VString "1.2.3.4:5"); ("ContentLength", VInt (-1))].
Definition a_response : val := VStruct [("Headers", VMap None); ("ContentLength", VInt 12); ("StatusCode", VInt 200)].
Definition a_server : val := VStruct [("Server.Request", a_request); ("Server.Response", a_response); ("Server.Route", VString "r"); ("Server.User", VString "");
  ("Server.Recv", VTime a_time); ("Server.Send", VTime a_time)].
Ltac plainly fl := match goal with |- marshal ?et ?x _ => by apply (marshal_plain et x fl fl) end.
Ltac names := apply names_ok_b_ok; vm_compute; reflexivity.
Lemma tint_ok z : (- 9223372036854775808 <= z < 9223372036854775808)%Z -> scalar_in (KInt 64) (VInt z).
Proof. intros H. split; [right; right; right; done|]. change (Z.of_N 64 - 1)%Z with 63%Z. change (2 ^ 63)%Z with 9223372036854775808%Z. done. Qed.
Lemma headers_good : good (TMap tstring) (VMap (Some [("Accept", VString "*/*"); ("Accept-Language", VString "")])).
Proof. cbn [good]. split; [done|]. split; repeat constructor. Qed.
Ltac fields := apply good_struct; eexists; split; [reflexivity|]; split; [reflexivity|]; split; [names|];
  repeat (apply Forall2_cons; split; [split; [reflexivity|]; cbn [fst snd]; split; [try (apply tint_ok; lia); try exact I; auto|first [by right|by left]]|]); try constructor.
Lemma a_request_good : good request_info a_request.
Proof. pose proof headers_good. fields. Qed.
Lemma a_response_good : good response_info a_response.
Proof. fields. Qed.
Lemma a_server_good : good_event (server_event, a_server).
Proof.
  split; [done|]. split; [done|]. pose proof a_request_good. pose proof a_response_good. pose proof a_time_valid. fields.
Qed.
Example C47_nonvacuous : good_event (server_event, a_server) /\ separate [server_event].
Proof. split; [apply a_server_good|]. apply C47_library. unfold library_events. set_solver. Qed.

(** ** C48: any event type *)

(** Not all events survive.  An empty slice before another field: *)
Theorem C48_refuted : exists et x anns y, ev_marshaler et = None /\ ev_unmarshaler et = None /\
  x = VStruct [("A", VSlice (Some [])); ("B", VString "b")] /\ ev_fields et = [("A", TSlice tstring); ("B", tstring)] /\
  marshal et x anns /\ unmarshal et anns (zero (ev_ty et)) = EDone y /\
  y = VStruct [("A", VSlice None); ("B", VString "")].
Proof.
  exists (plain_event "T" [("A", TSlice tstring); ("B", tstring)]), (VStruct [("A", VSlice (Some [])); ("B", VString "b")]).
  exists [Ann "B" (Some "b"); Ann "_schema:T" None]. eexists. do 4 (split; [done|]). split.
  - plainly [("B", "b")].
  - split; [|reflexivity]. vm_compute. reflexivity.
Qed.
Print Assumptions C48_refuted.
(** A field name that extends another one's by a byte smaller than '.': *)
Theorem C48_refuted_names : exists et x anns y, ev_marshaler et = None /\ ev_unmarshaler et = None /\
  x = VStruct [("A", VStruct [("X", VString "x")]); ("A-b", VString "b")] /\ ev_fields et = [("A", TStruct [("X", tstring)]); ("A-b", tstring)] /\
  marshal et x anns /\ unmarshal et anns (zero (ev_ty et)) = EDone y /\
  y = VStruct [("A", VStruct [("X", VString "x")]); ("A-b", VString "")].
Proof.
  exists (plain_event "T" [("A", TStruct [("X", tstring)]); ("A-b", tstring)]), (VStruct [("A", VStruct [("X", VString "x")]); ("A-b", VString "b")]).
  exists [Ann "A.X" (Some "x"); Ann "A-b" (Some "b"); Ann "_schema:T" None]. eexists. do 4 (split; [done|]). split.
  - plainly [("A.X", "x"); ("A-b", "b")].
  - split; [|reflexivity]. vm_compute. reflexivity.
Qed.
Print Assumptions C48_refuted_names.
(** A nil pointer makes MarshalEvent panic; a field of a named string type makes UnmarshalEvent panic. *)
Theorem C48_refuted_panics :
  (forall anns, ~ marshal (plain_event "T" [("P", TPtr tstring)]) (VStruct [("P", VPtr None)]) anns) /\
  exists anns, marshal (plain_event "T" [("N", TScalar true KString)]) (VStruct [("N", VString "n")]) anns /\
    unmarshal (plain_event "T" [("N", TScalar true KString)]) anns (zero (ev_ty (plain_event "T" [("N", TScalar true KString)]))) = EPanics.
Proof.
  split; [intros anns H; inversion H; done|]. exists [Ann "N" (Some "n"); Ann "_schema:T" None]. split.
  - plainly [("N", "n")].
  - vm_compute. reflexivity.
Qed.
Print Assumptions C48_refuted_panics.
(** Pointers to times and durations are written with their String method, which is not what is read: a pointer to a
    time stays nil, and so does a pointer to a duration, after which no further field is read; no error is reported. *)
Theorem C48_refuted_pointers :
  (exists anns, marshal (plain_event "T" [("P", TPtr TTime)]) (VStruct [("P", VPtr (Some (VTime a_time)))]) anns /\
    Ann "P" (Some "2014-11-30 23:59:58.12 -0800 -0800") ∈ anns /\
    unmarshal (plain_event "T" [("P", TPtr TTime)]) anns (zero (ev_ty (plain_event "T" [("P", TPtr TTime)]))) = EDone (VStruct [("P", VPtr None)])) /\
  exists anns, marshal (plain_event "T" [("P", TPtr (TScalar false KDuration)); ("Q", tstring)]) (VStruct [("P", VPtr (Some (VDuration 1500000))); ("Q", VString "q")]) anns /\
    Ann "P" (Some "1.5ms") ∈ anns /\
    unmarshal (plain_event "T" [("P", TPtr (TScalar false KDuration)); ("Q", tstring)]) anns
      (zero (ev_ty (plain_event "T" [("P", TPtr (TScalar false KDuration)); ("Q", tstring)]))) = EDone (VStruct [("P", VPtr None); ("Q", VString "")]).
Proof.
  split.
  - exists [Ann "P" (Some "2014-11-30 23:59:58.12 -0800 -0800"); Ann "_schema:T" None]. split; [|split; [by left|by vm_compute]].
    plainly [("P", "2014-11-30 23:59:58.12 -0800 -0800")].
  - exists [Ann "P" (Some "1.5ms"); Ann "Q" (Some "q"); Ann "_schema:T" None]. split; [|split; [by left|by vm_compute]].
    plainly [("P", "1.5ms"); ("Q", "q")].
Qed.
Print Assumptions C48_refuted_pointers.
(** What holds: restorable values (see good) of every event type.  Missing: the cases above, pointers to structs, floats
    and durations that are not read from their text as they were (C110, C111) and interfaces. *)
Theorem C48_round_trip_partial et x anns : good_event (et, x) -> separate [et] -> marshal et x anns -> unmarshal et anns (zero (ev_ty et)) = EDone x.
Proof. intros H1 H2. by apply C47_round_trip. Qed.
Print Assumptions C48_round_trip_partial.

(** ** C49: several events on a span *)

(** Msg and Log use the same key: the message of Msg is lost. *)
Theorem C49_refuted : exists anns, recorded [(msg_event, VStruct [("Msg", VString "a")]); (log_event, VStruct [("Msg", VString "b"); ("Time", VTime a_time)])] anns /\
  exists reg, register_all library_events = Some reg /\
  unmarshal_events reg anns = ([("msg", VStruct [("Msg", VString "b")]); ("log", VStruct [("Msg", VString "b"); ("Time", VTime a_time)])], EsOk).
Proof.
  exists ([Ann "Msg" (Some "a"); Ann "_schema:msg" None] ++ [Ann "Msg" (Some "b"); Ann "Time" (Some (fmt_time a_time)); Ann "_schema:log" None]). split.
  - exists [[Ann "Msg" (Some "a"); Ann "_schema:msg" None]; [Ann "Msg" (Some "b"); Ann "Time" (Some (fmt_time a_time)); Ann "_schema:log" None]].
    split; [|reflexivity]. constructor; [|constructor; [|constructor]]; cbn [fst snd].
    + plainly [("Msg", "a")].
    + plainly [("Msg", "b"); ("Time", fmt_time a_time)].
  - eexists. split; [vm_compute; reflexivity|]. vm_compute. reflexivity.
Qed.
Print Assumptions C49_refuted.
(** Events whose types do not share names are all recovered, in order, whatever else is registered. *)
Theorem C49_recovered_partial ets reg evs anns : register_all ets = Some reg ->
  Forall good_event evs -> separate (map fst evs) -> recorded evs anns ->
  (forall et x, (et, x) ∈ evs -> et ∈ ets \/ forall et', et' ∈ ets -> ev_schema et' <> ev_schema et) ->
  unmarshal_events reg anns = (map (fun e => (ev_schema (fst e), snd e)) (filter (fun e => ev_schema (fst e) ∈ map ev_schema ets) evs), EsOk).
Proof.
  intros Hreg Hg Hsep Hrec Hin. pose proof (register_all_spec ets reg Hreg) as Hr. unfold unmarshal_events. erewrite recorded_schemas by done. erewrite (loop_recovered reg anns evs).
  - do 2 f_equal. apply list_filter_iff. intros [et x]. cbn [fst]. rewrite elem_of_list_fmap. split.
    + intros [et' [He <-]%Hr]. eauto.
    + intros (et' & -> & He). exists et'. by apply Hr.
  - apply Forall_forall. intros [et x] He. cbn [fst snd]. destruct (Hin _ _ He) as [H|H]; [right|left].
    + split; [by apply Hr|]. by eapply event_recovered.
    + destruct (reg !! ev_schema et) as [et'|] eqn:E; [|done]. apply Hr in E as [E1 E2]. by apply H in E1.
Qed.
Print Assumptions C49_recovered_partial.
(** With the library's event types it is enough that Msg and Log events are not mixed. *)
Theorem C49_library_partial ets : NoDup ets -> (forall et, et ∈ ets -> et ∈ library_events) -> msg_event ∉ ets \/ log_event ∉ ets -> separate ets.
Proof.
  intros Hnd Hin Hml.
  destruct Hml as [Hn|Hn].
  - apply (separate_sub ets [name_event; log_event; timespan_event; Timespan_event; client_event; server_event; sql_event]); [done| |apply separate_b_ok; vm_compute; reflexivity].
    intros et He. specialize (Hin _ He). assert (et <> msg_event) by congruence. unfold library_events in Hin. set_solver.
  - apply (separate_sub ets [name_event; msg_event; timespan_event; Timespan_event; client_event; server_event; sql_event]); [done| |apply separate_b_ok; vm_compute; reflexivity].
    intros et He. specialize (Hin _ He). assert (et <> log_event) by congruence. unfold library_events in Hin. set_solver.
Qed.
Print Assumptions C49_library_partial.
Definition a_span : list (evtype * val) :=
  [(name_event, VStruct [("Name", VString "GET /")]); (server_event, a_server);
   (Timespan_event, VStruct [("Span.Start", VTime a_time); ("Span.End", VTime a_time)]); (timespan_event, VStruct [("S", VTime a_time); ("E", VTime a_time)]);
   (log_event, VStruct [("Msg", VString "m"); ("Time", VTime a_time)])].
Example C49_nonvacuous : Forall good_event a_span /\ separate (map fst a_span) /\ (exists anns, recorded a_span anns) /\ (exists reg, register_all library_events = Some reg).
Proof.
  pose proof a_time_valid. assert (Forall good_event a_span) as Hg.
  { repeat (apply Forall_cons; split; [first [apply a_server_good|split; [done|]; split; [done|]; fields]|]). constructor. }
  split; [done|]. split; [apply separate_b_ok; vm_compute; reflexivity|]. split; [|eexists; vm_compute; reflexivity].
  assert (forall evs, Forall good_event evs -> exists anns, recorded evs anns) as Hr; [|by apply Hr].
  induction 1 as [|[et x] evs (H1 & H2 & H3) _ (anns & parts & IH1 & IH2)]; [by exists [], []|]. cbn [fst snd] in *.
  destruct (flatten_total _ _ "" H3) as [fl Hfl]; [right; unfold ev_ty; eauto|].
  eexists _, (_ :: parts). split; [|reflexivity]. constructor; [|done]. by eapply marshal_plain.
Qed.

(** ** C50: one event per registered schema annotation *)
Theorem C50_one_event_each ets reg anns evs : register_all ets = Some reg -> unmarshal_events reg anns = (evs, EsOk) ->
  map (fun e => "_schema:" +:+ fst e)%string evs =
    filter (fun k => k ∈ map (fun et => "_schema:" +:+ ev_schema et)%string ets) (map ann_key anns) /\
  forall s x, (s, x) ∈ evs -> exists et, et ∈ ets /\ ev_schema et = s /\ unmarshal et anns (zero (ev_ty et)) = EDone x.
Proof.
  intros Hreg Hu. pose proof (register_all_spec ets reg Hreg) as Hr. unfold unmarshal_events in Hu.
  destruct (loop_events reg anns (schemas anns)) as [H1 H2]; [intros s et Hs; by apply Hr in Hs as [_ ?]|done|by rewrite Hu|]. rewrite Hu in H1, H2. cbn [fst snd] in H1, H2. split.
  - rewrite <- (map_map fst (fun s => "_schema:" +:+ s)%string), H1. clear H1 H2 Hu.
    assert (forall k, k ∈ map (fun et => "_schema:" +:+ ev_schema et)%string ets <-> exists s, k = ("_schema:" +:+ s)%string /\ is_Some (reg !! s)) as Hk.
    { intros k. rewrite elem_of_list_fmap. split.
      - intros (et & -> & He). exists (ev_schema et). split; [done|]. exists et. by apply Hr.
      - intros (s & -> & [et He]). apply Hr in He as [He <-]. eauto. }
    induction anns as [|[k v] anns IH]; [done|]. cbn [schemas map ann_key]. rewrite (filter_cons _ k). destruct (has_prefix schema_prefix k) eqn:E.
    + apply has_prefix_spec in E as [q ->]. rewrite trim_prefix_app, filter_cons. destruct (decide (is_Some (reg !! q))) as [Hq|Hq].
      * rewrite decide_True by (apply Hk; eauto). cbn [map]. f_equal. exact IH.
      * rewrite decide_False; [exact IH|]. intros (s & Es & Hs)%Hk. by injection Es as ->.
    + rewrite decide_False; [exact IH|]. intros (s & -> & _)%Hk. pose proof (has_prefix_app schema_prefix s) as H. unfold schema_prefix in *. congruence.
  - intros s x Hx. destruct (H2 _ _ Hx) as (et & He & Hd). apply Hr in He as [He <-]. eauto.
Qed.
Print Assumptions C50_one_event_each.
(** Annotations of unregistered schemas only: no events, no error. *)
Theorem C50_unregistered ets reg anns : register_all ets = Some reg -> (forall et v, et ∈ ets -> Ann ("_schema:" +:+ ev_schema et) v ∉ anns) ->
  unmarshal_events reg anns = ([], EsOk).
Proof.
  intros Hreg Hn. pose proof (register_all_spec ets reg Hreg) as Hr. unfold unmarshal_events.
  assert (forall s, s ∈ schemas anns -> reg !! s = None) as Hs.
  { intros s [v Hv]%schemas_elem. destruct (reg !! s) as [et|] eqn:E; [|done]. apply Hr in E as [He <-]. by apply Hn in Hv. }
  induction (schemas anns) as [|s ss IH]; [done|]. cbn [unmarshal_loop]. rewrite Hs by left. apply IH. intros; apply Hs; by right.
Qed.
Print Assumptions C50_unregistered.
Definition c50_anns : list Annotation := [Ann "Name" (Some "n"); Ann "_schema:x" None; Ann "_schema:name" None; Ann "_schema:msg" None; Ann "_schema:name" (Some "")].
Example C50_nonvacuous : exists reg, register_all library_events = Some reg /\
  unmarshal_events reg c50_anns = ([("name", VStruct [("Name", VString "n")]); ("msg", VStruct [("Msg", VString "")]); ("name", VStruct [("Name", VString "n")])], EsOk).
Proof. eexists. split; [vm_compute; reflexivity|]. vm_compute. reflexivity. Qed.

(** ** C79: no annotations make the library's own events fail *)
Theorem C79_plain_total ets reg anns : register_all ets = Some reg -> Forall (fun et => ev_unmarshaler et = None /\ plain (ev_ty et) = true) ets ->
  snd (unmarshal_events reg anns) = EsOk.
Proof.
  intros Hreg Hp. pose proof (register_all_spec ets reg Hreg) as Hr. rewrite Forall_forall in Hp. apply loop_ok; [done|..].
  - intros s et [He <-]%Hr. by destruct (Hp _ He).
  - intros s et [He <-]%Hr. destruct (Hp _ He). by apply unmarshal_no_panic.
Qed.
Print Assumptions C79_plain_total.
Theorem C79_library_total anns : exists reg, register_all library_events = Some reg /\ snd (unmarshal_events reg anns) = EsOk.
Proof.
  destruct (register_all library_events) as [reg|] eqn:E; [|exfalso; revert E; vm_compute; congruence]. exists reg. split; [done|]. eapply C79_plain_total; [exact E|].
  unfold library_events. repeat (apply Forall_cons; split; [split; [done|vm_compute; reflexivity]|]). constructor.
Qed.
Print Assumptions C79_library_total.
(** A slice field is enough for a panic: a negative index. *)
Example C79_slices : plain (TStruct [("A", TSlice tstring)]) = false /\
  unmarshal (plain_event "T" [("A", TSlice tstring)]) [Ann "A.-1" (Some "x"); Ann "_schema:T" None] (VStruct [("A", VSlice None)]) = EPanics.
Proof. split; [done|]. vm_compute. reflexivity. Qed.
(** A value that does not parse goes unreported and hides the fields after it. *)
Example C79_nonvacuous : unmarshal log_event [Ann "Msg" (Some "m"); Ann "Time" (Some "yesterday"); Ann "_schema:log" None] (zero (ev_ty log_event)) =
  EDone (VStruct [("Msg", VString "m"); ("Time", VTime time_zero)]).
Proof. vm_compute. reflexivity. Qed.

(** ** C80: the order of annotations *)

(** Annotations with different keys can come in any order; of annotations with the same key the last counts. *)
Theorem C80_order et a b x y : ev_unmarshaler et = None -> Permutation a b -> NoDup (map ann_key a) ->
  unmarshal et a x = EDone y <-> unmarshal et b x = EDone y.
Proof.
  intros Hc Hp Hnd. apply unmarshal_map; [done|by apply string_map_perm|]. intros s. rewrite !schemas_elem. by setoid_rewrite Hp.
Qed.
Print Assumptions C80_order.
Theorem C80_last et k v a b x y : ev_unmarshaler et = None -> k ∈ map ann_key b ->
  unmarshal et (a ++ Ann k v :: b) x = EDone y <-> unmarshal et (a ++ b) x = EDone y.
Proof.
  intros Hc Hk. apply unmarshal_map; [done|..].
  - assert (forall m, fold_left (fun (m : gmap string string) x => <[ann_key x := val_bytes (ann_val x)]> m) (Ann k v :: b) m = fold_left (fun m x => <[ann_key x := val_bytes (ann_val x)]> m) b m) as H.
    { intros m. cbn [fold_left ann_key ann_val]. clear -Hk. revert m. induction b as [|[k' v'] b IH]; intros m; [by apply elem_of_nil in Hk|]. cbn [fold_left ann_key ann_val map] in *.
      destruct (decide (k = k')) as [->|Hne]; [by rewrite insert_insert|]. apply elem_of_cons in Hk as [?|Hk]; [done|]. rewrite insert_commute by done. by apply IH. }
    rewrite !string_map_app. apply H.
  - intros s. rewrite !schemas_elem. split.
    + intros [v' Hv]. rewrite elem_of_app, elem_of_cons in Hv. destruct Hv as [Hv|[Hv|Hv]]; [exists v'; apply elem_of_app; by left| |exists v'; apply elem_of_app; by right].
      assert (k = schema_prefix +:+ s)%string as -> by congruence.
      apply elem_of_list_fmap in Hk as ([k' v''] & Hk & Hin). cbn in Hk. subst k'. exists v''. apply elem_of_app. by right.
    + intros [v' Hv]. exists v'. rewrite elem_of_app in *. destruct Hv; [by left|right; by right].
Qed.
Print Assumptions C80_last.
Example C80_nonvacuous :
  unmarshal name_event [Ann "Name" (Some "a"); Ann "_schema:name" None; Ann "Name" (Some "b")] (zero (ev_ty name_event)) = EDone (VStruct [("Name", VString "b")]).
Proof. vm_compute. reflexivity. Qed.
