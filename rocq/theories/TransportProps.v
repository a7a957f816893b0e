(** C59, C85: the client transport of package httptrace. *)
From Verif Require Import Base StrOrder IdModel IdSpec IdProofs TimeModel ReflModel EventModel RecorderModel
  HttpModel HttpSpec HttpProofs HttpProps TransportModel TransportSpec.
From Coq Require Import ssreflect.

(** ** C59 *)
Lemma fold_copy (h : header) o : Permutation o (map_to_list h) ->
  fold_left (fun (h : header) kv => <[fst kv := snd kv]> h) o ∅ = h.
Proof.
  intros Hp. apply map_eq. intros k. pose proof (fold_put_map (fun _ v _ => v) h ∅ o k Hp) as H.
  rewrite /put in H. rewrite H lookup_empty. by destruct (h !! k).
Qed.

(** C59: one request is sent; it differs from the caller's in the Span-ID header only, which says a child of the
    recorder's span.  The caller's header map is left as it was.  When the transport below answers, the
    caller gets that answer and one client span is collected, another child of the recorder's span; it describes the
    request sent and the answer, with the status -1 for an error. *)
Theorem C59_round_trip names span set_name tr g1 g2 lg mem q out :
  is_id (sp_trace span) -> is_id (sp_span span) -> is_id g2 -> is_Some (mem !! q_map q) ->
  round_trip names span set_name tr g1 g2 None lg mem q out ->
  (forall a h, mem !! a = Some h -> tp_memory out !! a = Some h) /\
  exists text sent, reads_as text (MkSpanID (sp_trace span) g2 (sp_span span)) /\
    sent = with_header (seen mem q) (<["Span-Id" := [text]]> (rq_header (seen mem q))) /\
    tp_sent out = [sent] /\ tp_result out = tr sent /\
    match tr sent with
    | TPanic => tp_collects out = []
    | res => exists anns1 anns2 req resp send recv,
        tp_collects out = [(MkSpanID (sp_trace span) g1 (sp_span span), anns1 ++ anns2)] /\
        (if set_name then marshal name_event (VStruct [("Name", VString ("Request " +:+ rq_url_host (seen mem q)))]) anns1 else anns1 = []) /\
        marshal client_event (VStruct [("Client.Request", req); ("Client.Response", resp); ("Client.Send", VTime send); ("Client.Recv", VTime recv)]) anns2 /\
        request_info_of names sent req /\
        match res with
        | TResponse r => response_info_of names r resp
        | _ => resp = VStruct [("Headers", VMap None); ("ContentLength", VInt 0); ("StatusCode", VInt (-1))]
        end
    end.
Proof.
  intros I1 I2 I3 Hq Hr.
  assert (forall a mem1 mem2 o q', mem !! a = None -> Permutation o (map_to_list (map_at mem (q_map q))) ->
    (mem1, q') = clone_request mem q a o ->
    mem2 = <[q_map q' := set_span_id_header (map_at mem1 (q_map q')) (new_span_id span g2)]> mem1 ->
    (forall b h, mem !! b = Some h -> mem2 !! b = Some h) /\
    seen mem2 q' = with_header (seen mem q) (<["Span-Id" := [spanid_string (new_span_id span g2)]]> (rq_header (seen mem q)))) as Hmem.
  { intros a mem1 mem2 o q' Ha Ho [= -> ->] ->. cbn. rewrite (fold_copy _ _ Ho). split.
    - intros b h Hb. rewrite !lookup_insert_ne //; intros ->; congruence.
    - rewrite /seen /with_header /=. f_equal. by rewrite /map_at !lookup_insert /=. }
  assert (reads_as (spanid_string (new_span_id span g2)) (MkSpanID (sp_trace span) g2 (sp_span span))) as Hreads.
  { assert (parse_spanid (spanid_string (new_span_id span g2)) = Some (new_span_id span g2)) as H by by apply parse_spanid_string.
    apply parse_spanid_spec in H. rewrite /reads_as. tauto. }
  inversion Hr as [mem1 mem2 a o q' Ha Ho Hc Hm2 Ht|mem1 mem2 a o q' res req resp snd recv anns1 anns2 Ha Ho Hc Hn Hm2 Hreq Ht Hnp Hres Hmar]; subst out;
    destruct (Hmem a mem1 mem2 o q' Ha Ho Hc Hm2) as [H1 H2]; (split; first done); rewrite H2.
  - eexists _, _. split; first exact Hreads. split; first reflexivity. split; first done. rewrite -H2 Ht. done.
  - eexists _, _. split; first exact Hreads. split; first reflexivity. split; first done. rewrite -H2 Ht. split; first done.
    assert (exists anns1' anns2' req resp send recv,
        r_collects (rec_run (new_recorder false (new_span_id span g1))
            [MkCall (REvent (inl anns1)) None lg; MkCall (REvent (inl anns2)) None lg; MkCall RFinish None lg]) =
          [(MkSpanID (sp_trace span) g1 (sp_span span), anns1' ++ anns2')] /\
        (if set_name then marshal name_event (VStruct [("Name", VString ("Request " +:+ rq_url_host (seen mem q)))]) anns1' else anns1' = []) /\
        marshal client_event (VStruct [("Client.Request", req); ("Client.Response", resp); ("Client.Send", VTime send); ("Client.Recv", VTime recv)]) anns2' /\
        request_info_of names (seen mem2 q') req /\ result_info_of names res resp) as H.
    { exists anns1, anns2, req, resp, snd, recv. split; first done. split; last done. by injection Hc as -> ->. }
    clear -H Hnp. destruct res as [r|e|]; last done;
      destruct H as (c1 & c2 & rq & rs & sd & rv & E1 & E2 & E3 & E4 & E5); exists c1, c2, rq, rs, sd, rv; by inversion E5; subst.
Qed.
Print Assumptions C59_round_trip.

(** RoundTrip has an outcome for every request and transport. *)
Lemma round_trip_total names span set_name tr g1 g2 answer lg mem q :
  exists out, round_trip names span set_name tr g1 g2 answer lg mem q out.
Proof.
  destruct (exist_fresh (dom mem)) as [a Ha%not_elem_of_dom].
  destruct (clone_request mem q a (map_to_list (map_at mem (q_map q)))) as [mem1 q'] eqn:Hc.
  set (mem2 := <[q_map q' := set_span_id_header (map_at mem1 (q_map q')) (new_span_id span g2)]> mem1).
  destruct (request_info_total names (seen mem2 q')) as (req & Hreq & Hfl1).
  assert (tr (seen mem2 q') = TPanic \/ tr (seen mem2 q') <> TPanic /\
    exists resp, result_info_of names (tr (seen mem2 q')) resp /\ exists fl, flatten resp "Client.Response" = Some fl) as [H|(H & resp & Hres & fl2 & Hfl2)].
  { destruct (tr (seen mem2 q')) as [r|e|]; [right|right|by left]; (split; first done).
    - destruct (response_info_total names r) as (resp & Hresp & Hfl). exists resp. split; [by constructor|apply Hfl].
    - eexists. split; [constructor|by eexists]. }
  { eexists. eapply (round_trip_panics _ _ _ _ _ _ _ _ _ _ mem1 mem2 a _ q'); [done|done|exact (eq_sym Hc)|done|exact H]. }
  assert (exists anns1, if set_name then marshal name_event (span_name_val ("Request " +:+ rq_url_host (q_parts q'))) anns1 else anns1 = []) as [anns1 H1].
  { destruct set_name; last by eexists. eexists. eapply marshal_plain; done. }
  assert (exists fl, flatten (client_val req resp time_zero time_zero) "" = Some fl) as [fl Hfl].
  { rewrite /client_val. cbn [flatten map fst snd cat_opt fold_right]. destruct (Hfl1 (nest "" "Client.Request")) as [f1 ->].
    change (nest "" "Client.Response") with "Client.Response"%string. rewrite Hfl2. cbn. by eexists. }
  eexists. eapply (round_trip_returns _ _ _ _ _ _ _ _ _ _ mem1 mem2 a _ q' _ req resp time_zero time_zero anns1);
    [done|done|exact (eq_sym Hc)|exact H1|done|exact Hreq|reflexivity|exact H|exact Hres|eapply marshal_plain; [done|exact Hfl|done]].
Qed.
Example C59_nonvacuous : exists out,
  round_trip ["Authorization"%string] (MkSpanID 1 2 3) true (fun _ => TError "refused") 5 6 None (fun _ => []) {[7 := {["Span-Id" := ["x"]]}]} (MkHrequest a_get 7) out /\
  is_Some (({[7 := {["Span-Id" := ["x"]]}]} : memory) !! 7).
Proof.
  destruct (round_trip_total ["Authorization"%string] (MkSpanID 1 2 3) true (fun _ => TError "refused") 5 6 None (fun _ => [])
    {[7 := {["Span-Id" := ["x"]]}]} (MkHrequest a_get 7)) as [out H]. exists out. split; first done. by eexists.
Qed.

(** ** The bookkeeping *)
Lemma split_snoc h (e : tevent) h1 x h2 : h ++ [e] = h1 ++ x :: h2 ->
  (h2 = [] /\ h1 = h /\ x = e) \/ exists h2', h2 = h2' ++ [e] /\ h = h1 ++ x :: h2'.
Proof.
  destruct h2 as [|y h2 _] using rev_ind.
  - intros [-> [= ->]]%app_inj_tail. by left.
  - intros H. right. exists h2. replace (h1 ++ x :: h2 ++ [y]) with ((h1 ++ x :: h2) ++ [y]) in H by by rewrite -app_assoc.
    apply app_inj_tail in H as [-> ->]. done.
Qed.
Lemma under_way_snoc h e k o c : under_way (h ++ [e]) k o c <->
  e = TStart k o c \/ under_way h k o c /\ e <> TEnd k.
Proof.
  split.
  - intros (h1 & h2 & [(-> & -> & ->)|(h2' & -> & ->)]%split_snoc & Hn); first by left. right. split.
    + exists h1, h2'. split; first done. set_solver.
    + intros ->. apply Hn. apply elem_of_app. right. by left.
  - intros [->|[(h1 & h2 & -> & Hn) He]].
    + exists h, []. split; first done. by intros ?%elem_of_nil.
    + exists h1, (h2 ++ [e]). split; first by rewrite -app_assoc. rewrite elem_of_app elem_of_list_singleton. intros [H|H]; [by apply Hn|by apply He].
Qed.
Lemma trun_snoc h e : trun (h ++ [e]) = s ← trun h; tstep s e.
Proof. by rewrite /trun fold_left_app. Qed.
Lemma under_way_nil k o c : ~ under_way [] k o c.
Proof. intros (h1 & h2 & H & _). by destruct h1. Qed.
Lemma exclusive_prefix h e : exclusive (h ++ [e]) -> exclusive h.
Proof. intros H h1 h2 k k' o c c' -> H1 H2. eapply (H h1 (h2 ++ [e])); [by rewrite app_assoc|exact H1|exact H2]. Qed.

Lemma frames_inv h s : trun h = Some s ->
  (forall k o, ts_frames s !! k = Some o <-> exists c, under_way h k o c) /\
  (forall k o o' c c', under_way h k o c -> under_way h k o' c' -> o = o' /\ c = c') /\
  (forall o c, ts_requests s !! o = Some c -> exists k c, under_way h k o c) /\
  (exclusive h -> forall o c, ts_requests s !! o = Some c <-> exists k, under_way h k o c).
Proof.
  revert s. induction h as [|e h IH] using rev_ind.
  { intros s [= <-]. cbn. split_and!.
    - intros k o. rewrite lookup_empty. split; [done|by intros [c ?%under_way_nil]].
    - by intros k o o' c c' ?%under_way_nil.
    - intros o c. by rewrite lookup_empty.
    - intros _ o c. rewrite lookup_empty. split; [done|by intros [k ?%under_way_nil]]. }
  intros s'. rewrite trun_snoc. destruct (trun h) as [s|]; last done. cbn. specialize (IH s eq_refl) as (IH1 & IH2 & IH3 & IH4).
  destruct e as [k' o' c'|k'|o']; cbn.
  - destruct (ts_frames s !! k') as [?|] eqn:Hk; first done. intros [= <-]. cbn.
    assert (forall o c, ~ under_way h k' o c) as Hno.
    { intros o c Hu. assert (ts_frames s !! k' = Some o) as H by (apply IH1; eauto). congruence. }
    split_and!.
    + intros k o. setoid_rewrite under_way_snoc. destruct (decide (k' = k)) as [<-|Hkk].
      * rewrite lookup_insert. split; [intros [= ->]; eauto|]. intros [c [[= -> ->]|[Hu _]]]; [done|by apply Hno in Hu].
      * rewrite lookup_insert_ne // IH1. split; [intros [c Hc]; eauto|]. intros [c [[= -> -> ->]|[Hu _]]]; [done|eauto].
    + intros k o o2 c c2. rewrite !under_way_snoc. intros [E1|[H1 _]] [E2|[H2 _]].
      * split; congruence.
      * injection E1 as -> -> ->. by apply Hno in H2.
      * injection E2 as -> -> ->. by apply Hno in H1.
      * exact (IH2 _ _ _ _ _ H1 H2).
    + intros o c. setoid_rewrite under_way_snoc. destruct (decide (o' = o)) as [<-|Ho]; first by eauto.
      rewrite lookup_insert_ne //. intros (k & c2 & Hu)%IH3. exists k, c2. right. done.
    + intros Hex o c. setoid_rewrite under_way_snoc. destruct (decide (o' = o)) as [<-|Ho].
      * rewrite lookup_insert. split; [intros [= ->]; eauto|]. intros [k [[= -> ->]|[Hu _]]]; first done.
        exfalso. assert (k = k') as ->; last by apply Hno in Hu.
        eapply (Hex (h ++ [TStart k' o' c']) []); [by rewrite app_nil_r| |]; apply under_way_snoc; [right; split; [exact Hu|done]|by left].
      * rewrite lookup_insert_ne // (IH4 (exclusive_prefix _ _ Hex)). split; [intros [k Hu]; eauto|].
        intros [k [[= -> -> ->]|[Hu _]]]; [done|eauto].
  - destruct (ts_frames s !! k') as [o'|] eqn:Hk; last done. intros [= <-]. cbn.
    assert (exists c', under_way h k' o' c') as [c' Hu'] by by apply IH1. split_and!.
    + intros k o. setoid_rewrite under_way_snoc. destruct (decide (k' = k)) as [<-|Hkk].
      * rewrite lookup_delete. split; first done. by intros [c [?|[_ ?]]].
      * rewrite lookup_delete_ne // IH1. split; [intros [c Hc]; exists c; right; split; congruence|]. intros [c [?|[Hu _]]]; [done|eauto].
    + intros k o o2 c c2. rewrite !under_way_snoc. intros [?|[H1 _]] [?|[H2 _]]; try done. exact (IH2 _ _ _ _ _ H1 H2).
    + intros o c. setoid_rewrite under_way_snoc. destruct (decide (o' = o)) as [<-|Ho]; first by rewrite lookup_delete.
      rewrite lookup_delete_ne //. intros (k & c2 & Hu)%IH3. exists k, c2. right. split; first done.
      intros [= ->]. destruct (IH2 _ _ _ _ _ Hu Hu'). congruence.
    + intros Hex. pose proof (exclusive_prefix _ _ Hex) as Hex'. intros o c. setoid_rewrite under_way_snoc. destruct (decide (o' = o)) as [<-|Ho].
      * rewrite lookup_delete. split; first done. intros [k [?|[Hu Hk2]]]; first done. exfalso. apply Hk2. f_equal.
        eapply (Hex' h []); [by rewrite app_nil_r|exact Hu'|exact Hu].
      * rewrite lookup_delete_ne // IH4 //. split.
        -- intros [k Hu]. exists k. right. split; first done. intros [= ->]. destruct (IH2 _ _ _ _ _ Hu Hu'). congruence.
        -- intros [k [?|[Hu _]]]; [done|eauto].
  - assert (forall k o c, under_way (h ++ [TCancel o']) k o c <-> under_way h k o c) as Huw.
    { intros k o c. rewrite under_way_snoc. split; [by intros [?|[? _]]|by right]. }
    intros Hs. assert (ts_frames s' = ts_frames s /\ ts_requests s' = ts_requests s) as [-> ->].
    { destruct (ts_requests s !! o'); by injection Hs as <-. }
    setoid_rewrite Huw. split_and!; [done|done|done|]. intros Hex. exact (IH4 (exclusive_prefix _ _ Hex)).
Qed.

(** C59: when no round trip is under way, however the last ones ended, nothing is kept. *)
Theorem C59_nothing_kept h s : trun h = Some s -> (forall k o c, ~ under_way h k o c) -> ts_requests s = ∅ /\ ts_frames s = ∅.
Proof.
  intros Hs Hno. destruct (frames_inv h s Hs) as (H1 & _ & H3 & _). split; apply map_empty.
  - intros o. destruct (ts_requests s !! o) as [c|] eqn:E; last done. apply H3 in E as (k & c' & Hu). by apply Hno in Hu.
  - intros k. destruct (ts_frames s !! k) as [o|] eqn:E; last done. apply H1 in E as [c Hu]. by apply Hno in Hu.
Qed.
Print Assumptions C59_nothing_kept.

(** C85: CancelRequest cancels the request that was sent for the given one, if its round trip is under way, and
    nothing otherwise. *)
Theorem C85_cancel h s o : trun h = Some s -> exclusive h ->
  exists s', trun (h ++ [TCancel o]) = Some s' /\
    (forall k c, under_way h k o c -> ts_cancelled s' = ts_cancelled s ++ [c]) /\
    ((forall k c, ~ under_way h k o c) -> ts_cancelled s' = ts_cancelled s).
Proof.
  intros Hs Hex. destruct (frames_inv h s Hs) as (_ & _ & _ & H4). specialize (H4 Hex). rewrite trun_snoc Hs /=.
  destruct (ts_requests s !! o) as [c|] eqn:E.
  - eexists. split; first done. cbn. split.
    + intros k c' Hu. assert (ts_requests s !! o = Some c') as E' by (apply H4; eauto). congruence.
    + intros Hno. apply H4 in E as [k Hu]. by apply Hno in Hu.
  - eexists. split; first done. split; last done. intros k c' Hu. assert (ts_requests s !! o = Some c') as E' by (apply H4; eauto). congruence.
Qed.
Print Assumptions C85_cancel.

Definition a_history : list tevent := [TStart 1 10 20; TStart 2 11 21; TEnd 1; TStart 3 10 22; TCancel 10; TCancel 12].
Example C85_nonvacuous : exists s, trun a_history = Some s /\ ts_cancelled s = [22] /\ under_way a_history 3 10 22.
Proof.
  eexists. split; first reflexivity. split; first done. exists [TStart 1 10 20; TStart 2 11 21; TEnd 1], [TCancel 10; TCancel 12].
  split; first done. set_solver.
Qed.
Lemma ground_exclusive h : (forall k k' o c c', TStart k o c ∈ h -> TStart k' o c' ∈ h -> k = k') -> exclusive h.
Proof.
  intros H h1 h2 k k' o c c' -> (a & b & -> & _) (a' & b' & E & _). eapply H; apply elem_of_app; left.
  - apply elem_of_app. right. left.
  - rewrite E. apply elem_of_app. right. left.
Qed.
Example C85_nonvacuous_exclusive : exclusive [TStart 1 10 20; TStart 2 11 21; TEnd 1; TCancel 11].
Proof. apply ground_exclusive. intros k k' o c c'. rewrite !elem_of_cons !elem_of_nil. naive_solver. Qed.
(** Without exclusiveness it fails: the end of one round trip makes the other one uncancellable. *)
Example C85_needs_exclusive : exists s, trun [TStart 1 10 20; TStart 2 10 21; TEnd 1; TCancel 10] = Some s /\ ts_cancelled s = [] /\
  under_way [TStart 1 10 20; TStart 2 10 21; TEnd 1] 2 10 21.
Proof. eexists. split; first reflexivity. split; first done. exists [TStart 1 10 20], [TEnd 1]. split; first done. set_solver. Qed.
