(** C58, C59: the recorded HTTP events are read back by UnmarshalEvents. *)
From Verif Require Import Base StrOrder IdModel TimeModel ReflModel ReflSpec ReflProofs EventModel EventSpec EventProofs EventProps RecorderModel HttpModel HttpSpec HttpProps
  TransportModel TransportProps HttpAnnSpec.
From stdpp Require Import sorting.
From Coq Require Import ssreflect.
Local Open Scope general_if_scope.

Definition int64_ok (z : Z) : Prop := (- 9223372036854775808 <= z < 9223372036854775808)%Z.
Definition headers_norm (m : gmap string string) : val :=
  VMap (match map_to_kvs m with [] => None | l => Some (map (fun kv => (fst kv, VString (snd kv))) l) end).
Lemma norm_flat m p : flatten (headers_norm m) p = flatten (header_val m) p.
Proof. rewrite /headers_norm /header_val. by destruct (map_to_kvs m). Qed.
Lemma norm_read m : headers_read m (headers_norm m).
Proof. exists (map_to_kvs m). split; [rewrite /map_to_kvs; apply merge_sort_Permutation|]. rewrite /headers_norm. by destruct (map_to_kvs m). Qed.
Lemma norm_good m : good (TMap tstring) (headers_norm m).
Proof.
  rewrite /headers_norm. pose proof (kvs_sorted m) as Hs. destruct (map_to_kvs m) as [|kv l]; [exact I|]. split; [done|]. split.
  - revert Hs. generalize (kv :: l). clear. intros l Hs. induction Hs as [|a l _ IH Ha]; [constructor|]. cbn [map]. constructor; [done|]. apply Forall_fmap. done.
  - apply Forall_fmap. apply Forall_forall. intros x _. exact I.
Qed.
Lemma good_request names r req : request_info_of names r req -> exists m req',
  redact_headers names (rq_header r) (rq_trailer r) m /\ request_read r m req' /\ (int64_ok (rq_length r) -> good request_info req' /\ writes req' = true) /\
  forall p, flatten req' p = flatten req p.
Proof.
  intros [m Hm]. exists m. eexists. split; [done|]. split; [exists (headers_norm m); split; [apply norm_read|reflexivity]|].
  pose proof (norm_good m). split.
  - rewrite /int64_ok. intros Hl. split; [fields|reflexivity].
  - intros p. cbn [flatten map fst snd]. by rewrite norm_flat.
Qed.
Lemma good_response names r resp : response_info_of names r resp -> exists m resp',
  redact_headers names (rs_header r) (rs_trailer r) m /\ response_read (rs_length r) (rs_status r) m resp' /\
  (int64_ok (rs_length r) -> int64_ok (rs_status r) -> good response_info resp' /\ writes resp' = true) /\ forall p, flatten resp' p = flatten resp p.
Proof.
  intros [m Hm]. exists m. eexists. split; [done|]. split; [exists (headers_norm m); split; [apply norm_read|reflexivity]|].
  pose proof (norm_good m). split.
  - rewrite /int64_ok. intros Hl Hst. split; [fields|]. cbn. by rewrite orb_true_r.
  - intros p. cbn [flatten map fst snd]. by rewrite norm_flat.
Qed.
Lemma marshal_same et x y anns : ev_marshaler et = None -> flatten x "" = flatten y "" -> marshal et x anns -> marshal et y anns.
Proof. intros He Hf Hm. inversion Hm as [f a Hc|fl fl' _ Hx HP]; subst; [congruence|]. apply (marshal_plain et y fl); [done|by rewrite -Hf|done]. Qed.

(** C58: reading the annotations of a request's span gives its name and the server event. *)
Theorem C58_read_back : forall names cf next g1 g2 lg r w out span ets reg,
  fst (get_span_id g1 g2 (rq_header r)) = Some span ->
  serve names cf next g1 g2 None lg r w out -> oc_panics out = false ->
  (forall r ctx c, c ∈ codes_of (fst (fst (next r ctx))) -> (100 <= c <= 999)%Z) ->
  register_all ets = Some reg -> name_event ∈ ets -> server_event ∈ ets ->
  exists r1 ctx ops r2 name recv send anns hreq hresp req resp,
    oc_nexts out = [(r1, ctx)] /\ next r1 ctx = (ops, r2, false) /\ oc_collects out = [(span, anns)] /\
    let route := match cf_route cf with Some f => f r2 | None => ""%string end in
    let user := match cf_user cf with Some f => f r2 | None => ""%string end in
    let seen := if decide (header_get (rq_header r) "Span-ID" = ""%string) then r2 else r1 in
    let length := Z.of_nat (String.length (body_of ops)) in
    redact_headers names (rq_header seen) (rq_trailer seen) hreq /\
    redact_headers names (header_set (header_after ops (w_header w)) "Span-ID" (spanid_string span)) ∅ hresp /\
    request_read seen hreq req /\ response_read length (default 200%Z (last (codes_of ops))) hresp resp /\
    (valid_time recv -> valid_time send -> int64_ok (rq_length seen) -> int64_ok length ->
     unmarshal_events reg anns = ([("name", VStruct [("Name", VString name)]);
       ("HTTPServer", VStruct [("Server.Request", req); ("Server.Response", resp); ("Server.Route", VString route); ("Server.User", VString user);
                               ("Server.Recv", VTime recv); ("Server.Send", VTime send)])]%string, EsOk)).
Proof.
  intros names cf next g1 g2 lg r w out span ets reg Hspan Hs Hp Hcodes Hreg Hin1 Hin2.
  destruct (C58_one_span names cf next g1 g2 lg r w out span Hspan Hs Hp)
    as (r1 & ctx & r2 & ops & req & resp & route & user & name & recv & send & anns1 & anns2 & H1 & H2 & _ & _ & H3 & H4 & H5 & H6 & H7 & -> & -> & _ & _ & H8).
  assert (forall c, c ∈ codes_of ops -> (100 <= c <= 999)%Z) as Hc by (intros c Hc; apply (Hcodes r1 ctx); by rewrite H2). specialize (H8 Hc).
  set (seen := if decide (header_get (rq_header r) "Span-ID" = ""%string) then r2 else r1).
  assert (request_info_of names seen req) as Hreq. { rewrite /seen. case_decide; [by apply H7|by apply H6]. }
  destruct (good_request _ _ _ Hreq) as (hreq & req' & Hm1 & Hr1 & Hg1 & Hf1).
  destruct (good_response _ _ _ H8) as (hresp & resp' & Hm2 & Hr2 & Hg2 & Hf2). cbn [rs_length rs_status rs_header rs_trailer] in *.
  exists r1, ctx, ops, r2, name, recv, send, (anns1 ++ anns2), hreq, hresp, req', resp'. split; [done|]. split; [done|]. split; [done|].
  cbn zeta. fold seen. split; [exact Hm1|]. split; [exact Hm2|]. split; [exact Hr1|]. split; [exact Hr2|]. intros Hv1 Hv2 Hl1 Hl2.
  set (ev := VStruct (("Server.Request"%string, _) :: _)). assert (int64_ok (default 200%Z (last (codes_of ops)))) as Hst.
  { rewrite /int64_ok. destruct (last (codes_of ops)) as [c|] eqn:E; [|done]. apply last_Some_elem_of in E. specialize (Hc c E). cbn. lia. }
  destruct (Hg1 Hl1) as [Hg1' Hw1], (Hg2 Hl2 Hst) as [Hg2' Hw2].
  rewrite (C49_recovered_partial ets reg [(name_event, VStruct [("Name", VString name)]); (server_event, ev)] (anns1 ++ anns2) Hreg).
  - constructor; [split; [done|split; [done|]]; fields|]. constructor; [|constructor]. split; [done|]. split; [done|]. cbn [fst snd]. rewrite /ev. fields.
  - apply separate_b_ok. vm_compute. reflexivity.
  - exists [anns1; anns2]. split; [|by rewrite /= app_nil_r]. constructor; [done|]. constructor; [|constructor]. cbn [fst snd].
    eapply (marshal_same server_event); [done| |exact H5]. rewrite /ev. cbn [flatten map fst snd]. by rewrite Hf1 Hf2.
  - intros et x Hx. left. apply elem_of_cons in Hx as [[= -> ->]|[[= -> ->]|[]%elem_of_nil]%elem_of_cons]; done.
  - rewrite !filter_cons !decide_True; try done; apply elem_of_list_fmap; first [by exists server_event|by exists name_event].
Qed.
Print Assumptions C58_read_back.

(** C59: the same for the client: reading the annotations of a request's span gives the client event. *)
Theorem C59_read_back : forall names span set_name tr g1 g2 lg mem q out ets reg,
  is_id (sp_trace span) -> is_id (sp_span span) -> is_id g2 -> is_Some (mem !! q_map q) ->
  round_trip names span set_name tr g1 g2 None lg mem q out -> tp_result out <> TPanic ->
  register_all ets = Some reg -> name_event ∈ ets -> client_event ∈ ets ->
  exists sent anns hreq req resp send recv, tp_sent out = [sent] /\
    tp_collects out = [(MkSpanID (sp_trace span) g1 (sp_span span), anns)] /\
    redact_headers names (rq_header sent) (rq_trailer sent) hreq /\ request_read sent hreq req /\
    match tp_result out with
    | TResponse r => exists hresp, redact_headers names (rs_header r) (rs_trailer r) hresp /\ response_read (rs_length r) (rs_status r) hresp resp
    | _ => resp = VStruct [("Headers", VMap None); ("ContentLength", VInt 0); ("StatusCode", VInt (-1))]%string
    end /\
    (valid_time recv -> valid_time send -> int64_ok (rq_length sent) ->
     (forall r, tp_result out = TResponse r -> int64_ok (rs_length r) /\ int64_ok (rs_status r)) ->
     unmarshal_events reg anns = ((if set_name then [("name", VStruct [("Name", VString ("Request " +:+ rq_url_host (seen mem q)))])] else []) ++
       [("HTTPClient", VStruct [("Client.Request", req); ("Client.Response", resp); ("Client.Send", VTime send); ("Client.Recv", VTime recv)])]%string, EsOk)).
Proof.
  intros names span set_name tr g1 g2 lg mem q out ets reg I1 I2 I3 Hq Hr Hnp Hreg Hin1 Hin2.
  destruct (C59_round_trip names span set_name tr g1 g2 lg mem q out I1 I2 I3 Hq Hr) as (_ & text & sent & _ & _ & Hsent & Hres & Hm).
  rewrite -Hres in Hm. rewrite Hres in Hnp.
  assert (exists anns1 anns2 req resp send recv,
        tp_collects out = [(MkSpanID (sp_trace span) g1 (sp_span span), anns1 ++ anns2)] /\
        (if set_name then marshal name_event (VStruct [("Name", VString ("Request " +:+ rq_url_host (seen mem q)))]) anns1 else anns1 = []) /\
        marshal client_event (VStruct [("Client.Request", req); ("Client.Response", resp); ("Client.Send", VTime send); ("Client.Recv", VTime recv)]) anns2 /\
        request_info_of names sent req /\
        match tp_result out with
        | TResponse r => response_info_of names r resp
        | _ => resp = VStruct [("Headers", VMap None); ("ContentLength", VInt 0); ("StatusCode", VInt (-1))]
        end) as (anns1 & anns2 & req & resp & send & recv & H1 & H2 & H3 & H4 & H5).
  { rewrite Hres in Hm |- *. destruct (tr sent); [exact Hm|exact Hm|done]. }
  destruct (good_request _ _ _ H4) as (hreq & req' & Hm1 & Hr1 & Hg1 & Hf1).
  assert (exists resp', (forall p, flatten resp' p = flatten resp p) /\
    ((forall r, tp_result out = TResponse r -> int64_ok (rs_length r) /\ int64_ok (rs_status r)) -> good response_info resp' /\ writes resp' = true) /\
    match tp_result out with
    | TResponse r => exists hresp, redact_headers names (rs_header r) (rs_trailer r) hresp /\ response_read (rs_length r) (rs_status r) hresp resp'
    | _ => resp' = VStruct [("Headers", VMap None); ("ContentLength", VInt 0); ("StatusCode", VInt (-1))]%string
    end) as (resp' & Hf2 & Hg2 & Hr2).
  { destruct (tp_result out) as [rs|e|].
    - destruct (good_response _ _ _ H5) as (hresp & resp' & Hm2 & Hr2 & Hg2 & Hf2). exists resp'. split; [done|]. split.
      + intros H. destruct (H rs eq_refl). by apply Hg2.
      + by exists hresp.
    - exists resp. split; [done|]. split; [|done]. intros _. subst resp. split; [fields|done].
    - exists resp. split; [done|]. split; [|done]. intros _. subst resp. split; [fields|done]. }
  exists sent, (anns1 ++ anns2), hreq, req', resp', send, recv. split; [done|]. split; [done|]. split; [done|]. split; [done|]. split; [done|].
  intros Hv1 Hv2 Hl1 Hl2. destruct (Hg1 Hl1) as [Hg1' Hw1], (Hg2 Hl2) as [Hg2' Hw2]. set (ev := VStruct (("Client.Request"%string, _) :: _)).
  assert (marshal client_event ev anns2) as H3'.
  { eapply (marshal_same client_event); [done| |exact H3]. rewrite /ev. cbn [flatten map fst snd]. by rewrite Hf1 Hf2. }
  assert (good_event (client_event, ev)) as Hgev. { split; [done|]. split; [done|]. cbn [fst snd]. rewrite /ev. fields. }
  set (nv := VStruct [("Name", VString ("Request " +:+ rq_url_host (seen mem q)))]) in *.
  assert (good_event (name_event, nv)) as Hgnv. { split; [done|]. split; [done|]. cbn [fst snd]. rewrite /nv. fields. }
  rewrite (C49_recovered_partial ets reg ((if set_name then [(name_event, nv)] else []) ++ [(client_event, ev)]) (anns1 ++ anns2) Hreg).
  - destruct set_name; cbn [app]; repeat (apply List.Forall_cons; [assumption|]); apply List.Forall_nil.
  - destruct set_name; apply separate_b_ok; vm_compute; reflexivity.
  - destruct set_name.
    + exists [anns1; anns2]. split; [|by rewrite /= app_nil_r]. cbn [app]. repeat (apply List.Forall2_cons; [assumption|]); apply List.Forall2_nil.
    + subst anns1. exists [anns2]. split; [|by rewrite /= app_nil_r]. cbn [app]. repeat (apply List.Forall2_cons; [assumption|]); apply List.Forall2_nil.
  - intros et x Hx. left. destruct set_name; cbn [app] in Hx.
    + apply elem_of_cons in Hx as [[= -> ->]|[[= -> ->]|[]%elem_of_nil]%elem_of_cons]; done.
    + apply elem_of_list_singleton in Hx as [= -> ->]. done.
  - destruct set_name; cbn [app]; rewrite !filter_cons !decide_True; try done; apply elem_of_list_fmap; first [by exists client_event|by exists name_event].
Qed.
Print Assumptions C59_read_back.

Example C58_read_back_nonvacuous : exists reg, register_all library_events = Some reg /\ name_event ∈ library_events /\ server_event ∈ library_events /\ client_event ∈ library_events.
Proof. eexists. split; [vm_compute; reflexivity|]. rewrite /library_events. set_solver. Qed.
