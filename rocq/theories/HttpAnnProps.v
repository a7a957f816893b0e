(** C52, C58, C59: what is recorded of requests and responses, as annotations. *)
From Verif Require Import Base StrOrder IdModel TimeModel ReflModel EventModel RecorderModel HttpModel HttpSpec HttpProps TransportModel TransportProps HttpAnnSpec.
From stdpp Require Import sorting.
From Coq Require Import ssreflect.
Local Open Scope general_if_scope.

Lemma flat_headers m p : p <> ""%string -> exists fl, flatten (header_val m) p = Some fl /\
  Permutation fl (map (fun kv => (p +:+ "." +:+ fst kv, snd kv)%string) (map_to_list m)).
Proof.
  intros Hp. exists (map (fun kv => (p +:+ "." +:+ fst kv, snd kv)%string) (map_to_kvs m)). split.
  - rewrite /header_val. cbn [flatten]. induction (map_to_kvs m) as [|[k v] l IH]; [done|]. cbn [map fst snd flatten cat_opt fold_right] in IH |- *.
    rewrite /cat_opt in IH. rewrite IH. rewrite /nest. destruct p; done.
  - apply Permutation_map. rewrite /map_to_kvs. apply merge_sort_Permutation.
Qed.
Lemma flat_request names r req p : p <> ""%string -> request_info_of names r req -> exists m fl, redact_headers names (rq_header r) (rq_trailer r) m /\
  flatten req p = Some fl /\ Permutation fl (request_fields p r m).
Proof.
  intros Hp [m Hm]. destruct (flat_headers m (p +:+ ".Headers")) as (fl & Hf & HP); [by destruct p|]. exists m.
  cbn [flatten map fst snd cat_opt fold_right]. assert (forall k, nest p k = p +:+ "." +:+ k)%string as Hn by (intros; rewrite /nest; by destruct p).
  rewrite !Hn. change (p +:+ "." +:+ "Headers")%string with (p +:+ ".Headers")%string. rewrite Hf. cbn [app]. eexists. split; [exact Hm|]. split; [reflexivity|].
  rewrite HP. rewrite /request_fields /header_fields. cbn [app].
  assert (map (fun kv : string * string => ((p +:+ ".Headers") +:+ "." +:+ kv.1, kv.2)%string) (map_to_list m) =
          map (fun kv : string * string => (p +:+ ".Headers." +:+ kv.1, kv.2)%string) (map_to_list m)) as ->.
  { apply map_ext. intros kv. by rewrite str_app_assoc. }
  do 3 apply perm_skip. rewrite Permutation_app_comm. cbn [app]. done.
Qed.
Lemma flat_response names r resp p : p <> ""%string -> response_info_of names r resp -> exists m fl, redact_headers names (rs_header r) (rs_trailer r) m /\
  flatten resp p = Some fl /\ Permutation fl (response_fields p (rs_length r) (rs_status r) m).
Proof.
  intros Hp [m Hm]. destruct (flat_headers m (p +:+ ".Headers")) as (fl & Hf & HP); [by destruct p|]. exists m.
  cbn [flatten map fst snd cat_opt fold_right]. assert (forall k, nest p k = p +:+ "." +:+ k)%string as Hn by (intros; rewrite /nest; by destruct p).
  rewrite !Hn. change (p +:+ "." +:+ "Headers")%string with (p +:+ ".Headers")%string. rewrite Hf. cbn [app]. eexists. split; [exact Hm|]. split; [reflexivity|].
  rewrite HP. rewrite /response_fields /header_fields. cbn [app].
  assert (map (fun kv : string * string => ((p +:+ ".Headers") +:+ "." +:+ kv.1, kv.2)%string) (map_to_list m) =
          map (fun kv : string * string => (p +:+ ".Headers." +:+ kv.1, kv.2)%string) (map_to_list m)) as ->.
  { apply map_ext. intros kv. by rewrite str_app_assoc. }
  rewrite Permutation_app_comm. cbn [app]. done.
Qed.
Lemma says_marshal et x anns fl fields : ev_marshaler et = None -> marshal et x anns -> flatten x "" = Some fl -> Permutation fl fields -> says anns (ev_schema et) fields.
Proof.
  intros He Hm Hf HP. inversion Hm as [f anns' Hc|fl' fl'' _ Hf' HP' E]; [congruence|]. rewrite Hf in Hf'. injection Hf' as <-.
  exists fl''. split; [by rewrite -HP' HP|]. done.
Qed.

(** C58: the annotations that the middleware collects are those of the name and of the server event: the request, with its headers as
    C52 describes them, the response that was sent, and the route, the user and the times. *)
Theorem C58_annotations : forall names cf next g1 g2 lg r w out span,
  fst (get_span_id g1 g2 (rq_header r)) = Some span ->
  serve names cf next g1 g2 None lg r w out -> oc_panics out = false ->
  (forall r ctx c, c ∈ codes_of (fst (fst (next r ctx))) -> (100 <= c <= 999)%Z) ->
  exists r1 ctx ops r2 name recv send anns1 anns2 hreq hresp,
    oc_nexts out = [(r1, ctx)] /\ next r1 ctx = (ops, r2, false) /\ oc_collects out = [(span, anns1 ++ anns2)] /\
    let route := match cf_route cf with Some f => f r2 | None => ""%string end in
    let user := match cf_user cf with Some f => f r2 | None => ""%string end in
    let seen := if decide (header_get (rq_header r) "Span-ID" = ""%string) then r2 else r1 in
    redact_headers names (rq_header seen) (rq_trailer seen) hreq /\
    redact_headers names (header_set (header_after ops (w_header w)) "Span-ID" (spanid_string span)) ∅ hresp /\
    says anns1 "name" [("Name"%string, name)] /\
    says anns2 "HTTPServer" (request_fields "Server.Request" seen hreq ++
      response_fields "Server.Response" (Z.of_nat (String.length (body_of ops))) (default 200%Z (last (codes_of ops))) hresp ++
      [("Server.Route", route); ("Server.User", user); ("Server.Recv", fmt_time recv); ("Server.Send", fmt_time send)]%string).
Proof.
  intros names cf next g1 g2 lg r w out span Hspan Hs Hp Hcodes.
  destruct (C58_one_span names cf next g1 g2 lg r w out span Hspan Hs Hp)
    as (r1 & ctx & r2 & ops & req & resp & route & user & name & recv & send & anns1 & anns2 & H1 & H2 & _ & _ & H3 & H4 & H5 & H6 & H7 & -> & -> & _ & _ & H8).
  specialize (H8 ltac:(intros c Hc; apply (Hcodes r1 ctx); by rewrite H2)).
  set (rec := if decide (header_get (rq_header r) "Span-ID" = ""%string) then r2 else r1).
  assert (request_info_of names rec req) as Hreq. { rewrite /rec. case_decide; [by apply H7|by apply H6]. }
  destruct (flat_request names rec req "Server.Request" ltac:(done) Hreq) as (hreq & f1 & Hm1 & Hf1 & HP1).
  destruct (flat_response names _ resp "Server.Response" ltac:(done) H8) as (hresp & f2 & Hm2 & Hf2 & HP2).
  exists r1, ctx, ops, r2, name, recv, send, anns1, anns2, hreq, hresp. split; [done|]. split; [done|]. split; [done|]. cbn zeta. fold rec.
  split; [exact Hm1|]. split; [exact Hm2|]. split.
  - eapply (says_marshal name_event); [done|exact H4|reflexivity|done].
  - eapply (says_marshal server_event); [done|exact H5|..].
    + cbn [flatten map fst snd cat_opt fold_right]. change (nest "" ?k) with k. rewrite Hf1 Hf2. reflexivity.
    + rewrite HP1 HP2. done.
Qed.
Print Assumptions C58_annotations.

(** C59: the same for the client event: the request that was sent, and the answer or the status -1. *)
Theorem C59_annotations : forall names span set_name tr g1 g2 lg mem q out,
  is_id (sp_trace span) -> is_id (sp_span span) -> is_id g2 -> is_Some (mem !! q_map q) ->
  round_trip names span set_name tr g1 g2 None lg mem q out -> tp_result out <> TPanic ->
  exists sent anns1 anns2 hreq resp send recv, tp_sent out = [sent] /\
    tp_collects out = [(MkSpanID (sp_trace span) g1 (sp_span span), anns1 ++ anns2)] /\
    (if set_name then says anns1 "name" [("Name", "Request " +:+ rq_url_host (seen mem q))]%string else anns1 = []) /\
    redact_headers names (rq_header sent) (rq_trailer sent) hreq /\
    says anns2 "HTTPClient" (request_fields "Client.Request" sent hreq ++ resp ++ [("Client.Send", fmt_time send); ("Client.Recv", fmt_time recv)]%string) /\
    match tp_result out with
    | TResponse r => exists hresp, redact_headers names (rs_header r) (rs_trailer r) hresp /\ resp = response_fields "Client.Response" (rs_length r) (rs_status r) hresp
    | _ => resp = [("Client.Response.ContentLength", "0"); ("Client.Response.StatusCode", "-1")]%string
    end.
Proof.
  intros names span set_name tr g1 g2 lg mem q out I1 I2 I3 Hq Hr Hnp.
  destruct (C59_round_trip names span set_name tr g1 g2 lg mem q out I1 I2 I3 Hq Hr) as (_ & text & sent & _ & _ & Hsent & Hres & Hm).
  rewrite -Hres in Hm. rewrite Hres in Hnp.
  assert (exists anns1 anns2 req resp send recv,
        tp_collects out = [(MkSpanID (sp_trace span) g1 (sp_span span), anns1 ++ anns2)] /\
        (if set_name then marshal name_event (VStruct [("Name", VString ("Request " +:+ rq_url_host (seen mem q)))]) anns1 else anns1 = []) /\
        marshal client_event (VStruct [("Client.Request", req); ("Client.Response", resp); ("Client.Send", VTime send); ("Client.Recv", VTime recv)]) anns2 /\
        request_info_of names sent req /\
        match tp_result out with
        | TResponse r => response_info_of names r resp
        | _ => resp = VStruct [("Headers", VMap None); ("ContentLength", VInt 0); ("StatusCode", VInt (-1))]
        end) as (anns1 & anns2 & req & resp & send & recv & H1 & H2 & H3 & H4 & H5).
  { rewrite Hres in Hm |- *. destruct (tr sent); [exact Hm|exact Hm|done]. }
  destruct (flat_request names sent req "Client.Request" ltac:(done) H4) as (hreq & f1 & Hm1 & Hf1 & HP1).
  assert (exists f2, flatten resp "Client.Response" = Some f2 /\ exists f2', Permutation f2 f2' /\
    match tp_result out with
    | TResponse r => exists hresp, redact_headers names (rs_header r) (rs_trailer r) hresp /\ f2' = response_fields "Client.Response" (rs_length r) (rs_status r) hresp
    | _ => f2' = [("Client.Response.ContentLength", "0"); ("Client.Response.StatusCode", "-1")]%string
    end) as (f2 & Hf2 & f2' & HP2 & Hf2').
  { destruct (tp_result out) as [rs|e|]; [|subst resp; by eexists; split; [reflexivity|by eexists]..].
    destruct (flat_response names rs resp "Client.Response" ltac:(done) H5) as (hresp & f2 & Hm2 & Hf2 & HP2). exists f2. split; [done|].
    eexists. split; [exact HP2|]. by exists hresp. }
  exists sent, anns1, anns2, hreq, f2', send, recv. split; [done|]. split; [done|]. split.
  { destruct set_name; [|done]. eapply (says_marshal name_event); [done|exact H2|reflexivity|done]. }
  split; [exact Hm1|]. split; [|exact Hf2'].
  eapply (says_marshal client_event); [done|exact H3|..].
  - cbn [flatten map fst snd cat_opt fold_right]. change (nest "" ?k) with k. rewrite Hf1 Hf2. reflexivity.
  - rewrite HP1 HP2. done.
Qed.
Print Assumptions C59_annotations.

(** C52: what a collector is given of a secret header of a request is REDACTED and nothing else. *)
Theorem C52_annotations : forall names cf next g1 g2 lg r w out span r1 ctx ops r2 anns,
  fst (get_span_id g1 g2 (rq_header r)) = Some span ->
  serve names cf next g1 g2 None lg r w out -> oc_panics out = false ->
  (forall r ctx c, c ∈ codes_of (fst (fst (next r ctx))) -> (100 <= c <= 999)%Z) ->
  oc_nexts out = [(r1, ctx)] -> next r1 ctx = (ops, r2, false) -> oc_collects out = [(span, anns)] ->
  let seen := if decide (header_get (rq_header r) "Span-ID" = ""%string) then r2 else r1 in
  forall k, is_Some (rq_header seen !! k) \/ is_Some (rq_trailer seen !! k) -> secret names k ->
  let key := ("Server.Request.Headers." +:+ canonical_key k)%string in
  Ann key (Some "REDACTED"%string) ∈ anns /\ forall v, Ann key v ∈ anns -> v = Some "REDACTED"%string.
Proof.
  intros names cf next g1 g2 lg r w out span r1 ctx ops r2 anns Hspan Hs Hp Hcodes Hn Hnext Hc seen k Hk Hsec key.
  destruct (C58_annotations names cf next g1 g2 lg r w out span Hspan Hs Hp Hcodes)
    as (r1' & ctx' & ops' & r2' & name & recv & send & anns1 & anns2 & hreq & hresp & H1 & H2 & H3 & Hr1 & Hr2 & (f1 & HP1 & E1) & (f2 & HP2 & E2)).
  rewrite Hn in H1. injection H1 as <- <-. rewrite Hnext in H2. injection H2 as <- <-. rewrite Hc in H3. injection H3 as ->.
  fold seen in Hr1, HP2. pose proof (C52_redacted names _ _ _ k Hr1 Hk Hsec) as Hm.
  assert (forall v, (key, v) ∈ f2 <-> hreq !! canonical_key k = Some v) as Hin.
  { intros v. rewrite HP2 /request_fields /response_fields /header_fields. split.
    - rewrite !elem_of_app !elem_of_list_In !in_map_iff. intros [[H|(x & E & Hx)]|[[H|(x & E & Hx)]|H]].
      1,3,5: by repeat (destruct H as [H|H]; [injection H; intros; subst key; cbn in *; discriminate|]).
      + injection E as E <-. rewrite -E.
        apply elem_of_map_to_list. destruct x. by apply elem_of_list_In.
      + by injection E as E.
    - intros Hv. rewrite !elem_of_app. left. right. apply elem_of_list_In.
      apply (in_map (fun kv : string * string => ("Server.Request" +:+ ".Headers." +:+ kv.1, kv.2)%string) _ (canonical_key k, v)).
      apply elem_of_list_In. by apply elem_of_map_to_list. }
  split.
  - rewrite E2 !elem_of_app. right. left. apply elem_of_list_In.
    apply (in_map (fun f => Ann (fst f) (Some (snd f))) _ (key, "REDACTED"%string)). apply elem_of_list_In. by apply Hin.
  - intros v. rewrite E1 E2 !elem_of_app !elem_of_list_singleton !elem_of_list_In !in_map_iff. intros [[(x & E & Hx)|E]|[(x & E & Hx)|E]].
    + exfalso. injection E as E <-. apply elem_of_list_In in Hx. rewrite HP1 in Hx. apply elem_of_list_singleton in Hx as ->. done.
    + by injection E.
    + injection E as E <-. apply elem_of_list_In in Hx. destruct x as [a b]. cbn in E. subst a. apply Hin in Hx. cbn. congruence.
    + by injection E.
Qed.
Print Assumptions C52_annotations.

Example C58_annotations_nonvacuous : exists out span anns,
  serve ["PARENT-span-id"%string] (MkConfig None None None) (fun r ctx => ([HWriteHeader 404; HWrite "no"], r, false)) 5 6 None (fun _ => []) a_get a_writer out /\
  oc_panics out = false /\ oc_collects out = [(span, anns)] /\
  (Ann "Server.Response.StatusCode" (Some "404") ∈ anns /\ Ann "Server.Response.ContentLength" (Some "2") ∈ anns /\
   Ann "Server.Request.Headers.Parent-Span-Id" (Some "REDACTED") ∈ anns)%string.
Proof.
  set (next := fun (r : request) (ctx : option SpanID) => ([HWriteHeader 404; HWrite "no"], r, false)).
  destruct (serve_total ["PARENT-span-id"%string] (MkConfig None None None) next 5 6 None (fun _ => []) a_get a_writer) as (out & Hs & Hp).
  assert (oc_panics out = false) as Hf. { apply Hp; [by rewrite (malformed_none 5 6)|done]. }
  assert (fst (get_span_id 5 6 (rq_header a_get)) = Some (MkSpanID 1 5 2)) as Hspan by done.
  assert (forall r ctx c, c ∈ codes_of (fst (fst (next r ctx))) -> (100 <= c <= 999)%Z) as Hcodes.
  { intros r ctx c Hc%elem_of_list_In. cbn in Hc. repeat (destruct Hc as [<-|Hc]; [done|]). done. }
  destruct (C58_annotations _ _ _ _ _ _ _ _ _ _ Hspan Hs Hf Hcodes)
    as (r1 & ctx & ops & r2 & name & recv & send & anns1 & anns2 & hreq & hresp & H1 & H2 & H3 & Hr1 & Hr2 & _ & (f2 & HP2 & E2)).
  assert (forall k v, (k, v) ∈ f2 -> Ann k (Some v) ∈ anns1 ++ anns2) as Hin.
  { intros k v H. rewrite E2 !elem_of_app. right. left. apply elem_of_list_In.
    apply (in_map (fun f => Ann (fst f) (Some (snd f))) _ (k, v)). by apply elem_of_list_In. }
  exists out, (MkSpanID 1 5 2), (anns1 ++ anns2). split; [done|]. split; [done|]. split; [done|].
  injection H2 as <- <-. split; [|split].
  - apply Hin. rewrite HP2 !elem_of_app. right. left. left. apply elem_of_list_In. cbn. auto.
  - apply Hin. rewrite HP2 !elem_of_app. right. left. left. apply elem_of_list_In. cbn. auto.
  - refine (proj1 (C52_annotations _ _ _ _ _ _ _ _ _ _ _ _ _ _ _ Hspan Hs Hf Hcodes H1 (eq_refl (next r1 ctx)) H3 "Parent-Span-Id"%string _ _)).
    + left. case_decide as Hd; [|by exfalso; apply Hd].
      destruct (C58_one_span _ _ _ _ _ _ _ _ _ _ Hspan Hs Hf) as (r1' & ctx' & r2' & ops' & req & resp & ro & us & na & re & se & a1 & a2 & H1' & H2' & Hr & _).
      rewrite H1 in H1'. injection H1' as <- <-. destruct (Hr eq_refl) as [-> _]. rewrite lookup_insert. by eexists.
    + by constructor.
Qed.
