(** Property C144: what the spans of an HTTP request tell about it. *)
From Verif Require Import Base StrOrder IdModel IdSpec TimeModel ReflModel ReflSpec ReflProofs EventModel EventSpec EventProofs EventProps LibEventSpec LibEventProps
  RecorderModel HttpModel HttpSpec HttpProofs HttpProps TransportModel TransportSpec TransportProps ToldSpec.
From stdpp Require Import sorting.

Lemma merged_plain names (hdr trailer : header) k :
  merged names hdr trailer k = match hdr !! k, trailer !! k with None, None => None
    | a, b => Some (if is_redacted names k then redacted else default [] a ++ default [] b) end.
Proof. unfold merged. destruct (hdr !! k), (trailer !! k), (is_redacted names k); cbn; rewrite ?app_nil_r; done. Qed.
Lemma redacted_shown names hdr trailer m : redact_headers names hdr trailer m -> shown_headers names hdr trailer (map_to_kvs m).
Proof.
  intros Hm. split; [apply kvs_sorted|]. intros Hc k v. rewrite <- elem_of_list_In, kvs_elem. apply redact_spec in Hm as [E1 E2].
  assert (forall k v, merged names hdr trailer k = Some v -> canonical_key k = k) as Hc'.
  { intros k' v'. rewrite merged_plain. intros H. apply Hc. destruct (hdr !! k'), (trailer !! k'); eauto. }
  assert (forall v, m !! k = Some v <-> exists l, merged names hdr trailer k = Some l /\ v = HttpModel.join "," l) as Hk.
  { intros v'. split.
    - intros H. destruct (E1 _ _ H) as (k' & l & Hl & E & ->). pose proof (Hc' _ _ Hl) as Hx. rewrite Hx in E. subst k'. eauto.
    - intros (l & Hl & ->). destruct (E2 _ _ Hl) as [x Hx]. rewrite (Hc' _ _ Hl) in Hx. destruct (E1 _ _ Hx) as (k' & l' & Hl' & E & ->).
      rewrite (Hc' _ _ Hl') in E. subst k'. rewrite Hl in Hl'. injection Hl' as <-. done. }
  rewrite Hk. rewrite merged_plain. destruct (is_redacted names k) eqn:Er.
  - apply is_redacted_spec in Er. split.
    + intros (l & Hl & ->). split; [destruct (hdr !! k), (trailer !! k); eauto; done|]. left. split; [done|]. destruct (hdr !! k), (trailer !! k); simplify_eq; done.
    + intros (Hs & [[_ ->]|[Hn _]]); [|done]. exists redacted. split; [|done]. destruct (hdr !! k), (trailer !! k); try done. destruct Hs as [[? ?]|[? ?]]; done.
  - assert (~ secret names k) as Hn by (intros H%is_redacted_spec; congruence). split.
    + intros (l & Hl & ->). split; [destruct (hdr !! k), (trailer !! k); eauto; done|]. right. split; [done|]. destruct (hdr !! k), (trailer !! k); simplify_eq; done.
    + intros (Hs & [[Hx _]|[_ ->]]); [done|]. destruct (hdr !! k), (trailer !! k); cbn; eauto. destruct Hs as [[? ?]|[? ?]]; done.
Qed.

(** A header without entries is written as no header at all. *)
Lemma flatten_header_val m p : flatten (header_val m) p = flatten (headers_val (map_to_kvs m)) p.
Proof. unfold header_val, headers_val. by destruct (map_to_kvs m). Qed.
Definition request_told (r : HttpModel.request) (m : gmap string string) : LibEventSpec.request :=
  Req (HttpModel.rq_method r) (HttpModel.rq_uri r) (HttpModel.rq_proto r) (map_to_kvs m) (HttpModel.rq_host r) (HttpModel.rq_remote r) (HttpModel.rq_length r).
Definition response_told (r : HttpModel.response) (m : gmap string string) : LibEventSpec.response :=
  Resp (map_to_kvs m) (HttpModel.rs_length r) (HttpModel.rs_status r).
Lemma request_flat names r v : request_info_of names r v -> exists m, redact_headers names (rq_header r) (rq_trailer r) m /\ forall p, flatten v p = flatten (request_val (request_told r m)) p.
Proof. intros [m Hm]. exists m. split; [done|]. intros p. unfold request_val. cbn [flatten map fst snd]. by rewrite flatten_header_val. Qed.
Lemma response_flat names r v : response_info_of names r v -> exists m, redact_headers names (rs_header r) (rs_trailer r) m /\ forall p, flatten v p = flatten (response_val (response_told r m)) p.
Proof. intros [m Hm]. exists m. split; [done|]. intros p. unfold response_val. cbn [flatten map fst snd]. by rewrite flatten_header_val. Qed.
Lemma marshal_same et x y anns : ev_marshaler et = None -> flatten x "" = flatten y "" -> marshal et x anns -> marshal et y anns.
Proof. intros Hn E H. inversion H as [f a Hf|fl fl' _ Hfl Hp]; subst; [congruence|]. apply (marshal_plain et y fl fl'); [done|by rewrite <- E|done]. Qed.
Lemma request_told_ok r m : int64 (HttpModel.rq_length r) -> request_ok (request_told r m).
Proof. intros H. split; [apply kvs_sorted|done]. Qed.
Lemma response_told_ok r m : int64 (HttpModel.rs_length r) -> int64 (HttpModel.rs_status r) -> response_ok (response_told r m).
Proof. intros H1 H2. split; [apply kvs_sorted|done]. Qed.
Lemma request_tells names r m : redact_headers names (rq_header r) (rq_trailer r) m -> tells_request names r (request_val (request_told r m)).
Proof. intros H. exists (map_to_kvs m). split; [by apply redacted_shown|done]. Qed.
Lemma response_tells names r m : redact_headers names (rs_header r) (rs_trailer r) m -> tells_response names r (response_val (response_told r m)).
Proof. intros H. exists (map_to_kvs m). split; [by apply redacted_shown|done]. Qed.

Lemma read_back reg evs anns : register_all library_events = Some reg -> NoDup (map fst evs) -> msg_event ∉ map fst evs ->
  (forall e, e ∈ evs -> fst e ∈ library_events /\ good (ev_ty (fst e)) (snd e)) -> recorded evs anns ->
  unmarshal_events reg anns = (map (fun e => (ev_schema (fst e), snd e)) evs, EsOk).
Proof.
  intros Hreg Hnd Hmsg Hev Hrec. rewrite (C49_recovered_partial library_events reg evs anns); try done.
  - do 2 f_equal. assert (forall e, e ∈ evs -> ev_schema (fst e) ∈ map ev_schema library_events) as H.
    2: { clear -H. induction evs as [|e evs IH]; [done|]. rewrite filter_cons. destruct (decide _) as [_|Hx]; [|destruct Hx; apply H; by left].
         f_equal. apply IH. intros e' He. apply H. by right. }
    intros e He. apply elem_of_list_fmap. exists (fst e). split; [done|]. by apply Hev.
  - apply Forall_forall. intros e He. destruct (Hev e He) as [H1 H2]. destruct (C47_library _ H1) as (_ & ? & ?). by split.
  - apply C49_library_partial; [done| |by left]. intros et (e & -> & He)%elem_of_list_fmap. by apply Hev.
  - intros et x He. left. apply (Hev _ He).
Qed.

Definition client_of (rq : LibEventSpec.request) (rs : LibEventSpec.response) (send recv : time) : val :=
  VStruct [("Client.Request", request_val rq); ("Client.Response", response_val rs); ("Client.Send", VTime send); ("Client.Recv", VTime recv)]%string.
Definition server_of (rq : LibEventSpec.request) (rs : LibEventSpec.response) (route user : string) (recv send : time) : val :=
  VStruct [("Server.Request", request_val rq); ("Server.Response", response_val rs); ("Server.Route", VString route); ("Server.User", VString user); ("Server.Recv", VTime recv); ("Server.Send", VTime send)]%string.
Lemma client_flat rq rs send recv : flatten (client_of rq rs send recv) "" =
  Some (app (request_kvs "Client.Request" rq) (app (response_kvs "Client.Response" rs) [("Client.Send", fmt_time send); ("Client.Recv", fmt_time recv)]))%string.
Proof. unfold client_of. cbn [flatten map fst snd]; cbn [cat_opt fold_right]. rewrite flatten_request, flatten_response by done. done. Qed.
Lemma server_flat rq rs route user recv send : flatten (server_of rq rs route user recv send) "" =
  Some (app (request_kvs "Server.Request" rq) (app (response_kvs "Server.Response" rs) [("Server.Route", route); ("Server.User", user); ("Server.Recv", fmt_time recv); ("Server.Send", fmt_time send)]))%string.
Proof. unfold server_of. cbn [flatten map fst snd]; cbn [cat_opt fold_right]. rewrite flatten_request, flatten_response by done. done. Qed.
Lemma marshal_in et x anns fl k t : ev_marshaler et = None -> marshal et x anns -> flatten x "" = Some fl -> In (k, t) fl -> In (Ann k (Some t)) anns.
Proof.
  intros Hn H Hf Hi. inversion H as [f a Hx|fl0 fl' _ Hfl Hp]; subst; [congruence|]. rewrite Hf in Hfl. injection Hfl as <-. apply in_or_app. left.
  apply (in_map ann_of _ (k, t)). by eapply Permutation_in.
Qed.
Lemma client_times rq rs send recv anns : marshal client_event (client_of rq rs send recv) anns -> timed "Client.Send" anns -> timed "Client.Recv" anns ->
  exists send' recv', valid_time send' /\ valid_time recv' /\ marshal client_event (client_of rq rs send' recv') anns.
Proof.
  intros H H1 H2.
  destruct (H1 (fmt_time send)) as (s & Vs & Es). { eapply marshal_in; [|exact H|apply client_flat|]; [done|]. rewrite !in_app_iff. right. right. cbn. auto. }
  destruct (H2 (fmt_time recv)) as (e & Ve & Ee). { eapply marshal_in; [|exact H|apply client_flat|]; [done|]. rewrite !in_app_iff. right. right. cbn. auto. }
  exists s, e. split; [done|]. split; [done|]. eapply marshal_same; [| |exact H]; [done|]. by rewrite !client_flat, Es, Ee.
Qed.
Lemma server_times rq rs route user recv send anns : marshal server_event (server_of rq rs route user recv send) anns -> timed "Server.Recv" anns -> timed "Server.Send" anns ->
  exists recv' send', valid_time recv' /\ valid_time send' /\ marshal server_event (server_of rq rs route user recv' send') anns.
Proof.
  intros H H1 H2.
  destruct (H1 (fmt_time recv)) as (s & Vs & Es). { eapply marshal_in; [|exact H|apply server_flat|]; [done|]. rewrite !in_app_iff. right. right. cbn. auto. }
  destruct (H2 (fmt_time send)) as (e & Ve & Ee). { eapply marshal_in; [|exact H|apply server_flat|]; [done|]. rewrite !in_app_iff. right. right. cbn. auto. }
  exists s, e. split; [done|]. split; [done|]. eapply marshal_same; [| |exact H]; [done|]. by rewrite !server_flat, Es, Ee.
Qed.
Lemma timed_app k a b : timed k (a ++ b) -> timed k b.
Proof. intros H t Ht. apply H, in_or_app. by right. Qed.

(** The client's span tells the request as it was sent and the response as it was received. *)
Theorem C144_client : forall names span set_name tr g1 g2 lg mem q out reg,
  is_id (sp_trace span) -> is_id (sp_span span) -> is_id g2 -> is_Some (mem !! q_map q) -> register_all library_events = Some reg ->
  round_trip names span set_name tr g1 g2 None lg mem q out -> tp_result out <> TPanic ->
  exists sent anns rq rs,
    tp_sent out = [sent] /\ tp_collects out = [(MkSpanID (sp_trace span) g1 (sp_span span), anns)] /\ tells_request names sent rq /\
    match tp_result out with TResponse r => tells_response names r rs | _ => rs = response_val (Resp [] 0 (-1)) end /\
    (int64 (HttpModel.rq_length sent) -> (forall r, tp_result out = TResponse r -> int64 (HttpModel.rs_length r) /\ int64 (HttpModel.rs_status r)) ->
     timed "Client.Send" anns -> timed "Client.Recv" anns ->
     exists send recv, valid_time send /\ valid_time recv /\ unmarshal_events reg anns =
       (app (if set_name then [("name", VStruct [("Name", VString ("Request " +:+ rq_url_host sent))])] else [])
        [("HTTPClient", VStruct [("Client.Request", rq); ("Client.Response", rs); ("Client.Send", VTime send); ("Client.Recv", VTime recv)])], EsOk))%string.
Proof.
  intros names span set_name tr g1 g2 lg mem q out reg I1 I2 I3 Hq Hreg Hr Hp.
  destruct (C59_round_trip _ _ _ _ _ _ _ _ _ _ I1 I2 I3 Hq Hr) as (_ & text & sent & _ & Es & Hsent & Hres & Hm). rewrite Hres in *.
  assert (exists anns1 anns2 req resp send recv,
        tp_collects out = [(MkSpanID (sp_trace span) g1 (sp_span span), app anns1 anns2)] /\
        (if set_name then marshal name_event (VStruct [("Name", VString ("Request " +:+ rq_url_host (seen mem q)))]) anns1 else anns1 = []) /\
        marshal client_event (VStruct [("Client.Request", req); ("Client.Response", resp); ("Client.Send", VTime send); ("Client.Recv", VTime recv)]) anns2 /\
        request_info_of names sent req /\
        match tr sent with TResponse r => response_info_of names r resp | _ => resp = VStruct [("Headers", VMap None); ("ContentLength", VInt 0); ("StatusCode", VInt (-1))] end)%string
    as (anns1 & anns2 & req & resp & send & recv & Hc & Hn & Hcl & Hrq & Hrs) by (destruct (tr sent); done).
  apply request_flat in Hrq as (m & Hm1 & Hf1).
  assert (exists rs, match tr sent with TResponse r => tells_response names r (response_val rs) | _ => response_val rs = response_val (Resp [] 0 (-1)) end /\
    (forall p, flatten resp p = flatten (response_val rs) p) /\
    ((forall r, tr sent = TResponse r -> int64 (HttpModel.rs_length r) /\ int64 (HttpModel.rs_status r)) -> response_ok rs)) as (rs & Hrs1 & Hf2 & Hok).
  { destruct (tr sent) as [r| |] eqn:E; [|exists (Resp [] 0 (-1)); subst resp; split; [done|]; split; [done|]; intros _; split; [constructor|]; unfold int64; cbn; lia|done].
    apply response_flat in Hrs as (m' & Hm' & Hf'). exists (response_told r m'). split; [by apply response_tells|]. split; [done|]. intros H. destruct (H r eq_refl). by apply response_told_ok. }
  exists sent, (anns1 ++ anns2), (request_val (request_told sent m)), (response_val rs). split; [done|]. split; [done|]. split; [by apply request_tells|]. split; [done|].
  intros B1 B2 T1 T2.
  assert (marshal client_event (client_of (request_told sent m) rs send recv) anns2)%string as Hcl0.
  { eapply marshal_same; [| |exact Hcl]; [done|]. unfold client_of. cbn [flatten map fst snd]. by rewrite Hf1, Hf2. }
  destruct (client_times _ _ _ _ _ Hcl0 (timed_app _ _ _ T1) (timed_app _ _ _ T2)) as (send' & recv' & V1 & V2 & Hcl'). exists send', recv'. split; [done|]. split; [done|].
  destruct (C140_stored _ _ _ _ (L_client (request_told sent m) rs send' recv' (request_told_ok sent m B1) (Hok B2) V1 V2)) as (Hin & Hgood & _).
  assert (rq_url_host sent = rq_url_host (seen mem q)) as Eh by (by rewrite Es).
  destruct set_name.
  - rewrite Eh. destruct (C140_stored _ _ _ _ (L_name ("Request " +:+ rq_url_host (seen mem q)))) as (Hin' & Hgood' & _).
    apply (read_back reg [(name_event, VStruct [("Name", VString ("Request " +:+ rq_url_host (seen mem q)))]); (client_event, _)]%string); [done| | | |].
    + cbn [map fst]. apply NoDup_cons. split; [|apply NoDup_singleton]. rewrite elem_of_list_singleton. discriminate.
    + cbn [map fst]. rewrite !elem_of_cons, elem_of_nil. intros [H|[H|[]]]; discriminate.
    + intros e. rewrite !elem_of_cons, elem_of_nil. intros [->|[->|[]]]; done.
    + exists [anns1; anns2]. cbn [concat]. rewrite app_nil_r. split; [|done]. constructor; [done|]. constructor; [done|constructor].
  - subst anns1. cbn [app]. apply (read_back reg [(client_event, _)]); [done| | | |].
    + apply NoDup_singleton.
    + cbn [map fst]. rewrite elem_of_list_singleton. discriminate.
    + intros e. rewrite elem_of_list_singleton. intros ->; done.
    + exists [anns2]. cbn [concat]. rewrite app_nil_r. split; [|done]. constructor; [done|constructor].
Qed.
Print Assumptions C144_client.
(** The server's span tells the request as it was served and the response as it was written: its length, and the last status given. *)
Theorem C144_server : forall names cf next g1 g2 lg r w out span reg,
  fst (get_span_id g1 g2 (rq_header r)) = Some span -> register_all library_events = Some reg ->
  serve names cf next g1 g2 None lg r w out -> oc_panics out = false ->
  exists r1 ctx r2 ops anns rq rs,
    oc_nexts out = [(r1, ctx)] /\ next r1 ctx = (ops, r2, false) /\ (cf_set_context cf = None -> r1 = r) /\
    oc_collects out = [(span, anns)] /\
    tells_request names (if decide (header_get (rq_header r) "Span-ID" = ""%string) then r2 else r1) rq /\
    ((forall c, c ∈ codes_of ops -> (100 <= c <= 999)%Z) ->
     tells_response names (MkResponse (header_set (header_after ops (w_header w)) "Span-ID" (spanid_string span)) ∅
         (Z.of_nat (String.length (body_of ops))) (default 200%Z (last (codes_of ops)))) rs /\
     (int64 (HttpModel.rq_length (if decide (header_get (rq_header r) "Span-ID" = ""%string) then r2 else r1)) -> int64 (Z.of_nat (String.length (body_of ops))) ->
      timed "Server.Recv" anns -> timed "Server.Send" anns ->
      exists recv send, valid_time recv /\ valid_time send /\ unmarshal_events reg anns =
       ([("name", VStruct [("Name", VString ("Serve " +:+
            match cf_route cf with Some f => if decide (f r2 = "") then rq_url_host r2 +:+ rq_url_path r2 else f r2 | None => rq_url_host r2 +:+ rq_url_path r2 end))]);
         ("HTTPServer", VStruct [("Server.Request", rq); ("Server.Response", rs); ("Server.Route", VString (match cf_route cf with Some f => f r2 | None => "" end));
            ("Server.User", VString (match cf_user cf with Some f => f r2 | None => "" end)); ("Server.Recv", VTime recv); ("Server.Send", VTime send)])], EsOk)%string)).
Proof.
  intros names cf next g1 g2 lg r w out span reg Hspan Hreg Hs Hp.
  destruct (C58_one_span _ _ _ _ _ _ _ _ _ _ Hspan Hs Hp) as (r1 & ctx & r2 & ops & req & resp & route & user & name & recv & send & a1 & a2 & H1 & H2 & H3 & H4 & H5 & Hn & Hsv & Hr1 & Hr2 & Hroute & Huser & Hnm1 & Hnm2 & Hresp).
  set (r' := if decide (header_get (rq_header r) "Span-ID" = ""%string) then r2 else r1).
  assert (request_info_of names r' req) as Hrq by (unfold r'; destruct (decide _); auto).
  apply request_flat in Hrq as (m & Hm1 & Hf1).
  assert ({forall c, c ∈ codes_of ops -> (100 <= c <= 999)%Z} + {~ forall c, c ∈ codes_of ops -> (100 <= c <= 999)%Z}) as [Hcodes|Hcodes].
  { destruct (decide (Forall (fun c => (100 <= c <= 999)%Z) (codes_of ops))) as [F|F]; [left|right]; rewrite Forall_forall in F; done. }
  2: { exists r1, ctx, r2, ops, (a1 ++ a2), (request_val (request_told r' m)), req. split; [done|]. split; [done|]. split; [intros H; by destruct (H3 H)|]. split; [done|].
       split; [by apply request_tells|]. intros H. done. }
  apply Hresp in Hcodes as Hrs. apply response_flat in Hrs as (m' & Hm' & Hf2). set (resp' := MkResponse _ _ _ _) in *.
  exists r1, ctx, r2, ops, (a1 ++ a2), (request_val (request_told r' m)), (response_val (response_told resp' m')). split; [done|]. split; [done|]. split; [intros H; by destruct (H3 H)|]. split; [done|].
  split; [by apply request_tells|]. intros _. split; [by apply response_tells|]. intros B1 B2 T1 T2.
  rewrite <- Hroute, <- Huser. replace ("Serve " +:+ _)%string with name.
  2: { clear -Hroute Hnm1 Hnm2. revert Hroute. destruct (cf_route cf) as [f|]; intros Hroute.
       - rewrite <- Hroute. destruct (decide (route = ""%string)) as [E|E]; [by rewrite (Hnm2 E)|by rewrite (Hnm1 E)].
       - by rewrite (Hnm2 Hroute). }
  assert (int64 (default 200%Z (last (codes_of ops)))) as B3.
  { destruct (last (codes_of ops)) as [c|] eqn:E; [|unfold int64; cbn; lia]. apply last_Some_elem_of in E. specialize (Hcodes c E). unfold int64. cbn. lia. }
  assert (marshal server_event (server_of (request_told r' m) (response_told resp' m') route user recv send) a2) as Hsv0.
  { eapply marshal_same; [| |exact Hsv]; [done|]. unfold server_of. cbn [flatten map fst snd]. by rewrite Hf1, Hf2. }
  destruct (server_times _ _ _ _ _ _ _ Hsv0 (timed_app _ _ _ T1) (timed_app _ _ _ T2)) as (recv' & send' & V1 & V2 & Hsv'). exists recv', send'. split; [done|]. split; [done|].
  destruct (C140_stored _ _ _ _ (L_server (request_told r' m) (response_told resp' m') route user recv' send'  (request_told_ok r' m B1) (response_told_ok resp' m' B2 B3) V1 V2)) as (Hin & Hgood & _).
  destruct (C140_stored _ _ _ _ (L_name name)) as (Hin' & Hgood' & _).
  apply (read_back reg [(name_event, VStruct [("Name", VString name)]); (server_event, _)]%string); [done| | | |].
  + cbn [map fst]. apply NoDup_cons. split; [|apply NoDup_singleton]. rewrite elem_of_list_singleton. discriminate.
  + cbn [map fst]. rewrite !elem_of_cons, elem_of_nil. intros [H|[H|[]]]; discriminate.
  + intros e. rewrite !elem_of_cons, elem_of_nil. intros [->|[->|[]]]; done.
  + exists [a1; a2]. cbn [concat]. rewrite app_nil_r. split; [|done]. constructor; [done|]. constructor; [exact Hsv'|constructor].
Qed.
Print Assumptions C144_server.
Example C144_nonvacuous : (exists reg, register_all library_events = Some reg) /\
  (exists out, round_trip ["Authorization"%string] (MkSpanID 1 2 3) true (fun _ => TError "refused") 5 6 None (fun _ => []) {[7%N := {["Span-Id"%string := ["x"%string]]}]} (MkHrequest a_get 7) out /\
     tp_result out <> TPanic) /\
  (exists out, fst (get_span_id 5 6 (rq_header a_get)) = Some (MkSpanID 1 5 2) /\
     serve ["Authorization"%string] (MkConfig (Some (fun _ => "route"%string)) None None) (fun r _ => ([HWrite "ok"], r, false)) 5 6 None (fun _ => []) a_get a_writer out /\ oc_panics out = false) /\
  timed "Client.Send" [Ann "Client.Send" (Some (fmt_time a_time)); Ann "Client.Recv" (Some (fmt_time a_time))].
Proof.
  split; [eexists; vm_compute; reflexivity|]. split; [|split].
  - destruct C59_nonvacuous as (out & H & Hq). exists out. split; [done|].
    eapply C59_round_trip in H as (_ & text & sent & _ & _ & _ & -> & _); done.
  - apply C58_nonvacuous. done.
  - intros t [E|[E|[]]]; [|discriminate]. injection E as <-. exists a_time. split; [apply a_time_valid|done].
Qed.
