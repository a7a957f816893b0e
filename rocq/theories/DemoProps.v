(** C147: the demo. *)
From Verif Require Import Base IdModel IdSpec IdProofs TimeModel ReflModel EventModel RecorderModel HttpModel HttpSpec HttpProofs HttpProps
  TransportModel MemModel MemSpec MemProofs3 MemProps ServeProps WebModel WebSpec WebProps ChainModel ChainSpec ChainProps DemoModel.

(** The pages: all but the three endpoints. *)
Definition a_page (path : string) : Prop := ~ In path ["/endpoint-A"; "/endpoint-B"; "/endpoint-C"]%string.
(** A link to an address of the server at [host]. *)
Definition link_text (host path : string) : string :=
  ("<a href=" +:+ String """" ("http://" +:+ host +:+ path +:+ String """" ">View request trace on appdash</a>"))%string.
Definition occurs (sub s : string) : Prop := exists a b, s = (a +:+ sub +:+ b)%string.

Lemma demo_pages addr r span : a_page (rq_url_path r) -> exists ops page, demo_app addr r (Some span) = (ops, r, false) /\ body_of ops = (page +:+ demo_footer addr span)%string.
Proof.
  intros Hp. unfold demo_app. destruct (decide (rq_url_path r = "/"%string)).
  { eexists _, demo_home. split; [reflexivity|]. cbn [body_of fold_right]. by rewrite str_app_nil_r. }
  destruct (decide (rq_url_path r = "/api-calls"%string)). { eexists _, demo_calls. split; [reflexivity|]. cbn [body_of fold_right]. by rewrite str_app_nil_r. }
  do 3 (match goal with |- context [if decide (rq_url_path r = ?x) then _ else _] => destruct (decide (rq_url_path r = x)) as [E|_]; [exfalso; apply Hp; rewrite E; cbn; auto|] end).
  eexists _, ""%string. split; [reflexivity|]. cbn [body_of fold_right]. by rewrite str_app_nil_r.
Qed.
Lemma demo_served_out addr names g1 g2 lg r w out span : fst (get_span_id g1 g2 (rq_header r)) = Some span -> serve names demo_config (demo_app addr) g1 g2 None lg r w out -> fresh w ->
  exists anns ops r2, oc_panics out = false /\ demo_app addr r (Some span) = (ops, r2, false) /\ oc_collects out = [(span, anns)] /\ snd (w_response (oc_writer out)) = body_of ops.
Proof.
  intros Hg Hs Hw. inversion Hs as [from E|sp from r1 r2 ctx ops E Hc Hn|sp from r1 r2 ctx ops req resp recv snd0 anns1 anns2 rr rr' route user name E Hc Hn Hrr Hrr' Hreq Hroute Huser Hresp Hname Hm1 Hm2]; subst out; rewrite E in Hg; cbn in Hg; [done| |].
  - exfalso. injection Hg as ->. cbn in Hc. injection Hc as -> ->. unfold demo_app in Hn. repeat (destruct (decide _) in Hn; [discriminate|]). discriminate.
  - injection Hg as ->. cbn in Hc. injection Hc as -> ->. exists (anns1 ++ anns2), ops, r2. split; [done|]. split; [done|]. split; [done|].
    destruct (C56_length ops w Hw) as [_ H]. cbn [oc_writer]. rewrite <-H, Hrr', Hrr. cbn [rr_step rr_writer]. unfold w_response. cbn [w_sent w_body]. by destruct (w_sent _) as [[]|].
Qed.

(** Appdash listens at a port of all hosts, as by default: every page has a link to Appdash, and the link leads to the trace for which the page's request
    was collected. *)
Theorem C147_link_partial : forall port names g1 g2 lg r w out span,
  plain (bytes port) -> ~ In ":"%char (bytes port) ->
  fst (get_span_id g1 g2 (rq_header r)) = Some span -> is_id (sp_trace span) -> fresh w -> a_page (rq_url_path r) ->
  serve names demo_config (demo_app (":" +:+ port)) g1 g2 None lg r w out ->
  exists host path anns, occurs (link_text host path) (snd (w_response (oc_writer out))) /\ address (bytes host) (bytes "localhost") (bytes port) /\
    oc_collects out = [(span, anns)] /\
    forall store tr, store (sp_trace span) = Some tr -> exists link, get_page store path = Some (ShowPage tr link).
Proof.
  intros port names g1 g2 lg r w out span Hpl Hpc Hg Hid Hw Hp Hs. destruct (demo_served_out _ _ _ _ _ _ _ _ _ Hg Hs Hw) as (anns & ops & r2 & _ & Happ & Hc & ->).
  destruct (demo_pages (":" +:+ port) r span Hp) as (ops' & page & Happ' & Hb). rewrite Happ in Happ'. injection Happ' as -> _. rewrite Hb.
  exists ("localhost" +:+ (":" +:+ port))%string, (url_to_trace (sp_trace span)), anns. split; [|split; [|split; [done|]]].
  - exists (page +:+ "<br><br><hr>")%string, (" (trace ID is " +:+ id_string (sp_trace span) +:+ ")")%string. unfold demo_footer, link_text, demo_span_url, demo_url, url_to_trace, quote.
    generalize (id_string (sp_trace span)). intros i. rewrite !str_app_assoc. f_equal. cbn. rewrite ?str_app_assoc. cbn. rewrite ?str_app_assoc. reflexivity.
  - unfold address. split; [|split; [done|split; [done|]]].
    + split; vm_compute; intuition discriminate.
    + left. split; [vm_compute; intuition discriminate|]. done.
  - intros store tr Ht. by destruct (C94_links store _ _ Hid Ht) as (? & _).
Qed.
Print Assumptions C147_link_partial.
(** If Appdash listens at one address only, the link names a host that does not exist: this is all of a page of the demo. *)
Theorem C147_refuted : exists addr, address (bytes addr) (bytes "127.0.0.1") (bytes "8700") /\
  (forall names g1 g2 lg r w out span, fst (get_span_id g1 g2 (rq_header r)) = Some span -> fresh w -> rq_url_path r = "/nowhere"%string ->
   serve names demo_config (demo_app addr) g1 g2 None lg r w out ->
   snd (w_response (oc_writer out)) = ("<br><br><hr>" +:+ link_text "localhost127.0.0.1:8700" ("/traces/" +:+ id_string (sp_trace span)) +:+
     " (trace ID is " +:+ id_string (sp_trace span) +:+ ")")%string) /\
  forall host port, address (bytes "localhost127.0.0.1:8700") host port -> host = bytes "localhost127.0.0.1".
Proof.
  exists "127.0.0.1:8700"%string. split; [|split].
  - split; [split; vm_compute; intuition discriminate|]. split; [split; vm_compute; intuition discriminate|]. split; [vm_compute; intuition discriminate|]. left. split; [vm_compute; intuition discriminate|done].
  - intros names g1 g2 lg r w out span Hg Hw Hp Hs. destruct (demo_served_out _ _ _ _ _ _ _ _ _ Hg Hs Hw) as (anns & ops & r2 & _ & Happ & Hc & ->).
    unfold demo_app in Happ. rewrite Hp in Happ. repeat (destruct (decide _) in Happ; [discriminate|]). injection Happ as <- <-. cbn [body_of fold_right]. rewrite str_app_nil_r.
    unfold demo_footer, link_text, demo_span_url, demo_url, quote. generalize (id_string (sp_trace span)). intros i. cbn. rewrite ?str_app_assoc. cbn. rewrite ?str_app_assoc. reflexivity.
  - intros host port H. apply split_spec in H. vm_compute in H. by injection H as <- _.
Qed.
Print Assumptions C147_refuted.

(** The span of a page is named after the page. *)
Theorem C147_named : forall addr names g1 g2 lg r w out span,
  fst (get_span_id g1 g2 (rq_header r)) = Some span -> fresh w -> rq_url_path r <> ""%string ->
  serve names demo_config (demo_app addr) g1 g2 None lg r w out ->
  exists req resp user recv snd anns1 anns2, oc_collects out = [(span, (anns1 ++ anns2)%list)] /\
    marshal name_event (VStruct [("Name"%string, VString ("Serve " +:+ rq_url_path r)%string)]) anns1 /\
    marshal server_event (VStruct [("Server.Request", req); ("Server.Response", resp); ("Server.Route", VString (rq_url_path r));
      ("Server.User", VString user); ("Server.Recv", VTime recv); ("Server.Send", VTime snd)]%string) anns2.
Proof.
  intros addr names g1 g2 lg r w out span Hg Hw Hp Hs.
  destruct (demo_served_out _ _ _ _ _ _ _ _ _ Hg Hs Hw) as (_ & _ & _ & Hnp & _).
  destruct (C58_one_span _ _ _ _ _ _ _ _ _ _ Hg Hs Hnp) as (r1 & ctx & r2 & ops & req & resp & route & user & name & recv & snd0 & anns1 & anns2 & _ & Happ & H1 & _ & Hc & Hm1 & Hm2 & _ & _ & Hroute & _ & Hname & _).
  destruct (H1 eq_refl) as [-> ->]. cbn in Hroute.
  assert (r2 = r) as ->. { unfold demo_app in Happ. repeat (destruct (decide _) in Happ; [by injection Happ|]). by injection Happ. }
  exists req, resp, user, recv, snd0, anns1, anns2. split; [done|]. rewrite Hname in Hm1 by (by rewrite Hroute). by rewrite Hroute in Hm1, Hm2.
Qed.
Print Assumptions C147_named.

Lemma demo_shape paths rs : demo_reqs paths rs -> Forall (fun p => demo_requests p = []) paths -> length rs = length paths /\ Forall (fun r => match r with Req _ _ None | Req _ _ (Some []) => True | _ => False end) rs.
Proof.
  induction 1 as [|path paths r rs Hr _ IH]; intros Hp; [done|]. apply Forall_cons in Hp as [H1 H2]. destruct (IH H2) as [Hl Hf]. split; [cbn; by rewrite Hl|]. constructor; [|done].
  inversion Hr as [? gc gs|? gc gs sub Hsub]; subst; [done|]. rewrite H1 in Hsub. by inversion Hsub.
Qed.
Definition plain_req (r : req) : Prop := match r with Req _ _ None | Req _ _ (Some []) => True | _ => False end.
Lemma three_calls g1 g2 a1 s1 t1 a2 s2 t2 a3 s3 t3 an subs :
  Forall plain_req [Req a1 s1 t1; Req a2 s2 t2; Req a3 s3 t3] ->
  NoDup (g2 :: flat_map req_ids [Req a1 s1 t1; Req a2 s2 t2; Req a3 s3 t3]) -> ~ In 0 (g2 :: flat_map req_ids [Req a1 s1 t1; Req a2 s2 t2; Req a3 s3 t3]) ->
  Permutation (map tr_id (nodes (Tree (MkSpanID g1 g2 0) an subs))) (MkSpanID g1 g2 0 :: spans_below (MkSpanID g1 g2 0) [Req a1 s1 t1; Req a2 s2 t2; Req a3 s3 t3]) ->
  (forall p c, In p (nodes (Tree (MkSpanID g1 g2 0) an subs)) -> In c (nodes (Tree (MkSpanID g1 g2 0) an subs)) ->
    edge (Tree (MkSpanID g1 g2 0) an subs) p c <-> sp_parent (tr_id c) = sp_span (tr_id p)) ->
  (forall s, In s subs -> exists n a, s = Tree (MkSpanID g1 n g2) a []) /\
  Permutation (map (fun s => sp_span (tr_id s)) subs)
    (a1 :: a2 :: a3 :: (if t1 then [s1] else []) ++ (if t2 then [s2] else []) ++ (if t3 then [s3] else [])).
Proof.
  intros Hf Hnd Hz Hperm Hedge. apply Forall_cons in Hf as [F1 Hf]. apply Forall_cons in Hf as [F2 Hf]. apply Forall_cons in Hf as [F3 _].
  set (below := spans_below (MkSpanID g1 g2 0) [Req a1 s1 t1; Req a2 s2 t2; Req a3 s3 t3]) in *.
  assert (below = map (fun n => MkSpanID g1 n g2) (app (a1 :: if t1 then [s1] else []) (app (a2 :: if t2 then [s2] else []) (a3 :: if t3 then [s3] else [])))) as Hbelow.
  { unfold below, spans_below. destruct t1 as [[]|], t2 as [[]|], t3 as [[]|]; try done. }
  assert (forall n, n ∈ app (a1 :: if t1 then [s1] else []) (app (a2 :: if t2 then [s2] else []) (a3 :: if t3 then [s3] else [])) -> n <> g2 /\ n <> 0) as Hne.
  { intros n Hn. assert (n ∈ flat_map req_ids [Req a1 s1 t1; Req a2 s2 t2; Req a3 s3 t3]) as Hn'.
    { destruct t1 as [[]|], t2 as [[]|], t3 as [[]|]; try done; cbn in Hn |- *; set_solver. }
    apply NoDup_cons in Hnd as [Hg2 _]. split; [by intros ->|]. intros ->. apply Hz. right. by apply elem_of_list_In. }
  assert (forall t, In t (nodes (Tree (MkSpanID g1 g2 0) an subs)) -> tr_id t = MkSpanID g1 g2 0 \/ exists n, n <> g2 /\ n <> 0 /\ tr_id t = MkSpanID g1 n g2) as Hids.
  { intros t Ht. apply (in_map tr_id) in Ht. eapply Permutation_in in Ht; [|exact Hperm]. destruct Ht as [<-|Ht]; [by left|]. right. rewrite Hbelow in Ht. apply in_map_iff in Ht as (n & <- & Hn). exists n.
    destruct (Hne n) as [? ?]; [by apply elem_of_list_In|done]. }
  assert (g2 <> 0) as Hg0 by (intros ->; apply Hz; by left).
  assert (forall s, In s subs -> In s (nodes (Tree (MkSpanID g1 g2 0) an subs))) as Hin.
  { intros s Hin. rewrite nodes_unfold. right. apply in_concat. exists (nodes s). split; [by apply in_map|]. destruct s. rewrite nodes_unfold. by left. }
  assert (forall s, In s subs -> exists n a, s = Tree (MkSpanID g1 n g2) a []) as Hleaf.
  { intros s Hsub. destruct s as [i a kids]. pose proof (Hin _ Hsub) as Hnode.
    assert (sp_parent i = g2) as Hpar. { apply (Hedge (Tree (MkSpanID g1 g2 0) an subs) (Tree i a kids)); [rewrite nodes_unfold; by left|done|]. split; [rewrite nodes_unfold; by left|done]. }
    destruct (Hids _ Hnode) as [E|(n & N1 & N2 & E)]; cbn in E; subst i; [cbn in Hpar; congruence|]. exists n, a. f_equal. destruct kids as [|k kids]; [done|]. exfalso.
    assert (In k (nodes (Tree (MkSpanID g1 g2 0) an subs))) as Hk.
    { rewrite nodes_unfold. right. apply in_concat. exists (nodes (Tree (MkSpanID g1 n g2) a (k :: kids))). split; [by apply in_map|]. rewrite nodes_unfold. right. cbn [map concat]. apply in_or_app. left. destruct k. rewrite nodes_unfold. by left. }
    assert (sp_parent (tr_id k) = n) as Hkp. { apply (Hedge (Tree (MkSpanID g1 n g2) a (k :: kids)) k); [done|done|]. split; [done|by left]. }
    destruct (Hids _ Hk) as [E|(m & M1 & M2 & E)]; rewrite E in Hkp; cbn in Hkp; congruence. }
  split; [done|].
  assert (concat (map nodes subs) = subs) as Hcat.
  { clear -Hleaf. induction subs as [|s subs IH]; [done|]. cbn [map concat]. rewrite IH by (intros s' Hs'; apply Hleaf; by right). destruct (Hleaf s (or_introl eq_refl)) as (n & a & ->). done. }
  rewrite nodes_unfold, Hcat in Hperm. cbn [map tr_id] in Hperm. apply Permutation_cons_inv in Hperm. apply (Permutation_map sp_span) in Hperm. rewrite map_map in Hperm. rewrite Hperm, Hbelow, map_map. cbn [sp_span]. rewrite map_id.
  destruct t1, t2, t3; cbn [app]; solve_Permutation.
Qed.
(** The page that says that it made three API calls, requested from outside: its trace has a span for the page, and beneath it, and nowhere else, a span
    for each of the three calls and one for each of them that was served. *)
Theorem C147_calls : forall addr names g1 g2 lg r w out rs cs calls st,
  header_get (rq_header r) "Span-ID" = ""%string -> header_get (rq_header r) "Parent-Span-ID" = ""%string -> rq_url_path r = "/api-calls"%string -> fresh w ->
  serve names demo_config (demo_app addr) g1 g2 None lg r w out ->
  demo_reqs (demo_requests (rq_url_path r)) rs -> makes (MkSpanID g1 g2 0) rs cs ->
  Forall is_id (g1 :: g2 :: flat_map req_ids rs) -> NoDup (g2 :: flat_map req_ids rs) -> ~ In 0 (g2 :: flat_map req_ids rs) ->
  Permutation (List.filter (fun c => sp_trace (fst c) =? g1) calls) (oc_collects out ++ cs) ->
  ms_run (map (fun c => CCollect (fst c) (snd c)) calls) ms_init = Some st ->
  exists a1 s1 t1 a2 s2 t2 a3 s3 t3 anns subs, rs = [Req a1 s1 t1; Req a2 s2 t2; Req a3 s3 t3] /\ shows st g1 (Tree (MkSpanID g1 g2 0) anns subs) /\
    (forall s, In s subs -> exists n a, s = Tree (MkSpanID g1 n g2) a []) /\
    Permutation (map (fun s => sp_span (tr_id s)) subs)
      (a1 :: a2 :: a3 :: (if t1 then [s1] else []) ++ (if t2 then [s2] else []) ++ (if t3 then [s3] else [])).
Proof.
  intros addr names g1 g2 lg r w out rs cs calls st Hh1 Hh2 Hpath Hw Hs Hrs Hm HI Hnd Hz HP Hrun.
  pose proof (proj2 (proj2 (proj2 (proj2 (C54_selection g1 g2 (rq_header r))))) Hh1 Hh2) as Hg.
  destruct (demo_served_out _ _ _ _ _ _ _ _ _ Hg Hs Hw) as (anns & ops & r2 & Hnp & Happ & Hc & _).
  assert (handler_span out (MkSpanID g1 g2 0)) as Hhs.
  { destruct (C58_one_span _ _ _ _ _ _ _ _ _ _ Hg Hs Hnp) as (r1 & ctx & ? & ? & ? & ? & ? & ? & ? & ? & ? & ? & ? & H1 & _ & H3 & _). destruct (H3 eq_refl) as [-> ->]. left. by exists r. }
  rewrite Hpath in Hrs. apply demo_shape in Hrs as [Hl Hf]; [|repeat constructor; done]. cbn in Hl.
  destruct rs as [|[a1 s1 t1] [|[a2 s2 t2] [|[a3 s3 t3] [|]]]]; try discriminate. clear Hl. apply Forall_cons in Hf as [F1 Hf]. apply Forall_cons in Hf as [F2 Hf]. apply Forall_cons in Hf as [F3 _].
  destruct (C115_one_trace g1 g2 [Req a1 s1 t1; Req a2 s2 t2; Req a3 s3 t3] (oc_collects out ++ cs) calls st) as (tr & Hshow & Hid & Hperm & _ & Hedge); [econstructor; done|done|done|done| |done|].
  { rewrite <- HP. clear. induction calls as [|c calls IH]; [done|]. cbn [List.filter]. rewrite filter_cons. destruct (N.eqb_spec (sp_trace (fst c)) g1); [rewrite decide_True by done; by constructor|by rewrite decide_False]. }
  destruct tr as [i an subs]. cbn in Hid. subst i. exists a1, s1, t1, a2, s2, t2, a3, s3, t3, an, subs. split; [done|]. split; [done|].
  assert (Forall plain_req [Req a1 s1 t1; Req a2 s2 t2; Req a3 s3 t3]) as HF by (constructor; [exact F1|constructor; [exact F2|constructor; [exact F3|constructor]]]).
  exact (three_calls g1 g2 a1 s1 t1 a2 s2 t2 a3 s3 t3 an subs HF Hnd Hz Hperm Hedge).
Qed.
Print Assumptions C147_calls.
Definition demo_get : request := MkRequest "GET" "/api-calls" "HTTP/1.1" ∅ ∅ "localhost:8699" "1.2.3.4:5" 0 "" "/api-calls".
Example C147_nonvacuous : exists out rs cs,
  header_get (rq_header demo_get) "Span-ID" = ""%string /\ header_get (rq_header demo_get) "Parent-Span-ID" = ""%string /\ fresh a_writer /\ a_page (rq_url_path demo_get) /\
  serve [] demo_config (demo_app ":8700") 7 8 None (fun _ => []) demo_get a_writer out /\
  demo_reqs (demo_requests (rq_url_path demo_get)) rs /\ makes (MkSpanID 7 8 0) rs cs /\
  Forall is_id (7 :: 8 :: flat_map req_ids rs) /\ NoDup (8 :: flat_map req_ids rs) /\ ~ In 0 (8 :: flat_map req_ids rs) /\
  plain (bytes "8700") /\ ~ In ":"%char (bytes "8700") /\ fst (get_span_id 7 8 (rq_header demo_get)) = Some (MkSpanID 7 8 0).
Proof.
  set (rs := [Req 9 10 (Some []); Req 11 12 None; Req 13 14 (Some [])]). assert (Forall is_id (7 :: 8 :: flat_map req_ids rs)) as HI by (by repeat constructor).
  destruct (serve_total [] demo_config (demo_app ":8700") 7 8 None (fun _ => []) demo_get a_writer) as (out & Hs & _).
  destruct (makes_total _ (MkSpanID 7 8 0) rs (le_n _)) as [cs Hm]; [done|done|by repeat constructor|].
  exists out, rs, cs. split; [done|]. split; [done|]. split; [done|]. split; [unfold a_page; cbn; intuition discriminate|]. split; [exact Hs|]. split.
  { cbn. constructor; [constructor; by constructor|]. constructor; [constructor|]. constructor; [constructor; by constructor|constructor]. }
  split; [done|]. split; [done|]. split; [apply (bool_decide_unpack _); vm_compute; reflexivity|]. split; [cbn; intuition discriminate|]. split; [split; vm_compute; intuition discriminate|]. split; [vm_compute; intuition discriminate|]. done.
Qed.
