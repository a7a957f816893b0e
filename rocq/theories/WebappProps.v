(** C160: the example web application. *)
From Verif Require Import Base IdModel IdSpec IdProofs TimeModel ReflModel EventModel RecorderModel HttpModel HttpSpec HttpProofs HttpProps
  TransportModel MemModel MemSpec MemProofs3 MemProps MemProofs4 ServeProps WebModel WebSpec WebProps ChainModel ChainSpec ChainProps DemoModel DemoProps MemProofs RecentModel RecentProofs WebappModel.
Local Open Scope N_scope.

(** No span of the trace has reached the age of 20 seconds at any eviction so far. *)
Definition all_young (t : N) (h : list revent) : Prop :=
  forall e0 e, In e0 h -> In e h -> sp_trace (re_id e0) = t -> (ck_now (re_clock e) - ck_seen (re_clock e0) <= 20000000000)%Z.

Lemma webapp_out names g1 g2 lg r w out span : fst (get_span_id g1 g2 (rq_header r)) = Some span -> serve names webapp_config webapp g1 g2 None lg r w out -> fresh w ->
  rq_url_path r = "/"%string ->
  oc_panics out = false /\ (exists anns, oc_collects out = [(span, anns)]) /\ snd (w_response (oc_writer out)) = (webapp_text +:+ webapp_link span)%string.
Proof.
  intros Hg Hs Hw Hp. inversion Hs as [from E|sp from r1 r2 ctx ops E Hc Hn|sp from r1 r2 ctx ops req resp recv snd0 anns1 anns2 rr rr' route user name E Hc Hn Hrr Hrr' Hreq Hroute Huser Hresp Hname Hm1 Hm2]; subst out; rewrite E in Hg; cbn in Hg; [done| |].
  - exfalso. injection Hg as ->. cbn in Hc. injection Hc as -> ->. unfold webapp in Hn. rewrite Hp in Hn. destruct (decide _) in Hn; discriminate.
  - injection Hg as ->. cbn in Hc. injection Hc as -> ->. split; [done|]. split; [by exists (anns1 ++ anns2)|].
    destruct (C56_length ops w Hw) as [_ H]. unfold webapp in Hn. rewrite Hp, decide_True in Hn by done. injection Hn as <- <-. cbn [body_of fold_right] in H. rewrite str_app_nil_r in H.
    cbn [oc_writer]. rewrite <-H, Hrr', Hrr. cbn [rr_step rr_writer]. unfold w_response. cbn [w_sent w_body]. by destruct (w_sent _) as [[]|].
Qed.
Lemma webapp_shape paths rs : webapp_reqs paths rs -> Forall (fun p => webapp_requests p = []) paths -> length rs = length paths /\ Forall plain_req rs.
Proof.
  induction 1 as [|path paths r rs Hr _ IH]; intros Hp; [done|]. apply Forall_cons in Hp as [H1 H2]. destruct (IH H2) as [Hl Hf]. split; [cbn; by rewrite Hl|]. constructor; [|done].
  inversion Hr as [? gc gs|? gc gs sub Hsub]; subst; [done|]. rewrite H1 in Hsub. by inversion Hsub.
Qed.
Lemma young_live age h st dn t : rs_exec age h st [] dn ->
  (forall e0 e, In e0 h -> In e h -> sp_trace (re_id e0) = t -> (ck_now (re_clock e) - age <= ck_seen (re_clock e0))%Z) ->
  Permutation (live t dn []) (collected t h).
Proof.
  intros Hx Hyoung. destruct (exec_run _ _ _ _ _ Hx) as [Hr Hp]. rewrite app_nil_r in Hp.
  assert (forall e, In e h -> t ∉ re_ev e) as Hne.
  { intros e He Ht. destruct (in_split _ _ He) as (h1 & h2 & ->).
    destruct (evicted_old age h1 e h2 st t Hr) as (x & Hs & Hlt); [by apply elem_of_list_In|].
    destruct (first_seen_at_event _ _ _ _ Hs) as (e0 & He0 & Ht0 & Hx0).
    assert (In e0 (h1 ++ e :: h2)) as He0'.
    { apply in_app_iff in He0 as [?|[<-|[]]]; apply in_app_iff; [by left|right; by left]. }
    pose proof (Hyoung e0 e He0' He Ht0). lia. }
  assert (live t dn [] = omap (pick t) dn) as El.
  { apply live_undeleted. intros ts Hin. assert (In (CDelete ts) (prompt h)) as Hin' by (by eapply Permutation_in).
    unfold prompt in Hin'. apply in_concat in Hin' as (l & Hl & Hin'). apply in_map_iff in Hl as (e & <- & He).
    unfold actions in Hin'. apply in_app_iff in Hin' as [Hin'|[?|[]]]; [|done].
    specialize (Hne e He). destruct (re_ev e); [done|]. destruct Hin' as [[= <-]|[]]. done. }
  rewrite El, <- pick_prompt. by apply omap_perm.
Qed.

(** A request for the home page from outside, and the requests that it makes, some of which may fail; other requests are traced meanwhile.  As long as no
    span of the request is older than 20 seconds, and once all Collects are done, the page's link leads to a page that shows the trace: a span for the
    request, and beneath it a span for each of the three calls and one for each of them that was served. *)
Theorem C160_page : forall names g1 g2 lg r w out rs cs h st dn ms,
  header_get (rq_header r) "Span-ID" = ""%string -> header_get (rq_header r) "Parent-Span-ID" = ""%string -> rq_url_path r = "/"%string -> fresh w ->
  serve names webapp_config webapp g1 g2 None lg r w out ->
  webapp_reqs (webapp_requests (rq_url_path r)) rs -> makes (MkSpanID g1 g2 0) rs cs ->
  Forall is_id (g1 :: g2 :: flat_map req_ids rs) -> NoDup (g2 :: flat_map req_ids rs) -> ~ In 0 (g2 :: flat_map req_ids rs) ->
  rs_exec webapp_age h st [] dn -> ms_run dn ms_init = Some ms -> Permutation (collected g1 h) (oc_collects out ++ cs) -> all_young g1 h ->
  exists path a1 s1 t1 a2 s2 t2 a3 s3 t3 anns subs,
    occurs ("<a href=" +:+ String """" ("http://localhost:8700" +:+ path +:+ String """" ""))%string (snd (w_response (oc_writer out))) /\
    (forall store, (forall t tr, shows ms t tr -> store t = Some tr) -> exists link, get_page store path = Some (ShowPage (Tree (MkSpanID g1 g2 0) anns subs) link)) /\
    rs = [Req a1 s1 t1; Req a2 s2 t2; Req a3 s3 t3] /\
    (forall s, In s subs -> exists n a, s = Tree (MkSpanID g1 n g2) a []) /\
    Permutation (map (fun s => sp_span (tr_id s)) subs)
      (a1 :: a2 :: a3 :: (if t1 then [s1] else []) ++ (if t2 then [s2] else []) ++ (if t3 then [s3] else [])).
Proof.
  intros names g1 g2 lg r w out rs cs h st dn ms Hh1 Hh2 Hpath Hw Hs Hrs Hm HI Hnd Hz Hx Hms HP Hy.
  pose proof (proj2 (proj2 (proj2 (proj2 (C54_selection g1 g2 (rq_header r))))) Hh1 Hh2) as Hg.
  destruct (webapp_out _ _ _ _ _ _ _ _ Hg Hs Hw Hpath) as (Hnp & (anns & Hc) & Hb).
  assert (handler_span out (MkSpanID g1 g2 0)) as Hhs.
  { destruct (C58_one_span _ _ _ _ _ _ _ _ _ _ Hg Hs Hnp) as (r1 & ctx & ? & ? & ? & ? & ? & ? & ? & ? & ? & ? & ? & H1 & _ & H3 & _). destruct (H3 eq_refl) as [-> ->]. left. by exists r. }
  rewrite Hpath in Hrs. apply webapp_shape in Hrs as [Hl Hf]; [|repeat constructor; done]. cbn in Hl.
  destruct rs as [|[a1 s1 t1] [|[a2 s2 t2] [|[a3 s3 t3] [|]]]]; try discriminate. clear Hl.
  destruct (one_trace_live g1 g2 [Req a1 s1 t1; Req a2 s2 t2; Req a3 s3 t3] (oc_collects out ++ cs) dn ms) as (tr & Hshow & Hid & Hperm & _ & Hedge); [econstructor; done|done|done|done| |done|].
  { rewrite (young_live webapp_age h st dn g1); [done|done|]. intros e0 e H0 H1 H2. pose proof (Hy e0 e H0 H1 H2) as H. unfold webapp_age. lia. }
  destruct tr as [i an subs]. cbn in Hid. subst i.
  destruct (three_calls g1 g2 a1 s1 t1 a2 s2 t2 a3 s3 t3 an subs Hf Hnd Hz Hperm Hedge) as [Hleaf HPs].
  exists (url_to_trace g1), a1, s1, t1, a2, s2, t2, a3, s3, t3, an, subs. split; [|split; [|split; [done|split; [done|done]]]].
  - rewrite Hb. exists (webapp_text +:+ "<p>")%string, (" target=" +:+ wquote +:+ "_" +:+ wquote +:+ ">View the trace (ID:" +:+ id_string g1 +:+ ")</a></p>")%string.
    unfold webapp_link, url_to_trace, wquote. cbn [sp_trace]. generalize (id_string g1), webapp_text. intros i t. rewrite !str_app_assoc. f_equal. cbn. rewrite ?str_app_assoc. cbn. reflexivity.
  - intros store Hst. apply Forall_cons in HI as [I1 _]. by destruct (C94_links store g1 _ I1 (Hst _ _ Hshow)) as (? & _).
Qed.
Print Assumptions C160_page.

(** Every served request's span is named after its path, whatever the path is. *)
Theorem C160_named : forall names g1 g2 lg r w out span,
  fst (get_span_id g1 g2 (rq_header r)) = Some span -> rq_url_path r <> ""%string ->
  serve names webapp_config webapp g1 g2 None lg r w out ->
  exists req resp user recv snd anns1 anns2, oc_collects out = [(span, (anns1 ++ anns2)%list)] /\
    marshal name_event (VStruct [("Name"%string, VString ("Serve " +:+ rq_url_path r)%string)]) anns1 /\
    marshal server_event (VStruct [("Server.Request", req); ("Server.Response", resp); ("Server.Route", VString (rq_url_path r));
      ("Server.User", VString user); ("Server.Recv", VTime recv); ("Server.Send", VTime snd)]%string) anns2.
Proof.
  intros names g1 g2 lg r w out span Hg Hp Hs.
  assert (oc_panics out = false) as Hnp.
  { inversion Hs as [from E|sp from r1 r2 ctx ops E Hc Hn|sp from r1 r2 ctx ops req resp recv snd0 anns1 anns2 rr rr' route user name E Hc Hn]; subst out; [by rewrite E in Hg| |done].
    exfalso. cbn in Hc. injection Hc as -> ->. unfold webapp in Hn. repeat (destruct (decide _) in Hn; [discriminate|]). discriminate. }
  destruct (C58_one_span _ _ _ _ _ _ _ _ _ _ Hg Hs Hnp) as (r1 & ctx & r2 & ops & req & resp & route & user & name & recv & snd0 & anns1 & anns2 & _ & Happ & H1 & _ & Hc & Hm1 & Hm2 & _ & _ & Hroute & _ & Hname & _).
  destruct (H1 eq_refl) as [-> ->]. cbn in Hroute.
  assert (r2 = r) as ->. { unfold webapp in Happ. repeat (destruct (decide _) in Happ; [by injection Happ|]). by injection Happ. }
  exists req, resp, user, recv, snd0, anns1, anns2. split; [done|]. rewrite Hname in Hm1 by (by rewrite Hroute). by rewrite Hroute in Hm1, Hm2.
Qed.
Print Assumptions C160_named.

Lemma at_once (cs : list (SpanID * list Annotation)) : exists h st, rs_run webapp_age h st /\ map (fun e => (re_id e, re_anns e)) h = cs /\ Forall (fun e => re_clock e = at_time 0) h /\
  map_Forall (fun _ x => x = 0%Z) (rs_created st) /\ (rs_last st = None -> cs = []) /\ (forall l, rs_last st = Some l -> l = 0%Z).
Proof.
  induction cs as [|[i a] cs IH] using rev_ind.
  - exists [], rs_init. split; [constructor|]. split; [done|]. split; [constructor|]. split; [apply map_Forall_empty|done].
  - destruct IH as (h & [cr la] & Hr & Hm & Hc & H0 & Hn & Hl). cbn [rs_created rs_last] in *.
    set (cr' := match cr !! sp_trace i with Some _ => cr | None => <[sp_trace i := 0%Z]> cr end).
    assert (map_Forall (fun _ x => x = 0%Z) cr') as H0'. { unfold cr'. destruct (cr !! sp_trace i); [done|]. by apply map_Forall_insert_2. }
    destruct la as [l|].
    + pose proof (Hl l eq_refl) as ->. exists (h ++ [MkRev i a (at_time 0) false []]), (MkRS cr' (Some 0%Z)). split; [|split; [by rewrite map_app, Hm|split; [apply Forall_app_2; [done|by repeat constructor]|split; [done|split; [done|]]]]].
      * apply RR_snoc with (st := MkRS cr (Some 0%Z)); [done|]. apply RS_quiet. cbn. unfold webapp_age. lia.
      * cbn. by intros l [= <-].
    + exists (h ++ [MkRev i a (at_time 0) true []]), (MkRS (filter (fun kv => ~ (kv.2 < 0 - webapp_age)%Z) cr') (Some 0%Z)). split; [|split; [by rewrite map_app, Hm|split; [apply Forall_app_2; [done|by repeat constructor]|split; [|split; [done|]]]]].
      * apply RR_snoc with (st := MkRS cr None); [done|]. apply (RS_evict webapp_age (at_time 0) i cr None cr' []); [vm_compute; reflexivity|done|].
        assert (filter (fun kv : N * Z => (kv.2 < ck_now (at_time 0) - webapp_age)%Z) (map_to_list cr') = []) as ->; [|done].
        assert (Forall (fun kv : N * Z => kv.2 = 0%Z) (map_to_list cr')) as HF. { apply Forall_forall. intros [k x] Hk%elem_of_map_to_list. exact (H0' _ _ Hk). }
        induction HF as [|[k x] l Hx HF IHF]; [done|]. rewrite filter_cons, decide_False; [done|]. cbn in *. unfold webapp_age. lia.
      * intros k x Hk%map_filter_lookup_Some. destruct Hk as [Hk _]. exact (H0' _ _ Hk).
      * cbn. by intros l [= <-].
Qed.
Definition home_get : request := MkRequest "GET" "/" "HTTP/1.1" ∅ ∅ "localhost:8699" "1.2.3.4:5" 0 "" "/".
(** Two of the calls are served, one fails, and everything happens at once. *)
Example C160_nonvacuous : exists out rs cs h st dn ms,
  header_get (rq_header home_get) "Span-ID" = ""%string /\ header_get (rq_header home_get) "Parent-Span-ID" = ""%string /\ rq_url_path home_get = "/"%string /\ fresh a_writer /\
  serve [] webapp_config webapp 7 8 None (fun _ => []) home_get a_writer out /\
  webapp_reqs (webapp_requests (rq_url_path home_get)) rs /\ makes (MkSpanID 7 8 0) rs cs /\
  Forall is_id (7 :: 8 :: flat_map req_ids rs) /\ NoDup (8 :: flat_map req_ids rs) /\ ~ In 0 (8 :: flat_map req_ids rs) /\
  rs_exec webapp_age h st [] dn /\ ms_run dn ms_init = Some ms /\ Permutation (collected 7 h) (oc_collects out ++ cs) /\ all_young 7 h.
Proof.
  set (rs := [Req 9 10 (Some []); Req 11 12 None; Req 13 14 (Some [])]). assert (Forall is_id (7 :: 8 :: flat_map req_ids rs)) as HI by (by repeat constructor).
  assert (NoDup (8 :: flat_map req_ids rs)) as Hnd by (apply (bool_decide_unpack _); vm_compute; reflexivity).
  destruct (serve_total [] webapp_config webapp 7 8 None (fun _ => []) home_get a_writer) as (out & Hs & _).
  destruct (makes_total _ (MkSpanID 7 8 0) rs (le_n _)) as [cs Hm]; [done|done|by repeat constructor|].
  destruct (webapp_out [] 7 8 (fun _ => []) home_get a_writer out (MkSpanID 7 8 0) eq_refl Hs) as (Hnp & (anns & Hc) & _); [done|done|].
  destruct (at_once (oc_collects out ++ cs)) as (h & st & Hr & Hh & Hck & _).
  exists out, rs, cs, h, st, (prompt h), (final (prompt h)).
  split; [done|]. split; [done|]. split; [done|]. split; [done|]. split; [exact Hs|]. split.
  { cbn. constructor; [constructor; by constructor|]. constructor; [constructor|]. constructor; [constructor; by constructor|constructor]. }
  split; [done|]. split; [done|]. split; [done|]. split; [cbn; intuition discriminate|]. split; [by apply exec_prompt|]. split; [apply final_run|]. split.
  - unfold collected. rewrite <- Hh. assert (Forall (fun e => sp_trace (re_id e) = 7) h) as HF.
    { apply Forall_forall. intros e He. assert (In (re_id e, re_anns e) (oc_collects out ++ cs)) as Hin. { rewrite <- Hh. apply (List.in_map (fun e => (re_id e, re_anns e))). by apply elem_of_list_In. }
      apply in_app_or in Hin as [Hin|Hin]. { rewrite Hc in Hin. destruct Hin as [[= <- _]|[]]. done. }
      assert (map fst cs = spans_below (MkSpanID 7 8 0) rs) as Hids. { apply makes_ids; [exact Hm|done|done|by repeat constructor]. }
      assert (In (re_id e) (spans_below (MkSpanID 7 8 0) rs)) as Hi. { rewrite <- Hids. apply (List.in_map fst) in Hin. exact Hin. }
      assert (Forall (fun s => sp_trace s = 7) (spans_below (MkSpanID 7 8 0) rs)) as H7 by (by repeat constructor). rewrite Forall_forall in H7. apply H7. by apply elem_of_list_In. }
    clear -HF. induction HF as [|e h He HF IH]; [done|]. rewrite filter_cons, decide_True by done. cbn [map]. by constructor.
  - intros e0 e H0 H1 _. rewrite Forall_forall in Hck. rewrite (Hck e0), (Hck e) by (by apply elem_of_list_In). cbn. lia.
Qed.
