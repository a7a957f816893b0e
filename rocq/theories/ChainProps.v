(** C115: requests between services become one trace. *)
From Verif Require Import Base IdModel IdSpec IdProofs TimeModel ReflModel EventModel RecorderModel HttpModel HttpSpec HttpProofs HttpProps
  TransportModel TransportSpec TransportProps MemModel MemSpec MemProps EndProofs ChainModel ChainSpec.
From Coq Require Import ssreflect.

Lemma header_get_span (h : header) : header_get h "Span-ID" = match h !! "Span-Id"%string with Some (v :: _) => v | _ => "" end.
Proof. reflexivity. Qed.

Lemma span_used names cf next g1 g2 lg r w out s sp :
  fst (get_span_id g1 g2 (rq_header r)) = Some sp ->
  serve names cf next g1 g2 None lg r w out -> oc_panics out = false -> handler_span out s ->
  s = sp /\ exists anns, oc_collects out = [(sp, anns)].
Proof.
  intros Hg Hs Hp Hhs.
  destruct (C58_one_span _ _ _ _ _ _ _ _ _ _ Hg Hs Hp) as (r1 & ctx & r2 & ops & rq & rs & route & user & name & recv & snd & a1 & a2 & H1 & H2 & H3 & H4 & H5 & _).
  split; [|by exists (a1 ++ a2)]. destruct Hhs as [[r0 Hn]|Hset].
  - rewrite H1 in Hn. injection Hn as -> ->. destruct (cf_set_context cf) as [f|] eqn:E.
    + by destruct (H4 f eq_refl) as (_ & [=] & _).
    + destruct (H3 eq_refl) as [_ [=]]. done.
  - destruct (cf_set_context cf) as [f|] eqn:E.
    + destruct (H4 f eq_refl) as (_ & _ & Hx). congruence.
    + inversion Hs; subst; cbn in Hset; rewrite ?E in Hset; done.
Qed.
(** The server's span is the one that the client announced. *)
Lemma served_span names cf next g1 g2 lg r w out s text sp :
  rq_header r !! "Span-Id"%string = Some [text] -> reads_as text sp ->
  serve names cf next g1 g2 None lg r w out -> oc_panics out = false -> handler_span out s ->
  s = sp /\ exists anns, oc_collects out = [(sp, anns)].
Proof.
  intros Hh Ht. apply span_used. destruct (C54_selection g1 g2 (rq_header r)) as [H _]. apply H.
  - rewrite header_get_span Hh. intros ->. rewrite /reads_as in Ht.
    assert (parse_spanid "" = Some sp) as Hps by (apply parse_spanid_spec; tauto). done.
  - by rewrite header_get_span Hh.
Qed.

Lemma sent_span names p set_name tr gc gs lg mem q trip :
  is_id (sp_trace p) -> is_id (sp_span p) -> is_id gs -> is_Some (mem !! q_map q) ->
  round_trip names p set_name tr gc gs None lg mem q trip -> tp_result trip <> TPanic ->
  exists text sent anns, reads_as text (MkSpanID (sp_trace p) gs (sp_span p)) /\ tp_sent trip = [sent] /\
    rq_header sent !! "Span-Id"%string = Some [text] /\ tp_collects trip = [(MkSpanID (sp_trace p) gc (sp_span p), anns)].
Proof.
  intros I1 I2 I3 Hq Hr Hp. destruct (C59_round_trip _ _ _ _ _ _ _ _ _ _ I1 I2 I3 Hq Hr) as (_ & text & sent & Ht & Hs & Hsent & Hres & Hm).
  rewrite Hres in Hp. exists text, sent. assert (exists a1 a2, tp_collects trip = [(MkSpanID (sp_trace p) gc (sp_span p), a1 ++ a2)]) as (a1 & a2 & Hc).
  { destruct (tr sent); [| |done]; destruct Hm as (a1 & a2 & ? & ? & ? & ? & Hc & _); by exists a1, a2. }
  exists (a1 ++ a2). split; [done|]. split; [done|]. split; [|done]. rewrite Hs /with_header. cbn [rq_header]. by rewrite lookup_insert.
Qed.

Lemma makes_ids p rs cs : makes p rs cs -> is_id (sp_trace p) -> is_id (sp_span p) -> Forall is_id (flat_map req_ids rs) ->
  map fst cs = spans_below p rs.
Proof.
  induction 1 as [p|p names set_name tr gc gs lg mem q trip rs cs Hq Hr Hp _ IH|
    p names set_name tr gc gs lg mem q trip sent names' cf next g1 g2 lg' r w out s sub cs1 rs cs2 Hq Hr Hp Hsent Hh Hs Hnp Hhs _ IH1 _ IH2];
    intros I1 I2 HI; [done| |].
  - cbn [flat_map req_ids] in HI. rewrite -!app_comm_cons !Forall_cons in HI. destruct HI as (Ic & Is & HI). cbn [app] in HI.
    destruct (sent_span _ _ _ _ _ _ _ _ _ _ I1 I2 Is Hq Hr Hp) as (text & sent & anns & _ & _ & _ & ->).
    cbn. f_equal. by apply IH.
  - cbn [flat_map req_ids] in HI. rewrite -!app_comm_cons !Forall_cons Forall_app in HI. destruct HI as (Ic & Is & HI1 & HI2).
    destruct (sent_span _ _ _ _ _ _ _ _ _ _ I1 I2 Is Hq Hr Hp) as (text & sent' & anns & Ht & Hs' & Hh' & ->).
    rewrite Hsent in Hs'. injection Hs' as <-. rewrite Hh' in Hh.
    destruct (served_span _ _ _ _ _ _ _ _ _ _ _ _ Hh Ht Hs Hnp Hhs) as [-> [anns' ->]].
    rewrite /spans_below. cbn [flat_map req_spans]. rewrite !map_app. cbn [map fst app]. do 2 f_equal.
    rewrite IH1 // IH2 //.
Qed.

(** Parents come before their children. *)
Fixpoint req_size (r : req) : nat := match r with Req _ _ sub => S (match sub with None => O | Some rs => list_sum (map req_size rs) end) end.
Lemma parent_before n : forall p rs l1 c l2, (list_sum (map req_size rs) <= n)%nat -> spans_below p rs = l1 ++ c :: l2 ->
  sp_trace c = sp_trace p /\ (sp_parent c = sp_span p \/ In (sp_parent c) (map sp_span l1)).
Proof.
  induction n as [|n IHn]; intros p rs; induction rs as [|[gc gs sub] rs IH]; intros l1 c l2 Hn E; try by destruct l1.
  { cbn in Hn. lia. }
  rewrite /spans_below in E. cbn [flat_map req_spans] in E. rewrite -/(spans_below p rs) in E.
  assert (list_sum (map req_size rs) <= S n)%nat as Hrs. { cbn in Hn. unfold list_sum in *. cbn in *. lia. }
  destruct l1 as [|x l1]; cbn [app] in E; injection E as E1 E; [subst c; cbn; auto|]. subst x.
  destruct sub as [sub|]; cbn [app] in E.
  - destruct l1 as [|y l1]; cbn [app] in E; injection E as E1 E; [subst c; cbn; auto|]. subst y.
    set (s := MkSpanID (sp_trace p) gs (sp_span p)) in *. rewrite -/(spans_below s sub) in E.
    destruct (app_eq_app _ _ _ _ E) as (k & [[E1 E2]|[E1 E2]]).
    + destruct k as [|k0 k]; cbn [app] in E2.
      * destruct (IH [] c l2 Hrs) as [H1 H2]; [by rewrite -E2|]. split; [done|]. destruct H2 as [H2|[]]. by left.
      * injection E2 as -> E2. destruct (IHn s sub l1 k0 k) as [H1 H2]; [cbn in Hn; unfold list_sum in *; cbn in *; lia|done|].
        cbn in H1. split; [done|]. right. cbn. destruct H2 as [->|H2]; auto.
    + destruct (IH k c l2 Hrs E2) as [H1 H2]. split; [done|]. destruct H2 as [H2|H2]; [by left|]. right. cbn. rewrite E1 map_app in_app_iff. auto.
  - destruct (IH l1 c l2 Hrs E) as [H1 H2]. split; [done|]. cbn. tauto.
Qed.

Fixpoint idx (n : N) (l : list N) : nat := match l with [] => O | x :: l => if x =? n then O else S (idx n l) end.
Lemma idx_in n l1 l2 : In n l1 -> (idx n (l1 ++ l2) < length l1)%nat.
Proof.
  induction l1 as [|x l1 IH]; [done|]. cbn. destruct (N.eqb_spec x n) as [->|Hx]; [lia|]. intros [->|H]; [done|]. apply IH in H. lia.
Qed.
Lemma idx_at n l1 l2 : ~ In n l1 -> idx n (l1 ++ n :: l2) = length l1.
Proof.
  induction l1 as [|x l1 IH]; cbn; [by rewrite N.eqb_refl|]. intros H. destruct (N.eqb_spec x n) as [->|Hx]; [tauto|]. rewrite IH; tauto.
Qed.
Lemma ordered_acyclic ids : NoDup (map sp_span ids) ->
  (forall l1 c l2, ids = l1 ++ c :: l2 -> In (sp_parent c) (map sp_span ids) -> In (sp_parent c) (map sp_span l1)) -> acyclic ids.
Proof.
  intros Hnd H. exists (fun n => idx n (map sp_span ids)). intros c p Hc Hp Hpar. apply in_split in Hc as (l1 & l2 & E).
  assert (In (sp_span p) (map sp_span l1)) as Hin. { rewrite -Hpar. apply (H l1 c l2 E). rewrite Hpar. by apply in_map. }
  rewrite E map_app. cbn [map]. rewrite idx_at.
  - rewrite E map_app in Hnd. cbn [map] in Hnd. apply NoDup_app in Hnd as (_ & Hn & _). intros Hi%elem_of_list_In. apply (Hn _ Hi). by left.
  - by apply idx_in.
Qed.

Lemma first_ids_perm (l : list (SpanID * list Annotation)) : NoDup (map sp_span (map fst l)) -> Permutation (spans_of l) (map fst l).
Proof.
  intros Hnd. apply NoDup_Permutation.
  - apply first_ids_nodup.
  - apply (NoDup_fmap_1 sp_span). exact Hnd.
  - intros i. rewrite !elem_of_list_In. split; [by intros [H _]%first_ids_elem|]. intros Hi. apply first_ids_all; [done|apply not_elem_of_nil|].
    intros j Hj Hs. clear -Hnd Hi Hj Hs. induction (map fst l) as [|k m IH]; [done|]. cbn [map] in Hnd. apply NoDup_cons in Hnd as [Hk Hnd].
    destruct Hi as [->|Hi], Hj as [->|Hj]; [done| | |by apply IH]; exfalso; apply Hk, elem_of_list_In.
    + rewrite -Hs. by apply in_map.
    + rewrite Hs. by apply in_map.
Qed.
Lemma anns_single (l : list (SpanID * list Annotation)) i a : NoDup (map sp_span (map fst l)) -> In (i, a) l -> anns_of (sp_span i) l = a.
Proof.
  intros Hnd Hin. apply in_split in Hin as (l1 & l2 & ->). rewrite !map_app in Hnd. cbn [map fst] in Hnd. apply NoDup_app in Hnd as (_ & H1 & H2).
  apply NoDup_cons in H2 as [H2 _].
  assert (forall m, ~ In (sp_span i) (map sp_span (map fst m)) -> filter (fun c : SpanID * list Annotation => sp_span (fst c) = sp_span i) m = []) as Hf.
  { induction m as [|c m IH]; [done|]. cbn [map In]. intros Hx. rewrite filter_cons decide_False; [tauto|]. apply IH. tauto. }
  rewrite /anns_of filter_app filter_cons decide_True; [done|]. rewrite !Hf.
  - intros Hx%elem_of_list_In. apply (H1 _ Hx). by left.
  - intros Hx. apply H2. by apply elem_of_list_In.
  - cbn. by rewrite app_nil_r.
Qed.

Lemma spans_sub n : forall p rs, (list_sum (map req_size rs) <= n)%nat -> sublist (map sp_span (spans_below p rs)) (flat_map req_ids rs).
Proof.
  induction n as [|n IHn]; intros p rs; induction rs as [|[gc gs sub] rs IH]; intros Hn; try by constructor.
  { cbn in Hn. lia. }
  assert (list_sum (map req_size rs) <= S n)%nat as Hrs. { cbn in Hn. unfold list_sum in *. cbn in *. lia. }
  rewrite /spans_below. cbn [flat_map req_spans req_ids]. rewrite -/(spans_below p rs). destruct sub as [sub|]; cbn [app map sp_span].
  - constructor. constructor. rewrite map_app. apply sublist_app; [|by apply IH]. apply IHn. cbn in Hn. unfold list_sum in *. cbn in *. lia.
  - constructor. constructor. by apply IH.
Qed.

Lemma sublist_nodup {A} (l k : list A) : sublist l k -> NoDup k -> NoDup l.
Proof.
  induction 1 as [|x l k H IH|x l k H IH]; [done| |]; intros [Hx Hk]%NoDup_cons; [|by apply IH]. constructor; [|by apply IH].
  intros Hi. apply Hx. eapply elem_of_submseteq; [exact Hi|by apply sublist_submseteq].
Qed.

(** The same of any calls of the store. *)
Lemma one_trace_live g1 g2 rs cs dn st :
  enters g1 g2 rs cs ->
  Forall is_id (g1 :: g2 :: flat_map req_ids rs) -> NoDup (g2 :: flat_map req_ids rs) -> ~ In 0 (g2 :: flat_map req_ids rs) ->
  Permutation (live g1 dn []) cs -> ms_run dn ms_init = Some st ->
  exists tr, shows st g1 tr /\ tr_id tr = MkSpanID g1 g2 0 /\
    Permutation (map tr_id (nodes tr)) (MkSpanID g1 g2 0 :: spans_below (MkSpanID g1 g2 0) rs) /\
    (forall n, In n (nodes tr) -> In (tr_id n, tr_anns n) cs) /\
    (forall p c, In p (nodes tr) -> In c (nodes tr) -> edge tr p c <-> sp_parent (tr_id c) = sp_span (tr_id p)).
Proof.
  intros He HI Hnd Hz HP Hrun. set (root := MkSpanID g1 g2 0). apply Forall_cons in HI as [I1 HI]. pose proof HI as HI'. apply Forall_cons in HI' as [I2 HI'].
  assert (map fst cs = root :: spans_below root rs) as Hids.
  { inversion He as [names cf next g1' g2' lg r w out s rs' cs' Hh1 Hh2 Hs Hp Hhs Hm]; subst.
    destruct (span_used _ _ _ _ _ _ _ _ _ _ root (proj2 (proj2 (proj2 (proj2 (C54_selection g1 g2 (rq_header r))))) Hh1 Hh2) Hs Hp Hhs) as [-> [anns ->]].
    cbn [app map fst]. f_equal. by apply makes_ids. }
  assert (sublist (map sp_span (map fst cs)) (g2 :: flat_map req_ids rs)) as Hsub.
  { rewrite Hids. cbn [map]. constructor. exact (spans_sub _ root rs (le_n _)). }
  assert (NoDup (map sp_span (map fst cs))) as Hnd'. { exact (sublist_nodup _ _ Hsub Hnd). }
  set (l := live g1 dn []) in *.
  assert (NoDup (map sp_span (map fst l))) as Hndl. { rewrite -> (Permutation_map fst HP). done. }
  assert (Permutation (spans_of l) (root :: spans_below root rs)) as HPs. { rewrite first_ids_perm // -Hids. by apply Permutation_map. }
  assert (forall s, In s (spans_of l) <-> In s (root :: spans_below root rs)) as Hin. { intros s. split; apply Permutation_in; [done|by symmetry]. }
  assert (forall s, In s (root :: spans_below root rs) -> sp_span s <> 0) as Hspan0.
  { intros s Hs E. apply Hz. apply elem_of_list_In. eapply elem_of_submseteq; [|apply sublist_submseteq; exact Hsub]. apply elem_of_list_In. rewrite Hids -E. by apply in_map. }
  assert (forall s, In s (spans_below root rs) -> exists p, In p (root :: spans_below root rs) /\ sp_parent s = sp_span p) as Hpar.
  { intros s (l1 & l2 & E)%in_split. destruct (parent_before _ root rs l1 s l2 (le_n _) E) as [_ [H|H]].
    - exists root. split; [by left|done].
    - apply in_map_iff in H as (p & Hp & Hin1). exists p. split; [|done]. right. rewrite E. apply in_or_app. by left. }
  assert (complete (spans_of l) root) as Hc.
  { split.
    - split; [apply Hin; by left|done].
    - intros s [->|Hs]%Hin Hp0; [done|]. destruct (Hpar s Hs) as (p & Hp & E). exfalso. apply (Hspan0 p Hp). congruence.
    - intros s Hs%Hin. by apply Hspan0.
    - intros s [->|Hs]%Hin Hne; [done|]. destruct (Hpar s Hs) as (p & Hp & E). exists p. split; [by apply Hin|done].
    - eapply acyclic_perm; [symmetry; exact HPs|]. rewrite -Hids. apply ordered_acyclic; [done|]. rewrite Hids. intros l1 c l2 E Hpc.
      destruct l1 as [|x l1]; injection E as E1 E; subst.
      + exfalso. apply in_map_iff in Hpc as (p & Hp & Hpin). by apply (Hspan0 p).
      + destruct (parent_before _ root rs l1 c l2 (le_n _) E) as [_ [H|H]]; cbn; [left; done|by right]. }
  destruct (C11_arrival_order_irrelevant _ st g1 root Hrun) as (tr & H1 & H2 & H3 & H4 & H5).
  { exact Hc. }
 change (live g1 dn []) with l in H3, H4. exists tr. split; [done|]. split; [done|]. split; [by rewrite H3|]. split; [|done].
  intros n Hn. rewrite H4 //. assert (In (tr_id n) (map fst l)) as Hi.
  { rewrite -(first_ids_perm l Hndl) -H3. by apply in_map. }
  apply in_map_iff in Hi as ([i a] & Hia & Hin2). cbn in Hia. rewrite -Hia (anns_single l i a) //. by rewrite -HP.
Qed.
(** A request from outside comes in; the services that serve it and its subrequests all collect into one store, where
    other traces are collected as well, in any order.  Then the store shows one trace with exactly the expected spans, each
    with the annotations that were collected for it, and every span is below the span within which its request was made. *)
Theorem C115_one_trace : forall g1 g2 rs cs calls st,
  enters g1 g2 rs cs ->
  Forall is_id (g1 :: g2 :: flat_map req_ids rs) -> NoDup (g2 :: flat_map req_ids rs) -> ~ In 0 (g2 :: flat_map req_ids rs) ->
  Permutation (filter (fun c => sp_trace (fst c) = g1) calls) cs ->
  ms_run (map (fun c => CCollect (fst c) (snd c)) calls) ms_init = Some st ->
  exists tr, shows st g1 tr /\ tr_id tr = MkSpanID g1 g2 0 /\
    Permutation (map tr_id (nodes tr)) (MkSpanID g1 g2 0 :: spans_below (MkSpanID g1 g2 0) rs) /\
    (forall n, In n (nodes tr) -> In (tr_id n, tr_anns n) cs) /\
    (forall p c, In p (nodes tr) -> In c (nodes tr) -> edge tr p c <-> sp_parent (tr_id c) = sp_span (tr_id p)).
Proof.
  intros g1 g2 rs cs calls st He HI Hnd Hz HP Hrun. eapply one_trace_live; [exact He|exact HI|exact Hnd|exact Hz| |exact Hrun]. rewrite live_collects. exact HP.
Qed.
Print Assumptions C115_one_trace.

(** Every pattern of requests is possible. *)
Lemma serve_ok g1 g2 r sp : fst (get_span_id g1 g2 (rq_header r)) = Some sp ->
  exists out, serve [] (MkConfig None None None) (fun r _ => ([HWrite "hello"], r, false)) g1 g2 None (fun _ => []) r a_writer out /\
    oc_panics out = false /\ handler_span out sp.
Proof.
  intros Hg. destruct (serve_total [] (MkConfig None None None) (fun r _ => ([HWrite "hello"], r, false)) g1 g2 None (fun _ => []) r a_writer) as (out & Hs & Hp).
  assert (oc_panics out = false) as Hp'. { apply Hp; [|done]. by rewrite (malformed_none g1 g2) Hg. }
  exists out. split; [done|]. split; [done|]. destruct (C58_one_span _ _ _ _ _ _ _ _ _ _ Hg Hs Hp') as (r1 & ctx & ? & ? & ? & ? & ? & ? & ? & ? & ? & ? & ? & H1 & _ & H3 & _).
  destruct (H3 eq_refl) as [-> ->]. left. by exists r.
Qed.
Lemma trip_ok p gc gs : is_id (sp_trace p) -> is_id (sp_span p) -> is_id gs -> exists trip sent text,
  round_trip [] p false (fun _ => TError "refused") gc gs None (fun _ => []) {[7 := ∅]} (MkHrequest a_get 7) trip /\ tp_result trip <> TPanic /\
  tp_sent trip = [sent] /\ rq_header sent !! "Span-Id"%string = Some [text] /\ reads_as text (MkSpanID (sp_trace p) gs (sp_span p)).
Proof.
  intros I1 I2 I3. destruct (round_trip_total [] p false (fun _ => TError "refused") gc gs None (fun _ => []) {[7 := ∅]} (MkHrequest a_get 7)) as [trip Hr].
  assert (is_Some (({[7 := ∅]} : memory) !! q_map (MkHrequest a_get 7))) as Hq by (by eexists).
  assert (tp_result trip <> TPanic) as Hp.
  { destruct (C59_round_trip _ _ _ _ _ _ _ _ _ _ I1 I2 I3 Hq Hr) as (_ & text & sent & _ & _ & _ & -> & _). done. }
  destruct (sent_span _ _ _ _ _ _ _ _ _ _ I1 I2 I3 Hq Hr Hp) as (text & sent & anns & H1 & H2 & H3 & _). by exists trip, sent, text.
Qed.
Lemma makes_total n : forall p rs, (list_sum (map req_size rs) <= n)%nat -> is_id (sp_trace p) -> is_id (sp_span p) -> Forall is_id (flat_map req_ids rs) ->
  exists cs, makes p rs cs.
Proof.
  induction n as [|n IHn]; intros p rs; induction rs as [|[gc gs sub] rs IH]; intros Hn I1 I2 HI; try (exists []; constructor).
  { cbn in Hn. lia. }
  assert (list_sum (map req_size rs) <= S n)%nat as Hrs. { cbn in Hn. unfold list_sum in *. cbn in *. lia. }
  cbn [flat_map req_ids] in HI. rewrite -!app_comm_cons !Forall_cons Forall_app in HI. destruct HI as (Ic & Is & HI1 & HI2).
  destruct (IH Hrs I1 I2 HI2) as [cs2 Hm2]. destruct (trip_ok p gc gs I1 I2 Is) as (trip & sent & text & Hr & Hp & Hsent & Hh & Ht).
  destruct sub as [sub|].
  - set (s := MkSpanID (sp_trace p) gs (sp_span p)) in *. destruct (IHn s sub) as [cs1 Hm1]; [cbn in Hn; unfold list_sum in *; cbn in *; lia|done|done|done|].
    destruct (serve_ok 1 2 sent s) as (out & Hs & Hnp & Hhs).
    { destruct (C54_selection 1 2 (rq_header sent)) as [H _]. apply H; [|by rewrite header_get_span Hh]. rewrite header_get_span Hh. intros ->.
      rewrite /reads_as in Ht. assert (parse_spanid "" = Some s) as Hps by (apply parse_spanid_spec; tauto). done. }
    eexists. eapply makes_served; [|exact Hr|exact Hp|exact Hsent|reflexivity|exact Hs|exact Hnp|exact Hhs|exact Hm1|exact Hm2]. by eexists.
  - eexists. eapply makes_unserved; [|exact Hr|exact Hp|exact Hm2]. by eexists.
Qed.
Theorem C115_possible : forall g1 g2 rs, Forall is_id (g1 :: g2 :: flat_map req_ids rs) -> exists cs, enters g1 g2 rs cs.
Proof.
  intros g1 g2 rs H. apply Forall_cons in H as [I1 H]. apply Forall_cons in H as [I2 HI].
  destruct (makes_total _ (MkSpanID g1 g2 0) rs (le_n _) I1 I2 HI) as [cs Hm].
  set (r := MkRequest "GET" "/x" "HTTP/1.1" ∅ ∅ "h" "1.2.3.4:5" 0 "" "/x").
  destruct (serve_ok g1 g2 r (MkSpanID g1 g2 0)) as (out & Hs & Hp & Hhs); [done|].
  eexists. eapply enters_intro; [| |exact Hs|exact Hp|exact Hhs|exact Hm]; done.
Qed.
Print Assumptions C115_possible.
(** A request that makes two requests, the second of them again two. *)
Definition a_chain : list req := [Req 9 10 None; Req 11 12 (Some [Req 13 14 (Some []); Req 15 16 None])].
Example C115_nonvacuous : Forall is_id (7 :: 8 :: flat_map req_ids a_chain) /\ NoDup (8 :: flat_map req_ids a_chain) /\ ~ In 0 (8 :: flat_map req_ids a_chain) /\
  spans_below (MkSpanID 7 8 0) a_chain =
    [MkSpanID 7 9 8; MkSpanID 7 11 8; MkSpanID 7 12 8; MkSpanID 7 13 12; MkSpanID 7 14 12; MkSpanID 7 15 12].
Proof.
  split; [by repeat constructor|]. split; [apply (bool_decide_unpack _); vm_compute; reflexivity|]. split; [cbn; intuition done|reflexivity].
Qed.
