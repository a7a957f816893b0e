(** Property C109: from the recorded events, through collectors, the network and the store, to the
    events that are read back. *)
From Verif Require Import Base ReflModel ReflSpec EventModel EventSpec EventProofs RecorderModel ChunkModel ChunkSpec
  WireModel WireSpec RemoteModel MemModel MemSpec MemProofs2 MemProofs3 EndSpec EndProofs.
From Verif Require EventProps.
From Coq Require Import ssreflect.
Local Open Scope general_if_scope.

(** Any number of applications, each with any number of spans, connected to one server whose collector is
    a MemoryStore.  If nothing is dropped and no connection breaks, each trace shows exactly its spans, each
    once and under its parent, and the events read back from a shown span are exactly those recorded on it,
    in order. *)
Theorem C109_end_to_end : forall L ets reg (apps : list (list aspan)) outs bss calls st t,
  register_all ets = Some reg ->
  (* different spans have different IDs *)
  NoDup (map (fun s : aspan => (sp_trace (fst s), sp_span (fst s))) (concat apps)) ->
  (* the events of each span can be told apart, and their types are registered *)
  (forall s, In s (concat apps) -> Forall good_event (snd s) /\ separate (map fst (snd s)) /\ forall e, e ∈ snd s -> fst e ∈ ets) ->
  (* each span can be represented in a packet, of a size that the server accepts *)
  (forall os o, In os outs -> In o os -> valid_call o /\ fits o) ->
  Forall3 app_sends apps outs bss ->
  (* one goroutine per connection; MemoryStore.Collect always returns nil *)
  interleaved (map (fun bs => fst (handle_conn L (fun _ _ => true) bs)) bss) calls ->
  ms_run (map (fun c => CCollect (fst c) (snd c)) calls) ms_init = Some st ->
  let ids := filter (fun i => sp_trace i = t) (map fst (concat apps)) in
  ids <> [] -> acyclic ids ->
  exists tr, shows st t tr /\ Permutation (map tr_id (nodes tr)) ids /\
    (forall p c, edge tr p c -> sp_parent (tr_id c) = sp_span (tr_id p) \/
       (p = tr /\ ~ exists q, In q ids /\ sp_span q = sp_parent (tr_id c))) /\
    forall n evs, In n (nodes tr) -> In (tr_id n, evs) (concat apps) ->
      unmarshal_events reg (tr_anns n) = (map (fun e => (ev_schema (fst e), snd e)) evs, EsOk).
Proof.
  intros L ets reg apps outs bss calls st t Hreg Hnd Hev Hv Happs Hil Hrun ids Hne Hac.
  destruct (whole_way L apps outs bss calls Hnd Hv Happs Hil st t Hrun Hne Hac) as (tr & H1 & H2 & H3 & H4).
  exists tr. split; [done|]. split; [done|]. split; [done|]. intros n evs Hn Hin.
  destruct (Hev _ Hin) as (Hg & Hs & He). cbn [snd] in *.
  rewrite (EventProps.C49_recovered_partial ets reg evs (tr_anns n) Hreg Hg Hs (H4 n evs Hn Hin)).
  - intros et x Hx. left. exact (He _ Hx).
  - f_equal. f_equal. clear -He. induction evs as [|e evs IH]; [done|]. rewrite filter_cons decide_True.
    { apply elem_of_list_fmap. exists (fst e). split; [done|]. apply He. left. }
    f_equal. apply IH. intros e' H. apply He. by right.
Qed.
Print Assumptions C109_end_to_end.

(** The simplest history of an application: one span, one Flush. *)
Lemma one_span_app (s : aspan) parts :
  Forall2 (fun e a => marshal (fst e) (snd e) a) (snd s) parts ->
  app_sends [s] [(fst s, concat parts)] (call_frame (fst s, concat parts)).
Proof.
  intros Hp. split.
  - constructor; [|constructor]. exists false, parts, (fun _ => []). split; [done|].
    assert (forall ps r, r_collects (rec_run r (map (fun a => MkCall (REvent (inl a)) None (fun _ => [])) ps ++
        [MkCall RFinish None (fun _ => []); MkCall RErrors None (fun _ => [])])) =
      if r_finished r then r_collects (rec_run r (map (fun a => MkCall (REvent (inl a)) None (fun _ => [])) ps ++
        [MkCall RFinish None (fun _ => []); MkCall RErrors None (fun _ => [])]))
      else r_collects r ++ [(r_span r, r_anns r ++ concat ps)]) as H.
    { induction ps as [|p ps IH]=> r.
      - cbn. destruct (r_finished r); [done|]. by rewrite app_nil_r.
      - cbn [map app rec_run fold_left]. rewrite -/(rec_run _ _) IH. cbn. destruct (r_finished r); [done|]. by rewrite -app_assoc. }
    by rewrite H.
  - set (id := fst s). set (a := concat parts).
    set (log := [EvCollect id a (OQueued None); EvBegin 0 [(id, a)]; EvSend 0 id a None; EvEnd 0 None]).
    assert (exists c, cc_run (MkCfg 0 false) log c /\ cc_pend c = ∅ /\ cc_fl c = ∅) as (c & Hrun & Hc1 & Hc2).
    { set (cfg := MkCfg 0 false).
      assert (cc_run cfg [EvCollect id a (OQueued None)] (fst (cc_collect cfg 0 id a cc_init))) as H1.
      { apply (CR_step _ [] cc_init [_]); [constructor|]. apply (CS_collect _ _ 0%nat); [done|]. reflexivity. }
      assert (cc_step cfg (fst (cc_collect cfg 0 id a cc_init)) [EvBegin 0 [(id, a)]] (cc_begin 0 [(id, a)] (fst (cc_collect cfg 0 id a cc_init)))) as H2.
      { apply CS_begin; [done|]. assert (cc_pend (fst (cc_collect cfg 0 id a cc_init)) = {[id := a]}) as E.
        { unfold cc_collect. cbn [cc_stopped cc_started cc_init cfg cf_max N.eqb negb andb cc_pend cc_start fst]. by rewrite lookup_empty. }
        by rewrite E map_to_list_singleton. }
      pose proof (CR_step _ _ _ _ _ H1 H2) as H3. clear H1 H2. cbn [app] in H3.
      set (c2 := cc_begin _ _ _) in H3.
      assert (cc_fl c2 !! 0%nat = Some (MkFlush [(id, a)] [])) as E by reflexivity.
      pose proof (CR_step _ _ _ _ _ H3 (CS_send cfg c2 0%nat id a [] [] None E)) as H4. cbn [app add_err] in H4.
      set (c3 := set_flush _ _ c2) in H4.
      assert (cc_fl c3 !! 0%nat = Some (MkFlush [] [])) as E3 by reflexivity.
      assert (forall g, cc_bg c3 !! g <> Some (BFlush 0)) as E4.
      { cbn. intros g [[_ H]|[_ H]]%lookup_insert_Some; [done|]. by rewrite lookup_empty in H. }
      pose proof (CR_step _ _ _ _ _ H4 (CS_end cfg c3 0%nat [] E3 E4)) as H5.
      exists (set_flush 0 None c3). split; [exact H5|]. split; [reflexivity|].
      apply map_eq. intros f. unfold c3, c2, set_flush, cc_begin. cbn [cc_fl]. rewrite lookup_empty. destruct (decide (f = 0%nat)) as [->|Hf].
      - by rewrite lookup_partial_alter.
      - rewrite !lookup_partial_alter_ne; [congruence..|]. reflexivity. }
    exists (MkCfg 0 false), log, c. split; [done|]. split; [cbn; tauto|]. split; [done|]. split.
    { intros s' (q & b & _ & [(i & b' & H)|(f & H)]); cbn in H; intuition discriminate. }
    split; [done|]. split; [done|].
    exists [RCollect (id, a) (MkOut (WOk, WOk) true (WOk, WOk))]. eexists _, (MkConn (call_frame (id, a)) false).
    split; [reflexivity|]. split; [|by split_and!]. intros o [<-|[]]. done.
Qed.

(** Two applications, two spans of one trace. *)
Definition client_side : aspan := (MkSpanID 1 2 0, [(name_event, VStruct [("Name", VString "GET /")])]).
Definition server_side : aspan := (MkSpanID 1 3 2, [(msg_event, VStruct [("Msg", VString "hello")]); (name_event, VStruct [("Name", VString "handler")])]).
Definition client_call : wcall := (MkSpanID 1 2 0, [Ann "Name" (Some "GET /"); Ann "_schema:name" None]).
Definition server_call : wcall := (MkSpanID 1 3 2,
  [Ann "Msg" (Some "hello"); Ann "_schema:msg" None; Ann "Name" (Some "handler"); Ann "_schema:name" None]).
Example C109_nonvacuous : exists outs bss calls st,
  NoDup (map (fun s : aspan => (sp_trace (fst s), sp_span (fst s))) [client_side; server_side]) /\
  (forall s, In s [client_side; server_side] -> Forall good_event (snd s) /\ separate (map fst (snd s)) /\ forall e, e ∈ snd s -> fst e ∈ library_events) /\
  (forall os o, In os outs -> In o os -> valid_call o /\ fits o) /\
  Forall3 app_sends [[client_side]; [server_side]] outs bss /\
  interleaved (map (fun bs => fst (handle_conn (MkLib true true) (fun _ _ => true) bs)) bss) calls /\
  calls = [server_call; client_call] /\
  ms_run (map (fun c => CCollect (fst c) (snd c)) calls) ms_init = Some st /\
  acyclic (filter (fun i => sp_trace i = 1) (map fst [client_side; server_side])).
Proof.
  assert (marshal name_event (VStruct [("Name", VString "GET /")]) (snd client_call)) as M1.
  { by apply (marshal_plain name_event _ [("Name", "GET /")]%string [("Name", "GET /")]%string). }
  assert (marshal msg_event (VStruct [("Msg", VString "hello")]) [Ann "Msg" (Some "hello"); Ann "_schema:msg" None]%string) as M2.
  { by apply (marshal_plain msg_event _ [("Msg", "hello")]%string [("Msg", "hello")]%string). }
  assert (marshal name_event (VStruct [("Name", VString "handler")]) [Ann "Name" (Some "handler"); Ann "_schema:name" None]%string) as M3.
  { by apply (marshal_plain name_event _ [("Name", "handler")]%string [("Name", "handler")]%string). }
  assert (app_sends [client_side] [client_call] (call_frame client_call)) as A1.
  { apply (one_span_app client_side [snd client_call]). constructor; [exact M1|constructor]. }
  assert (app_sends [server_side] [server_call] (call_frame server_call)) as A2.
  { apply (one_span_app server_side [[Ann "Msg" (Some "hello"); Ann "_schema:msg" None]; [Ann "Name" (Some "handler"); Ann "_schema:name" None]]%string).
    constructor; [exact M2|]. constructor; [exact M3|constructor]. }
  assert (forall o, In o [client_call; server_call] -> valid_call o /\ fits o) as Hv.
  { intros o [<-|[<-|[]]]; (split; [split_and!; try done|done]); cbn; intros a Ha; repeat (destruct Ha as [<-|Ha]; [done|]); done. }
  exists [[client_call]; [server_call]], [call_frame client_call; call_frame server_call], [server_call; client_call].
  destruct (run_ok (map (fun c : wcall => CCollect (fst c) (snd c)) [server_call; client_call])) as (st & Hst & _).
  exists st. split_and!.
  - apply (bool_decide_unpack _). vm_compute. exact I.
  - intros s [<-|[<-|[]]]; split_and!.
    + constructor; [|constructor]. split; [done|]. split; [done|]. EventProps.fields.
    + apply separate_b_ok. vm_compute. reflexivity.
    + intros e He. apply elem_of_list_singleton in He as ->. left.
    + constructor; [|constructor; [|constructor]]; (split; [done|]; split; [done|]; EventProps.fields).
    + apply separate_b_ok. vm_compute. reflexivity.
    + intros e He. apply elem_of_cons in He as [->|He]; [do 2 right; left|]. apply elem_of_list_singleton in He as ->. left.
  - intros os o [<-|[<-|[]]] [<-|[]]; apply Hv; [by left|right; by left].
  - constructor; [exact A1|]. constructor; [exact A2|]. constructor.
  - change (interleaved [[client_call]; [server_call]] [server_call; client_call]).
    apply (il_cons [[client_call]] server_call [] []). apply (il_cons [] client_call [] [[]]). constructor. by repeat constructor.
  - done.
  - exact Hst.
  - exists N.to_nat. vm_compute. intuition subst; cbn in *; try lia.
Qed.
