(** Property C154: over a network that fails in any way, nothing is shown that was not recorded. *)
From Verif Require Import Base ChunkModel ChunkSpec ChunkProofs WireModel WireSpec WireProofs RemoteModel
  MemModel MemSpec MemProofs2 MemProofs3 MemProofs4 EndSpec FailSpec FailProofs.
From Verif Require WireProps.
Local Open Scope general_if_scope.

(** Any number of processes whose queues may be dropped, whose flushes may overlap or time out, whose connections may
    break at any byte, be refused or be remade: what the server's store shows for a span is made of whole recordings of
    that span (of nothing else, and of no part of a recording), and only recorded spans are shown.  If a failed write
    has never written everything, no recording is shown more often than it was made. *)
Theorem C154_whole_recordings : forall L ss calls hist st t tr n,
  Forall executes ss -> serves L ss calls -> collected hist = calls ->
  ms_run hist ms_init = Some st -> shows st t tr -> In n (nodes tr) ->
  exists cs, tr_anns n = concat (map snd cs) /\
    (forall c, In c cs -> (exists s, In s ss /\ In c (recordings (se_log s))) /\
       sp_trace (fst c) = t /\ sp_span (fst c) = sp_span (tr_id n)) /\
    (exists c, In c cs /\ fst c = tr_id n) /\
    (Forall (fun s => short_writes (se_ops s)) ss -> submseteq cs (concat (map (fun s => recordings (se_log s)) ss))).
Proof. intros L ss calls hist st t tr n H1 H2 H3 H4 H5 H6. exact (nothing_invented L ss calls H1 H2 hist st t tr n H3 H4 H5 H6). Qed.
Print Assumptions C154_whole_recordings.

(** ** Executions *)
Definition idle (c : CC) : Prop := cc_stopped c = false /\ cc_lasterr c = None /\ cc_pend c = ∅ /\ cc_fl c = ∅ /\ forall g f, cc_bg c !! g <> Some (BFlush f).
Definition round (c : wcall) : list ChunkModel.event :=
  [EvCollect (fst c) (snd c) (OQueued None); EvBegin 0 [c]; EvSend 0 (fst c) (snd c) None; EvEnd 0 None].
Lemma round_run log c d : cc_run (MkCfg 0 false) log c -> idle c -> exists c', cc_run (MkCfg 0 false) (log ++ round d) c' /\ idle c'.
Proof.
  intros Hr (Hst & Hle & Hp & Hfl & Hbg). destruct d as [id a]. set (cfg := MkCfg 0 false) in *.
  set (g := fresh (dom (cc_bg c))). assert (cc_bg c !! g = None) as Hg by (apply not_elem_of_dom, is_fresh).
  destruct (cc_collect cfg g id a c) as [c1 o] eqn:E.
  destruct (collect_cases _ _ _ _ _ _ _ E) as (Hfl1 & Ho & _).
  unfold cc_collect in E. rewrite Hst in E. cbn [cfg cf_max N.eqb negb andb] in E.
  set (c0 := if cc_started c then c else cc_start g c) in E.
  assert (cc_pend c0 = ∅ /\ cc_lasterr c0 = None /\ cc_stopped c0 = false /\ forall g f, cc_bg c0 !! g <> Some (BFlush f)) as (P1 & P2 & P3 & P4).
  { unfold c0. destruct (cc_started c); [done|]. cbn [cc_start cc_pend cc_lasterr cc_stopped cc_bg]. split_and!; try done.
    intros g' f [[_ H]|[_ H]]%lookup_insert_Some; [done|]. by eapply Hbg. }
  rewrite P1, lookup_empty, P2 in E. injection E as <- <-.
  assert (cc_run cfg (log ++ [EvCollect id a (OQueued None)]) (MkCC None (cc_started c0) (cc_stopped c0) (cc_chan c0)
    ((cc_bytes c0 + collection_size a) `mod` two64) (<[id:=a]> ∅) (cc_fl c0) (cc_bg c0))) as R1.
  { eapply CR_step; [exact Hr|]. apply (CS_collect _ _ g); [done|]. unfold cc_collect. rewrite Hst. cbn [cfg cf_max N.eqb negb andb]. fold c0. by rewrite P1, lookup_empty, P2. }
  cbn [cc_fl] in Hfl1. rewrite Hfl in Hfl1.
  set (c1 := MkCC _ _ _ _ _ _ _ _) in R1.
  assert (cc_step cfg c1 [EvBegin 0 [(id, a)]] (cc_begin 0 [(id, a)] c1)) as S2.
  { apply CS_begin; [cbn; by rewrite Hfl1, lookup_empty|]. cbn [c1 cc_pend]. by rewrite insert_empty, map_to_list_singleton. }
  pose proof (CR_step _ _ _ _ _ R1 S2) as R2. set (c2 := cc_begin _ _ _) in R2.
  assert (cc_fl c2 !! 0%nat = Some (MkFlush [(id, a)] [])) as E2 by (cbn; by rewrite lookup_insert).
  pose proof (CR_step _ _ _ _ _ R2 (CS_send cfg c2 0%nat id a [] [] None E2)) as R3. set (c3 := set_flush _ _ c2) in R3.
  assert (cc_fl c3 !! 0%nat = Some (MkFlush [] [])) as E3 by (unfold c3, set_flush; cbn [cc_fl]; by rewrite lookup_partial_alter).
  assert (forall g, cc_bg c3 !! g <> Some (BFlush 0)) as E4 by (intros g'; cbn; apply P4).
  pose proof (CR_step _ _ _ _ _ R3 (CS_end cfg c3 0%nat [] E3 E4)) as R4.
  exists (set_flush 0 None c3). split; [by rewrite <- !app_assoc in R4|]. unfold idle. split_and!; [exact P3|done|done| |exact P4].
  unfold c3, c2, set_flush, cc_begin. cbn [cc_fl c1]. rewrite Hfl1. apply map_eq. intros f. rewrite lookup_empty. destruct (decide (f = 0%nat)) as [->|Hf].
  - by rewrite lookup_partial_alter.
  - rewrite !lookup_partial_alter_ne by congruence. rewrite lookup_insert_ne by congruence. apply lookup_empty.
Qed.
Lemma rounds_run ds : exists c, cc_run (MkCfg 0 false) (concat (map round ds)) c.
Proof.
  enough (exists c, cc_run (MkCfg 0 false) (concat (map round ds)) c /\ idle c) as (c & H & _) by (by exists c).
  induction ds as [|d ds (c & Hc & Hi)] using rev_ind.
  - exists cc_init. split; [constructor|]. by split_and!.
  - rewrite map_app, concat_app. cbn [map concat]. rewrite app_nil_r. by apply (round_run _ c).
Qed.

(** A process that records two events of one span.  When the second one is sent, the connection breaks after [k] bytes of
    the packet; it is sent again over a new connection. *)
Definition first_call : wcall := (MkSpanID 1 2 0, [Ann "Name" (Some "GET /")])%string.
Definition second_call : wcall := (MkSpanID 1 2 0, [Ann "Msg" (Some "hello")])%string.
Definition fine : outcomes := MkOut (WOk, WOk) true (WOk, WOk).
Definition breaks (k : nat) : outcomes := MkOut (WOk, WFail k) true (WOk, WOk).
Definition two_ops (k : nat) := [RCollect first_call fine; RCollect second_call (breaks k)].
Definition two_conns (k : nat) : RC := fst (rc_run (two_ops k) rc_init).
Definition two_sender (k : nat) : sender :=
  MkSender (round first_call ++ round second_call) (two_ops k) (two_conns k) (map cn_out (rc_conns (two_conns k))).
Lemma two_valid : Forall valid_call [first_call; second_call].
Proof.
  repeat apply Forall_cons_2; try apply Forall_nil_2; (split_and!; [done..|]); cbn; intros a Ha; repeat (destruct Ha as [<-|Ha]; [done|]); done.
Qed.
Lemma two_fit : Forall fits [first_call; second_call].
Proof. repeat apply Forall_cons_2; try apply Forall_nil_2; by vm_compute. Qed.
Lemma two_executes k : executes (two_sender k).
Proof.
  split.
  - destruct (rounds_run [first_call; second_call]) as [c Hc]. exists (MkCfg 0 false), c, [(first_call, true); (second_call, true)].
    split; [exact Hc|]. split; [reflexivity|]. cbn. repeat constructor.
  - cbn [two_sender se_arrived se_net]. induction (rc_conns (two_conns k)) as [|x l IH]; cbn [map]; constructor; [done|exact IH].
  - intros c Hc. pose proof two_valid as Hv. rewrite List.Forall_forall in Hv. by apply Hv.
  - intros x Hx. pose proof two_fit as Hf. rewrite List.Forall_forall in Hf. assert (fits (fst x)) as H.
    { apply Hf. cbn in Hx. destruct Hx as [<-|[<-|[]]]; [by left|right; by left]. }
    unfold fits in H. destruct two64_max. lia.
Qed.
Lemma two_streams k : map cn_out (rc_conns (two_conns k)) =
  [stream [first_call] ++ varint (N.of_nat (length (call_body second_call))) ++ take k (call_body second_call); stream [second_call]].
Proof.
  unfold two_conns, two_ops. cbn [rc_run]. unfold rc_collect at 1. cbn [rc_conn rc_init]. unfold rc_retry, rc_connect, rc_close. cbn [rc_conn rc_init out_dial fine out_second].
  unfold write_msg, conn_write. cbn [cn_dead fst snd cn_out]. unfold rc_collect. cbn [rc_conn rc_old]. unfold write_msg, conn_write. cbn [cn_dead breaks out_first fst snd cn_out].
  unfold rc_retry, rc_connect, rc_close. cbn [rc_conn rc_old out_dial breaks out_second cn_dead fst snd cn_out]. unfold write_msg, conn_write. cbn [cn_dead fst snd cn_out].
  unfold rc_conns. cbn [rc_conn rc_old app map cn_out]. unfold stream, call_frame, frame, call_body. cbn [flat_map]. by rewrite !app_nil_r, <- app_assoc.
Qed.
(** What the store shows of the span, when nobody deletes anything. *)
Definition shown_span (k : nat) (anns : list Annotation) : Prop := exists calls st tr,
  serves (MkLib true true) [two_sender k] calls /\
  ms_run (map (fun c => CCollect (fst c) (snd c)) calls) ms_init = Some st /\ shows st 1 tr /\ In (Tree (MkSpanID 1 2 0) anns []) (nodes tr).

Lemma shown_from k anns calls : serves (MkLib true true) [two_sender k] calls ->
  (exists tr, (st ← ms_run (map (fun c => CCollect (fst c) (snd c)) calls) ms_init; l ← ms_trace_of st 1; read_tree 3 (ms_heap st) l) = Some tr /\
     nodes tr = [Tree (MkSpanID 1 2 0) anns []]) -> shown_span k anns.
Proof.
  intros Hs (tr & Hr & Hn). destruct (ms_run _ ms_init) as [st|] eqn:E; [|done]. exists calls, st, tr.
  split_and!; [done|exact E|exact (shown_by 3 st 1 tr Hr)|]. rewrite Hn. by left.
Qed.
Lemma two_serve k g : (forall L, fst (handle_conn L (fun _ _ => true) (stream [first_call] ++ varint (N.of_nat (length (call_body second_call))) ++ take k (call_body second_call))) = first_call :: g) ->
  serves (MkLib true true) [two_sender k] (first_call :: g ++ [second_call]).
Proof.
  intros H. unfold serves. cbn [map concat two_sender se_arrived]. rewrite app_nil_r, two_streams. cbn [map]. rewrite H.
  rewrite (WireProps.C39_whole (MkLib true true) (fun _ _ => true) [second_call]); [|by apply (Forall_cons_1 _ _ _ two_valid)|by apply (Forall_cons_1 _ _ _ two_fit)|done].
  cbn [fst]. apply (il_cons [] first_call g [[second_call]]). cbn [app]. clear H. induction g as [|x g IH]; cbn [app].
  - apply (il_cons [[]] second_call [] []). constructor. by repeat constructor.
  - apply (il_cons [] x g [[second_call]]). exact IH.
Qed.
Lemma two_received L k : fst (handle_conn L (fun _ _ => true) (stream [first_call] ++ varint (N.of_nat (length (call_body second_call))) ++ take k (call_body second_call))) =
  first_call :: if (length (call_body second_call) <=? k)%nat then [second_call] else [].
Proof.
  assert (stream [first_call] ++ varint (N.of_nat (length (call_body second_call))) ++ take k (call_body second_call) =
    take (length (stream [first_call]) + (length (varint (N.of_nat (length (call_body second_call)))) + k)) (stream [first_call; second_call])) as ->.
  { cbn [stream flat_map]. rewrite !app_nil_r. rewrite take_app_ge by lia. apply (f_equal (app (call_frame first_call))).
    change (call_frame second_call) with (varint (N.of_nat (length (call_body second_call))) ++ call_body second_call).
    rewrite take_app_ge by lia. apply (f_equal (app _)). f_equal. lia. }
  destruct (conn_stream L (fun _ _ => true) [first_call; second_call] (length (stream [first_call]) + (length (varint (N.of_nat (length (call_body second_call)))) + k)) two_valid two_fit) as [-> _].
  change [first_call; second_call] with ([first_call] ++ [second_call]) at 1. rewrite RemoteProofs.complete_app. cbn [app until_fail]. f_equal. cbn [WireSpec.complete].
  assert (length (call_frame second_call) = length (varint (N.of_nat (length (call_body second_call)))) + length (call_body second_call))%nat as -> by (unfold call_frame, frame; by rewrite app_length).
  destruct (Nat.leb_spec (length (call_body second_call)) k).
  - replace (_ <=? _)%nat with true; [done|]. symmetry. apply Nat.leb_le. lia.
  - replace (_ <=? _)%nat with false; [done|]. symmetry. apply Nat.leb_gt. lia.
Qed.
(** The hypotheses are met: a connection that breaks within the packet; the span shows both recordings, once each. *)
Example C154_nonvacuous : executes (two_sender 5) /\ short_writes (se_ops (two_sender 5)) /\
  recordings (se_log (two_sender 5)) = [first_call; second_call] /\
  shown_span 5 (snd first_call ++ snd second_call).
Proof.
  split; [apply two_executes|]. split; [|split; [done|]].
  - intros c o [H|[H|[]]]; injection H as <- <-; (split; split); try done; intros k0 [= <-]; by vm_compute; lia.
  - apply (shown_from 5 _ [first_call; second_call]).
    + apply (two_serve 5 []). intros L. by rewrite two_received.
    + eexists. split; [vm_compute; reflexivity|reflexivity].
Qed.
(** Were there writes that fail after everything has been written, a recording could be shown twice: the
    RemoteCollector sends the packet again. *)
Theorem C154_short_writes_needed : exists k, executes (two_sender k) /\ recordings (se_log (two_sender k)) = [first_call; second_call] /\
  shown_span k (snd first_call ++ snd second_call ++ snd second_call).
Proof.
  exists 1000%nat. split; [apply two_executes|]. split; [done|].
  apply (shown_from 1000 _ [first_call; second_call; second_call]).
  - apply (two_serve 1000 [second_call]). intros L. by rewrite two_received.
  - eexists. split; [vm_compute; reflexivity|reflexivity].
Qed.
Print Assumptions C154_short_writes_needed.
