(** Property C162 for a server that deletes old traces (serve's --delete-after): its collectors pass everything to a RecentStore. *)
From Verif Require Import Base ChunkModel ChunkSpec ChunkProofs WireModel WireSpec WireProofs RemoteModel
  MemModel MemSpec MemProofs2 MemProofs3 MemProofs4 EndSpec FailSpec FailProofs FailProps LossSpec LossProofs LossProps.
From Verif Require RecentModel RecentSpec RecentProofs WireProps.
Import RecentModel.
Local Open Scope general_if_scope.
Local Open Scope N_scope.

(** The calls of the RecentStore, in the order in which they take its mutex, are those of the server. *)
Definition received (h : list revent) : list wcall := map (fun e => (re_id e, re_anns e)) h.
(** When the RecentStore decides what to delete, no recording of trace t that it has got is older than MinEvictAge. *)
Definition young (age : Z) (h : list revent) (t : N) : Prop :=
  forall e0 e, In e0 h -> In e h -> sp_trace (re_id e0) = t -> (ck_now (re_clock e) - age <= ck_seen (re_clock e0))%Z.

Lemma young_kept age h rs dn t : rs_exec age h rs [] dn -> young age h t -> forall ts, In (CDelete ts) dn -> ~ In t ts.
Proof.
  intros Hx Hy ts Hin Ht. destruct (RecentProofs.exec_run _ _ _ _ _ Hx) as [Hr Hp]. rewrite app_nil_r in Hp.
  assert (In (CDelete ts) (RecentProofs.prompt h)) as Hin' by (by eapply Permutation_in).
  unfold RecentProofs.prompt in Hin'. apply in_concat in Hin' as (l & Hl & Hin'). apply in_map_iff in Hl as (e & <- & He).
  unfold actions in Hin'. apply in_app_iff in Hin' as [Hin'|[?|[]]]; [|done].
  assert (In t (re_ev e)) as Hte by (unfold evict_calls in Hin'; destruct (re_ev e); [done|]; destruct Hin' as [[= <-]|[]]; done).
  destruct (in_split _ _ He) as (h1 & h2 & ->).
  destruct (RecentProofs.evicted_old age h1 e h2 rs t Hr Hte) as (x & Hs & Hlt).
  destruct (RecentProofs.first_seen_at_event _ _ _ _ Hs) as (e0 & He0 & Ht0 & Hx0).
  assert (In e0 (h1 ++ e :: h2)) as He0'.
  { apply in_app_iff in He0 as [?|[<-|[]]]; apply in_app_iff; [by left|right; by left]. }
  pose proof (Hy e0 e He0' He Ht0). lia.
Qed.
Lemma prompt_collected h : collected (RecentProofs.prompt h) = received h.
Proof.
  unfold RecentProofs.prompt, received. induction h as [|e h IH]; [done|]. cbn [map concat]. unfold collected in *. rewrite omap_app, IH.
  unfold actions, evict_calls. by destruct (re_ev e).
Qed.
Lemma all_collected age h rs dn : rs_exec age h rs [] dn -> collected dn ≡ₚ received h.
Proof.
  intros Hx. destruct (RecentProofs.exec_run _ _ _ _ _ Hx) as [_ Hp]. rewrite app_nil_r in Hp. rewrite <- prompt_collected. unfold collected.
  exact (RecentProofs.omap_perm _ _ _ Hp).
Qed.

(** The fates of a recording, in every schedule of the RecentStore's own goroutines, once they have run. *)
Theorem C162_recent : forall L ss calls age h rs dn st s before id anns e rest,
  Forall executes ss -> serves L ss calls -> received h = calls -> rs_exec age h rs [] dn -> ms_run dn ms_init = Some st ->
  young age h (sp_trace id) ->
  In s ss -> delivers s -> se_log s = before ++ EvCollect id anns (OQueued e) :: rest -> acyclic (recorded_spans ss (sp_trace id)) ->
  waiting rest \/ dropped_by_collect rest \/ being_flushed rest \/ flush_failed rest \/ shown_in st id anns.
Proof.
  intros L ss calls age h rs dn st s before id anns e rest Hex Hsv <- Hx Hrun Hy Hs Hdel Hlog Hac.
  assert (executes s) as Hes by (rewrite List.Forall_forall in Hex; by apply Hex). destruct (ex_run s Hes) as (cfg & c & res & Hr & _).
  destruct (fates _ _ _ _ _ _ Hr Hlog) as [H|[H|[H|[H|H]]]]; [by left|right; by left|right; right; by left|right; right; right; by left|].
  right. right. right. right.
  exact (flushed_shown L ss _ dn st Hex Hsv (all_collected _ _ _ _ Hx) Hrun s before id anns e rest Hs Hdel Hlog H (young_kept _ _ _ _ _ Hx Hy) Hac).
Qed.
Print Assumptions C162_recent.
Theorem C162_recent_everything : forall L ss calls age h rs dn st t,
  Forall executes ss -> serves L ss calls -> received h = calls -> rs_exec age h rs [] dn -> ms_run dn ms_init = Some st ->
  young age h t ->
  (forall s, In s ss -> delivers s /\ short_writes (se_ops s) /\ settled (se_log s)) ->
  acyclic (recorded_spans ss t) -> recorded_spans ss t <> [] ->
  exists tr, shows st t tr /\
    (forall id, In id (recorded_spans ss t) -> exists n, In n (nodes tr) /\ sp_span (tr_id n) = sp_span id) /\
    List.NoDup (map (fun n => sp_span (tr_id n)) (nodes tr)) /\
    forall n, In n (nodes tr) -> Permutation (tr_anns n) (recorded_anns ss t (sp_span (tr_id n))).
Proof.
  intros L ss calls age h rs dn st t Hex Hsv <- Hx Hrun Hy Hall Hac Hne.
  exact (everything_shown L ss _ dn st Hex Hsv (all_collected _ _ _ _ Hx) Hrun t Hall (young_kept _ _ _ _ _ Hx Hy) Hac Hne).
Qed.
Print Assumptions C162_recent_everything.

(** The process of C162_nonvacuous before a server that deletes traces after 20 s: another trace, 30 s old, is deleted when
    the process's recordings arrive. *)
Definition old_call : wcall := (MkSpanID 9 9 0, []).
Definition a_history : list revent :=
  [MkRev (fst old_call) (snd old_call) (RecentProofs.at_time 0) true []; MkRev (fst first_call) (snd first_call) (RecentProofs.at_time 30) true [9];
   MkRev (fst second_call) (snd second_call) (RecentProofs.at_time 31) false []].
Definition old_sender : sender :=
  MkSender (round old_call) [RCollect old_call fine] (fst (rc_run [RCollect old_call fine] rc_init)) [stream [old_call]].
Lemma old_valid : Forall valid_call [old_call] /\ Forall fits [old_call].
Proof. split; (apply Forall_cons_2; [|apply Forall_nil_2]); [by split_and!|by vm_compute]. Qed.
Lemma old_executes : executes old_sender /\ delivers old_sender.
Proof.
  destruct old_valid as [Hv Hf]. rewrite List.Forall_forall in Hv, Hf.
  assert (se_arrived old_sender = map cn_out (rc_conns (se_net old_sender))) as E by (by vm_compute).
  split; [split|split].
  - destruct (rounds_run [old_call]) as [c Hc]. exists (MkCfg 0 false), c, [(old_call, true)].
    split; [exact Hc|]. split; [reflexivity|]. cbn. repeat constructor.
  - rewrite E. clear. induction (rc_conns (se_net old_sender)) as [|x l IH]; cbn [map]; [constructor|]. constructor; [done|exact IH].
  - intros c Hc. by apply Hv.
  - intros x Hx. assert (fits (fst x)) as H by (apply Hf; destruct Hx as [<-|[]]; by left). unfold fits in H. destruct two64_max. lia.
  - exact E.
  - intros x [<-|[]]. by apply Hf; left.
Qed.
Lemma history_run : exists rs, rs_run 20 a_history rs.
Proof.
  eexists. eapply (RR_snoc 20 [_; _]); [eapply (RR_snoc 20 [_]); [eapply (RR_snoc 20 []); [constructor|]|]|].
  - eapply (RS_evict _ _ _ _ _ _ []); [by vm_compute|reflexivity|]. vm_compute. reflexivity.
  - eapply RS_evict; [by vm_compute|reflexivity|]. vm_compute. reflexivity.
  - eapply RS_quiet. by vm_compute.
Qed.
Example C162_recent_nonvacuous : exists rs st, Forall executes [old_sender; two_sender 5] /\
  serves (MkLib true true) [old_sender; two_sender 5] (received a_history) /\
  rs_exec 20 a_history rs [] (RecentProofs.prompt a_history) /\ ms_run (RecentProofs.prompt a_history) ms_init = Some st /\
  young 20 a_history 1 /\ delivers (two_sender 5) /\ acyclic (recorded_spans [old_sender; two_sender 5] 1) /\
  In (CDelete [9]) (RecentProofs.prompt a_history) /\
  exists rest, se_log (two_sender 5) = EvCollect (fst first_call) (snd first_call) (OQueued None) :: rest /\ flushed rest.
Proof.
  destruct history_run as [rs Hrs]. exists rs. destruct (ms_run (RecentProofs.prompt a_history) ms_init) as [st|] eqn:E; [|by vm_compute in E].
  exists st. split; [|split; [|split; [|split; [|split; [|split; [|split; [|split]]]]]]].
  - apply Forall_cons_2; [apply old_executes|]. apply Forall_cons_2; [apply two_executes|apply Forall_nil_2].
  - unfold serves. cbn [map concat se_arrived old_sender]. destruct old_valid as [Hv Hf]. change (received a_history) with [old_call; first_call; second_call]. cbn [app map].
    rewrite (WireProps.C39_whole (MkLib true true) (fun _ _ => true) [old_call]) by done. cbn [fst].
    apply (il_cons [] old_call [] _). cbn [app].
    assert (serves (MkLib true true) [two_sender 5] [first_call; second_call]) as Hs.
    { apply (two_serve 5 []). intros L. by rewrite two_received. }
    unfold serves in Hs. clear -Hs. revert Hs. cbn [map concat]. generalize (map (fun bs => fst (handle_conn (MkLib true true) (fun _ _ => true) bs)) (se_arrived (two_sender 5) ++ [])).
    intros l. generalize [first_call; second_call]. intros k H. induction H as [ls Hn|ls1 x l1 ls2 r H IH].
    + constructor. by constructor.
    + apply (il_cons ([] :: ls1) x l1 ls2 r). exact IH.
  - by apply RecentProofs.exec_prompt.
  - reflexivity.
  - intros e0 e. cbn [a_history In]. intros [<-|[<-|[<-|[]]]] [<-|[<-|[<-|[]]]]; cbn; try discriminate; lia.
  - apply two_delivers.
  - exists (fun _ => 0%nat). cbn. intros c p [<-|[<-|[]]] [<-|[<-|[]]]; cbn; discriminate.
  - vm_compute. tauto.
  - eexists. split; [reflexivity|].
    exists [], 0%nat, [first_call], [EvSend 0 (fst first_call) (snd first_call) None], (round second_call). split; [reflexivity|split].
    + split; intros; intros [].
    + split; intros ? [H|[]]; discriminate.
Qed.
