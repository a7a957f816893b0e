(** Property C162: what is recorded over a network that delivers what it accepts is shown, unless somebody is told. *)
From Verif Require Import Base ChunkModel ChunkSpec ChunkProofs WireModel WireSpec WireProofs RemoteModel
  MemModel MemSpec MemProofs2 MemProofs3 MemProofs4 EndSpec FailSpec FailProofs FailProps LossSpec LossProofs.
Local Open Scope general_if_scope.

(** For every recording that a Collect accepted: it is still queued; or a later Collect returned ErrQueueDropped;
    or the Flush that has it has not returned; or that Flush returned an error; or the store shows it.  Connections may
    break and be remade, Flushes overlap, other processes do what they like. *)
Theorem C162_no_silent_loss : forall L ss calls hist st s before id anns e rest,
  Forall executes ss -> serves L ss calls -> collected hist = calls -> ms_run hist ms_init = Some st ->
  In s ss -> delivers s -> se_log s = before ++ EvCollect id anns (OQueued e) :: rest ->
  (forall ts, In (CDelete ts) hist -> ~ In (sp_trace id) ts) -> acyclic (recorded_spans ss (sp_trace id)) ->
  waiting rest \/ dropped_by_collect rest \/ being_flushed rest \/ flush_failed rest \/ shown_in st id anns.
Proof.
  intros L ss calls hist st s before id anns e rest Hex Hsv Hcol Hrun Hs Hdel Hlog Hd Hac.
  assert (executes s) as Hes by (rewrite List.Forall_forall in Hex; by apply Hex). destruct (ex_run s Hes) as (cfg & c & res & Hr & _).
  destruct (fates _ _ _ _ _ _ Hr Hlog) as [H|[H|[H|[H|H]]]]; [by left|right; by left|right; right; by left|right; right; right; by left|].
  right. right. right. right. exact (flushed_shown L ss calls hist st Hex Hsv (eq_ind _ (Permutation _) (Permutation_refl _) _ Hcol) Hrun s before id anns e rest Hs Hdel Hlog H Hd Hac).
Qed.
Print Assumptions C162_no_silent_loss.

(** A Flush that returns nil: all that was queued when it began is shown. *)
Theorem C162_flush_nil_shown : forall L ss calls hist st s l1 f q l2 l3 id anns,
  Forall executes ss -> serves L ss calls -> collected hist = calls -> ms_run hist ms_init = Some st ->
  In s ss -> delivers s -> se_log s = l1 ++ EvBegin f q :: l2 ++ EvEnd f None :: l3 -> not_about f l2 -> queue l1 !! id = Some anns ->
  (forall ts, In (CDelete ts) hist -> ~ In (sp_trace id) ts) -> acyclic (recorded_spans ss (sp_trace id)) -> shown_in st id anns.
Proof.
  intros L ss calls hist st s l1 f q l2 l3 id anns Hex Hsv Hcol Hrun Hs Hdel Hlog Hna Hq Hd Hac.
  assert (executes s) as Hes by (rewrite List.Forall_forall in Hex; by apply Hex). destruct (ex_run s Hes) as (cfg & c & res & Hr & _).
  pose proof (nil_flush _ _ _ _ _ _ _ _ Hr Hlog Hna id anns Hq) as Hin. destruct (arrives L s _ _ Hes Hdel Hin) as (bs & Hbs & Hc).
  exact (shown_call L ss calls hist st Hex Hsv (eq_ind _ (Permutation _) (Permutation_refl _) _ Hcol) Hrun id anns Hd Hac (served _ _ _ _ _ _ Hsv Hs Hbs Hc)).
Qed.
Print Assumptions C162_flush_nil_shown.

(** When everyone's Flushes have all returned nil and nothing is left: the trace shows each recorded span once, with exactly
    the annotations recorded for it, each as often as it was recorded. *)
Theorem C162_everything_shown : forall L ss calls hist st t,
  Forall executes ss -> serves L ss calls -> collected hist = calls -> ms_run hist ms_init = Some st ->
  (forall s, In s ss -> delivers s /\ short_writes (se_ops s) /\ settled (se_log s)) ->
  (forall ts, In (CDelete ts) hist -> ~ In t ts) -> acyclic (recorded_spans ss t) -> recorded_spans ss t <> [] ->
  exists tr, shows st t tr /\
    (forall id, In id (recorded_spans ss t) -> exists n, In n (nodes tr) /\ sp_span (tr_id n) = sp_span id) /\
    List.NoDup (map (fun n => sp_span (tr_id n)) (nodes tr)) /\
    forall n, In n (nodes tr) -> Permutation (tr_anns n) (recorded_anns ss t (sp_span (tr_id n))).
Proof. intros L ss calls hist st t H1 H2 H3 H4. exact (everything_shown L ss calls hist st H1 H2 (eq_ind _ (Permutation _) (Permutation_refl _) _ H3) H4 t). Qed.
Print Assumptions C162_everything_shown.

(** ** A process whose connection breaks, and which connects again *)
Lemma two_settled k : settled (se_log (two_sender k)).
Proof.
  split; [|split; [|split]].
  - intros id a q H. cbn in H. repeat destruct H as [H|H]; try discriminate; done.
  - by vm_compute.
  - intros l1 f q l2 E. cbn in E. repeat (destruct l1 as [|? l1]; cbn in E; [first [discriminate|injection E as <- <- <-; exists None; cbn; tauto]|injection E as _ E]). by destruct l1.
  - intros f r H. cbn in H. repeat destruct H as [H|H]; try discriminate; try (by injection H as <- <-); done.
Qed.
Lemma two_delivers k : delivers (two_sender k).
Proof.
  split; [done|]. intros x Hx. pose proof two_fit as Hf. rewrite List.Forall_forall in Hf. apply Hf.
  cbn in Hx. destruct Hx as [<-|[<-|[]]]; [by left|right; by left].
Qed.
Example C162_nonvacuous : exists s calls st, executes s /\ delivers s /\ short_writes (se_ops s) /\ settled (se_log s) /\
  serves (MkLib true true) [s] calls /\ ms_run (map (fun c => CCollect (fst c) (snd c)) calls) ms_init = Some st /\
  length (rc_conns (se_net s)) = 2%nat /\ recorded_spans [s] 1 = [MkSpanID 1 2 0; MkSpanID 1 2 0] /\ acyclic (recorded_spans [s] 1) /\
  recorded_anns [s] 1 2 = (snd first_call ++ snd second_call)%list /\
  exists rest, se_log s = EvCollect (fst first_call) (snd first_call) (OQueued None) :: rest /\ flushed rest.
Proof.
  exists (two_sender 5), [first_call; second_call]. destruct C154_nonvacuous as (H1 & H2 & _).
  destruct (ms_run (map (fun c => CCollect (fst c) (snd c)) [first_call; second_call]) ms_init) as [st|] eqn:E; [|by vm_compute in E].
  exists st. split; [done|]. split; [apply two_delivers|]. split; [done|]. split; [apply two_settled|]. split.
  { apply (two_serve 5 []). intros L. by rewrite two_received. }
  split; [reflexivity|]. split; [|split; [reflexivity|split; [|split; [reflexivity|]]]].
  - pose proof (f_equal (@length bytes) (two_streams 5)) as Hl. rewrite map_length in Hl. exact Hl.
  - exists (fun _ => 0%nat). cbn. intros c p [<-|[<-|[]]] [<-|[<-|[]]]; cbn; discriminate.
  - eexists. split; [reflexivity|]. exists [], 0%nat, [first_call], [EvSend 0 (fst first_call) (snd first_call) None], (round second_call). split; [reflexivity|split].
    + split; intros; intros [].
    + split; intros ? [H|[]]; discriminate.
Qed.

(** The network's part is needed: a Flush returns nil when its bytes are written, not when they have arrived. *)
Theorem C162_delivery_needed : exists s, executes s /\ short_writes (se_ops s) /\ settled (se_log s) /\ recordings (se_log s) <> [] /\
  forall L calls, serves L [s] calls -> calls = [].
Proof.
  set (s0 := two_sender 5).
  exists (MkSender (se_log s0) (se_ops s0) (se_net s0) (map (fun _ => []) (rc_conns (se_net s0)))).
  destruct (two_executes 5) as [H1 _ H3 H4]. split; [|split; [exact (proj1 (proj2 C154_nonvacuous))|split; [apply two_settled|split; [done|]]]].
  - split; cbn [se_log se_ops se_net se_arrived]; try done. clear. induction (rc_conns _) as [|x l IH]; cbn [map]; constructor; [apply prefix_nil|exact IH].
  - intros L calls H. apply interleaved_perm in H. cbn [map concat se_arrived] in H. rewrite app_nil_r in H.
    assert (forall cns : list conn, concat (map (fun bs => fst (handle_conn L (fun _ _ => true) bs)) (map (fun _ => []) cns)) = []) as E.
    { induction cns as [|x l IH]; [done|]. cbn [map concat]. rewrite IH. done. }
    rewrite E in H. by apply Permutation_nil.
Qed.
Print Assumptions C162_delivery_needed.
