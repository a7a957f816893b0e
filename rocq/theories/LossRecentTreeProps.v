(** Properties C162 (the shape of the tree) and C163 for a server that deletes old traces. *)
From Verif Require Import Base ChunkModel ChunkSpec ChunkProofs WireModel WireSpec WireProofs RemoteModel
  MemModel MemSpec MemProofs2 MemProofs3 MemProofs4 EndSpec FailSpec FailProofs FailProps LossSpec LossProofs LossProps LossRecentProps LossTreeProps.
From Verif Require RecentModel RecentSpec RecentProofs ChainModel ChainSpec.
Import RecentModel.
Local Open Scope general_if_scope.
Local Open Scope N_scope.

Theorem C162_recent_tree : forall L ss calls age h rs dn st t root,
  Forall executes ss -> serves L ss calls -> received h = calls -> rs_exec age h rs [] dn -> ms_run dn ms_init = Some st -> young age h t -> all_done ss ->
  complete (recorded_spans ss t) root ->
  (forall i j, In i (recorded_spans ss t) -> In j (recorded_spans ss t) -> sp_span i = sp_span j -> i = j) ->
  exists tr, shows st t tr /\ tr_id tr = root /\
    (forall id, In id (map tr_id (nodes tr)) <-> In id (recorded_spans ss t)) /\ NoDup (map tr_id (nodes tr)) /\
    (forall n, In n (nodes tr) -> Permutation (tr_anns n) (recorded_anns ss t (sp_span (tr_id n)))) /\
    (forall p c, In p (nodes tr) -> In c (nodes tr) -> edge tr p c <-> sp_parent (tr_id c) = sp_span (tr_id p)).
Proof.
  intros L ss calls age h rs dn st t root Hex Hsv <- Hx Hrun Hy Hall Hc Hu.
  exact (tree_shown L ss _ dn st Hex Hsv (all_collected _ _ _ _ Hx) Hrun Hall t root (young_kept _ _ _ _ _ Hx Hy) Hc Hu).
Qed.
Print Assumptions C162_recent_tree.

(** C163 before a RecentStore that has not found the trace's recordings older than its MinEvictAge. *)
Theorem C163_recent : forall L ss calls age h s dn st g1 g2 rs cs,
  ChainModel.enters g1 g2 rs cs ->
  Forall is_id (g1 :: g2 :: flat_map ChainSpec.req_ids rs) -> NoDup (g2 :: flat_map ChainSpec.req_ids rs) -> ~ In 0 (g2 :: flat_map ChainSpec.req_ids rs) ->
  Permutation (recorded_in ss g1) cs ->
  Forall executes ss -> serves L ss calls -> received h = calls -> rs_exec age h s [] dn -> ms_run dn ms_init = Some st -> young age h g1 -> all_done ss ->
  exists tr, shows st g1 tr /\ tr_id tr = MkSpanID g1 g2 0 /\
    Permutation (map tr_id (nodes tr)) (MkSpanID g1 g2 0 :: ChainSpec.spans_below (MkSpanID g1 g2 0) rs) /\
    (forall n, In n (nodes tr) -> In (tr_id n, tr_anns n) cs) /\
    (forall p c, In p (nodes tr) -> In c (nodes tr) -> edge tr p c <-> sp_parent (tr_id c) = sp_span (tr_id p)).
Proof.
  intros L ss calls age h s dn st g1 g2 rs cs He HI Hnd Hz HP Hex Hsv <- Hx Hrun Hy Hall.
  exact (services_shown L ss _ dn st g1 g2 rs cs He HI Hnd Hz HP Hex Hsv (all_collected _ _ _ _ Hx) Hrun Hall (young_kept _ _ _ _ _ Hx Hy)).
Qed.
Print Assumptions C163_recent.

(** Any calls that all come at once. *)
Definition at_once (calls : list wcall) : list revent :=
  imap (fun n c => MkRev (fst c) (snd c) (RecentProofs.at_time 0) (bool_decide (n = 0%nat)) []) calls.
Lemma at_once_run age calls : (0 <= age < max_duration)%Z -> exists rs, rs_run age (at_once calls) rs /\ (calls <> [] -> rs_last rs = Some 0%Z).
Proof.
  intros Hage. induction calls as [|c calls (rs & IH1 & IH2)] using rev_ind; [exists rs_init; split; [constructor|done]|].
  assert (at_once (calls ++ [c]) = at_once calls ++ [MkRev (fst c) (snd c) (RecentProofs.at_time 0) (bool_decide (length calls = 0%nat)) []]) as ->.
  { unfold at_once. rewrite imap_app. cbn. by rewrite Nat.add_0_r. }
  destruct calls as [|d calls].
  - inversion IH1 as [E|h0 s0 e0 s1 _ _ E]; [subst|by destruct h0]. eexists. split; [eapply (RR_snoc _ _ rs_init)|].
    + exact IH1.
    + eapply RS_evict; [cbn; lia|reflexivity|]. cbn [re_clock re_id RecentProofs.at_time ck_now ck_seen fst]. rewrite lookup_empty, insert_empty, map_to_list_singleton.
      rewrite filter_cons, decide_False by (cbn; lia). done.
    + done.
  - destruct rs as [created last]. assert (last = Some 0%Z) as -> by (by apply IH2). eexists. split; [eapply RR_snoc; [exact IH1|]|].
    + eapply RS_quiet. cbn. lia.
    + done.
Qed.
Lemma at_once_received calls : received (at_once calls) = calls.
Proof.
  unfold received. assert (forall f : nat -> bool, map (fun e => (re_id e, re_anns e)) (imap (fun n c => MkRev (fst c) (snd c) (RecentProofs.at_time 0) (f n) []) calls) = calls) as H; [|apply H].
  induction calls as [|c calls IH]; intros f; [done|]. cbn [imap map re_id re_anns fst snd]. f_equal; [by destruct c|]. exact (IH (fun n => f (S n))).
Qed.
Lemma at_once_time calls e : In e (at_once calls) -> re_clock e = RecentProofs.at_time 0.
Proof. intros Hin. apply elem_of_list_In, elem_of_lookup_imap in Hin as (n & c & -> & _). done. Qed.
(** Whatever the services send, a RecentStore may have got it within its MinEvictAge. *)
Theorem C163_recent_possible : forall age calls t, (0 <= age < max_duration)%Z -> exists h rs dn st,
  received h = calls /\ rs_exec age h rs [] dn /\ ms_run dn ms_init = Some st /\ young age h t.
Proof.
  intros age calls t Hage. destruct (at_once_run age calls Hage) as (rs & Hrs & _). destruct (run_ok (RecentProofs.prompt (at_once calls))) as (st & Hst & _).
  exists (at_once calls), rs, (RecentProofs.prompt (at_once calls)), st. split; [apply at_once_received|]. split; [by apply RecentProofs.exec_prompt|]. split; [done|].
  intros e0 e H0%at_once_time H1%at_once_time _. rewrite H0, H1. cbn. lia.
Qed.
Print Assumptions C163_recent_possible.
