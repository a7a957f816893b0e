(** Property C146: deletions of a RecentStore that fail. *)
From Verif Require Import Base MemModel MemSpec MemProofs MemProofs2 MemProofs3 MemProofs4 RecentModel RecentSpec RecentProofs RecentFailModel.
Open Scope Z_scope.

Lemma fexec_run age h st pend dn failed : rs_fexec age h st pend dn failed -> rs_run age h st /\ Permutation (dn ++ failed ++ pend) (prompt h).
Proof.
  induction 1 as [|h st pend dn failed e st' _ [IH1 IH2] Hs|h st p1 a p2 dn failed _ [IH1 IH2]|h st p1 ts p2 dn failed _ [IH1 IH2]].
  - split; [constructor|done].
  - split; [by econstructor|]. unfold prompt in *. rewrite map_app, concat_app. cbn. rewrite app_nil_r, !app_assoc. rewrite <- IH2. by rewrite !app_assoc.
  - split; [done|]. rewrite <- IH2. rewrite <- app_assoc. apply Permutation_app_head. cbn. rewrite !app_assoc. apply Permutation_middle.
  - split; [done|]. rewrite <- IH2. rewrite <- app_assoc. apply Permutation_app_head. apply Permutation_app_head. cbn. apply Permutation_middle.
Qed.

(** No later pass deletes the trace, unless more is collected for it. *)
Lemma not_again age h1 e h2 st t : rs_run age (h1 ++ e :: h2) st -> In t (re_ev e) -> (forall e', In e' h2 -> sp_trace (re_id e') <> t) -> forall e', In e' h2 -> ~ In t (re_ev e').
Proof.
  intros Hr Ht Hn e' He Ht'. destruct (in_split _ _ He) as (a & b & ->).
  replace (h1 ++ e :: a ++ e' :: b) with ((h1 ++ e :: a) ++ e' :: b) in Hr by (by rewrite <- app_assoc).
  destruct (evicted_old age _ _ _ _ t Hr Ht') as (x & Hx & _).
  assert (first_seen t (h1 ++ e :: a) = None) as E.
  { unfold first_seen. rewrite fold_left_app. cbn [fold_left]. unfold seen_step at 2. rewrite bool_decide_eq_true_2 by (by apply elem_of_list_In).
    assert (forall e0, In e0 a -> sp_trace (re_id e0) <> t) as Ha by (intros e0 H0; apply Hn, in_app_iff; by left).
    clear -Ha. induction a as [|y a IH]; [done|]. cbn [fold_left]. unfold seen_step at 2. destruct (N.eqb_spec (sp_trace (re_id y)) t) as [Ey|Ey]; [destruct (Ha y); [by left|done]|].
    destruct (bool_decide _); apply IH; intros e0 H0; apply Ha; by right. }
  unfold first_seen_at in Hx. rewrite E in Hx. destruct (N.eqb_spec (sp_trace (re_id e')) t) as [Ey|Ey]; [|done]. by apply (Hn e' He).
Qed.

Definition deletes (t : N) (c : call) : bool := match c with CDelete ts => bool_decide (t ∈ ts) | _ => false end.
Lemma prompt_deletes t h : length (List.filter (deletes t) (prompt h)) = length (List.filter (fun e => bool_decide (t ∈ re_ev e)) h).
Proof.
  unfold prompt. induction h as [|e h IH]; [done|]. cbn [map concat]. rewrite List.filter_app, app_length, IH. unfold actions. rewrite List.filter_app, app_length. cbn [List.filter deletes length].
  destruct (re_ev e) as [|x l] eqn:E; cbn [evict_calls List.filter deletes]; [done|]. destruct (bool_decide _); cbn [length]; lia.
Qed.
Lemma filter_len_perm {A} (f : A -> bool) l1 l2 : Permutation l1 l2 -> length (List.filter f l1) = length (List.filter f l2).
Proof. induction 1; cbn; repeat match goal with |- context [f ?x] => destruct (f x) end; cbn; congruence. Qed.

(** A trace whose deletion fails, and for which nothing is collected afterwards, is in the store, with all its spans, for ever. *)
Theorem C146_kept : forall age h1 e h2 st dn failed ms t ts,
  rs_fexec age (h1 ++ e :: h2) st [] dn failed -> ms_run dn ms_init = Some ms ->
  In t (re_ev e) -> (forall e', In e' h1 -> ~ In t (re_ev e')) -> (forall e', In e' h2 -> sp_trace (re_id e') <> t) ->
  In (CDelete ts) failed -> In t ts ->
  exists L tr, Permutation L (collected t (h1 ++ e :: h2)) /\ shows ms t tr /\ displays L tr /\ (acyclic (spans_of L) -> Permutation (map tr_id (nodes tr)) (spans_of L)).
Proof.
  intros age h1 e h2 st dn failed ms t ts Hx Hms Ht H1 H2 Hf Hts. destruct (fexec_run _ _ _ _ _ _ Hx) as [Hr Hp]. rewrite app_nil_r in Hp.
  assert (length (List.filter (deletes t) (dn ++ failed)) = 1%nat) as Hone.
  { rewrite (filter_len_perm _ _ _ Hp), prompt_deletes, List.filter_app, app_length. cbn [List.filter]. rewrite bool_decide_eq_true_2 by (by apply elem_of_list_In). cbn [length].
    assert (forall l, (forall e', In e' l -> ~ In t (re_ev e')) -> List.filter (fun e => bool_decide (t ∈ re_ev e)) l = []) as H0.
    { clear. induction l as [|x l IH]; intros H; [done|]. cbn [List.filter]. rewrite bool_decide_eq_false_2; [apply IH; intros; apply H; by right|]. rewrite elem_of_list_In. apply H. by left. }
    rewrite !H0; [done| |done]. by eapply not_again. }
  assert (List.filter (deletes t) dn = []) as Hdn.
  { rewrite List.filter_app, app_length in Hone. assert (In (CDelete ts) (List.filter (deletes t) failed)) as Hi.
    { apply filter_In. split; [done|]. cbn. by apply bool_decide_eq_true_2, elem_of_list_In. }
    destruct (List.filter (deletes t) failed); [done|]. destruct (List.filter (deletes t) dn); [done|]. cbn in Hone. lia. }
  assert (live t dn [] = omap (pick t) dn) as El.
  { apply live_undeleted. intros ts' Hin Hbad. assert (In (CDelete ts') (List.filter (deletes t) dn)) as Hi; [|by rewrite Hdn in Hi].
    apply filter_In. split; [done|]. cbn. by apply bool_decide_eq_true_2. }
  assert (forall c, In c failed -> exists ts, c = CDelete ts) as Hfd.
  { clear -Hx. remember (h1 ++ e :: h2) as h. clear Heqh. remember [] as pend. clear Heqpend. induction Hx as [| | |h st p1 ts p2 dn failed _ IH]; intros c Hc; eauto; [done|].
    apply in_app_iff in Hc as [Hc|[<-|[]]]; eauto. }
  assert (omap (pick t) failed = []) as Hpf.
  { clear -Hfd. induction failed as [|c l IH]; [done|]. destruct (Hfd c) as [ts ->]; [by left|]. cbn. apply IH. intros c Hc. apply Hfd. by right. }
  assert (Permutation (live t dn []) (collected t (h1 ++ e :: h2))) as HP.
  { rewrite El, <- pick_prompt. rewrite <- (omap_perm _ _ _ Hp), omap_app, Hpf, app_nil_r. done. }
  destruct (trace_displayed dn ms t Hms) as (tr & Hs & Hd & _ & Hpm).
  { intros E. rewrite E in HP. apply Permutation_nil in HP.
    destruct (evicted_old age _ _ _ _ t Hr Ht) as (x & Hfs & _). destruct (first_seen_at_event _ _ _ _ Hfs) as (e0 & He0 & Ht0 & _).
    assert (In (re_id e0, re_anns e0) (collected t (h1 ++ e :: h2))) as Hin; [|by rewrite HP in Hin].
    unfold collected. apply (in_map (fun e => (re_id e, re_anns e))). apply elem_of_list_In, elem_of_list_filter. split; [done|]. apply elem_of_list_In.
    apply in_app_iff in He0 as [?|[<-|[]]]; apply in_app_iff; [by left|right; by left]. }
  exists (live t dn []), tr. done.
Qed.
Print Assumptions C146_kept.
(** A trace for which something is collected more than MinEvictAge before a later pass is tried again, whatever became of earlier deletions. *)
Theorem C146_partial : forall age h1 e0 h2 e h3 st pend dn failed t, rs_fexec age (h1 ++ e0 :: h2 ++ e :: h3) st pend dn failed ->
  sp_trace (re_id e0) = t -> ~ In t (re_ev e0) -> (forall e', In e' h2 -> ~ In t (re_ev e')) -> (forall e', In e' (h1 ++ [e0]) -> ck_seen (re_clock e') <= ck_seen (re_clock e0)) ->
  re_ran e = true -> ck_seen (re_clock e0) < ck_now (re_clock e) - age -> In t (re_ev e).
Proof.
  intros age h1 e0 h2 e h3 st pend dn failed t Hx Ht Hn0 Hn2 Hck Hran Hlt. destruct (fexec_run _ _ _ _ _ _ Hx) as [Hr _].
  replace (h1 ++ e0 :: h2 ++ e :: h3) with ((h1 ++ e0 :: h2) ++ e :: h3) in Hr by (by rewrite <- app_assoc).
  assert (exists x, first_seen t (h1 ++ [e0]) = Some x /\ x <= ck_seen (re_clock e0)) as (x & Hx1 & Hx2).
  { unfold first_seen. rewrite fold_left_app. cbn [fold_left]. unfold seen_step at 1. rewrite bool_decide_eq_false_2 by (by rewrite elem_of_list_In).
    fold (first_seen t h1). destruct (first_seen t h1) as [y|] eqn:E.
    - exists y. split; [done|]. destruct (first_seen_event t h1 y E) as (a & e1 & b & -> & _ & <- & _). apply Hck, in_app_iff. left. apply in_app_iff. right. by left.
    - rewrite Ht, N.eqb_refl. eexists. split; [done|lia]. }
  assert (first_seen t (h1 ++ e0 :: h2) = Some x) as Hfs.
  { replace (h1 ++ e0 :: h2) with ((h1 ++ [e0]) ++ h2) by (by rewrite <- app_assoc). unfold first_seen. rewrite fold_left_app. fold (first_seen t (h1 ++ [e0])). rewrite Hx1.
    clear -Hn2. induction h2 as [|y h2 IH]; [done|]. cbn [fold_left]. unfold seen_step at 2. rewrite bool_decide_eq_false_2 by (rewrite elem_of_list_In; apply Hn2; by left).
    apply IH. intros e' He. apply Hn2. by right. }
  destruct (eviction_complete age _ _ _ _ Hr) as (_ & Hc & _). apply (Hc Hran t x); [unfold first_seen_at; by rewrite Hfs|lia].
Qed.
Print Assumptions C146_partial.

(** The property is false: long after, and after two further passes, the trace is in the store. *)
Definition wit146 : list revent := wit27 ++ [MkRev (MkSpanID 3 1 0) [] (at_time 100) true [2%N]; MkRev (MkSpanID 4 1 0) [] (at_time 200) true [3%N]].
Lemma wit146_fexec : exists st, rs_fexec 10 wit146 st []
  [CCollect (MkSpanID 1 1 0) []; CCollect (MkSpanID 1 2 1) []; CCollect (MkSpanID 2 1 0) []; CDelete [2%N]; CCollect (MkSpanID 3 1 0) []; CDelete [3%N]; CCollect (MkSpanID 4 1 0) []] [CDelete [1%N]].
Proof.
  assert (exists s1 s2 s3 s4 s5, rs_step 10 (at_time 0) (MkSpanID 1 1 0) rs_init true [] s1 /\ rs_step 10 (at_time 9) (MkSpanID 1 2 1) s1 false [] s2 /\
    rs_step 10 (at_time 11) (MkSpanID 2 1 0) s2 true [1%N] s3 /\ rs_step 10 (at_time 100) (MkSpanID 3 1 0) s3 true [2%N] s4 /\ rs_step 10 (at_time 200) (MkSpanID 4 1 0) s4 true [3%N] s5)
    as (s1 & s2 & s3 & s4 & s5 & H1 & H2 & H3 & H4 & H5).
  { do 5 eexists. split; [eapply (RS_evict _ _ _ _ _ _ []); [by vm_compute|reflexivity|vm_compute; reflexivity]|]. split; [eapply RS_quiet; by vm_compute|].
    split; [eapply RS_evict; [by vm_compute|reflexivity|vm_compute; reflexivity]|]. split; (eapply RS_evict; [by vm_compute|reflexivity|vm_compute; reflexivity]). }
  exists s5.
  pose proof (RF_call 10 _ _ _ _ _ (MkRev (MkSpanID 1 1 0) [] (at_time 0) true []) s1 (RF_nil 10) H1) as K. apply (RF_act 10 _ _ [] _ [] _) in K. cbn [app] in K.
  apply (RF_call 10 _ _ _ _ _ (MkRev (MkSpanID 1 2 1) [] (at_time 9) false []) s2) in K; [|exact H2]. apply (RF_act 10 _ _ [] _ [] _) in K. cbn [app] in K.
  apply (RF_call 10 _ _ _ _ _ (MkRev (MkSpanID 2 1 0) [] (at_time 11) true [1%N]) s3) in K; [|exact H3]. cbn [app actions evict_calls re_ev re_id re_anns] in K.
  apply (RF_fail 10 _ _ [] _ [_] _) in K. apply (RF_act 10 _ _ [] _ [] _) in K. cbn [app] in K.
  apply (RF_call 10 _ _ _ _ _ (MkRev (MkSpanID 3 1 0) [] (at_time 100) true [2%N]) s4) in K; [|exact H4]. cbn [app actions evict_calls re_ev re_id re_anns] in K.
  apply (RF_act 10 _ _ [] _ [_] _) in K. apply (RF_act 10 _ _ [] _ [] _) in K. cbn [app] in K.
  apply (RF_call 10 _ _ _ _ _ (MkRev (MkSpanID 4 1 0) [] (at_time 200) true [3%N]) s5) in K; [|exact H5]. cbn [app actions evict_calls re_ev re_id re_anns] in K.
  apply (RF_act 10 _ _ [] _ [_] _) in K. apply (RF_act 10 _ _ [] _ [] _) in K. cbn [app] in K. exact K.
Qed.
Theorem C146_refuted : exists h st dn ms e, rs_fexec 10 h st [] dn [CDelete [1%N]] /\ clocks_ok h /\ In e h /\ ck_seen (re_clock e) = 200 /\ re_ran e = true /\
  (forall e', In e' h -> sp_trace (re_id e') = 1%N -> ck_seen (re_clock e') < 10) /\
  ms_run dn ms_init = Some ms /\ shows ms 1%N (Tree (MkSpanID 1 1 0) [] [Tree (MkSpanID 1 2 1) [] []]).
Proof.
  destruct wit146_fexec as [st H]. eexists wit146, st, _, (final _), _. split; [exact H|]. split; [cbn; unfold clock_ok; cbn; lia|]. split; [right; right; right; right; left; reflexivity|].
  split; [done|]. split; [done|]. split; [intros e' [<-|[<-|[<-|[<-|[<-|[]]]]]]; cbn; lia|]. split; [apply final_run|]. apply (shown_by 9). vm_compute. reflexivity.
Qed.
Print Assumptions C146_refuted.
Example C146_nonvacuous : exists h1 e h2 st dn, rs_fexec 10 (h1 ++ e :: h2) st [] dn [CDelete [1%N]] /\ In 1%N (re_ev e) /\ (forall e', In e' h1 -> ~ In 1%N (re_ev e')) /\
  (forall e', In e' h2 -> sp_trace (re_id e') <> 1%N) /\
  exists e0, In e0 h2 /\ sp_trace (re_id e0) = 3%N /\ ~ In 3%N (re_ev e0) /\ ck_seen (re_clock e0) < 200 - 10.
Proof.
  destruct wit146_fexec as [st H]. exists (take 2 wit146). eexists _, (drop 3 wit146), st, _. split; [exact H|]. split; [cbn; auto|]. split; [intros e' [<-|[<-|[]]]; cbn; tauto|].
  split; [intros e' [<-|[<-|[]]]; done|]. exists (MkRev (MkSpanID 3 1 0) [] (at_time 100) true [2%N]). cbn. intuition lia.
Qed.
