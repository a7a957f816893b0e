(** Properties C149 and C150: no deadlock, and recording does not wait for the network. *)
From Verif Require Import Base LockModel LockSpec LockProofs.
Open Scope nat_scope.

(** C149: whatever objects a program has, however they share others, and whatever its goroutines do: some goroutine can go on until all have done
    everything they were to do, except those that wait for a client of theirs; these hold no mutex. *)
Theorem C149_partial : forall objs scripts n st, own_mutexes objs -> program false false objs scripts -> steps n (start scripts) st ->
  (exists st', step st st') \/ forall h s, In (h, s) st -> h = [] /\ (s = [] \/ exists k, s = Forever :: k).
Proof.
  intros objs scripts n st Ho Hp Hs. pose proof (steps_inv _ _ _ _ _ (start_inv _ _ _ _ Ho Hp) Hs) as Hi.
  destruct (progress _ _ _ Hi) as [?|H]; [by left|right]. intros h s Hin. destruct (H h s Hin) as [->|[(k & -> & Hh)|(l & k & -> & Hl)]].
  - pose proof (proj1 Hi _ _ Hin) as K. inversion K; subst. eauto.
  - split; [|eauto]. destruct h as [|x h]; [done|]. specialize (Hh x (or_introl eq_refl)). by rewrite slow_none in Hh.
  - by rewrite slow_none in Hl.
Qed.
Print Assumptions C149_partial.
(** ... and there is no endless going on. *)
Theorem C149_ends : forall scripts, exists bound, forall n st, steps n (start scripts) st -> n <= bound.
Proof. intros scripts. exists (msr (start scripts)). intros n st H. apply steps_msr in H. lia. Qed.
Print Assumptions C149_ends.
(** False if a store is written to a file while it has a trace with a parent cycle: Write does not end (C73), and no later call on the store does. *)
Theorem C149_refuted : exists objs scripts n st, own_mutexes objs /\ program true false objs scripts /\ steps n (start scripts) st /\ at_rest st /\
  runs true false (CMem 1) MCollect (section 1) /\ In ([], section 1) st.
Proof.
  exists [CMem 1], [[Acq 1%N; Forever; Rel 1%N]; section 1], 1, [([1%N], [Forever; Rel 1%N]); ([], section 1)].
  split; [split; cbn; intuition congruence|]. split.
  { constructor; [|constructor; [|constructor]].
    - apply (P_call true false [CMem 1] (CMem 1) MWrite [Acq 1%N; Forever; Rel 1%N] []); [by left|by constructor|constructor].
    - apply (P_call true false [CMem 1] (CMem 1) MCollect (section 1) []); [by left|constructor; cbn; auto|constructor]. }
  split. { econstructor; [constructor|]. apply (St_acq [] [] 1 [Forever; Rel 1%N] [([], section 1)]). intros h' s' [[= <- <-]|[[= <- <-]|[]]] []. }
  split; [|split; [constructor; cbn; auto|cbn; auto]].
  intros st' Hst. remember [([1%N], [Forever; Rel 1%N]); ([], section 1)] as st eqn:E. destruct Hst as [a h l s b Hf|a h1 l h2 s b|a h s b|a h s' s b].
  - destruct a as [|x [|y [|z a]]]; cbn in E; try discriminate; injection E; intros; subst. apply (Hf [1%N] [Forever; Rel 1%N]); cbn; auto.
  - destruct a as [|x [|y [|z a]]]; cbn in E; discriminate.
  - destruct a as [|x [|y [|z a]]]; cbn in E; discriminate.
  - destruct a as [|x [|y [|z a]]]; cbn in E; discriminate.
Qed.
Print Assumptions C149_refuted.

(** C150: a goroutine that records through ChunkedCollectors does all it was to do, even if the collector server never answers, a store's Write never
    ends and clients never read. *)
Theorem C150_recording_returns : forall wmem wnet objs scripts i s n st, own_mutexes objs -> program wmem wnet objs scripts ->
  scripts !! i = Some s -> records wmem wnet objs s -> steps n (start scripts) st ->
  (exists st', step st st') \/ st !! i = Some ([], []).
Proof.
  intros wmem wnet objs scripts i s n st Ho Hp Hi Hr Hs. pose proof (steps_inv _ _ _ _ _ (start_inv _ _ _ _ Ho Hp) Hs) as Hinv.
  assert (start scripts !! i = Some ([], s)) as Hi0 by (unfold start; rewrite list_lookup_fmap, Hi; done).
  destruct (steps_at _ _ _ _ _ _ _ Hs Hi0 (records_calm _ _ _ _ Ho Hr)) as (h & s' & Hi' & Hc).
  destruct (progress _ _ _ Hinv) as [?|H]; [by left|right]. assert (In (h, s') st) as Hin by (apply elem_of_list_In; by eapply elem_of_list_lookup_2).
  destruct (H h s' Hin) as [->|[(k & -> & _)|(l & k & -> & Hl)]].
  - pose proof (proj1 Hinv _ _ Hin) as K. inversion K; subst. done.
  - by inversion Hc.
  - inversion Hc as [|? ? Hq]; subst. cbn in Hq. congruence.
Qed.
Print Assumptions C150_recording_returns.
(** Not so without the ChunkedCollector. *)
Theorem C150_direct : exists objs scripts n st, own_mutexes objs /\ program false true objs scripts /\ steps n (start scripts) st /\ at_rest st /\
  runs false true (CRemote 1 2) MCollect [Acq 1%N; Act; Rel 1%N] /\ In ([], [Acq 1%N; Act; Rel 1%N]) st.
Proof.
  exists [CRemote 1 2], [[Acq 1%N; Forever; Rel 1%N]; section 1], 1, [([1%N], [Forever; Rel 1%N]); ([], section 1)].
  split; [split; [cbn; intuition congruence|intros m lm b [[= <- <-]|[]] [<-|[]]; done]|]. split.
  { constructor; [|constructor; [|constructor]].
    - apply (P_call false true [CRemote 1 2] (CRemote 1 2) MCollect [Acq 1%N; Forever; Rel 1%N] []); [by left|by apply (R_remote_hangs false true 1 2 0)|constructor].
    - apply (P_call false true [CRemote 1 2] (CRemote 1 2) MCollect (section 1) []); [by left|apply (R_remote false true 1 2 0)|constructor]. }
  split. { econstructor; [constructor|]. apply (St_acq [] [] 1 [Forever; Rel 1%N] [([], section 1)]). intros h' s' [[= <- <-]|[[= <- <-]|[]]] []. }
  split; [|split; [apply (R_remote false true 1 2 0)|cbn; auto]].
  intros st' Hst. remember [([1%N], [Forever; Rel 1%N]); ([], section 1)] as st eqn:E. destruct Hst as [a h l s b Hf|a h1 l h2 s b|a h s b|a h s' s b].
  - destruct a as [|x [|y [|z a]]]; cbn in E; try discriminate; injection E; intros; subst. apply (Hf [1%N] [Forever; Rel 1%N]); cbn; auto.
  - destruct a as [|x [|y [|z a]]]; cbn in E; discriminate.
  - destruct a as [|x [|y [|z a]]]; cbn in E; discriminate.
  - destruct a as [|x [|y [|z a]]]; cbn in E; discriminate.
Qed.
Print Assumptions C150_direct.

(** A LimitStore over a RecentStore over a MemoryStore which is also written to a file, a ChunkedCollector over a RemoteCollector, and a page. *)
Definition objs149 : list coll := [CLimit 1 (CRecent 2 (CMem 3)); CMem 3; CChunked 4 (CRemote 5 6)].
Lemma own149 : own_mutexes objs149.
Proof.
  split.
  - intros a b Ha Hb. cbn in Ha, Hb. repeat (destruct Ha as [<-|Ha]); try contradiction; repeat (destruct Hb as [<-|Hb]); try contradiction; cbn; congruence.
  - intros m lm b Ha Hb. assert (lm = 6%N) as -> by (cbn in Ha; intuition congruence). cbn in Hb. intuition (subst; done).
Qed.
Definition flush149 (hang : bool) : list act := section 4 ++ [] ++ (Acq 5%N :: section 6 ++ [if hang then Forever else Act; Rel 5%N]) ++ section 4.
Lemma flush149_runs hang : runs false hang (CChunked 4 (CRemote 5 6)) MFlush (flush149 hang).
Proof.
  apply R_flush; [constructor|]. apply S_timeout. destruct hang; [by apply (R_remote_hangs _ _ 5 6 1)|by apply (R_remote _ _ 5 6 1)].
Qed.
Definition scripts149 : list (list act) :=
  [(Acq 1%N :: section 3 ++ ([Acq 2%N; Act; Go (section 3); Rel 2%N] ++ section 3) ++ [Rel 1%N]) ++ [];
   section 3 ++ section 3 ++ [];
   [Acq 4%N; Go (flush149 false ++ []); Act; Rel 4%N] ++ [];
   section 3 ++ section 7 ++ Forever :: []].
Example C149_nonvacuous : own_mutexes objs149 /\ program false false objs149 scripts149 /\
  exists n st, steps n (start scripts149) st /\ In ([1%N], section 3 ++ ([Acq 2%N; Act; Go (section 3); Rel 2%N] ++ section 3) ++ [Rel 1%N]) st /\ In ([3%N], [Act; Rel 3%N] ++ section 3) st.
Proof.
  assert (forall b me, In me [MCollect; MTrace; MTraces; MDelete; MWrite; MReadFrom] -> runs false b (CMem 3) me (section 3)) as Hmem by (intros; by constructor).
  split; [exact own149|]. split.
  { constructor; [|constructor; [|constructor; [|constructor; [|constructor]]]].
    - apply (P_call _ _ _ (CLimit 1 (CRecent 2 (CMem 3))) MCollect); [cbn; auto| |constructor]. apply R_limit_full.
      + apply R_recent_embedded; [cbn; auto|apply Hmem; cbn; auto].
      + apply R_recent_evict; apply Hmem; cbn; auto.
    - apply (P_call _ _ _ (CMem 3) MWrite); [cbn; auto|apply Hmem; cbn; auto 10|]. apply (P_call _ _ _ (CMem 3) MTraces); [cbn; auto|apply Hmem; cbn; auto|constructor].
    - apply (P_call _ _ _ (CChunked 4 (CRemote 5 6)) MCollect); [cbn; auto| |constructor]. apply R_chunked_start. apply L_ok; [apply flush149_runs|constructor].
    - apply (P_call _ _ _ (CMem 3) MTrace); [cbn; auto|apply Hmem; cbn; auto|]. apply P_section. constructor. constructor. }
  eexists 2, _. split.
  - econstructor; [econstructor; [constructor|]|].
    + apply (St_acq [] [] 1 _ _). intros h' s' Hin. cbn in Hin. repeat (destruct Hin as [[= <- _]|Hin]); try contradiction; cbn; intuition congruence.
    + apply (St_acq [_] [] 3 _ _). intros h' s' Hin. cbn in Hin. repeat (destruct Hin as [[= <- _]|Hin]); try contradiction; cbn; intuition congruence.
  - split; [by left|right; by left].
Qed.

(** Two goroutines record while the flush hangs. *)
Example C150_nonvacuous : exists scripts s0 s1, scripts = [s0; s1] /\ program false true objs149 scripts /\ records false true objs149 s0 /\ records false true objs149 s1 /\
  In (Go (flush149 true ++ [])) s0 /\ In Forever (flush149 true).
Proof.
  assert (runs false true (CChunked 4 (CRemote 5 6)) MCollect [Acq 4%N; Go (flush149 true ++ []); Act; Rel 4%N]) as H1.
  { apply R_chunked_start. apply L_ok; [apply flush149_runs|constructor]. }
  assert (runs false true (CChunked 4 (CRemote 5 6)) MCollect (section 4)) as H2 by constructor.
  exists [[Acq 4%N; Go (flush149 true ++ []); Act; Rel 4%N] ++ []; section 4 ++ section 9 ++ []], ([Acq 4%N; Go (flush149 true ++ []); Act; Rel 4%N] ++ []), (section 4 ++ section 9 ++ []).
  assert (forall c, In c (flat_map parts objs149) -> mutex c <> Some 9%N) as H9 by (intros c Hc; cbn in Hc; repeat (destruct Hc as [<-|Hc]); try contradiction; done).
  split; [done|]. split; [constructor; [|constructor; [|constructor]]|].
  - eapply P_call; [|exact H1|constructor]. cbn; auto.
  - eapply P_call; [|exact H2|apply P_section; constructor]. cbn; auto.
  - split; [eapply Rc_call; [| |exact H1|constructor]; cbn; auto 10|]. split; [eapply Rc_call; [| |exact H2|apply Rc_section; [exact H9|constructor]]; cbn; auto 10|].
    split; [cbn; auto|]. cbn. auto 12.
Qed.
