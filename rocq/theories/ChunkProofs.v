From Verif Require Import Base ChunkModel ChunkSpec.
From Coq Require Import ZifyBool ZifyNat ZifyN.

(** ** Helpers *)
Lemma entries_app s a b : entries_of s (a ++ b) = entries_of s a ++ entries_of s b.
Proof. apply flat_map_app. Qed.
Lemma entries_perm s a b : a ≡ₚ b -> entries_of s a ≡ₚ entries_of s b.
Proof. intros H. unfold entries_of. by apply Permutation_flat_map. Qed.
Lemma entries_none s q : s ∉ map fst q -> entries_of s q = [].
Proof.
  induction q as [|[i a] q IH]; [done|]. cbn. intros H. apply not_elem_of_cons in H as [H1 H2].
  rewrite bool_decide_eq_false_2 by (cbn; congruence). cbn. by apply IH.
Qed.
Lemma entries_nodup s q a : NoDup (map fst q) -> (s, a) ∈ q -> entries_of s q = a.
Proof.
  induction q as [|[i b] q IH]; [by intros _ ?%elem_of_nil|]. cbn. intros Hnd Hin. apply NoDup_cons in Hnd as [Hi Hnd].
  apply elem_of_cons in Hin as [[= <- <-]|Hin].
  - rewrite bool_decide_eq_true_2 by done. fold (entries_of s q). rewrite (entries_none s q) by done. by rewrite app_nil_r.
  - rewrite bool_decide_eq_false_2; [by apply IH|]. cbn. intros ->. apply Hi. apply elem_of_list_In, in_map_iff. exists (s, a).
    split; [done|]. by apply elem_of_list_In.
Qed.
Lemma entries_map s (m : gmap SpanID (list Annotation)) q : q ≡ₚ map_to_list m -> entries_of s q = default [] (m !! s).
Proof.
  intros Hq. assert (NoDup (map fst q)) as Hnd.
  { rewrite Hq. apply NoDup_fst_map_to_list. }
  destruct (m !! s) as [a|] eqn:E; cbn.
  - apply entries_nodup; [done|]. rewrite Hq. by apply elem_of_map_to_list.
  - apply entries_none. intros Hin. apply elem_of_list_In, in_map_iff in Hin as ([i a] & <- & Hin).
    apply elem_of_list_In in Hin. rewrite Hq in Hin. apply elem_of_map_to_list in Hin. cbn in E. congruence.
Qed.
Lemma queued_lookup s c : queued s c = default [] (cc_pend c !! s).
Proof. by apply entries_map. Qed.

Definition fly (s : SpanID) (m : gmap nat flush) : list Annotation :=
  flat_map (fun fl => entries_of s (fl_rest (snd fl))) (map_to_list m).
Lemma fly_insert s m f x : m !! f = None -> fly s (<[f := x]> m) ≡ₚ entries_of s (fl_rest x) ++ fly s m.
Proof. intros H. unfold fly. rewrite map_to_list_insert by done. done. Qed.
Lemma fly_lookup s m f x : m !! f = Some x -> fly s m ≡ₚ entries_of s (fl_rest x) ++ fly s (delete f m).
Proof. intros H. rewrite <- (insert_delete m f x H) at 1. apply fly_insert. apply lookup_delete. Qed.
Lemma fly_update s m f x y : m !! f = Some x -> exists k,
  fly s m ≡ₚ entries_of s (fl_rest x) ++ k /\ fly s (partial_alter (fun _ => Some y) f m) ≡ₚ entries_of s (fl_rest y) ++ k.
Proof.
  intros H. exists (fly s (delete f m)). split; [by apply fly_lookup|].
  assert (partial_alter (fun _ => Some y) f m = <[f := y]> (delete f m)) as -> by (by rewrite insert_delete_insert).
  apply fly_insert, lookup_delete.
Qed.

(** ** Collect *)
Lemma collect_cases cfg g id a c c' o : cc_collect cfg g id a c = (c', o) ->
  cc_fl c' = cc_fl c /\
  match o with
  | OStopped => c' = c /\ cc_stopped c = true
  | ODropped q => cc_stopped c = false /\ q = map_to_list (cc_pend c) /\ cc_pend c' = ∅ /\ cc_bytes c' = 0 /\ cc_lasterr c' = cc_lasterr c /\
      cf_max cfg <> 0 /\ cf_max cfg < (cc_bytes c + collection_size a) mod two64
  | OQueued e => cc_stopped c = false /\ e = cc_lasterr c /\ cc_lasterr c' = None /\
      cc_pend c' = <[id := default [] (cc_pend c !! id) ++ a]> (cc_pend c) /\
      cc_bytes c' = (cc_bytes c + collection_size a) mod two64 /\
      (cf_max cfg = 0 \/ (cc_bytes c + collection_size a) mod two64 <= cf_max cfg)
  end /\
  cc_stopped c' = cc_stopped c /\
  match o with OStopped => True | _ =>
    cc_started c' = true /\ cc_chan c' = (if cc_started c then cc_chan c else Some false) /\
    cc_bg c' = (if cc_started c then cc_bg c else <[g := BWait]> (cc_bg c)) end.
Proof.
  unfold cc_collect. destruct (cc_stopped c) eqn:Es; [intros [= <- <-]; done|].
  set (c1 := if cc_started c then c else cc_start g c).
  assert (cc_fl c1 = cc_fl c /\ cc_pend c1 = cc_pend c /\ cc_bytes c1 = cc_bytes c /\ cc_lasterr c1 = cc_lasterr c /\ cc_stopped c1 = false /\
    cc_started c1 = true /\ cc_chan c1 = (if cc_started c then cc_chan c else Some false) /\
    cc_bg c1 = (if cc_started c then cc_bg c else <[g := BWait]> (cc_bg c))) as (H1 & H2 & H3 & H4 & H5 & H6 & H7 & H8).
  { unfold c1. destruct (cc_started c) eqn:E; cbn; auto 10. }
  rewrite H2, H3, H4. destruct (negb (cf_max cfg =? 0) && (cf_max cfg <? (cc_bytes c + collection_size a) `mod` two64)) eqn:Eb.
  - intros [= <- <-]. cbn. split_and!; try done; lia.
  - intros [= <- <-]. cbn. split_and!; try done; [|lia].
    destruct (cc_pend c !! id) as [p|] eqn:Ep; cbn; [|done].
    destruct (bool_decide (a = [])) eqn:Ea; [|done]. apply bool_decide_eq_true in Ea. subst a. rewrite app_nil_r. by rewrite insert_id.
Qed.

(** ** C31 *)
Lemma accepted_snoc s log evs : accepted s (log ++ evs) = accepted s log ++ accepted s evs.
Proof. apply flat_map_app. Qed.
Lemma sent_snoc s log evs : sent s (log ++ evs) = sent s log ++ sent s evs.
Proof. apply flat_map_app. Qed.
Lemma dropped_snoc s log evs : dropped s (log ++ evs) = dropped s log ++ dropped s evs.
Proof. apply flat_map_app. Qed.

Ltac perm_rot n := lazymatch n with O => fail | S ?n => first [apply Permutation_app_head |
  (match goal with |- _ ≡ₚ ?y ++ ?r => transitivity (r ++ y); [|apply Permutation_app_comm]; rewrite <- ?app_assoc end; perm_rot n)] end.
Ltac perm := rewrite ?app_nil_l, ?app_nil_r, <- ?app_assoc; try reflexivity;
  match goal with |- ?a ≡ₚ ?b => rewrite <- (app_nil_r a), <- (app_nil_r b) end; rewrite <- ?app_assoc;
  repeat perm_rot 10%nat; reflexivity.

Lemma conservation_step cfg s c evs c' : cc_step cfg c evs c' ->
  accepted s evs ++ queued s c ++ fly s (cc_fl c) ≡ₚ sent s evs ++ queued s c' ++ fly s (cc_fl c') ++ dropped s evs.
Proof.
  rewrite !queued_lookup. intros Hs.
  destruct Hs as [c g id a c' o Hg Hc|c f q Hf Hq|c f id a rest errs e Hf|c f id a rest errs e Ht Hf|c f errs Hf Hb
    |c g f q Hg Hf Hq|c g f errs Hg Hf|c g e Hg|c g Hg Hch|c Hch|c Hch]; cbn [accepted sent dropped flat_map accepted1 sent1 dropped1 app].
  - destruct (collect_cases _ _ _ _ _ _ _ Hc) as (Hfl & Ho & _). rewrite Hfl. destruct o as [|q|e].
    + destruct Ho as [-> _]. cbn [app]. by rewrite !app_nil_r.
    + destruct Ho as (_ & -> & -> & _). rewrite lookup_empty. cbn [default from_option app]. rewrite !app_nil_r. rewrite (entries_map s (cc_pend c)) by done.
      apply Permutation_app_comm.
    + destruct Ho as (_ & _ & _ & -> & _). rewrite !app_nil_r. destruct (bool_decide (id = s)) eqn:E.
      * apply bool_decide_eq_true in E. subst id. rewrite lookup_insert. cbn. rewrite !app_assoc. apply Permutation_app_tail, Permutation_app_comm.
      * apply bool_decide_eq_false in E. by rewrite lookup_insert_ne.
  - cbn [cc_begin cc_pend cc_fl]. rewrite lookup_empty. cbn [default from_option app]. rewrite !app_nil_r. rewrite fly_insert by done. cbn [fl_rest].
    by rewrite (entries_map s (cc_pend c)) by done.
  - cbn [set_flush cc_pend cc_fl]. rewrite !app_nil_r.
    destruct (fly_update s (cc_fl c) f _ (MkFlush rest (add_err errs e)) Hf) as (k & -> & ->). cbn [fl_rest entries_of flat_map fst snd].
    fold (entries_of s rest). destruct (bool_decide (id = s)); cbn [app]; rewrite ?app_assoc; [|done].
    rewrite <- !app_assoc, !(app_assoc _ a), (Permutation_app_comm _ a). by rewrite <- !app_assoc.
  - cbn [set_flush cc_pend cc_fl]. rewrite !app_nil_r.
    destruct (fly_update s (cc_fl c) f _ (MkFlush [] (add_err errs e ++ [EQueueDropped])) Hf) as (k & -> & ->). cbn [fl_rest entries_of flat_map fst snd].
    fold (entries_of s rest).
    set (x := if bool_decide (id = s) then a else []). set (y := entries_of s rest). set (p := default [] (cc_pend c !! s)).
    perm.
  - cbn [set_flush cc_pend cc_fl]. rewrite !app_nil_r.
    rewrite (fly_lookup s _ _ _ Hf). cbn. done.
  - cbn [set_bg cc_begin cc_pend cc_fl]. rewrite lookup_empty. cbn [default from_option app]. rewrite !app_nil_r. rewrite fly_insert by done. cbn [fl_rest].
    by rewrite (entries_map s (cc_pend c)) by done.
  - cbn [set_bg set_flush cc_pend cc_fl]. rewrite !app_nil_r. rewrite (fly_lookup s _ _ _ Hf). cbn. done.
  - cbn. by rewrite !app_nil_r.
  - cbn. by rewrite !app_nil_r.
  - cbn. by rewrite !app_nil_r.
  - cbn. by rewrite !app_nil_r.
Qed.

Lemma conservation cfg log c s : cc_run cfg log c ->
  accepted s log ≡ₚ sent s log ++ queued s c ++ flying s c ++ dropped s log.
Proof.
  induction 1 as [|log c evs c' Hr IH Hs]; [done|].
  rewrite accepted_snoc, sent_snoc, dropped_snoc, IH. pose proof (conservation_step cfg s _ _ _ Hs) as Hc.
  change (fly s (cc_fl c)) with (flying s c) in Hc. change (fly s (cc_fl c')) with (flying s c') in Hc.
  set (A := accepted s evs) in *. set (S1 := sent s log). set (Q := queued s c) in *. set (F := flying s c) in *. set (D := dropped s log).
  transitivity (S1 ++ D ++ (A ++ Q ++ F)); [perm|]. rewrite Hc. perm.
Qed.

Definition has (s : SpanID) (q : list entry) : Prop := exists a, In (s, a) q.
Definition hasf (s : SpanID) (m : gmap nat flush) : Prop := exists f fl, m !! f = Some fl /\ has s (fl_rest fl).
Definition hasf_but (f : nat) (s : SpanID) (m : gmap nat flush) : Prop := exists g fl, g <> f /\ m !! g = Some fl /\ has s (fl_rest fl).
Lemma hasf_split f s m : hasf s m <-> (exists fl, m !! f = Some fl /\ has s (fl_rest fl)) \/ hasf_but f s m.
Proof.
  split.
  - intros (g & fl & H & Hh). destruct (decide (g = f)) as [->|Hne]; [left; by exists fl|right; by exists g, fl].
  - intros [(fl & H & Hh)|(g & fl & Hne & H & Hh)]; [by exists f, fl|by exists g, fl].
Qed.
Lemma hasf_alter f s o m : hasf s (partial_alter (fun _ => o) f m) <-> (exists fl, o = Some fl /\ has s (fl_rest fl)) \/ hasf_but f s m.
Proof.
  rewrite (hasf_split f). rewrite lookup_partial_alter. unfold hasf_but. split; intros [?|(g & fl & Hne & H & Hh)]; eauto; right; exists g, fl.
  - by rewrite lookup_partial_alter_ne in H by done.
  - by rewrite lookup_partial_alter_ne by done.
Qed.
Lemma hasf_insert f s x m : hasf s (<[f := x]> m) <-> (exists fl, Some x = Some fl /\ has s (fl_rest fl)) \/ hasf_but f s m.
Proof. apply hasf_alter. Qed.
Lemma has_map s (m : gmap SpanID (list Annotation)) q : q ≡ₚ map_to_list m -> has s q <-> is_Some (m !! s).
Proof.
  intros Hq. unfold has. split; intros [a H]; exists a.
  - apply elem_of_list_In in H. rewrite Hq in H. by apply elem_of_map_to_list.
  - apply elem_of_list_In. rewrite Hq. by apply elem_of_map_to_list.
Qed.
Lemma has_cons s id a q : has s ((id, a) :: q) <-> id = s \/ has s q.
Proof. unfold has. cbn. naive_solver. Qed.
Lemma is_Some_False {A} : is_Some (@None A) <-> False.
Proof. split; [by intros [? ?]|done]. Qed.
Definition held (s : SpanID) (c : CC) : Prop := is_Some (cc_pend c !! s) \/ hasf s (cc_fl c).

Lemma presence_step cfg c evs c' s : cc_step cfg c evs c' ->
  was_accepted s evs \/ held s c <-> was_sent s evs \/ was_dropped s evs \/ held s c'.
Proof.
  assert (forall f id a e, was_sent s [EvSend f id a e] <-> id = s) as Hsend.
  { intros. unfold was_sent. cbn. naive_solver. }
  assert (forall f id a e r, was_sent s [EvSend f id a e; EvTimeout f r] <-> id = s) as Hsend2.
  { intros. unfold was_sent. cbn. naive_solver. }
  assert (forall f id a e r, was_dropped s [EvSend f id a e; EvTimeout f r] <-> has s r) as Hdrop.
  { intros. unfold was_dropped, has. cbn. naive_solver. }
  intros Hs. unfold held.
  destruct Hs as [c g id a c' o Hg Hc|c f q Hf Hq|c f id a rest errs e Hf|c f id a rest errs e Ht Hf|c f errs Hf Hb
    |c g f q Hg Hf Hq|c g f errs Hg Hf|c g e Hg|c g Hg Hch|c Hch|c Hch]; 
    cbn [set_bg set_flush cc_begin cc_pend cc_fl]; rewrite ?Hsend, ?Hsend2, ?Hdrop.
  - destruct (collect_cases _ _ _ _ _ _ _ Hc) as (Hfl & Ho & _). rewrite Hfl. 
    assert (was_sent s [EvCollect id a o] <-> False) as -> by (unfold was_sent; cbn; naive_solver).
    destruct o as [|q|e].
    + destruct Ho as [-> _]. unfold was_accepted, was_dropped. cbn. naive_solver.
    + destruct Ho as (_ & -> & -> & _). rewrite lookup_empty.
      assert (was_accepted s [EvCollect id a (ODropped (map_to_list (cc_pend c)))] <-> False) as -> by (unfold was_accepted; cbn; naive_solver).
      assert (was_dropped s [EvCollect id a (ODropped (map_to_list (cc_pend c)))] <-> has s (map_to_list (cc_pend c))) as ->
        by (unfold was_dropped, has; cbn; naive_solver).
      rewrite (has_map s (cc_pend c)) by done. rewrite is_Some_False. tauto.
    + destruct Ho as (_ & _ & _ & -> & _). rewrite lookup_insert_is_Some.
      assert (was_accepted s [EvCollect id a (OQueued e)] <-> id = s) as -> by (unfold was_accepted; cbn; naive_solver).
      assert (was_dropped s [EvCollect id a (OQueued e)] <-> False) as -> by (unfold was_dropped; cbn; naive_solver).
      destruct (decide (id = s)); tauto.
  - assert (was_accepted s [EvBegin f q] <-> False) as -> by (unfold was_accepted; cbn; naive_solver).
    assert (was_sent s [EvBegin f q] <-> False) as -> by (unfold was_sent; cbn; naive_solver).
    assert (was_dropped s [EvBegin f q] <-> False) as -> by (unfold was_dropped; cbn; naive_solver).
    rewrite (hasf_insert f s), (hasf_split f s (cc_fl c)), lookup_empty, <- (has_map s _ _ Hq), Hf. rewrite is_Some_False.
    split; [intros [[]|[?|[(?&?&?)|?]]]|intros [[]|[[]|[[]|[(?&[= <-]&?)|?]]]]]; try done; eauto 8.
  - assert (was_accepted s [EvSend f id a e] <-> False) as -> by (unfold was_accepted; cbn; naive_solver).
    assert (was_dropped s [EvSend f id a e] <-> False) as -> by (unfold was_dropped; cbn; naive_solver).
    rewrite hasf_alter, (hasf_split f s (cc_fl c)), Hf.
    assert ((exists fl, Some (MkFlush ((id, a) :: rest) errs) = Some fl /\ has s (fl_rest fl)) <-> id = s \/ has s rest) as ->.
    { rewrite <- has_cons with (a := a). naive_solver. }
    assert ((exists fl, Some (MkFlush rest (add_err errs e)) = Some fl /\ has s (fl_rest fl)) <-> has s rest) as -> by naive_solver.
    tauto.
  - assert (was_accepted s [EvSend f id a e; EvTimeout f rest] <-> False) as -> by (unfold was_accepted; cbn; naive_solver).
    rewrite hasf_alter, (hasf_split f s (cc_fl c)), Hf.
    assert ((exists fl, Some (MkFlush ((id, a) :: rest) errs) = Some fl /\ has s (fl_rest fl)) <-> id = s \/ has s rest) as ->.
    { rewrite <- has_cons with (a := a). naive_solver. }
    assert ((exists fl, Some (MkFlush [] (add_err errs e ++ [EQueueDropped])) = Some fl /\ has s (fl_rest fl)) <-> False) as ->.
    { split; [|done]. intros (fl & [= <-] & [? []]). }
    tauto.
  - assert (was_accepted s [EvEnd f (flush_result errs)] <-> False) as -> by (unfold was_accepted; cbn; naive_solver).
    assert (was_sent s [EvEnd f (flush_result errs)] <-> False) as -> by (unfold was_sent; cbn; naive_solver).
    assert (was_dropped s [EvEnd f (flush_result errs)] <-> False) as -> by (unfold was_dropped; cbn; naive_solver).
    rewrite hasf_alter, (hasf_split f s (cc_fl c)), Hf. split; [|naive_solver].
    intros [[]|[?|[(fl & [= <-] & [? []])|?]]]; tauto.
  - assert (was_accepted s [EvBegin f q] <-> False) as -> by (unfold was_accepted; cbn; naive_solver).
    assert (was_sent s [EvBegin f q] <-> False) as -> by (unfold was_sent; cbn; naive_solver).
    assert (was_dropped s [EvBegin f q] <-> False) as -> by (unfold was_dropped; cbn; naive_solver).
    rewrite (hasf_insert f s), (hasf_split f s (cc_fl c)), lookup_empty, <- (has_map s _ _ Hq), Hf. rewrite is_Some_False.
    split; [intros [[]|[?|[(?&?&?)|?]]]|intros [[]|[[]|[[]|[(?&[= <-]&?)|?]]]]]; try done; eauto 8.
  - assert (was_accepted s [EvEnd f (flush_result errs)] <-> False) as -> by (unfold was_accepted; cbn; naive_solver).
    assert (was_sent s [EvEnd f (flush_result errs)] <-> False) as -> by (unfold was_sent; cbn; naive_solver).
    assert (was_dropped s [EvEnd f (flush_result errs)] <-> False) as -> by (unfold was_dropped; cbn; naive_solver).
    rewrite hasf_alter, (hasf_split f s (cc_fl c)), Hf. split; [|naive_solver].
    intros [[]|[?|[(fl & [= <-] & [? []])|?]]]; tauto.
  - unfold was_accepted, was_sent, was_dropped; cbn; naive_solver.
  - unfold was_accepted, was_sent, was_dropped; cbn; naive_solver.
  - unfold was_accepted, was_sent, was_dropped; cbn; naive_solver.
  - unfold was_accepted, was_sent, was_dropped; cbn; naive_solver.
Qed.

Lemma presence cfg log c s : cc_run cfg log c ->
  was_accepted s log <-> was_sent s log \/ was_dropped s log \/ held s c.
Proof.
  induction 1 as [|log c evs c' Hr IH Hs].
  { split; [intros (? & ? & [])|]. intros [(? & ? & ? & [])|[(? & ? & _ & [(?&?&[])|(?&[])])|[[? H]|(? & ? & H & _)]]];
      cbn [cc_pend cc_fl cc_init] in H; by apply lookup_empty_Some in H. }
  assert (was_accepted s (log ++ evs) <-> was_accepted s log \/ was_accepted s evs) as ->.
  { unfold was_accepted. setoid_rewrite in_app_iff. naive_solver. }
  assert (was_sent s (log ++ evs) <-> was_sent s log \/ was_sent s evs) as ->.
  { unfold was_sent. setoid_rewrite in_app_iff. naive_solver. }
  assert (was_dropped s (log ++ evs) <-> was_dropped s log \/ was_dropped s evs) as ->.
  { unfold was_dropped. setoid_rewrite in_app_iff. naive_solver. }
  pose proof (presence_step _ _ _ _ s Hs). tauto.
Qed.

(** ** C32 *)
Definition run_after (b : bool) (log : list event) : bool :=
  fold_left (fun b ev => match ev with EvBegin _ _ => true | EvEnd _ _ => false | _ => b end) log b.
Lemma no_overlap_app b l1 l2 : no_overlap b (l1 ++ l2) <-> no_overlap b l1 /\ no_overlap (run_after b l1) l2.
Proof.
  revert b. induction l1 as [|ev l1 IH]; intros b; [cbn; tauto|].
  destruct ev; cbn [no_overlap app run_after fold_left]; rewrite ?IH; unfold run_after; tauto.
Qed.
Lemma run_after_app b l1 l2 : run_after b (l1 ++ l2) = run_after (run_after b l1) l2.
Proof. apply fold_left_app. Qed.

(** The flushes running, as a list when there is at most one. *)
Definition one_flush (b : bool) (m : gmap nat flush) (q : list entry) : Prop :=
  if b then exists f errs, m = {[f := MkFlush q errs]} else m = ∅ /\ q = [].

Lemma one_flush_lookup b m q f fl : one_flush b m q -> m !! f = Some fl -> b = true /\ m = {[f := fl]} /\ fl_rest fl = q.
Proof.
  destruct b; cbn.
  - intros (g & errs & ->) H. apply lookup_singleton_Some in H as [-> <-]. done.
  - intros [-> _] H. by apply lookup_empty_Some in H.
Qed.

Lemma order_inv cfg log c : cc_run cfg log c -> no_overlap false log ->
  exists q, one_flush (run_after false log) (cc_fl c) q /\
    forall s, sublist (sent s log ++ entries_of s q ++ queued s c) (accepted s log).
Proof.
  induction 1 as [|log c evs c' Hr IH Hs]; intros Hno.
  { exists []. split; [done|]. intros s. rewrite queued_lookup. cbn [cc_pend cc_init]. by rewrite lookup_empty. }
  apply no_overlap_app in Hno as [Hno1 Hno2]. destruct (IH Hno1) as (q & Hq & Hsub). clear IH.
  rewrite run_after_app. set (b := run_after false log) in *.
  setoid_rewrite accepted_snoc. setoid_rewrite sent_snoc. setoid_rewrite queued_lookup. setoid_rewrite queued_lookup in Hsub.
  destruct Hs as [c g id a c' o Hg Hc|c f q' Hf Hq'|c f id a rest errs e Hf|c f id a rest errs e Ht Hf|c f errs Hf Hb
    |c g f q' Hg Hf Hq'|c g f errs Hg Hf|c g e Hg|c g Hg Hch|c Hch|c Hch];
    cbn [set_bg set_flush cc_begin cc_pend cc_fl run_after fold_left accepted sent flat_map accepted1 sent1 app] in *.
  - exists q. destruct (collect_cases _ _ _ _ _ _ _ Hc) as (Hfl & Ho & _). rewrite Hfl. split; [done|]. intros s.
    specialize (Hsub s). destruct o as [|q'|e]; cbn [app].
    + destruct Ho as [-> _]. by rewrite !app_nil_r.
    + destruct Ho as (_ & _ & -> & _). rewrite lookup_empty. cbn [default from_option]. rewrite !app_nil_r.
      etransitivity; [|exact Hsub]. rewrite app_assoc. by apply sublist_inserts_r.
    + destruct Ho as (_ & _ & _ & -> & _). rewrite !app_nil_r. destruct (bool_decide (id = s)) eqn:E.
      * apply bool_decide_eq_true in E. subst id. rewrite lookup_insert. cbn [default from_option].
        etransitivity; [|apply sublist_app; [exact Hsub|reflexivity]]. rewrite <- !app_assoc. reflexivity.
      * apply bool_decide_eq_false in E. rewrite lookup_insert_ne by done. by rewrite app_nil_r.
  - destruct Hno2 as [Hb _]. rewrite Hb in Hq. destruct Hq as [Hq ->]. exists q'. rewrite Hq. split; [by exists f, []|].
    intros s. rewrite lookup_empty, (entries_map s _ _ Hq'). cbn [default from_option]. rewrite !app_nil_r. by specialize (Hsub s).
  - destruct (one_flush_lookup _ _ _ _ _ Hq Hf) as (Hb & Hm & Hr'). cbn [fl_rest] in Hr'. subst q. exists rest. rewrite Hb. split.
    + exists f, (add_err errs e). rewrite Hm. exact (insert_singleton f _ _).
    + intros s. specialize (Hsub s). cbn [entries_of flat_map fst snd] in Hsub. fold (entries_of s rest) in Hsub.
      rewrite !app_nil_r. by rewrite <- !app_assoc in *.
  - destruct (one_flush_lookup _ _ _ _ _ Hq Hf) as (Hb & Hm & Hr'). cbn [fl_rest] in Hr'. subst q. exists []. rewrite Hb. split.
    + exists f, (add_err errs e ++ [EQueueDropped]). rewrite Hm. exact (insert_singleton f _ _).
    + intros s. specialize (Hsub s). cbn [entries_of flat_map fst snd] in Hsub. fold (entries_of s rest) in Hsub.
      rewrite !app_nil_r. etransitivity; [|exact Hsub]. cbn [entries_of flat_map app]. rewrite <- !app_assoc.
      do 2 (apply sublist_app; [reflexivity|]). by apply sublist_inserts_l.
  - destruct (one_flush_lookup _ _ _ _ _ Hq Hf) as (Hb' & Hm & Hr'). cbn [fl_rest] in Hr'. subst q. exists []. split.
    + split; [|done]. rewrite Hm. exact (delete_singleton f _).
    + intros s. rewrite !app_nil_r. apply Hsub.
  - destruct Hno2 as [Hb _]. rewrite Hb in Hq. destruct Hq as [Hq ->]. exists q'. rewrite Hq. split; [by exists f, []|].
    intros s. rewrite lookup_empty, (entries_map s _ _ Hq'). cbn [default from_option]. rewrite !app_nil_r. by specialize (Hsub s).
  - destruct (one_flush_lookup _ _ _ _ _ Hq Hf) as (Hb & Hm & Hr'). cbn [fl_rest] in Hr'. subst q. exists []. split.
    + split; [|done]. rewrite Hm. exact (delete_singleton f _).
    + intros s. rewrite !app_nil_r. apply Hsub.
  - exists q. split; [done|]. intros s. rewrite !app_nil_r. apply Hsub.
  - exists q. split; [done|]. intros s. rewrite !app_nil_r. apply Hsub.
  - exists q. split; [done|]. intros s. rewrite !app_nil_r. apply Hsub.
  - exists q. split; [done|]. intros s. rewrite !app_nil_r. apply Hsub.
Qed.

Lemma flying_one b c q s : one_flush b (cc_fl c) q -> flying s c = entries_of s q.
Proof.
  unfold flying. destruct b; cbn.
  - intros (f & errs & ->). rewrite map_to_list_singleton. cbn. by rewrite app_nil_r.
  - intros [-> ->]. by rewrite map_to_list_empty.
Qed.

Lemma sublist_len_eq {A} (l k : list A) : sublist l k -> (length k <= length l)%nat -> l = k.
Proof.
  induction 1 as [|x l k Hs IH|x l k Hs IH]; cbn; intros Hl; [done| |].
  - f_equal. apply IH. lia.
  - apply sublist_length in Hs. lia.
Qed.

Lemma order_kept cfg log c s : cc_run cfg log c -> no_overlap false log ->
  sublist (sent s log ++ flying s c ++ queued s c) (accepted s log) /\
  (dropped s log = [] -> accepted s log = sent s log ++ flying s c ++ queued s c).
Proof.
  intros Hr Hno. destruct (order_inv _ _ _ Hr Hno) as (q & Hq & Hsub). rewrite (flying_one _ _ _ s Hq). split; [apply Hsub|].
  intros Hd. pose proof (conservation _ _ _ s Hr) as Hp. rewrite Hd, app_nil_r, (flying_one _ _ _ s Hq) in Hp.
  symmetry. apply sublist_len_eq; [apply Hsub|]. rewrite (Permutation_length Hp), !app_length. lia.
Qed.

(** ** The queue and its size *)
Lemma queue_snoc log evs : queue (log ++ evs) = fold_left queue_step evs (queue log).
Proof. apply fold_left_app. Qed.
Lemma queue_inv cfg log c : cc_run cfg log c -> cc_pend c = queue log.
Proof.
  induction 1 as [|log c evs c' Hr IH Hs]; [done|]. rewrite queue_snoc, <- IH. 
  destruct Hs as [c g id a c' o Hg Hc| | | | | | | | | |]; try done. cbn.
  destruct (collect_cases _ _ _ _ _ _ _ Hc) as (_ & Ho & _). destruct o as [|q|e].
  - by destruct Ho as [-> _].
  - naive_solver.
  - naive_solver.
Qed.

Lemma collection_size_eq a : (24 + bytes_of a) < two64 -> collection_size a = 24 + bytes_of a.
Proof.
  unfold collection_size. generalize 24. induction a as [|x a IH]; intros n H; cbn [bytes_of fold_right fold_left] in *; [unfold bytes_of; cbn; lia|].
  fold (bytes_of a) in *. unfold ann_size at 2. rewrite N.mod_small by lia. rewrite IH by lia. lia.
Qed.

Lemma account_snoc log evs : account (log ++ evs) = fold_left account_step evs (account log).
Proof. apply fold_left_app. Qed.
Lemma small_app cfg l1 l2 : small cfg (l1 ++ l2) -> small cfg l1 /\ small cfg l2.
Proof. intros H. split; intros id a o Hin; apply (H id a o), in_app_iff; tauto. Qed.
Lemma account_inv cfg log c : cf_max cfg <> 0 -> cc_run cfg log c -> small cfg log -> cc_bytes c = account log /\ account log <= cf_max cfg.
Proof.
  intros Hm. induction 1 as [|log c evs c' Hr IH Hs]; intros Hsm; [cbn; split; [done|]; unfold account; cbn; lia|].
  apply small_app in Hsm as [Hsm1 Hsm2]. destruct (IH Hsm1) as [Hb Hle]. rewrite account_snoc.
  destruct Hs as [c g id a c' o Hg Hc| | | | | | | | | |]; cbn [fold_left account_step]; try (cbn; split; [done|lia]).
  assert (cf_max cfg + (24 + bytes_of a) < two64) as Hs by (apply (Hsm2 id a o); by left).
  destruct (collect_cases _ _ _ _ _ _ _ Hc) as (_ & Ho & _). rewrite collection_size_eq in Ho by lia. rewrite Hb in Ho.
  rewrite N.mod_small in Ho by lia. destruct o as [|q|e].
  - destruct Ho as [-> _]. done.
  - split; [naive_solver|lia].
  - destruct Ho as (_ & _ & _ & _ & Hb' & Hor). split; [lia|]. lia.
Qed.

Definition qsum (q : list entry) : N := fold_right (fun e n => 24 + bytes_of (snd e) + n) 0 q.
Lemma qsum_perm q q' : q ≡ₚ q' -> qsum q = qsum q'.
Proof. induction 1; unfold qsum in *; cbn [fold_right] in *; lia. Qed.
Lemma bytes_app a b : bytes_of (a ++ b) = bytes_of a + bytes_of b.
Proof. induction a as [|x a IH]; cbn [bytes_of fold_right app]; [done|]. fold (bytes_of (a ++ b)) (bytes_of a). lia. Qed.
Lemma queue_bytes_insert (m : gmap SpanID (list Annotation)) k a :
  queue_bytes (<[k := default [] (m !! k) ++ a]> m) <= queue_bytes m + (24 + bytes_of a).
Proof.
  change (qsum (map_to_list (<[k := default [] (m !! k) ++ a]> m)) <= qsum (map_to_list m) + (24 + bytes_of a)).
  destruct (m !! k) as [p|] eqn:E; cbn [default from_option id].
  - assert (qsum (map_to_list m) = qsum ((k, p) :: map_to_list (delete k m))) as ->.
    { apply qsum_perm. by rewrite <- map_to_list_insert, insert_delete by (done || apply lookup_delete). }
    assert (qsum (map_to_list (<[k := p ++ a]> m)) = qsum ((k, p ++ a) :: map_to_list (delete k m))) as ->.
    { apply qsum_perm. rewrite <- insert_delete_insert. by rewrite map_to_list_insert by (apply lookup_delete). }
    cbn [qsum fold_right snd]. rewrite bytes_app. lia.
  - rewrite (qsum_perm (map_to_list (<[k := [] ++ a]> m)) ((k, a) :: map_to_list m)) by (by apply map_to_list_insert). cbn [qsum fold_right snd]. unfold qsum. lia.
Qed.
Lemma queue_le_account log : queue_bytes (queue log) <= account log.
Proof.
  induction log as [|ev log IH] using rev_ind; [done|]. rewrite queue_snoc, account_snoc. cbn [fold_left].
  destruct ev as [id a [| |]| | | | | | |]; cbn [queue_step account_step]; try done.
  pose proof (queue_bytes_insert (queue log) id a). lia.
Qed.

Lemma queue_size cfg log c : cf_max cfg <> 0 -> cc_run cfg log c -> small cfg log -> queue_bytes (cc_pend c) <= cf_max cfg.
Proof.
  intros Hm Hr Hs. rewrite (queue_inv _ _ _ Hr). pose proof (queue_le_account log). destruct (account_inv _ _ _ Hm Hr Hs). lia.
Qed.

Lemma collect_limit cfg log c id a o c' : cf_max cfg <> 0 -> cc_run cfg log c -> small cfg (log ++ [EvCollect id a o]) ->
  cc_step cfg c [EvCollect id a o] c' ->
  match o with
  | OStopped => cc_pend c' = cc_pend c
  | ODropped q => cf_max cfg < account log + (24 + bytes_of a) /\ q ≡ₚ map_to_list (queue log) /\ cc_pend c' = ∅
  | OQueued _ => account log + (24 + bytes_of a) <= cf_max cfg /\ forall s, queued s c' = queued s c ++ (if bool_decide (id = s) then a else [])
  end.
Proof.
  intros Hm Hr Hsm Hs. apply small_app in Hsm as [Hsm1 Hsm2]. destruct (account_inv _ _ _ Hm Hr Hsm1) as [Hb Hle].
  assert (cf_max cfg + (24 + bytes_of a) < two64) as Hsz by (apply (Hsm2 id a o); by left).
  inversion Hs as [c0 g id0 a0 c0' o0 Hg Hc| | | | | | | | | |]; subst.
  destruct (collect_cases _ _ _ _ _ _ _ Hc) as (_ & Ho & _). rewrite collection_size_eq in Ho by lia. rewrite Hb in Ho.
  rewrite N.mod_small in Ho by lia. destruct o as [|q|e].
  - by destruct Ho as [-> _].
  - destruct Ho as (_ & -> & -> & _ & _ & _ & Hlt). rewrite (queue_inv _ _ _ Hr). done.
  - destruct Ho as (_ & _ & _ & Hp & _ & Hor). split; [lia|]. intros s. rewrite !queued_lookup, Hp.
    destruct (bool_decide (id = s)) eqn:E.
    + apply bool_decide_eq_true in E. subst id. by rewrite lookup_insert.
    + apply bool_decide_eq_false in E. rewrite lookup_insert_ne by done. by rewrite app_nil_r.
Qed.

Lemma collect_unlimited cfg log c id a o c' : cf_max cfg = 0 -> cc_run cfg log c -> cc_step cfg c [EvCollect id a o] c' ->
  forall q, o <> ODropped q.
Proof.
  intros Hm Hr Hs q ->. inversion Hs as [c0 g id0 a0 c0' o0 Hg Hc| | | | | | | | | |]; subst.
  destruct (collect_cases _ _ _ _ _ _ _ Hc) as (_ & Ho & _). naive_solver.
Qed.

(** ** C35, C36: Stop *)
Lemma stop_inv cfg log c : cc_run cfg log c ->
  (cc_stopped c = true <-> In (EvStop false) log) /\
  (cc_chan c = if cc_started c then Some (cc_stopped c) else None) /\
  (cc_started c = true <-> exists id a o, In (EvCollect id a o) log) /\
  (cc_stopped c = true -> cc_started c = true).
Proof.
  induction 1 as [|log c evs c' Hr IH Hs].
  { cbn. split_and!; try done. split; [done|]. intros (? & ? & ? & []). }
  destruct IH as (IH1 & IH2 & IH3 & IH4).
  assert (forall evs, Forall (fun ev => match ev with EvStop false | EvCollect _ _ _ => False | _ => True end) evs ->
    (In (EvStop false) (log ++ evs) <-> In (EvStop false) log) /\
    ((exists id a o, In (EvCollect id a o) (log ++ evs)) <-> exists id a o, In (EvCollect id a o) log)) as Hkeep.
  { clear. intros evs Hall. rewrite Forall_forall in Hall. split; split.
    - intros Hin. apply in_app_iff in Hin as [?|Hin]; [done|]. by apply elem_of_list_In, Hall in Hin.
    - intros. apply in_app_iff. by left.
    - intros (id & a & o & Hin). apply in_app_iff in Hin as [?|Hin]; [by exists id, a, o|]. by apply elem_of_list_In, Hall in Hin.
    - intros (id & a & o & Hin). exists id, a, o. apply in_app_iff. by left. }
  destruct Hs as [c g id a c' o Hg Hc|c f q' Hf Hq'|c f id a rest errs e Hf|c f id a rest errs e Ht Hf|c f errs Hf Hb
    |c g f q' Hg Hf Hq'|c g f errs Hg Hf|c g e Hg|c g Hg Hch|c Hch|c Hch];
    cbn [set_bg set_flush cc_begin cc_stopped cc_chan cc_started] in *;
    try (match goal with |- context [log ++ ?evs] => destruct (Hkeep evs) as [-> ->]; [by repeat constructor|] end; done).
  - clear Hkeep. destruct (collect_cases _ _ _ _ _ _ _ Hc) as (Hfl & Ho & Hst & Hch). rewrite Hst.
    assert (In (EvStop false) (log ++ [EvCollect id a o]) <-> In (EvStop false) log) as ->.
    { rewrite in_app_iff. cbn. split; [intros [?|[?|[]]]; done|by left]. }
    assert ((exists id0 a0 o0, In (EvCollect id0 a0 o0) (log ++ [EvCollect id a o])) <-> True) as ->.
    { split; [done|]. intros _. exists id, a, o. apply in_app_iff. right. by left. }
    split; [done|]. destruct o.
    + destruct Ho as [-> Hs']. specialize (IH4 Hs'). split_and!; done.
    + destruct Ho as [Hs' _]. destruct Hch as (-> & -> & _). rewrite IH2, Hs'. split_and!; try done. by destruct (cc_started c).
    + destruct Ho as [Hs' _]. destruct Hch as (-> & -> & _). rewrite IH2, Hs'. split_and!; try done. by destruct (cc_started c).
  - clear Hkeep. rewrite Hch in IH2. destruct (cc_started c) eqn:Est; [|done].
    assert (In (EvStop false) (log ++ [EvStop false]) <-> True) as ->.
    { split; [done|]. intros _. apply in_app_iff. right. by left. }
    split_and!; try done. split; [|done]. intros _. destruct IH3 as [IH3 _]. destruct (IH3 eq_refl) as (id & a & o & Hin).
    exists id, a, o. apply in_app_iff. by left.
Qed.

Lemma collect_after_stop cfg log c id a o c' : cc_run cfg log c -> In (EvStop false) log -> cc_step cfg c [EvCollect id a o] c' -> o = OStopped.
Proof.
  intros Hr Hin Hs. destruct (stop_inv _ _ _ Hr) as (H & _). apply H in Hin.
  inversion Hs as [c0 g id0 a0 c0' o0 Hg Hc| | | | | | | | | |]; subst.
  destruct (collect_cases _ _ _ _ _ _ _ Hc) as (_ & Ho & _). destruct o; [done| |]; destruct Ho as [Ho _]; congruence.
Qed.

(** Events of a later part of a run come from steps of the run. *)
Lemma run_event cfg log c : cc_run cfg log c -> forall l1 id a o l2, log = l1 ++ EvCollect id a o :: l2 ->
  exists c1 c2, cc_run cfg l1 c1 /\ cc_step cfg c1 [EvCollect id a o] c2.
Proof.
  induction 1 as [|log c evs c' Hr IH Hs]; intros l1 id a o l2 Heq; [by destruct l1|].
  destruct (app_eq_inv _ _ _ _ Heq) as [(k & -> & Hk)|(k & -> & Hk)].
  - destruct k as [|ev k].
    + exists c, c'. rewrite app_nil_r in Hr. split; [done|]. cbn in Hk. subst evs.
      inversion Hs; subst; done.
    + cbn in Hk. injection Hk as <- ->. by apply (IH l1 id a o k).
  - destruct k as [|ev k].
    + exists c, c'. rewrite app_nil_r. split; [done|]. cbn in Hk. subst evs. inversion Hs; subst; done.
    + subst evs. exfalso. inversion Hs; subst; try (destruct k; done). destruct k as [|? [|]]; done.
Qed.

Lemma accepted_after_stop cfg log c l1 l2 s : cc_run cfg log c -> log = l1 ++ EvStop false :: l2 ->
  (forall id a o, In (EvCollect id a o) l2 -> o = OStopped) /\ accepted s log = accepted s l1.
Proof.
  intros Hr ->. assert (forall id a o, In (EvCollect id a o) l2 -> o = OStopped) as H.
  { intros id a o Hin. apply in_split in Hin as (k1 & k2 & ->).
    destruct (run_event _ _ _ Hr (l1 ++ EvStop false :: k1) id a o k2) as (c1 & c2 & Hr1 & Hs); [by rewrite <- app_assoc|].
    eapply collect_after_stop; [exact Hr1| |exact Hs]. apply in_app_iff. right. by left. }
  split; [done|]. rewrite accepted_snoc. change (accepted s (EvStop false :: l2)) with (accepted s l2).
  assert (accepted s l2 = []) as E; [|by rewrite E, app_nil_r].
  clear Hr. induction l2 as [|ev l2 IH]; [done|]. change (accepted1 s ev ++ accepted s l2 = []). rewrite IH by (intros id a o Hin; apply (H id a o); by right).
  destruct ev as [id a [| |]| | | | | | |]; try done. 
  assert (OQueued e = OStopped); [|done]. apply (H id a). by left.
Qed.

Lemma sent_after_stop cfg log c l1 l2 s : cc_run cfg log c -> log = l1 ++ EvStop false :: l2 -> submseteq (sent s log) (accepted s l1).
Proof.
  intros Hr Hl. destruct (accepted_after_stop _ _ _ _ _ s Hr Hl) as [_ <-]. rewrite (conservation _ _ _ s Hr). by apply submseteq_inserts_r.
Qed.

Lemma stop_panics_iff cfg log c p c' : cc_run cfg log c -> cc_step cfg c [EvStop p] c' ->
  p = false <-> (exists id a o, In (EvCollect id a o) log) /\ ~ In (EvStop false) log.
Proof.
  intros Hr Hs. destruct (stop_inv _ _ _ Hr) as (H1 & H2 & H3 & H4).
  rewrite <- H1, <- H3.
  assert ((p = false /\ cc_chan c = Some false) \/ (p = true /\ cc_chan c <> Some false)) as [[-> Hch]|[-> Hch]] by (inversion Hs; subst; auto);
    rewrite H2 in Hch; destruct (cc_started c), (cc_stopped c); split; intuition congruence.
Qed.

(** ** C37: what Flush and Collect return *)
Lemma flat_map_snoc {A B} (f : A -> list B) l1 l2 : flat_map f (l1 ++ l2) = flat_map f l1 ++ flat_map f l2.
Proof. apply flat_map_app. Qed.

Definition finv (log : list event) (f : nat) (fl : flush) : Prop := exists l1 q l2,
  log = l1 ++ EvBegin f q :: l2 /\ not_about f l2 /\ q ≡ₚ map_to_list (queue l1) /\
  q = sends f l2 ++ given_up f l2 ++ fl_rest fl /\ fl_errs fl = errors f l2 /\
  ((exists r, In (EvTimeout f r) l2) -> fl_rest fl = []).

Definition quiet (f : nat) (evs : list event) : Prop := not_about f evs /\ sends f evs = [] /\ given_up f evs = [] /\ errors f evs = [] /\ forall r, ~ In (EvTimeout f r) evs.
Lemma not_about_app f l1 l2 : not_about f l1 -> not_about f l2 -> not_about f (l1 ++ l2).
Proof. intros [H1 H2] [H3 H4]. split; intros x Hin; apply in_app_iff in Hin as [?|?]; [by eapply H1|by eapply H3|by eapply H2|by eapply H4]. Qed.
Lemma finv_quiet log f fl evs : quiet f evs -> finv log f fl -> finv (log ++ evs) f fl.
Proof.
  intros (Hq1 & Hq2 & Hq3 & Hq4 & Hq5) (l1 & q & l2 & -> & H1 & H2 & H3 & H4 & H5). exists l1, q, (l2 ++ evs).
  split; [by rewrite <- app_assoc|]. split; [by apply not_about_app|]. split; [done|].
  unfold sends, given_up, errors in *. rewrite !flat_map_snoc, Hq2, Hq3, Hq4, !app_nil_r. split; [done|]. split; [done|].
  intros [r Hin]. apply in_app_iff in Hin as [?|Hin]; [by apply H5; exists r|by apply Hq5 in Hin].
Qed.

Lemma nat_neq_false (g f : nat) : g <> f -> (g =? f)%nat = false.
Proof. lia. Qed.

Lemma finv_all cfg log c : cc_run cfg log c -> forall f fl, cc_fl c !! f = Some fl -> finv log f fl.
Proof.
  induction 1 as [|log c evs c' Hr IH Hs]; intros f fl Hfl; [cbn in Hfl; by apply lookup_empty_Some in Hfl|].
  pose proof (queue_inv _ _ _ Hr) as Hqueue.
  destruct Hs as [c g id a c' o Hg Hc|c f' q' Hf Hq'|c f' id a rest errs e Hf|c f' id a rest errs e Ht Hf|c f' errs Hf Hb
    |c g f' q' Hg Hf Hq'|c g f' errs Hg Hf|c g e Hg|c g Hg Hch|c Hch|c Hch];
    cbn [set_bg set_flush cc_begin cc_fl] in Hfl.
  - destruct (collect_cases _ _ _ _ _ _ _ Hc) as (Hfl' & _). rewrite Hfl' in Hfl. apply finv_quiet; [|by apply IH].
    unfold quiet, not_about. cbn. naive_solver.
  - apply lookup_insert_Some in Hfl as [[-> <-]|[Hne Hfl]].
    + exists log, q', []. rewrite <- Hqueue. split; [done|]. split; [split; intros ? []|]. split; [done|]. split; [done|]. split; [done|].
      intros [? []].
    + apply finv_quiet; [|by apply IH]. unfold quiet, not_about. cbn. naive_solver.
  - destruct (decide (f' = f)) as [->|Hne].
    + rewrite lookup_partial_alter in Hfl. injection Hfl as <-. destruct (IH _ _ Hf) as (l1 & q & l2 & -> & H1 & H2 & H3 & H4 & H5).
      cbn [fl_rest fl_errs] in *.
      assert (given_up f l2 = []) as Hgu.
      { unfold given_up. clear -H5. induction l2 as [|ev l2 IH]; [done|]. cbn. rewrite IH.
        - destruct ev; try done. destruct (f0 =? f)%nat eqn:E; [|done]. apply Nat.eqb_eq in E. subst. exfalso. assert (((id, a) :: rest) = []); [|done].
          apply H5. exists rest0. by left.
        - intros [r Hin]. apply H5. exists r. by right. }
      exists l1, q, (l2 ++ [EvSend f id a e]). split; [by rewrite <- app_assoc|]. split; [apply not_about_app; [done|]; split; intros ? [|[]]; done|].
      split; [done|]. unfold sends, given_up, errors in *. rewrite !flat_map_snoc, Hgu. cbn. rewrite Nat.eqb_refl. cbn. split.
      { rewrite H3, Hgu. cbn. by rewrite <- app_assoc. }
      split; [rewrite H4; destruct e; cbn; by rewrite ?app_nil_r|].
      intros [r Hin]. apply in_app_iff in Hin as [Hin|[|[]]]; [|done]. assert (((id, a) :: rest) = []); [|done]. apply H5. by exists r.
    + rewrite lookup_partial_alter_ne in Hfl by done. apply finv_quiet; [|by apply IH].
      unfold quiet, not_about. cbn. rewrite nat_neq_false by done. destruct e; naive_solver.
  - destruct (decide (f' = f)) as [->|Hne].
    + rewrite lookup_partial_alter in Hfl. injection Hfl as <-. destruct (IH _ _ Hf) as (l1 & q & l2 & -> & H1 & H2 & H3 & H4 & H5).
      cbn [fl_rest fl_errs] in *.
      assert (given_up f l2 = []) as Hgu.
      { unfold given_up. clear -H5. induction l2 as [|ev l2 IH]; [done|]. cbn. rewrite IH.
        - destruct ev; try done. destruct (f0 =? f)%nat eqn:E; [|done]. apply Nat.eqb_eq in E. subst. exfalso. assert (((id, a) :: rest) = []); [|done].
          apply H5. exists rest0. by left.
        - intros [r Hin]. apply H5. exists r. by right. }
      exists l1, q, (l2 ++ [EvSend f id a e; EvTimeout f rest]). split; [by rewrite <- app_assoc|].
      split; [apply not_about_app; [done|]; split; intros ? [|[|[]]]; done|].
      split; [done|]. unfold sends, given_up, errors in *. rewrite !flat_map_snoc, Hgu. cbn. rewrite Nat.eqb_refl. cbn. split.
      { rewrite H3, Hgu. cbn. by rewrite app_nil_r, app_nil_r, <- app_assoc. }
      split; [rewrite H4; destruct e; cbn; by rewrite <- ?app_assoc|]. done.
    + rewrite lookup_partial_alter_ne in Hfl by done. apply finv_quiet; [|by apply IH].
      unfold quiet, not_about. cbn. rewrite nat_neq_false by done. destruct e; naive_solver.
  - destruct (decide (f' = f)) as [->|Hne]; [by rewrite lookup_partial_alter in Hfl|].
    rewrite lookup_partial_alter_ne in Hfl by done. apply finv_quiet; [|by apply IH]. unfold quiet, not_about. cbn. naive_solver.
  - apply lookup_insert_Some in Hfl as [[-> <-]|[Hne Hfl]].
    + exists log, q', []. rewrite <- Hqueue. split; [done|]. split; [split; intros ? []|]. split; [done|]. split; [done|]. split; [done|].
      intros [? []].
    + apply finv_quiet; [|by apply IH]. unfold quiet, not_about. cbn. naive_solver.
  - destruct (decide (f' = f)) as [->|Hne]; [by rewrite lookup_partial_alter in Hfl|].
    rewrite lookup_partial_alter_ne in Hfl by done. apply finv_quiet; [|by apply IH]. unfold quiet, not_about. cbn. naive_solver.
  - apply finv_quiet; [|by apply IH]. unfold quiet, not_about. cbn. naive_solver.
  - apply finv_quiet; [|by apply IH]. unfold quiet, not_about. cbn. naive_solver.
  - apply finv_quiet; [|by apply IH]. unfold quiet, not_about. cbn. naive_solver.
  - apply finv_quiet; [|by apply IH]. unfold quiet, not_about. cbn. naive_solver.
Qed.

Lemma flush_returns cfg log c f r c' : cc_run cfg log c -> cc_step cfg c [EvEnd f r] c' -> exists l1 q l2,
  log = l1 ++ EvBegin f q :: l2 /\ not_about f l2 /\ q ≡ₚ map_to_list (queue l1) /\
  q = sends f l2 ++ given_up f l2 /\
  r = (match errors f l2 with [] => None | [e] => Some e | es => Some (EMultiple es) end).
Proof.
  intros Hr Hs.
  assert (exists errs, cc_fl c !! f = Some (MkFlush [] errs) /\ r = flush_result errs) as (errs & Hf & ->) by (inversion Hs; subst; eauto).
  destruct (finv_all _ _ _ Hr _ _ Hf) as (l1 & q & l2 & -> & H1 & H2 & H3 & H4 & H5). cbn [fl_rest fl_errs] in *. subst errs.
  exists l1, q, l2. rewrite app_nil_r in H3. split; [done|]. split; [exact H1|]. split; [done|]. split; [done|]. by destruct (errors f l2) as [|? [|]].
Qed.

Lemma flush_ok cfg log c f c' : cc_run cfg log c -> cc_step cfg c [EvEnd f None] c' -> exists l1 q l2,
  log = l1 ++ EvBegin f q :: l2 /\ not_about f l2 /\ q ≡ₚ map_to_list (queue l1) /\ sends f l2 = q /\
  (forall id a e, In (EvSend f id a e) l2 -> e = None) /\ (forall r, ~ In (EvTimeout f r) l2).
Proof.
  intros Hr Hs. destruct (flush_returns _ _ _ _ _ _ Hr Hs) as (l1 & q & l2 & -> & H1 & H2 & H3 & H4).
  assert (errors f l2 = []) as He by (destruct (errors f l2) as [|? [|]]; done). clear H4.
  assert ((forall id a e, In (EvSend f id a e) l2 -> e = None) /\ (forall r, ~ In (EvTimeout f r) l2)) as [Ha Hb].
  { clear -He. unfold errors in He. induction l2 as [|ev l2 IH]; [by split; [intros ???|intros ?]; intros []|].
    cbn in He. apply app_eq_nil in He as [He1 He2]. specialize (IH He2) as [IH1 IH2]. split.
    - intros id a e [->|Hin]; [|by eapply IH1]. destruct e; [|done]. by rewrite Nat.eqb_refl in He1.
    - intros r [->|Hin]; [|by eapply IH2]. by rewrite Nat.eqb_refl in He1. }
  exists l1, q, l2. enough (sends f l2 = q) by auto 10. rewrite H3. assert (given_up f l2 = []) as ->; [|by rewrite app_nil_r].
  clear -Hb. unfold given_up. induction l2 as [|ev l2 IH]; [done|]. cbn. rewrite IH by (intros r Hin; apply (Hb r); by right).
  destruct ev; try done. destruct (f0 =? f)%nat eqn:E; [|done]. apply Nat.eqb_eq in E. subst. exfalso. apply (Hb rest). by left.
Qed.

Lemma last_err_snoc log evs : last_err (log ++ evs) = fold_left last_err_step evs (last_err log).
Proof. apply fold_left_app. Qed.
Lemma last_err_inv cfg log c : cc_run cfg log c -> cc_lasterr c = last_err log.
Proof.
  induction 1 as [|log c evs c' Hr IH Hs]; [done|]. rewrite last_err_snoc, <- IH.
  destruct Hs as [c g id a c' o Hg Hc| | | | | | | | | |]; try done. cbn.
  destruct (collect_cases _ _ _ _ _ _ _ Hc) as (_ & Ho & _). destruct o as [|q|e]; [by destruct Ho as [-> _]|naive_solver|naive_solver].
Qed.
Lemma collect_returns_err cfg log c id a e c' : cc_run cfg log c -> cc_step cfg c [EvCollect id a (OQueued e)] c' -> e = last_err log.
Proof.
  intros Hr Hs. rewrite <- (last_err_inv _ _ _ Hr). inversion Hs as [c0 g id0 a0 c0' o0 Hg Hc| | | | | | | | | |]; subst.
  destruct (collect_cases _ _ _ _ _ _ _ Hc) as (_ & Ho & _). naive_solver.
Qed.

(** The stored errors are those returned by background flushes. *)
Lemma bg_err_inv cfg log c : cc_run cfg log c -> forall g e, cc_bg c !! g = Some (BErr e) -> exists f, In (EvEnd f (Some e)) log.
Proof.
  induction 1 as [|log c evs c' Hr IH Hs]; intros g' e' Hg'; [cbn in Hg'; by apply lookup_empty_Some in Hg'|].
  setoid_rewrite in_app_iff. 
  assert (forall x g c, partial_alter (fun _ : option bgstate => x) g (cc_bg c) !! g' = Some (BErr e') -> x = Some (BErr e') \/ cc_bg c !! g' = Some (BErr e')) as Halt.
  { intros x g0 c0 H. destruct (decide (g0 = g')) as [->|Hne]; [rewrite lookup_partial_alter in H|rewrite lookup_partial_alter_ne in H by done]; tauto. }
  destruct Hs as [c g id a c' o Hg Hc|c f' q' Hf Hq'|c f' id a rest errs e Hf|c f' id a rest errs e Ht Hf|c f' errs Hf Hb
    |c g f' q' Hg Hf Hq'|c g f' errs Hg Hf|c g e Hg|c g Hg Hch|c Hch|c Hch];
    cbn [set_bg set_flush cc_begin cc_bg In] in *; try (apply Halt in Hg'); try (destruct (IH _ _ Hg') as [f ?]; exists f; by left).
  - destruct (collect_cases _ _ _ _ _ _ _ Hc) as (_ & Ho & _ & Hb). assert (cc_bg c !! g' = Some (BErr e')) as Hb'.
    { destruct o; [by destruct Ho as [-> _]| |]; destruct Hb as (_ & _ & Hb); rewrite Hb in Hg'; destruct (cc_started c); try done;
        apply lookup_insert_Some in Hg' as [[_ ?]|[_ ?]]; done. }
    destruct (IH _ _ Hb') as [f ?]; exists f; by left.
  - destruct Hg' as [?|Hg']; [done|]. destruct (IH _ _ Hg') as [f ?]; exists f; by left.
  - cbn in Hg'. destruct Hg' as [Hg'|Hg'].
    + exists f'. right. left. destruct (flush_result errs) as [e0|]; [|done]. by injection Hg' as ->.
    + destruct (IH _ _ Hg') as [f ?]; exists f; by left.
  - destruct Hg' as [?|Hg']; [done|]. destruct (IH _ _ Hg') as [f ?]; exists f; by left.
  - destruct Hg' as [?|Hg']; [done|]. destruct (IH _ _ Hg') as [f ?]; exists f; by left.
Qed.
Lemma set_err_from_flush cfg log c e c' : cc_run cfg log c -> cc_step cfg c [EvSetErr e] c' -> exists f, In (EvEnd f (Some e)) log.
Proof. intros Hr Hs. inversion Hs as [| | | | | | |c0 g e0 Hg| | |]; subst. by eapply bg_err_inv. Qed.

Lemma sent_submseteq cfg log c s : cc_run cfg log c -> submseteq (sent s log) (accepted s log).
Proof. intros Hr. rewrite (conservation _ _ _ s Hr). by apply submseteq_inserts_r. Qed.

Lemma taken_after_stop cfg log c : cc_run cfg log c -> forall l1 l2, log = l1 ++ EvStop false :: l2 ->
  taken l2 ++ map_to_list (queue log) ≡ₚ map_to_list (queue l1).
Proof.
  induction 1 as [|log c evs c' Hr IH Hs]; intros l1 l2 Heq; [by destruct l1|].
  destruct (app_eq_inv _ _ _ _ Heq) as [(k & -> & Hk)|(k & -> & Hk)].
  - destruct k as [|ev k]; cbn in Hk.
    + subst evs. assert (l2 = []) as -> by (inversion Hs; done). rewrite app_nil_r in *. cbn [taken flat_map app].
      by rewrite queue_snoc.
    + injection Hk as <- ->. specialize (IH l1 k eq_refl). unfold taken. rewrite flat_map_app. fold (taken k) (taken evs).
      rewrite queue_snoc. pose proof (queue_inv _ _ _ Hr) as Hq.
      assert (taken evs ++ map_to_list (fold_left queue_step evs (queue (l1 ++ EvStop false :: k))) ≡ₚ map_to_list (queue (l1 ++ EvStop false :: k))) as He.
      { rewrite <- Hq. destruct Hs as [c g id a c' o Hg Hc|c f q Hf Hq'| | | |c g f q Hg Hf Hq'| | | | |]; try done.
        - assert (o = OStopped) as ->; [|done]. eapply collect_after_stop; [exact Hr| |by econstructor]. apply in_app_iff. right. by left.
        - cbn. by rewrite map_to_list_empty, app_nil_r, app_nil_r.
        - cbn. by rewrite map_to_list_empty, app_nil_r, app_nil_r. }
      rewrite <- app_assoc, He. exact IH.
  - destruct k as [|ev k]; cbn in Hk.
    + subst evs. assert (l2 = []) as -> by (inversion Hs; done). rewrite app_nil_r in *. cbn [taken flat_map app].
      by rewrite queue_snoc.
    + exfalso. subst evs. inversion Hs; subst; try (destruct k; done). destruct k as [|? [|]]; done.
Qed.

Lemma collect_effect cfg log c id b o c' : cc_run cfg log c -> cc_step cfg c [EvCollect id b o] c' ->
  forall s, queued s c' = match o with
    | OQueued _ => queued s c ++ (if bool_decide (id = s) then b else [])
    | OStopped => queued s c
    | ODropped _ => []
    end.
Proof.
  intros Hr Hs s. inversion Hs as [c0 g id0 a0 c0' o0 Hg Hc| | | | | | | | | |]; subst.
  destruct (collect_cases _ _ _ _ _ _ _ Hc) as (_ & Ho & _). destruct o as [|q|e].
  - by destruct Ho as [-> _].
  - destruct Ho as (_ & _ & Hp & _). by rewrite queued_lookup, Hp, lookup_empty.
  - destruct Ho as (_ & _ & _ & Hp & _). rewrite !queued_lookup, Hp. destruct (bool_decide (id = s)) eqn:E.
    + apply bool_decide_eq_true in E. subst id. by rewrite lookup_insert.
    + apply bool_decide_eq_false in E. rewrite lookup_insert_ne by done. by rewrite app_nil_r.
Qed.

Lemma drop_reported cfg log c f r c' : cc_run cfg log c -> cc_step cfg c [EvEnd f r] c' -> exists l1 q l2,
  log = l1 ++ EvBegin f q :: l2 /\ not_about f l2 /\
  (sends f l2 <> q -> r = Some EQueueDropped \/ exists es, r = Some (EMultiple es) /\ In EQueueDropped es).
Proof.
  intros Hr Hs. destruct (flush_returns _ _ _ _ _ _ Hr Hs) as (l1 & q & l2 & -> & H1 & H2 & H3 & H4).
  exists l1, q, l2. split; [done|]. split; [exact H1|]. intros Hne.
  assert (In EQueueDropped (errors f l2)) as Hin.
  { assert (given_up f l2 <> []) as Hg by (intros E; rewrite E, app_nil_r in H3; congruence).
    clear -Hg. unfold errors, given_up in *. induction l2 as [|ev l2 IH]; [done|]. cbn in *. apply in_app_iff.
    destruct ev; try (right; by apply IH). destruct (f0 =? f)%nat eqn:E; [left; by left|right; by apply IH]. }
  destruct (errors f l2) as [|e0 [|e1 es]] eqn:E; [done| |].
  - destruct Hin as [->|[]]. by left.
  - right. exists (e0 :: e1 :: es). done.
Qed.
