From Verif Require Import Base MemModel MemSpec MemProofs MemProofs2 MemProofs3 MemProofs4 RecentModel RecentSpec.
From Coq Require Import ZifyBool ZifyNat ZifyN.
Open Scope Z_scope.

Lemma first_seen_snoc t h e : first_seen t (h ++ [e]) =
  if bool_decide (t ∈ re_ev e) then None else first_seen_at t h e.
Proof. unfold first_seen. rewrite fold_left_app. cbn. reflexivity. Qed.
Lemma last_pass_snoc h e : last_pass (h ++ [e]) = if re_ran e then Some (ck_evict (re_clock e)) else last_pass h.
Proof. unfold last_pass. rewrite fold_left_app. done. Qed.
Lemma since_snoc t h e : since_evicted t (h ++ [e]) = since_step t (since_evicted t h) e.
Proof. unfold since_evicted. rewrite fold_left_app. done. Qed.

Lemma in_filter_keys (m : gmap N Z) (P : N * Z -> Prop) `{forall x, Decision (P x)} t :
  t ∈ map fst (filter P (map_to_list m)) <-> exists x, m !! t = Some x /\ P (t, x).
Proof.
  rewrite elem_of_list_In, in_map_iff. split.
  - intros ([k x] & <- & Hin). apply elem_of_list_In, elem_of_list_filter in Hin as [HP Hin].
    apply elem_of_map_to_list in Hin. by exists x.
  - intros (x & Hx & HP). exists (t, x). split; [done|]. apply elem_of_list_In, elem_of_list_filter.
    split; [done|]. by apply elem_of_map_to_list.
Qed.

(** One call, in terms of first sight. *)
Lemma step_spec age ck id st ran ev st' h :
  (forall t, rs_created st !! t = first_seen t h) -> rs_last st = last_pass h ->
  rs_step age ck id st ran ev st' -> forall a, let e := MkRev id a ck ran ev in
  (forall t, rs_created st' !! t = first_seen t (h ++ [e])) /\ rs_last st' = last_pass (h ++ [e]) /\
  (ran = true <-> age < match last_pass h with None => max_duration | Some l => ck_since ck - l end) /\
  NoDup ev /\
  (forall t, t ∈ ev <-> ran = true /\ exists x, first_seen_at t h e = Some x /\ x < ck_now ck - age).
Proof.
  intros Hc Hl Hs a e. assert (forall t,
    (match rs_created st !! sp_trace id with Some _ => rs_created st | None => <[sp_trace id := ck_seen ck]> (rs_created st) end) !! t
    = first_seen_at t h e) as Hc'.
  { intros t. unfold first_seen_at. cbn [e re_id re_clock]. rewrite <- !Hc.
    destruct (N.eqb_spec (sp_trace id) t) as [<-|Hne].
    - destruct (rs_created st !! sp_trace id) eqn:E; [by rewrite E|by rewrite lookup_insert].
    - destruct (rs_created st !! sp_trace id) eqn:E; [|rewrite lookup_insert_ne by done]; by destruct (rs_created st !! t). }
  destruct Hs as [created last Hle|created last created' ev Hlt E Hev]; cbn [rs_created rs_last] in *; subst last.
  - split_and!.
    + intros t. rewrite first_seen_snoc. cbn [e re_ev]. rewrite bool_decide_eq_false_2 by set_solver. apply Hc'.
    + by rewrite last_pass_snoc.
    + split; [done|lia].
    + constructor.
    + intros t. split; [set_solver|]. by intros [? _].
  - subst created'.
    set (cr := match created !! sp_trace id with Some _ => created | None => <[sp_trace id := ck_seen ck]> created end) in *.
    assert (forall t, t ∈ ev <-> exists x, first_seen_at t h e = Some x /\ x < ck_now ck - age) as Hin.
    { intros t. rewrite Hev, in_filter_keys. setoid_rewrite Hc'. done. }
    split_and!.
    + intros t. rewrite first_seen_snoc. cbn [e re_ev]. destruct (bool_decide (t ∈ ev)) eqn:Eb.
      * apply bool_decide_eq_true, Hin in Eb as (x & Hx & Hlt'). apply map_filter_lookup_None. right.
        intros y Hy Hn. rewrite Hc' in Hy. apply Hn. cbn. congruence.
      * apply bool_decide_eq_false in Eb. rewrite <- Hc'. destruct (cr !! t) as [x|] eqn:Ex.
        -- apply map_filter_lookup_Some. split; [done|]. cbn. intros Hlt'. apply Eb, Hin. exists x. by rewrite <- Hc'.
        -- apply map_filter_lookup_None. by left.
    + by rewrite last_pass_snoc.
    + done.
    + rewrite Hev. assert (NoDup (map fst (map_to_list cr))) as Hnd by apply NoDup_fst_map_to_list.
      revert Hnd. generalize (map_to_list cr). clear. intros l. induction l as [|[k x] l IH]; [constructor|].
      cbn [map]. intros Hnd. apply NoDup_cons in Hnd as [Hk Hnd]. rewrite filter_cons. destruct (decide _); [|auto].
      cbn [map]. apply NoDup_cons. split; [|auto]. intros Hin. apply Hk. rewrite elem_of_list_In in *.
      apply in_map_iff in Hin as (y & <- & Hy). apply in_map. apply elem_of_list_In, elem_of_list_filter in Hy as [_ Hy].
      by apply elem_of_list_In.
    + intros t. rewrite Hin. tauto.
Qed.

Lemma rev_eta e : MkRev (re_id e) (re_anns e) (re_clock e) (re_ran e) (re_ev e) = e.
Proof. by destruct e. Qed.

Lemma run_spec age h st : rs_run age h st ->
  (forall t, rs_created st !! t = first_seen t h) /\ rs_last st = last_pass h.
Proof.
  induction 1 as [|h st e st' _ [IH1 IH2] Hs]; [by split|].
  pose proof (step_spec _ _ _ _ _ _ _ h IH1 IH2 Hs (re_anns e)) as H. cbn zeta in H. rewrite rev_eta in H. tauto.
Qed.

Lemma decisions age h st e st' : rs_run age h st -> rs_step age (re_clock e) (re_id e) st (re_ran e) (re_ev e) st' ->
  (re_ran e = true <-> age < match last_pass h with None => max_duration | Some l => ck_since (re_clock e) - l end) /\
  NoDup (re_ev e) /\
  (forall t, t ∈ re_ev e <-> re_ran e = true /\ exists x, first_seen_at t h e = Some x /\ x < ck_now (re_clock e) - age).
Proof.
  intros Hr Hs. destruct (run_spec age h st Hr) as [H1 H2].
  pose proof (step_spec _ _ _ _ _ _ _ h H1 H2 Hs (re_anns e)) as H. cbn zeta in H. rewrite rev_eta in H. tauto.
Qed.

Lemma run_split age h1 e h2 st : rs_run age (h1 ++ e :: h2) st ->
  exists st1 st2, rs_run age h1 st1 /\ rs_step age (re_clock e) (re_id e) st1 (re_ran e) (re_ev e) st2.
Proof.
  revert st. induction h2 as [|x h2 IH] using rev_ind; intros st H.
  - inversion H as [E|h s e' s' Hr Hs E]; [by destruct h1|]. apply app_inj_tail in E as [-> ->]. eauto.
  - assert (h1 ++ e :: h2 ++ [x] = (h1 ++ e :: h2) ++ [x]) as E0 by (by rewrite <- app_assoc). rewrite E0 in H.
    inversion H as [E|h s e' s' Hr Hs E]; [by destruct h1|]. apply app_inj_tail in E as [-> ->]. eauto.
Qed.

(** C25: an explicit first sighting. *)
Lemma first_seen_event t h x : first_seen t h = Some x -> exists h1 e0 h2, h = h1 ++ e0 :: h2 /\
  sp_trace (re_id e0) = t /\ ck_seen (re_clock e0) = x /\ (forall e, In e (e0 :: h2) -> t ∉ re_ev e).
Proof.
  induction h as [|e h IH] using rev_ind; [done|]. rewrite first_seen_snoc.
  destruct (bool_decide (t ∈ re_ev e)) eqn:Eb; [done|]. apply bool_decide_eq_false in Eb. unfold first_seen_at.
  destruct (first_seen t h) as [y|] eqn:Ey.
  - intros [= ->]. destruct (IH eq_refl) as (h1 & e0 & h2 & -> & Ht & Hx & Hn). exists h1, e0, (h2 ++ [e]).
    split_and!; [by rewrite <- app_assoc|done|done|]. intros e' [<-|He']; [apply Hn; by left|].
    apply in_app_iff in He' as [He'|[<-|[]]]; [apply Hn; by right|done].
  - destruct (N.eqb_spec (sp_trace (re_id e)) t) as [Et|]; [|done]. intros [= <-]. exists h, e, [].
    split_and!; try done. by intros e' [<-|[]].
Qed.

Lemma evicted_old age h1 e h2 st t : rs_run age (h1 ++ e :: h2) st -> In t (re_ev e) ->
  exists x, first_seen_at t h1 e = Some x /\ x < ck_now (re_clock e) - age.
Proof.
  intros Hr Ht. destruct (run_split age h1 e h2 st Hr) as (st1 & st2 & Hr1 & Hs).
  destruct (decisions age h1 st1 e st2 Hr1 Hs) as (_ & _ & H). apply elem_of_list_In, H in Ht as [_ ?]. done.
Qed.

Lemma eviction_complete age h1 e h2 st : rs_run age (h1 ++ e :: h2) st ->
  (re_ran e = true <-> age < match last_pass h1 with None => max_duration | Some l => ck_since (re_clock e) - l end) /\
  (re_ran e = true -> forall t x, first_seen_at t h1 e = Some x -> x < ck_now (re_clock e) - age -> In t (re_ev e)) /\
  NoDup (re_ev e).
Proof.
  intros Hr. destruct (run_split age h1 e h2 st Hr) as (st1 & st2 & Hr1 & Hs).
  destruct (decisions age h1 st1 e st2 Hr1 Hs) as (H1 & H2 & H3). split_and!; [done| |done].
  intros Hran t x Hx Hlt. apply elem_of_list_In, H3. eauto.
Qed.

(** ** The underlying store, deletes run promptly *)
Definition prompt (h : list revent) : list call := concat (map actions h).

Lemma prompt_live t h : live t (prompt h) [] = since_evicted t h.
Proof.
  induction h as [|e h IH] using rev_ind; [done|].
  unfold prompt in *. rewrite map_app, concat_app, since_snoc. cbn [map concat]. rewrite app_nil_r.
  replace (actions e) with (evict_calls (re_ev e) ++ [CCollect (re_id e) (re_anns e)]) by reflexivity.
  rewrite app_assoc, live_snoc. unfold since_step.
  assert (live t (concat (map actions h) ++ evict_calls (re_ev e)) [] =
    if bool_decide (t ∈ re_ev e) then [] else since_evicted t h) as ->.
  { destruct (re_ev e) as [|x ev] eqn:E.
    - cbn [evict_calls]. rewrite app_nil_r, bool_decide_eq_false_2 by set_solver. done.
    - cbn [evict_calls]. by rewrite live_snoc, IH. }
  done.
Qed.

Lemma prompt_shown age h st ms t : rs_run age h st -> ms_run (prompt h) ms_init = Some ms ->
  since_evicted t h <> [] ->
  exists tr, shows ms t tr /\ displays (since_evicted t h) tr /\
    (acyclic (spans_of (since_evicted t h)) -> Permutation (map tr_id (nodes tr)) (spans_of (since_evicted t h))).
Proof.
  intros _ Hms HL. rewrite <- prompt_live in *. destruct (trace_displayed (prompt h) ms t Hms HL) as (tr & Hs & Hd & _ & Hp).
  exists tr. done.
Qed.

(** ** All schedules *)
Lemma exec_run age h st pend dn : rs_exec age h st pend dn -> rs_run age h st /\ Permutation (dn ++ pend) (prompt h).
Proof.
  induction 1 as [|h st pend dn e st' _ [IH1 IH2] Hs|h st p1 a p2 dn _ [IH1 IH2]].
  - split; [constructor|done].
  - split; [by econstructor|]. unfold prompt in *. rewrite map_app, concat_app. cbn. rewrite app_nil_r, app_assoc. by rewrite IH2.
  - split; [done|]. rewrite <- IH2, <- app_assoc. apply Permutation_app_head. cbn. apply Permutation_middle.
Qed.

Definition pick (t : N) (c : call) : option (SpanID * list Annotation) :=
  match c with CCollect id a => if (sp_trace id =? t)%N then Some (id, a) else None | CDelete _ => None end.
Lemma live_undeleted t calls : (forall ts, In (CDelete ts) calls -> t ∉ ts) -> live t calls [] = omap (pick t) calls.
Proof.
  induction calls as [|c calls IH] using rev_ind; [done|]. intros H. rewrite live_snoc, omap_app.
  assert (forall ts, In (CDelete ts) calls -> t ∉ ts) as H' by (intros ts Hin; apply H, in_app_iff; by left).
  destruct c as [id a|ts]; cbn.
  - destruct (sp_trace id =? t)%N; rewrite IH by done; [done|by rewrite app_nil_r].
  - rewrite bool_decide_eq_false_2; [by rewrite IH, app_nil_r|]. apply H, in_app_iff. right. by left.
Qed.

(** What a history collected for trace t, evictions ignored. *)
Definition collected (t : N) (h : list revent) : list (SpanID * list Annotation) :=
  map (fun e => (re_id e, re_anns e)) (filter (fun e => sp_trace (re_id e) = t) h).

Lemma pick_prompt t h : omap (pick t) (prompt h) = collected t h.
Proof.
  unfold collected, prompt. induction h as [|e h IH]; [done|]. cbn [map concat]. rewrite omap_app, IH, filter_cons. unfold actions.
  rewrite omap_app. assert (omap (pick t) (evict_calls (re_ev e)) = []) as -> by (by destruct (re_ev e)).
  cbn. destruct (N.eqb_spec (sp_trace (re_id e)) t) as [E|E]; [rewrite decide_True|rewrite decide_False]; done.
Qed.

Lemma omap_perm {A B} (f : A -> option B) l1 l2 : Permutation l1 l2 -> Permutation (omap f l1) (omap f l2).
Proof. by intros ->. Qed.

Lemma first_seen_at_event t h e x : first_seen_at t h e = Some x -> exists e0, In e0 (h ++ [e]) /\
  sp_trace (re_id e0) = t /\ ck_seen (re_clock e0) = x.
Proof.
  unfold first_seen_at. destruct (first_seen t h) as [y|] eqn:E.
  - intros [= ->]. destruct (first_seen_event t h x E) as (h1 & e0 & h2 & -> & Ht & Hx & _). exists e0. split_and!; try done.
    apply in_app_iff. left. apply in_app_iff. right. by left.
  - destruct (N.eqb_spec (sp_trace (re_id e)) t); [|done]. intros [= <-]. exists e. split_and!; try done.
    apply in_app_iff. right. by left.
Qed.

Lemma young_complete age h st dn ms t : rs_exec age h st [] dn -> ms_run dn ms_init = Some ms ->
  (forall e0 e, In e0 h -> In e h -> sp_trace (re_id e0) = t -> ck_now (re_clock e) - age <= ck_seen (re_clock e0)) ->
  collected t h <> [] ->
  exists L tr, Permutation L (collected t h) /\ shows ms t tr /\ displays L tr /\
    (acyclic (spans_of L) -> Permutation (map tr_id (nodes tr)) (spans_of L)).
Proof.
  intros Hx Hms Hyoung HL. destruct (exec_run _ _ _ _ _ Hx) as [Hr Hp]. rewrite app_nil_r in Hp.
  assert (forall e, In e h -> t ∉ re_ev e) as Hne.
  { intros e He Ht. destruct (in_split _ _ He) as (h1 & h2 & ->).
    destruct (evicted_old age h1 e h2 st t Hr) as (x & Hs & Hlt); [by apply elem_of_list_In|].
    destruct (first_seen_at_event _ _ _ _ Hs) as (e0 & He0 & Ht0 & Hx0).
    assert (In e0 (h1 ++ e :: h2)) as He0'.
    { apply in_app_iff in He0 as [?|[<-|[]]]; apply in_app_iff; [by left|right; by left]. }
    pose proof (Hyoung e0 e He0' He Ht0). lia. }
  assert (live t dn [] = omap (pick t) dn) as El.
  { apply live_undeleted. intros ts Hin. assert (In (CDelete ts) (prompt h)) as Hin' by (by eapply Permutation_in).
    unfold prompt in Hin'. apply in_concat in Hin' as (l & Hl & Hin'). apply in_map_iff in Hl as (e & <- & He).
    unfold actions in Hin'. apply in_app_iff in Hin' as [Hin'|[?|[]]]; [|done].
    specialize (Hne e He). destruct (re_ev e); [done|]. destruct Hin' as [[= <-]|[]]. done. }
  exists (live t dn []). assert (Permutation (live t dn []) (collected t h)) as HP.
  { rewrite El, <- pick_prompt. by apply omap_perm. }
  destruct (trace_displayed dn ms t Hms) as (tr & Hs & Hd & _ & Hpm).
  { intros E. rewrite E in HP. apply Permutation_nil in HP. done. }
  exists tr. done.
Qed.

(** ** C27 refuted *)
Definition at_time (n : Z) : clock := MkClock n n n n.
Definition wit27 : list revent :=
  [MkRev (MkSpanID 1 1 0) [] (at_time 0) true []; MkRev (MkSpanID 1 2 1) [] (at_time 9) false [];
   MkRev (MkSpanID 2 1 0) [] (at_time 11) true [1%N]].

Lemma exec_prompt age h st : rs_run age h st -> rs_exec age h st [] (prompt h).
Proof.
  induction 1 as [|h st e st' _ IH Hs]; [constructor|].
  pose proof (RX_call age _ _ _ _ e _ IH Hs) as H. cbn [app] in H.
  unfold prompt. rewrite map_app, concat_app. cbn [map concat]. rewrite app_nil_r. fold (prompt h).
  unfold actions in *. destruct (re_ev e) as [|x ev].
  - exact (RX_act age _ _ [] _ [] _ H).
  - pose proof (RX_act age _ _ [] _ _ _ H) as H1. cbn [app] in H1. pose proof (RX_act age _ _ [] _ [] _ H1) as H2.
    rewrite <- app_assoc in H2. exact H2.
Qed.

Lemma wit27_run : exists st, rs_run 10 wit27 st.
Proof.
  eexists. eapply (RR_snoc 10 [_; _]); [eapply (RR_snoc 10 [_]); [eapply (RR_snoc 10 []); [constructor|]|]|].
  - eapply (RS_evict _ _ _ _ _ _ []); [by vm_compute|reflexivity|]. vm_compute. reflexivity.
  - eapply RS_quiet. by vm_compute.
  - eapply RS_evict; [by vm_compute|reflexivity|]. vm_compute. reflexivity.
Qed.

Lemma recent_lost : exists age h st dn e last ms,
  rs_exec age h st [] dn /\ clocks_ok h /\ In e h /\ In last h /\ ck_evict (re_clock last) - ck_seen (re_clock e) < age /\
  ms_run dn ms_init = Some ms /\
  ~ exists tr, shows ms (sp_trace (re_id e)) tr /\ In (re_id e) (map tr_id (nodes tr)).
Proof.
  destruct wit27_run as [st Hst].
  exists 10, wit27, st, (prompt wit27), (MkRev (MkSpanID 1 2 1) [] (at_time 9) false []), (MkRev (MkSpanID 2 1 0) [] (at_time 11) true [1%N]), (final (prompt wit27)).
  split_and!; [by apply exec_prompt|cbn; unfold clock_ok; cbn; lia|cbn; auto|cbn; auto|cbn; lia|apply final_run|].
  intros (tr & (l & Hl & _) & _). assert (ms_trace_of (final (prompt wit27)) 1%N = None) as E by (vm_compute; reflexivity). change (ms_trace_of (final (prompt wit27)) 1%N = Some l) in Hl. congruence.
Qed.
