(** Proofs about MemModel.v: the statements of C09-C18. *)
From Verif Require Import Base MemModel MemSpec MemProofs MemProofs2 MemProofs3.
From Coq Require Import ZifyBool ZifyNat ZifyN.

Lemma run_state calls st : ms_run calls ms_init = Some st ->
  ms_ok st /\ forall t, abs_trace st t (live t calls []).
Proof. intros H. destruct (run_ok calls) as (st' & H' & Hok & Habs). assert (st' = st) as -> by congruence. done. Qed.

Lemma collect_total calls id a : exists st st',
  ms_run calls ms_init = Some st /\ ms_collect id a st = Some st'.
Proof.
  destruct (run_ok calls) as (st & Hr & Hok & _). destruct (collect_ok st id a Hok) as (st' & Hst' & _). eauto.
Qed.

Lemma trace_displayed calls st t : ms_run calls ms_init = Some st -> live t calls [] <> [] ->
  exists tr, shows st t tr /\ displays (live t calls []) tr /\
    (forall i, In i (map tr_id (nodes tr)) <-> anchored (spans_of (live t calls [])) (tr_id tr) i) /\
    (acyclic (spans_of (live t calls [])) -> Permutation (map tr_id (nodes tr)) (spans_of (live t calls []))).
Proof.
  intros Hrun HL. destruct (run_state calls st Hrun) as [Hok Habs]. by apply displays_of_abs.
Qed.

Lemma found_iff calls st t : ms_run calls ms_init = Some st ->
  (ms_trace_of st t = None <-> live t calls [] = []).
Proof.
  intros Hrun. destruct (run_state calls st Hrun) as [Hok Habs]. specialize (Habs t). unfold abs_trace in Habs.
  unfold ms_trace_of. destruct (ms_span st !! t) as [M|] eqn:HM.
  - destruct Habs as (A1 & _ & _ & (r & Hr & _)). rewrite Hr. split; [done|]. intros E. done.
  - split; [done|]. intros _. by apply (inv_none st Hok).
Qed.

Lemma shown_live calls st t tr : ms_run calls ms_init = Some st -> shows st t tr -> live t calls [] <> [].
Proof.
  intros Hrun (l & Hl & _) E. apply (found_iff calls st t Hrun) in E. congruence.
Qed.

Lemma trace_displayed_any calls st t tr : ms_run calls ms_init = Some st -> shows st t tr ->
  displays (live t calls []) tr /\
  (forall i, In i (map tr_id (nodes tr)) <-> anchored (spans_of (live t calls [])) (tr_id tr) i).
Proof.
  intros Hrun Hs. destruct (trace_displayed calls st t Hrun (shown_live _ _ _ _ Hrun Hs)) as (tr' & Hs' & Hd & Ha & _).
  by rewrite (shows_det _ _ _ _ Hs Hs').
Qed.

(** *** C11 *)

Lemma root_from_in r l : In (root_from r l) (r :: l).
Proof.
  revert r. induction l as [|s l IH]; intros r; cbn [root_from]; [by left|].
  destruct (IH (if (sp_parent s =? 0) || (sp_span s =? sp_parent r) then s else r)) as [H|H].
  - rewrite <- H. destruct (_ || _); [by right; left|by left].
  - by right; right.
Qed.

Lemma root_from_parent0 r l : (forall s, In s (r :: l) -> sp_span s <> 0) ->
  (exists s, In s (r :: l) /\ sp_parent s = 0) -> sp_parent (root_from r l) = 0.
Proof.
  revert r. induction l as [|s l IH]; intros r Hne (x & Hx & Hx0); cbn [root_from].
  - destruct Hx as [->|[]]. done.
  - apply IH.
    + intros y [<-|Hy]; [|apply Hne; by right; right]. destruct (_ || _); apply Hne; [by right; left|by left].
    + destruct (N.eqb_spec (sp_parent s) 0) as [E|Hs]; cbn.
      * exists s. split; [by left|done].
      * destruct Hx as [<-|[<-|Hx]]; [|done|exists x; split; [by right|done]].
        exists r. split; [|done]. left. rewrite Hx0. destruct (N.eqb_spec (sp_span s) 0) as [E|_]; [|done].
        exfalso. apply (Hne s); [by right; left|done].
Qed.

Lemma spans_of_span_inj L x y : In x (spans_of L) -> In y (spans_of L) -> sp_span x = sp_span y -> x = y.
Proof.
  intros Hx Hy E. pose proof (spans_of_nodup L) as Hnd.
  apply elem_of_list_In, elem_of_list_lookup in Hx as [i Hi]. apply elem_of_list_In, elem_of_list_lookup in Hy as [j Hj].
  assert (i = j) as ->; [|congruence].
  eapply (NoDup_lookup _ _ _ (sp_span x) Hnd); rewrite list_lookup_fmap; [by rewrite Hi|by rewrite Hj, E].
Qed.

Lemma nodes_trans n : forall t m, In m (nodes t) -> In n (nodes m) -> In n (nodes t).
Proof.
  induction t as [i a ts IH] using tree_ind'. intros m Hm Hn. rewrite nodes_unfold in Hm |- *.
  destruct Hm as [<-|Hm]; [by rewrite <- nodes_unfold|]. right.
  apply in_concat in Hm as (ns & Hns & Hin). apply in_map_iff in Hns as (x & <- & Hx).
  rewrite Forall_forall in IH. apply in_concat. exists (nodes x). split; [by apply in_map|].
  eapply IH; [by apply elem_of_list_In|exact Hin|done].
Qed.

Lemma child_in_nodes p c : In c (tr_subs p) -> In c (nodes p).
Proof.
  destruct p as [i a ts]. cbn [tr_subs]. intros Hc. rewrite nodes_unfold. right. apply in_concat. exists (nodes c).
  split; [by apply in_map|apply nodes_self].
Qed.

Lemma edge_nodes t p c : edge t p c -> In p (nodes t) /\ In c (nodes t).
Proof. intros [Hp Hc]. split; [done|]. eapply nodes_trans; [exact Hp|]. by apply child_in_nodes. Qed.

(** Every node but the root is somebody's child. *)
Lemma node_has_holder : forall t n, In n (nodes t) -> n = t \/ exists p, edge t p n.
Proof.
  induction t as [i a ts IH] using tree_ind'. intros n Hn. rewrite nodes_unfold in Hn.
  destruct Hn as [<-|Hn]; [by left|]. right.
  apply in_concat in Hn as (ns & Hns & Hin). apply in_map_iff in Hns as (x & <- & Hx).
  rewrite Forall_forall in IH. destruct (IH x (proj2 (elem_of_list_In _ _) Hx) n Hin) as [->|(p & Hp & Hc)].
  - exists (Tree i a ts). split; [apply nodes_self|done].
  - exists p. split; [|done]. rewrite nodes_unfold. right. apply in_concat. exists (nodes x). split; [by apply in_map|done].
Qed.

Lemma nodup_id_inj tr n m : List.NoDup (map tr_id (nodes tr)) -> In n (nodes tr) -> In m (nodes tr) ->
  tr_id n = tr_id m -> n = m.
Proof.
  intros Hnd Hn Hm E. apply NoDup_ListNoDup in Hnd.
  apply elem_of_list_In, elem_of_list_lookup in Hn as [i Hi]. apply elem_of_list_In, elem_of_list_lookup in Hm as [j Hj].
  assert (i = j) as ->; [|congruence].
  eapply (NoDup_lookup _ _ _ (tr_id n) Hnd); rewrite list_lookup_fmap; [by rewrite Hi|by rewrite Hj, E].
Qed.

(** A tree is not its own direct child. *)
Fixpoint tsize (t : tree) : nat :=
  S ((fix go (l : list tree) := match l with [] => O | x :: l => (tsize x + go l)%nat end) (tr_subs t)).

Lemma tsize_sub p c : In c (tr_subs p) -> (tsize c < tsize p)%nat.
Proof.
  destruct p as [i a ts]. cbn [tr_subs]. intros Hc. cbn [tsize tr_subs].
  induction ts as [|x ts IH]; [done|]. destruct Hc as [->|Hc]; [lia|]. specialize (IH Hc). lia.
Qed.

Lemma tsize_node n : forall t, In n (nodes t) -> (tsize n <= tsize t)%nat.
Proof.
  induction t as [i a ts IH] using tree_ind'. intros Hn. rewrite nodes_unfold in Hn.
  destruct Hn as [<-|Hn]; [done|]. apply in_concat in Hn as (ns & Hns & Hin). apply in_map_iff in Hns as (x & <- & Hx).
  rewrite Forall_forall in IH. specialize (IH x (proj2 (elem_of_list_In _ _) Hx) Hin).
  assert (tsize x < tsize (Tree i a ts))%nat by (by apply tsize_sub). lia.
Qed.

Lemma root_not_child tr p : ~ edge tr p tr.
Proof. intros [Hp Hc]. apply tsize_node in Hp. apply tsize_sub in Hc. lia. Qed.

Lemma complete_displays L root tr :
  complete (spans_of L) root -> displays L tr -> Permutation (map tr_id (nodes tr)) (spans_of L) ->
  tr_id tr = root /\
  forall p c, In p (nodes tr) -> In c (nodes tr) ->
    (edge tr p c <-> sp_parent (tr_id c) = sp_span (tr_id p)).
Proof.
  intros [[R1 R2] One Sp Par [rank Hrank]] [D1 D2 D3 D4 D5] Hperm.
  assert (tr_id tr = root) as Hroot.
  { destruct (spans_of L) as [|s l] eqn:E; [done|]. cbn in D1. injection D1 as D1.
    apply One; [rewrite <- D1; apply root_from_in|]. rewrite <- D1. apply root_from_parent0; [done|]. by exists root. }
  assert (forall p c, edge tr p c -> sp_parent (tr_id c) = sp_span (tr_id p)) as Hfw.
  { intros p c He. destruct (D5 p c He) as [?|[-> Hno]]; [done|]. destruct (edge_nodes _ _ _ He) as [_ Hc].
    exfalso. destruct (decide (tr_id c = root)) as [Ec|Hcr].
    - assert (c = tr) as -> by (eapply nodup_id_inj; [exact D2|done|apply nodes_self|congruence]).
      by apply (root_not_child tr tr).
    - destruct (Par _ (D3 c Hc) Hcr) as (q & Hq & E). apply Hno. eauto. }
  split; [done|]. intros p c Hp Hc. split; [apply Hfw|]. intros E.
  destruct (node_has_holder tr c Hc) as [->|(q & Hq)].
  - exfalso. rewrite Hroot, R2 in E. by apply (Sp _ (D3 p Hp)).
  - assert (q = p) as <-; [|done]. destruct (edge_nodes _ _ _ Hq) as [Hqn _].
    eapply nodup_id_inj; [exact D2|done|done|]. apply (spans_of_span_inj L); [by apply D3|by apply D3|].
    rewrite <- (Hfw _ _ Hq). done.
Qed.

Lemma order_independent calls st t root :
  ms_run calls ms_init = Some st -> complete (spans_of (live t calls [])) root ->
  exists tr, shows st t tr /\ tr_id tr = root /\
    Permutation (map tr_id (nodes tr)) (spans_of (live t calls [])) /\
    (forall n, In n (nodes tr) -> tr_anns n = anns_of (sp_span (tr_id n)) (live t calls [])) /\
    (forall p c, In p (nodes tr) -> In c (nodes tr) ->
       (edge tr p c <-> sp_parent (tr_id c) = sp_span (tr_id p))).
Proof.
  intros Hrun Hc. assert (live t calls [] <> []) as HL.
  { intros E. rewrite E in Hc. by destruct (co_root _ _ Hc). }
  destruct (trace_displayed calls st t Hrun HL) as (tr & Hs & Hd & _ & Hp).
  specialize (Hp (co_acyclic _ _ Hc)). destruct (complete_displays _ _ _ Hc Hd Hp) as [H1 H2].
  exists tr. split_and!; try done. apply (d_anns _ _ Hd).
Qed.

(** *** C12 *)
Lemma live_traces t calls acc : (forall x, In x acc -> sp_trace x.1 = t) ->
  forall x, In x (live t calls acc) -> sp_trace x.1 = t.
Proof.
  revert acc. induction calls as [|c calls IH]; intros acc Hacc; [done|].
  destruct c as [id a|ts]; cbn [live]; apply IH.
  - destruct (N.eqb_spec (sp_trace id) t) as [<-|]; [|done]. intros x Hx. apply in_app_iff in Hx as [Hx|[<-|[]]]; auto.
  - destruct (bool_decide _); [done|apply Hacc].
Qed.

Lemma first_ids_in seen l i : In i (first_ids seen l) -> exists a, In (i, a) l.
Proof.
  revert seen. induction l as [|[j a] l IH]; intros seen Hi; [done|]. cbn [first_ids] in Hi.
  destruct (bool_decide _).
  - apply IH in Hi as [b Hb]. exists b. by right.
  - destruct Hi as [<-|Hi]; [exists a; by left|]. apply IH in Hi as [b Hb]. exists b. by right.
Qed.

Lemma shown_annotations calls st t tr : ms_run calls ms_init = Some st -> shows st t tr ->
  (forall n, In n (nodes tr) ->
    tr_anns n = anns_of (sp_span (tr_id n)) (live t calls []) /\
    In (tr_id n) (spans_of (live t calls [])) /\ sp_trace (tr_id n) = t) /\
  List.NoDup (map (fun n => sp_span (tr_id n)) (nodes tr)).
Proof.
  intros Hrun Hs. destruct (trace_displayed_any calls st t tr Hrun Hs) as [[D1 D2 D3 D4 D5] _].
  split.
  - intros n Hn. split_and!; [by apply D4|by apply D3|].
    apply D3 in Hn. apply first_ids_in in Hn as [a Ha].
    eapply (live_traces t calls []) in Ha; [done|]. intros x [].
  - apply NoDup_ListNoDup. apply NoDup_ListNoDup in D2. rewrite <- (map_map tr_id sp_span). apply NoDup_fmap_2_strong; [|done].
    intros x y Hx Hy E. apply elem_of_list_In, in_map_iff in Hx as (n & <- & Hn).
    apply elem_of_list_In, in_map_iff in Hy as (m & <- & Hm).
    apply (spans_of_span_inj (live t calls [])); auto.
Qed.

(** *** C13, C17 *)
Lemma run_preserves ops st st' : ms_ok st -> ms_run ops st = Some st' -> ms_ok st'.
Proof.
  revert st. induction ops as [|c ops IH]; intros st Hok Hr; cbn in Hr; [congruence|].
  destruct (ms_step c st) as [st1|] eqn:E; [|done]. cbn in Hr. eapply IH; [|exact Hr].
  destruct c as [id a|ts]; cbn in E.
  - destruct (collect_ok st id a Hok) as (st2 & H2 & Hok2 & _). congruence.
  - injection E as <-. by apply delete_ok.
Qed.

Lemma ops_isolated calls ops st st' t :
  ms_run calls ms_init = Some st -> ms_run ops st = Some st' ->
  (forall c, In c ops -> ~ touches c t) ->
  ms_trace_of st' t = ms_trace_of st t /\ forall tr, shows st' t tr <-> shows st t tr.
Proof.
  intros Hrun. destruct (run_state calls st Hrun) as [Hok _]. clear Hrun.
  revert st Hok. induction ops as [|c ops IH]; intros st Hok Hr Hno; cbn in Hr.
  - injection Hr as <-. done.
  - destruct (ms_step c st) as [st1|] eqn:E; [|done]. cbn in Hr.
    destruct (step_isolated st st1 c t Hok E) as [H1 H2]; [apply Hno; by left|].
    assert (ms_ok st1) as Hok1. { eapply (run_preserves [c]); [exact Hok|]. cbn. by rewrite E. }
    destruct (IH st1 Hok1 Hr) as [H3 H4]; [intros; apply Hno; by right|].
    split; [congruence|]. intros tr. by rewrite H4.
Qed.

Lemma snapshot_stable calls ops st st' t l tr :
  ms_run calls ms_init = Some st -> ms_trace_of st t = Some l -> reads (ms_heap st) l tr ->
  ms_run ops st = Some st' -> (forall c, In c ops -> ~ collects c t) -> reads (ms_heap st') l tr.
Proof.
  intros Hrun Hl Hrd Hops Hno. destruct (run_state calls st Hrun) as [Hok _]. clear Hrun.
  unfold ms_trace_of in Hl.
  destruct (ms_span st !! t) as [M|] eqn:HM; [|apply (inv_none st Hok) in HM; congruence].
  destruct (inv_trace st Hok t M HM) as (r & Hr & Htok). assert (r = l) as -> by congruence.
  set (h := ms_heap st) in *.
  enough (forall x, inM M x -> ms_heap st' !! x = h !! x) as Hsame.
  { eapply (reads_frame h (ms_heap st') (inM M)); [done| |done|apply (root_in t h M l Htok)].
    intros x c Hx Hc. by eapply (inM_sub t h M l Htok x c Hx). }
  assert (forall x, inM M x -> ms_heap st !! x = h !! x) as Hstart by done. clearbody h. clear Hl Hr HM Hrd.
  revert st Hok Hops Hstart. induction ops as [|c ops IH]; intros st Hok Hops Hstart; cbn in Hops.
  - injection Hops as <-. done.
  - destruct (ms_step c st) as [st1|] eqn:E; [|done]. cbn in Hops.
    assert (ms_ok st1) as Hok1. { eapply (run_preserves [c]); [exact Hok|]. cbn. by rewrite E. }
    assert (forall c0, In c0 ops -> ~ collects c0 t) as Hno' by (intros; apply Hno; by right).
    apply (IH Hno' st1 Hok1 Hops).
    intros x Hx. rewrite <- Hstart by done. destruct c as [id a|ts]; cbn in E.
    + destruct (collect_ok st id a Hok) as (st2 & H2 & _ & Heff). assert (st2 = st1) as -> by congruence.
      destruct Hx as [k Hk]. destruct (ok_ids _ _ _ _ Htok _ _ Hk) as (i & Hi & Hit & _).
      eapply (ce_other_ids _ _ _ _ Heff).
      * unfold ids. rewrite Hstart by (by eexists). exact Hi.
      * specialize (Hno (CCollect id a) (or_introl eq_refl)). cbn in Hno. congruence.
    + injection E as <-. destruct (delete_lookup ts st 0) as (-> & _). done.
Qed.

(** *** C14 *)
Lemma delete_named calls st ts : ms_run calls ms_init = Some st ->
  (forall t, In t ts -> ms_trace_of (ms_delete ts st) t = None) /\
  (forall t, ~ In t ts -> ms_trace_of (ms_delete ts st) t = ms_trace_of st t /\
     forall tr, shows (ms_delete ts st) t tr <-> shows st t tr) /\
  (forall id a, In (sp_trace id) ts -> exists st', ms_collect id a (ms_delete ts st) = Some st' /\
     shows st' (sp_trace id) (Tree id a [])).
Proof.
  intros Hrun. split_and!.
  - intros t Ht. unfold ms_trace_of. destruct (delete_lookup ts st t) as (_ & _ & -> & _).
    by rewrite bool_decide_eq_true_2 by (by apply elem_of_list_In).
  - intros t Ht. apply (ops_isolated calls [CDelete ts] st); [done|done|]. by intros c [<-|[]].
  - intros id a Hid.
    assert (ms_run (calls ++ [CDelete ts]) ms_init = Some (ms_delete ts st)) as Hrun1.
    { rewrite ms_run_app, Hrun. done. }
    destruct (run_state _ _ Hrun1) as [Hok1 _].
    destruct (collect_ok _ id a Hok1) as (st' & Hst' & _ & _). exists st'. split; [done|].
    assert (ms_run ((calls ++ [CDelete ts]) ++ [CCollect id a]) ms_init = Some st') as Hrun2.
    { rewrite ms_run_app, Hrun1. cbn. by rewrite Hst'. }
    assert (live (sp_trace id) ((calls ++ [CDelete ts]) ++ [CCollect id a]) [] = [(id, a)]) as HL.
    { rewrite live_snoc, N.eqb_refl, live_snoc, bool_decide_eq_true_2 by (by apply elem_of_list_In). done. }
    destruct (trace_displayed _ _ (sp_trace id) Hrun2) as (tr & Hs & Hd & _); [by rewrite HL|].
    rewrite HL in Hd. destruct Hd as [D1 D2 D3 D4 D5].
    destruct tr as [i b ts']. cbn in D1. injection D1 as <-.
    specialize (D4 _ (nodes_self _)) as Hb. cbn in Hb. unfold anns_of in Hb. cbn in Hb.
    rewrite decide_True in Hb by done. cbn in Hb. rewrite app_nil_r in Hb. subst b.
    destruct ts' as [|c ts']; [done|]. exfalso. rewrite nodes_unfold in D2, D3. cbn [map concat] in D2, D3.
    assert (In c (nodes (Tree id a (c :: ts')))) as Hc by (apply child_in_nodes; by left).
    pose proof Hc as Hc2. rewrite nodes_unfold in Hc2. apply D3 in Hc2. cbn in Hc2. destruct Hc2 as [Hc2|[]].
    apply (root_not_child (Tree id a (c :: ts')) (Tree id a (c :: ts'))).
    assert (c = Tree id a (c :: ts')) as E.
    { eapply (nodup_id_inj (Tree id a (c :: ts'))); [|done|apply nodes_self|done]. rewrite nodes_unfold. exact D2. }
    split; [apply nodes_self|]. left. exact E.
Qed.

(** *** C15 *)
Lemma traces_listed calls st ids0 ts order : ms_run calls ms_init = Some st -> iteration_order st order ->
  List.NoDup order /\ (forall t, In t order <-> live t calls [] <> []) /\
  exists ls, ms_traces st ts ids0 order = Some ls /\
    Forall2 (fun t l => ms_trace_of st t = Some l /\ exists tr, reads (ms_heap st) l tr) order ls.
Proof.
  intros Hrun Hord. unfold iteration_order in Hord.
  assert (forall t, In t order <-> live t calls [] <> []) as Hin.
  { intros t. rewrite <- elem_of_list_In, Hord, elem_of_list_fmap.
    rewrite <- (found_iff calls st t Hrun). unfold ms_trace_of. split.
    - intros ([k l] & -> & Hk). apply elem_of_map_to_list in Hk. cbn. congruence.
    - intros Hne. destruct (ms_trace st !! t) as [l|] eqn:E; [|done].
      exists (t, l). split; [done|]. by apply elem_of_map_to_list. }
  split_and!; [|done|].
  - apply NoDup_ListNoDup. rewrite Hord. apply NoDup_fst_map_to_list.
  - assert (forall t, In t order -> exists l, ms_trace_of st t = Some l /\ exists tr, reads (ms_heap st) l tr) as Hall.
    { intros t Ht. apply Hin in Ht. destruct (trace_displayed calls st t Hrun Ht) as (tr & (l & Hl & Hr) & _). eauto. }
    clear Hord Hin. unfold ms_traces. induction order as [|t order IH].
    + by exists [].
    + destruct (Hall t) as (l & Hl & Hx); [by left|]. destruct IH as (ls & Hls & Hf); [intros; apply Hall; by right|].
      exists (l :: ls). split; [|by constructor]. cbn [mapM]. by rewrite Hl, Hls.
Qed.

(** *** Executable reading, for concrete witnesses *)
Fixpoint read_tree (fuel : nat) (h : gmap loc Node) (l : loc) : option tree :=
  match fuel with
  | O => None
  | S fuel => n ← h !! l; ts ← mapM (read_tree fuel h) (nd_sub n); Some (Tree (nd_id n) (nd_ann n) ts)
  end.

Lemma read_tree_sound fuel h l t : read_tree fuel h l = Some t -> reads h l t.
Proof.
  revert l t. induction fuel as [|fuel IH]; intros l t Ht; [done|]. cbn [read_tree] in Ht.
  destruct (h !! l) as [n|] eqn:Hn; [|done]. cbn [mbind option_bind] in Ht.
  destruct (mapM (read_tree fuel h) (nd_sub n)) as [ts|] eqn:Hts; [|done]. cbn in Ht. injection Ht as <-.
  apply Reads; [done|]. apply mapM_Some in Hts. eapply Forall2_impl; [exact Hts|]. intros. by apply IH.
Qed.

Lemma shown_by fuel st t tr : (l ← ms_trace_of st t; read_tree fuel (ms_heap st) l) = Some tr -> shows st t tr.
Proof.
  destruct (ms_trace_of st t) as [l|] eqn:E; [|done]. cbn. intros H. exists l. split; [done|]. by eapply read_tree_sound.
Qed.

(** The final state of a history; every history has one. *)
Definition final (calls : list call) : MS := default ms_init (ms_run calls ms_init).
Lemma final_run calls : ms_run calls ms_init = Some (final calls).
Proof. unfold final. destruct (run_ok calls) as (st & -> & _). done. Qed.

Lemma final_app calls ops : ms_run ops (final calls) = Some (final (calls ++ ops)).
Proof.
  pose proof (final_run (calls ++ ops)) as H. rewrite ms_run_app, final_run in H. done.
Qed.

(** Witness for C16. *)
Definition wit16 : list call := [CCollect (MkSpanID 1 1 0) []; CCollect (MkSpanID 2 1 0) []].
Lemma traces_ids_refuted : exists calls st order ls,
  ms_run calls ms_init = Some st /\ iteration_order st order /\
  ms_traces st (0%Z, 0%Z) [1] order = Some ls /\
  exists l tr, In l ls /\ reads (ms_heap st) l tr /\ sp_trace (tr_id tr) = 2.
Proof.
  exists wit16, (final wit16), (map_to_list (ms_trace (final wit16))).*1.
  exists (omap (ms_trace_of (final wit16)) (map_to_list (ms_trace (final wit16))).*1).
  split_and!; [apply final_run|unfold iteration_order; reflexivity|vm_compute; reflexivity|].
  exists 1, (Tree (MkSpanID 2 1 0) [] []). split_and!; [vm_compute; auto| |reflexivity].
  apply (read_tree_sound 5). vm_compute. reflexivity.
Qed.

(** Witness for C17. *)
Definition wit17 : list call := [CCollect (MkSpanID 1 1 0) []].
Lemma snapshot_refuted : exists calls c st st' l tr tr',
  ms_run calls ms_init = Some st /\ ms_step c st = Some st' /\ ms_trace_of st 1 = Some l /\
  reads (ms_heap st) l tr /\ reads (ms_heap st') l tr' /\ tr <> tr'.
Proof.
  exists wit17, (CCollect (MkSpanID 1 2 1) []), (final wit17), (final (wit17 ++ [CCollect (MkSpanID 1 2 1) []])).
  exists 0, (Tree (MkSpanID 1 1 0) [] []), (Tree (MkSpanID 1 1 0) [] [Tree (MkSpanID 1 2 1) [] []]).
  split_and!; [apply final_run|vm_compute; reflexivity|vm_compute; reflexivity| | |discriminate].
  - apply (read_tree_sound 5). vm_compute. reflexivity.
  - apply (read_tree_sound 5). vm_compute. reflexivity.
Qed.

(** Witness for C18: a self-parented span disappears. *)
Definition wit18 : list call :=
  [CCollect (MkSpanID 1 1 0) []; CCollect (MkSpanID 1 5 6) []; CCollect (MkSpanID 1 6 5) []].
Lemma span_lost_refuted : exists calls st tr,
  ms_run calls ms_init = Some st /\ shows st 1 tr /\
  In (MkSpanID 1 5 6) (spans_of (live 1 calls [])) /\
  ~ In (MkSpanID 1 5 6) (map tr_id (nodes tr)) /\
  In (MkSpanID 1 6 5) (spans_of (live 1 calls [])) /\
  ~ In (MkSpanID 1 6 5) (map tr_id (nodes tr)).
Proof.
  exists wit18, (final wit18), (Tree (MkSpanID 1 1 0) [] []).
  split_and!; [apply final_run|apply (shown_by 5); vm_compute; reflexivity|vm_compute; auto| |vm_compute; auto|].
  - cbn. intros [H|[]]. discriminate.
  - cbn. intros [H|[]]. discriminate.
Qed.

Lemma traces_superset calls st ids0 ts order :
  ms_run calls ms_init = Some st -> iteration_order st order ->
  exists ls, ms_traces st ts ids0 order = Some ls /\
    forall t l, In t ids0 -> ms_trace_of st t = Some l -> In l ls.
Proof.
  intros Hrun Hord. destruct (traces_listed calls st ids0 ts order Hrun Hord) as (_ & Hin & ls & Hls & Hf).
  exists ls. split; [done|]. intros t l _ Hl.
  assert (In t order) as Ht. { apply Hin. rewrite <- (found_iff calls st t Hrun). congruence. }
  apply elem_of_list_In, elem_of_list_lookup in Ht as [k Hk].
  destruct (Forall2_lookup_l _ _ _ _ _ Hf Hk) as (l' & Hl' & E & _).
  apply elem_of_list_In. assert (l' = l) as -> by congruence. by eapply elem_of_list_lookup_2.
Qed.
