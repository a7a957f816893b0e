(** Proofs about PersistModel.v. *)
From Verif Require Import Base MemModel MemSpec MemProofs MemProofs2 MemProofs3 MemProofs4 MemWeak PersistModel.
From Coq Require Import ZifyBool ZifyNat ZifyN.

Definition fresh (hn : gmap loc Node * loc) : Prop := forall l, is_Some (fst hn !! l) -> l < snd hn.

(** A heap grown by allocation. *)
Record grows (hn hn' : gmap loc Node * loc) : Prop := {
  gr_sub : fst hn ⊆ fst hn';
  gr_fresh : fresh hn';
  gr_next : snd hn <= snd hn';
  gr_closed : closed (fst hn) -> closed (fst hn')
}.

Lemma grows_refl hn : fresh hn -> grows hn hn.
Proof. intros H. split; [done|done|lia|done]. Qed.
Lemma grows_trans a b c : grows a b -> grows b c -> grows a c.
Proof. intros [A1 A2 A3 A4] [B1 B2 B3 B4]. split; [by etrans|done|lia|auto]. Qed.

Lemma reads_mono h h' l t : h ⊆ h' -> reads h l t -> reads h' l t.
Proof.
  intros Hsub. revert l t. apply (reads_ind' h (fun l t => reads h' l t)). intros l n ts Hl _ IH.
  apply Reads; [|done]. by eapply lookup_weaken.
Qed.

Definition alloc_list := fix go (ts : list tree) (hn : gmap loc Node * loc) : list loc * (gmap loc Node * loc) :=
  match ts with
  | [] => ([], hn)
  | t :: ts => let '(c, hn) := alloc t hn in let '(cs, hn) := go ts hn in (c :: cs, hn)
  end.
Lemma alloc_unfold i a ts hn : alloc (Tree i a ts) hn =
  let '(cs, hn) := alloc_list ts hn in (snd hn, (<[snd hn := MkNode i a cs]> (fst hn), snd hn + 1)).
Proof. reflexivity. Qed.

Lemma alloc_ok t : forall hn l hn', fresh hn -> alloc t hn = (l, hn') ->
  grows hn hn' /\ reads (fst hn') l t.
Proof.
  induction t as [i a ts IH] using tree_ind'. intros hn l hn' Hf Ha. rewrite alloc_unfold in Ha.
  assert (forall hn cs hn', fresh hn -> alloc_list ts hn = (cs, hn') ->
    grows hn hn' /\ Forall2 (reads (fst hn')) cs ts) as Hlist.
  { clear -IH. induction ts as [|t ts IH2]; intros hn cs hn' Hf Hl; cbn [alloc_list] in Hl.
    - injection Hl as <- <-. split; [by apply grows_refl|constructor].
    - destruct (alloc t hn) as [c hn1] eqn:E1. destruct (alloc_list ts hn1) as [cs1 hn2] eqn:E2. injection Hl as <- <-.
      apply Forall_cons in IH as [IHt IHts]. destruct (IHt hn c hn1 Hf E1) as [G1 R1].
      destruct (IH2 IHts hn1 cs1 hn2 (gr_fresh _ _ G1) E2) as [G2 R2]. split; [by eapply grows_trans|].
      constructor; [|done]. eapply reads_mono; [apply (gr_sub _ _ G2)|done]. }
  destruct (alloc_list ts hn) as [cs hn1] eqn:E. injection Ha as <- <-.
  destruct (Hlist hn cs hn1 Hf E) as [[G1 G2 G3 G4] R].
  assert (fst hn1 !! snd hn1 = None) as Hnew.
  { apply eq_None_not_Some. intros Hx. apply G2 in Hx. lia. }
  assert (fst hn1 ⊆ <[snd hn1:=MkNode i a cs]> (fst hn1)) as Hsub by (by apply insert_subseteq).
  split; [split|]; cbn [fst snd].
  - by etrans.
  - intros l [n Hn]. cbn [fst snd] in *. destruct (decide (l = snd hn1)) as [->|Hne]; [lia|].
    rewrite lookup_insert_ne in Hn by done. specialize (G2 l (mk_is_Some _ _ Hn)). lia.
  - lia.
  - intros Hcl l c Hc. unfold subs in Hc. destruct (decide (l = snd hn1)) as [->|Hne].
    + rewrite lookup_insert in Hc. cbn in Hc. apply elem_of_list_lookup in Hc as [k Hk].
      destruct (Forall2_lookup_l _ _ _ _ _ R Hk) as (t & _ & Hr). destruct Hr as [l n ts' Hl _].
      exists n. by eapply lookup_weaken.
    + rewrite lookup_insert_ne in Hc by done. destruct (G4 Hcl l c Hc) as [n Hn]. exists n. by eapply lookup_weaken.
  - apply (Reads _ _ (MkNode i a cs)); [by rewrite lookup_insert|]. cbn.
    eapply Forall2_impl; [exact R|]. intros. by eapply reads_mono.
Qed.

(** Two maps correspond. *)
Lemma option_Forall2_impl {A B} (R R' : A -> B -> Prop) o p :
  (forall a b, R a b -> R' a b) -> option_Forall2 R o p -> option_Forall2 R' o p.
Proof. intros H []; constructor; auto. Qed.

Lemma alloc_map_ok d hn m hn' : fresh hn -> alloc_map d hn = (m, hn') ->
  grows hn hn' /\ forall k, option_Forall2 (fun t l => reads (fst hn') l (gob_tree t)) (d !! k) (m !! k).
Proof.
  intros Hf. unfold alloc_map. revert m hn'.
  apply (map_fold_ind (fun r d => forall m hn', r = (m, hn') -> grows hn hn' /\
    forall k, option_Forall2 (fun t l => reads (fst hn') l (gob_tree t)) (d !! k) (m !! k))).
  - intros m hn' [= <- <-]. split; [by apply grows_refl|]. intros k. rewrite !lookup_empty. constructor.
  - intros k t d' [m0 hn0] Hk IH m hn'. destruct (IH m0 hn0 eq_refl) as [G0 R0].
    destruct (alloc (gob_tree t) hn0) as [l hn1] eqn:E. intros [= <- <-].
    destruct (alloc_ok _ _ _ _ (gr_fresh _ _ G0) E) as [G1 R1]. split; [by eapply grows_trans|].
    intros j. destruct (decide (j = k)) as [->|Hne].
    + rewrite !lookup_insert. by constructor.
    + rewrite !lookup_insert_ne by done. eapply option_Forall2_impl; [|apply R0].
      intros. eapply reads_mono; [apply (gr_sub _ _ G1)|done].
Qed.

Lemma alloc_map2_ok d hn m hn' : fresh hn -> alloc_map2 d hn = (m, hn') ->
  grows hn hn' /\ forall t, option_Forall2
    (fun D M => forall k, option_Forall2 (fun t l => reads (fst hn') l (gob_tree t)) (D !! k) (M !! k)) (d !! t) (m !! t).
Proof.
  intros Hf. unfold alloc_map2. revert m hn'.
  apply (map_fold_ind (fun r d => forall m hn', r = (m, hn') -> grows hn hn' /\
    forall t, option_Forall2
    (fun D M => forall k, option_Forall2 (fun t l => reads (fst hn') l (gob_tree t)) (D !! k) (M !! k)) (d !! t) (m !! t))).
  - intros m hn' [= <- <-]. split; [by apply grows_refl|]. intros k. rewrite !lookup_empty. constructor.
  - intros k dm d' [m0 hn0] Hk IH m hn'. destruct (IH m0 hn0 eq_refl) as [G0 R0].
    destruct (alloc_map dm hn0) as [l hn1] eqn:E. intros [= <- <-].
    destruct (alloc_map_ok _ _ _ _ (gr_fresh _ _ G0) E) as [G1 R1]. split; [by eapply grows_trans|].
    intros j. destruct (decide (j = k)) as [->|Hne].
    + rewrite !lookup_insert. by constructor.
    + rewrite !lookup_insert_ne by done. eapply option_Forall2_impl; [|apply R0].
      intros D M HR k'. eapply option_Forall2_impl; [|apply HR]. intros. eapply reads_mono; [apply (gr_sub _ _ G1)|done].
Qed.

Lemma read_from_ok d st st' n : (forall l, is_Some (ms_heap st !! l) -> l < ms_next st) ->
  ms_read_from d st = (st', n) ->
  grows (ms_heap st, ms_next st) (ms_heap st', ms_next st') /\
  (forall t, option_Forall2 (fun tr l => reads (ms_heap st') l (gob_tree tr)) (gd_trace d !! t) (ms_trace st' !! t)) /\
  (forall t, option_Forall2
    (fun D M => forall k, option_Forall2 (fun t l => reads (ms_heap st') l (gob_tree t)) (D !! k) (M !! k))
    (gd_span d !! t) (ms_span st' !! t)) /\
  n = size (ms_trace st').
Proof.
  intros Hf. unfold ms_read_from.
  destruct (alloc_map (gd_trace d) (ms_heap st, ms_next st)) as [tm hn1] eqn:E1.
  destruct (alloc_map2 (gd_span d) hn1) as [sm hn2] eqn:E2. intros [= <- <-].
  cbn [ms_heap ms_next ms_trace ms_span].
  destruct (alloc_map_ok _ (ms_heap st, ms_next st) _ _ Hf E1) as [G1 R1]. destruct (alloc_map2_ok _ _ _ _ (gr_fresh _ _ G1) E2) as [G2 R2].
  split_and!; [|..|done].
  - destruct hn2. by eapply grows_trans.
  - intros t. eapply option_Forall2_impl; [|apply R1]. intros. eapply reads_mono; [apply (gr_sub _ _ G2)|done].
  - exact R2.
Qed.

Lemma run_fresh calls st : ms_run calls ms_init = Some st -> forall l, is_Some (ms_heap st !! l) -> l < ms_next st.
Proof. intros H. destruct (run_state calls st H) as [Hok _]. apply (inv_fresh st Hok). Qed.

Lemma size_dom_eq {A B} (m1 : gmap N A) (m2 : gmap N B) : (forall k, is_Some (m1 !! k) <-> is_Some (m2 !! k)) -> size m1 = size m2.
Proof.
  intros H. assert (dom m1 = dom m2) as E by (apply set_eq; intros k; by rewrite !elem_of_dom).
  by rewrite <- !size_dom, E.
Qed.

Lemma option_Forall2_is_Some {A B} (R : A -> B -> Prop) o p : option_Forall2 R o p -> is_Some o <-> is_Some p.
Proof. intros []; split; intros []; eauto; done. Qed.

(** C19 *)
Lemma restored_same calls st calls0 st0 d st' n :
  ms_run calls ms_init = Some st -> ms_writes st d ->
  ms_run calls0 ms_init = Some st0 -> ms_read_from d st0 = (st', n) ->
  n = size (ms_trace st) /\
  (forall t, ms_trace_of st' t = None <-> ms_trace_of st t = None) /\
  (forall t tr', shows st' t tr' <-> exists tr, shows st t tr /\ tr' = gob_tree tr).
Proof.
  intros Hrun [Hw _] Hrun0 Hr. destruct (read_from_ok d st0 st' n (run_fresh _ _ Hrun0) Hr) as (_ & R & _ & ->).
  assert (forall t, is_Some (ms_trace st' !! t) <-> is_Some (ms_trace st !! t)) as Hdom.
  { intros t. rewrite <- (option_Forall2_is_Some _ _ _ (R t)). by rewrite <- (option_Forall2_is_Some _ _ _ (Hw t)). }
  split_and!.
  - by apply size_dom_eq.
  - intros t. unfold ms_trace_of. rewrite !eq_None_not_Some. by rewrite Hdom.
  - intros t tr'. unfold shows, ms_trace_of. specialize (R t). specialize (Hw t). split.
    + intros (l' & Hl' & Hr'). rewrite Hl' in R. inversion R as [a b HR E1 E2|]; subst. rewrite <- E1 in Hw.
      inversion Hw as [l x Hrd E3 E4|]; subst. exists a. split; [|by eapply reads_det]. eauto.
    + intros (tr & (l & Hl & Hrd) & ->). rewrite Hl in Hw. inversion Hw as [l0 a Ha E1 E2|]; subst.
      rewrite <- E2 in R. inversion R as [a0 l' HR E3 E4|]; subst. exists l'. split; [done|].
      by rewrite (reads_det _ _ _ Hrd _ Ha).
Qed.

Lemma map_choice {A B} (R : A -> B -> Prop) (m : gmap N A) :
  (forall k a, m !! k = Some a -> exists b, R a b) -> exists m' : gmap N B, forall k, option_Forall2 R (m !! k) (m' !! k).
Proof.
  induction m as [|k a m Hk IH] using map_ind; intros H.
  - exists ∅. intros k. rewrite !lookup_empty. constructor.
  - destruct (H k a) as [b Hb]; [by rewrite lookup_insert|]. destruct IH as [m' Hm'].
    { intros j x Hj. apply (H j). rewrite lookup_insert_ne; [done|]. congruence. }
    exists (<[k:=b]> m'). intros j. destruct (decide (j = k)) as [->|Hne].
    + rewrite !lookup_insert. by constructor.
    + rewrite !lookup_insert_ne by done. apply Hm'.
Qed.

Lemma write_ends calls st : ms_run calls ms_init = Some st ->
  (forall t, acyclic (spans_of (live t calls []))) -> exists d, ms_writes st d.
Proof.
  intros Hrun Hac. destruct (run_state calls st Hrun) as [Hok Habs].
  assert (forall t M, ms_span st !! t = Some M -> forall k l, M !! k = Some l -> exists tr, reads (ms_heap st) l tr) as Hall.
  { intros t M HM k l Hk. specialize (Habs t). unfold abs_trace in Habs. rewrite HM in Habs.
    destruct Habs as (_ & A2 & _ & (r & Hr & _)). destruct (Hac t) as [rank Hrank].
    destruct (inv_trace st Hok t M HM) as (r2 & Hr2 & Htok). assert (r2 = r) as -> by congruence.
    apply (reads_exists t _ M r Htok). apply (root_reaches t _ M r Htok rank); [|by eexists].
    assert (forall x i, inM M x -> ids (ms_heap st) x = Some i -> In i (spans_of (live t calls []))) as Hin.
    { intros x i Hx Hi. destruct (inM_id t _ M r Htok x Hx) as (i' & Hi' & HM'). assert (i' = i) as -> by congruence.
      apply A2. eauto. }
    intros c i p ip Hc Hi Hp Hip. apply Hrank; [by eapply Hin|eapply Hin; [by eexists|done]|].
    destruct (ok_ids _ _ _ _ Htok _ _ Hp) as (j & Hj & _ & ?). congruence. }
  destruct (map_choice (reads (ms_heap st)) (ms_trace st)) as [td Htd].
  { intros t l Hl. destruct (ms_span st !! t) as [M|] eqn:HM; [|apply (inv_none st Hok) in HM; congruence].
    destruct (inv_trace st Hok t M HM) as (r & Hr & Htok). assert (r = l) as -> by congruence.
    destruct (ok_root _ _ _ _ Htok) as [k Hk]. by eapply Hall. }
  destruct (map_choice (fun (S : gmap N loc) (D : gmap N tree) => forall k, option_Forall2 (reads (ms_heap st)) (S !! k) (D !! k)) (ms_span st)) as [sd Hsd].
  { intros t M HM. apply map_choice. intros k l Hk. by eapply Hall. }
  by exists (GD td sd).
Qed.

(** The walk never ends on a self-parented span. *)
Definition wit_cycle : list call := [CCollect (MkSpanID 1 1 0) []; CCollect (MkSpanID 1 5 5) []].
Lemma self_child_unreadable h l t : reads h l t -> l ∈ subs h l -> False.
Proof.
  intros Hr Hin. pose proof (reads_id h l t Hr) as (_ & _ & Hs). apply elem_of_list_lookup in Hin as [k Hk].
  destruct (Forall2_lookup_l _ _ _ _ _ Hs Hk) as (c & Hc & Hrc).
  assert (c = t) as -> by (by eapply reads_det).
  assert (tsize t < tsize t)%nat; [|lia]. apply tsize_sub. apply elem_of_list_In. by eapply elem_of_list_lookup_2.
Qed.
Lemma write_refuted : exists calls st, ms_run calls ms_init = Some st /\ ~ exists d, ms_writes st d.
Proof.
  exists wit_cycle, (final wit_cycle). split; [apply final_run|]. intros (d & _ & Hs).
  specialize (Hs 1).
  assert (exists S, ms_span (final wit_cycle) !! 1 = Some S /\ S !! 5 = Some 1) as (S & HS & H5).
  { eexists. split; vm_compute; reflexivity. }
  rewrite HS in Hs. inversion Hs as [a D HR E1 E2|]; subst. specialize (HR 5). rewrite H5 in HR.
  inversion HR as [l tr Hrd E3 E4|]; subst. apply (self_child_unreadable _ _ _ Hrd).
  assert (subs (ms_heap (final wit_cycle)) 1 = [1]) as -> by (vm_compute; reflexivity). set_solver.
Qed.

(** *** C20 *)
(** Executable Write, for witnesses. *)
Definition write_fuel (fuel : nat) (st : MS) : gob_data :=
  GD (omap (M:=gmap N) (read_tree fuel (ms_heap st)) (ms_trace st))
    (fmap (M:=gmap N) (omap (M:=gmap N) (read_tree fuel (ms_heap st))) (ms_span st)).

Definition wit20 : list call := [CCollect (MkSpanID 1 1 0) []].
Definition wit20c : call := CCollect (MkSpanID 1 2 1) [].
Lemma write_fuel_ok fuel st :
  (forall t l, ms_trace st !! t = Some l -> is_Some (read_tree fuel (ms_heap st) l)) ->
  (forall t S k l, ms_span st !! t = Some S -> S !! k = Some l -> is_Some (read_tree fuel (ms_heap st) l)) ->
  ms_writes st (write_fuel fuel st).
Proof.
  intros H1 H2. split; cbn [write_fuel gd_trace gd_span].
  - intros t. rewrite lookup_omap. destruct (ms_trace st !! t) as [l|] eqn:E; [|constructor]. cbn.
    destruct (H1 t l E) as [tr Htr]. rewrite Htr. constructor. by eapply read_tree_sound.
  - intros t. rewrite lookup_fmap. destruct (ms_span st !! t) as [S|] eqn:E; [|constructor]. cbn. constructor.
    intros k. rewrite lookup_omap. destruct (S !! k) as [l|] eqn:E'; [|constructor]. cbn.
    destruct (H2 t S k l E E') as [tr Htr]. rewrite Htr. constructor. by eapply read_tree_sound.
Qed.

Lemma wit20_writes : ms_writes (final wit20) (write_fuel 3 (final wit20)).
Proof.
  apply write_fuel_ok.
  - intros t l Ht. assert (ms_trace (final wit20) = {[1 := 0]}) as E by (vm_compute; reflexivity).
    rewrite E in Ht. apply lookup_singleton_Some in Ht as [<- <-]. eexists. vm_compute. reflexivity.
  - intros t S k l HS Hk. assert (ms_span (final wit20) = <[1 := <[1 := 0]> ∅]> (<[1 := ∅]> ∅)) as E by reflexivity.
    rewrite insert_insert in E. rewrite E in HS. apply lookup_singleton_Some in HS as [<- <-]. apply lookup_singleton_Some in Hk as [<- <-].
    eexists. vm_compute. reflexivity.
Qed.

Definition wit20_restored : MS := fst (ms_read_from (write_fuel 3 (final wit20)) ms_init).
Lemma collect_restored_refuted : exists calls st d st1 n c st2 st2' tr tr',
  ms_run calls ms_init = Some st /\ ms_writes st d /\ ms_read_from d ms_init = (st1, n) /\
  ms_step c st = Some st2 /\ ms_step c st1 = Some st2' /\
  shows st2 1 tr /\ shows st2' 1 tr' /\
  In (MkSpanID 1 2 1) (map tr_id (nodes tr)) /\ ~ In (MkSpanID 1 2 1) (map tr_id (nodes tr')).
Proof.
  exists wit20, (final wit20), (write_fuel 3 (final wit20)), wit20_restored, 1%nat, wit20c.
  exists (final (wit20 ++ [wit20c])), (default ms_init (ms_step wit20c wit20_restored)).
  exists (Tree (MkSpanID 1 1 0) [] [Tree (MkSpanID 1 2 1) [] []]), (Tree (MkSpanID 1 1 0) [] []).
  split_and!.
  - apply final_run.
  - apply wit20_writes.
  - vm_compute. reflexivity.
  - vm_compute. reflexivity.
  - vm_compute. reflexivity.
  - apply (shown_by 5). vm_compute. reflexivity.
  - apply (shown_by 5). vm_compute. reflexivity.
  - cbn. auto.
  - cbn. intros [H|[]]. discriminate.
Qed.

(** The restored store is weakly correct. *)
Lemma restored_weak calls st calls0 st0 d st' n :
  ms_run calls ms_init = Some st -> ms_writes st d ->
  ms_run calls0 ms_init = Some st0 -> ms_read_from d st0 = (st', n) -> weak_ok st'.
Proof.
  intros Hrun [Hw1 Hw2] Hrun0 Hr.
  destruct (run_weak calls ms_init weak_init) as (st_ & Hst_ & Hw). assert (st_ = st) as -> by congruence.
  destruct (run_weak calls0 ms_init weak_init) as (st0_ & Hst0_ & Hw0). assert (st0_ = st0) as -> by congruence.
  destruct (read_from_ok d st0 st' n (w_fresh _ Hw0) Hr) as (G & R1 & R2 & _).
  assert (forall t, tr_id (gob_tree t) = tr_id t) as Hg by (by intros []).
  assert (forall l x tr, reads (ms_heap st) l tr -> reads (ms_heap st') x (gob_tree tr) -> ids (ms_heap st') x = ids (ms_heap st) l) as Hid.
  { intros l x tr H1 H2. apply reads_id in H1 as [-> _]. apply reads_id in H2 as [-> _]. by rewrite Hg. }
  split.
  - apply (gr_fresh _ _ G).
  - apply (gr_closed _ _ G), (w_closed _ Hw0).
  - intros t S k l HS Hk. specialize (R2 t). rewrite HS in R2. inversion R2 as [D M HR E1 E2|]; subst.
    specialize (Hw2 t). rewrite <- E1 in Hw2. inversion Hw2 as [S0 D0 HR0 E3 E4|]; subst.
    specialize (HR k). rewrite Hk in HR. inversion HR as [tr l0 Hrd E5 E6|]; subst.
    specialize (HR0 k). rewrite <- E5 in HR0. inversion HR0 as [l1 tr0 Hrd0 E7 E8|]; subst.
    rewrite (Hid _ _ _ Hrd0 Hrd). by eapply (w_span _ Hw).
  - intros t r HS. specialize (R1 t). rewrite HS in R1. inversion R1 as [tr l HR E1 E2|]; subst.
    specialize (Hw1 t). rewrite <- E1 in Hw1. inversion Hw1 as [l0 tr0 HR0 E3 E4|]; subst.
    rewrite (Hid _ _ _ HR0 HR). by eapply (w_root _ Hw).
Qed.

(** Collect on a trace outside B commutes with forgetting the traces in B. *)
Lemma ms_insert_ext (sp sp' : gmap N (gmap N loc)) root x h i : ids h x = Some i -> sp !! sp_trace i = sp' !! sp_trace i ->
  ms_insert sp root x h = ms_insert sp' root x h.
Proof. intros Hi E. unfold ms_insert. destruct (ids_lookup _ _ _ Hi) as (n & -> & <-). cbn [mbind option_bind]. by rewrite E. Qed.

Lemma ms_delete_fields B st : ms_delete B st = MkMS (ms_heap st) (ms_next st)
  (filter (fun kv => kv.1 ∉ B) (ms_trace st)) (filter (fun kv => kv.1 ∉ B) (ms_span st)).
Proof.
  destruct (delete_lookup B st 0) as (Hh & Hn & _).
  destruct (ms_delete B st) as [h n tr sp] eqn:E. cbn in Hh, Hn. subst h n. f_equal.
  - apply map_eq. intros t. destruct (delete_lookup B st t) as (_ & _ & Ht & _). rewrite E in Ht. cbn in Ht. rewrite Ht.
    destruct (bool_decide (t ∈ B)) eqn:Eb.
    + apply bool_decide_eq_true in Eb. symmetry. apply map_filter_lookup_None. right. intros x _ Hx. by apply Hx.
    + apply bool_decide_eq_false in Eb. destruct (ms_trace st !! t) as [x|] eqn:Ex; symmetry.
      * by apply map_filter_lookup_Some.
      * apply map_filter_lookup_None. by left.
  - apply map_eq. intros t. destruct (delete_lookup B st t) as (_ & _ & _ & Ht). rewrite E in Ht. cbn in Ht. rewrite Ht.
    destruct (bool_decide (t ∈ B)) eqn:Eb.
    + apply bool_decide_eq_true in Eb. symmetry. apply map_filter_lookup_None. right. intros x _ Hx. by apply Hx.
    + apply bool_decide_eq_false in Eb. destruct (ms_span st !! t) as [x|] eqn:Ex; symmetry.
      * by apply map_filter_lookup_Some.
      * apply map_filter_lookup_None. by left.
Qed.

Lemma collect_commutes B st st' id as_ : weak_ok st -> sp_trace id ∉ B -> ms_collect id as_ st = Some st' ->
  ms_collect id as_ (ms_delete B st) = Some (ms_delete B st').
Proof.
  intros Hw HB. rewrite !ms_delete_fields. destruct Hw as [Wf Wc Ws Wr].
  set (t := sp_trace id) in *.
  assert (forall A (m : gmap N A), filter (fun kv => kv.1 ∉ B) m !! t = m !! t) as HF.
  { intros A m. destruct (m !! t) as [x|] eqn:E.
    - by apply map_filter_lookup_Some.
    - apply map_filter_lookup_None. by left. }
  assert (forall A (m : gmap N A) x, filter (fun kv => kv.1 ∉ B) (<[t:=x]> m) = <[t:=x]> (filter (fun kv => kv.1 ∉ B) m)) as HI.
  { intros A m x. by rewrite map_filter_insert_True. }
  unfold ms_collect. cbn [ms_heap ms_next ms_trace ms_span]. fold t. rewrite !HF.
  set (spans0 := match ms_span st !! t with Some _ => ms_span st | None => <[t:=∅]> (ms_span st) end).
  assert ((match ms_span st !! t with Some _ => filter (fun kv => kv.1 ∉ B) (ms_span st)
     | None => <[t:=∅]> (filter (fun kv => kv.1 ∉ B) (ms_span st)) end) = filter (fun kv => kv.1 ∉ B) spans0) as ->.
  { unfold spans0. destruct (ms_span st !! t); [done|by rewrite HI]. }
  rewrite HF. destruct (spans0 !! t) as [S0|] eqn:HS0; [|done]. cbn [mbind option_bind].
  destruct (S0 !! sp_span id) as [s|] eqn:Hs.
  - destruct (ms_heap st !! s) as [n|]; [|done]. cbn [mbind option_bind]. intros [= <-]. reflexivity.
  - set (s := ms_next st). set (h0 := <[s:=MkNode id as_ []]> (ms_heap st)).
    assert (ms_heap st !! s = None) as Hfresh.
    { apply eq_None_not_Some. intros Hx. apply Wf in Hx. unfold s in Hx. lia. }
    assert (ids h0 s = Some id) as Hids by (unfold h0; by rewrite ids_insert, decide_True).
    set (root := match ms_trace st !! t with Some r => r | None => s end).
    assert (exists ir, ids h0 root = Some ir /\ sp_trace ir = t) as (ir & Hir & Hirt).
    { unfold root. destruct (ms_trace st !! t) as [r|] eqn:E; [|eauto].
      destruct (Wr t r E) as (i & Hi & Hit). exists i. split; [|done]. unfold h0.
      rewrite ids_insert, decide_False; [done|]. intros ->. unfold ids in Hi. by rewrite Hfresh in Hi. }
    assert (closed h0) as Hcl0.
    { intros l c Hc. unfold h0, subs in Hc. destruct (decide (l = s)) as [->|Hne].
      - rewrite lookup_insert in Hc. by apply elem_of_nil in Hc.
      - rewrite lookup_insert_ne in Hc by done. assert (is_Some (ms_heap st !! c)) as Hx by (by eapply Wc).
        unfold h0. destruct (decide (c = s)) as [->|]; [rewrite lookup_insert; eauto|by rewrite lookup_insert_ne]. }
    set (tr := match ms_trace st !! t with Some _ => ms_trace st | None => <[t:=s]> (ms_trace st) end).
    assert ((match ms_trace st !! t with Some _ => filter (fun kv => kv.1 ∉ B) (ms_trace st)
     | None => <[t:=s]> (filter (fun kv => kv.1 ∉ B) (ms_trace st)) end) = filter (fun kv => kv.1 ∉ B) tr) as ->.
    { unfold tr. destruct (ms_trace st !! t); [done|by rewrite HI]. }
    rewrite <- HI. set (spans := <[t:=<[sp_span id:=s]> S0]> spans0).
    destruct (ids_lookup _ _ _ Hir) as (rn & Hrn & Hrnid). rewrite Hrn. cbn [mbind option_bind].
    destruct (negb (s =? root) && ((sp_parent id =? 0) || (sp_parent (nd_id rn) =? sp_span id))) eqn:Hcond.
    + apply andb_true_iff in Hcond as [Hsr _]. destruct (N.eqb_spec s root) as [|Hsr']; [done|].
      destruct (reattach_ext t s root h0 id ir Hcl0 Hsr' Hids eq_refl Hir Hirt) as (h1 & -> & E1). cbn [mbind option_bind].
      rewrite (ms_insert_ext (filter (fun kv => kv.1 ∉ B) spans) spans s root h1 ir);
        [|by rewrite (ext_ids _ _ _ E1)|rewrite Hirt; apply HF].
      destruct (ms_insert spans s root h1) as [h2|]; [|done]. cbn [mbind option_bind].
      destruct (move_temp_children s root h2) as [h3|]; [|done]. cbn [mbind option_bind].
      rewrite N.eqb_refl. cbn [negb]. rewrite andb_false_r. cbn [mbind option_bind]. intros [= <-].
      cbn [ms_heap ms_next ms_trace ms_span]. by rewrite HI.
    + cbn [mbind option_bind].
      rewrite (ms_insert_ext (filter (fun kv => kv.1 ∉ B) spans) spans root s h0 id Hids (HF _ _)).
      destruct (if negb (sp_parent id =? 0) && negb (s =? root) then ms_insert spans root s h0 else Some h0) as [h1|]; [|done].
      cbn [mbind option_bind].
      destruct (if negb (s =? root) then reattach_children s root h1 else Some h1) as [h2|]; [|done].
      cbn [mbind option_bind]. intros [= <-]. reflexivity.
Qed.

(** Changes confined to nodes of other traces. *)
Lemma ok_frame st st' :
  ms_ok st -> ms_trace st' = ms_trace st -> ms_span st' = ms_span st ->
  (forall l, is_Some (ms_heap st' !! l) -> l < ms_next st') ->
  (forall t S k l, ms_span st !! t = Some S -> S !! k = Some l -> ms_heap st' !! l = ms_heap st !! l) ->
  ms_ok st' /\ forall t L, abs_trace st t L -> abs_trace st' t L.
Proof.
  intros Hok Htr Hsp Hf Hsame. split.
  - split.
    + done.
    + intros t. rewrite Htr, Hsp. apply (inv_none st Hok).
    + intros t S. rewrite Htr, Hsp. intros HS. destruct (inv_trace st Hok t S HS) as (r & Hr & Htok).
      exists r. split; [done|]. eapply trace_ok_frame; [|done]. intros k l Hk. by eapply Hsame.
  - intros t L. unfold abs_trace. rewrite Hsp. destruct (ms_span st !! t) as [S|] eqn:HS; [|done].
    intros (A1 & A2 & A3 & A4).
    assert (forall k l, S !! k = Some l -> ms_heap st' !! l = ms_heap st !! l) as Hh by (intros; by eapply Hsame).
    split_and!; [done|..].
    + intros i. rewrite A2. split; intros (l & Hl & Hi); exists l; (split; [done|]);
        unfold ids in *; specialize (Hh _ _ Hl); congruence.
    + intros s l Hl. unfold anns. rewrite (Hh _ _ Hl). apply (A3 _ _ Hl).
    + destruct A4 as (r & Hr & Hroot). exists r. rewrite Htr. split; [done|].
      destruct (inv_trace st Hok t S HS) as (r2 & Hr2 & Htok). assert (r2 = r) as -> by congruence.
      destruct (ok_root _ _ _ _ Htok) as [kr Hkr]. unfold ids. rewrite (Hh _ _ Hkr). exact Hroot.
Qed.

(** Invariant of a store some of whose traces (B) came from ReadFrom and were not deleted since. *)
Definition mixed_ok (B : list N) (st : MS) (ops : list call) : Prop :=
  weak_ok st /\ ms_ok (ms_delete B st) /\
  forall t, abs_trace (ms_delete B st) t (if bool_decide (t ∈ B) then [] else live t ops []).

Lemma mixed_step B st ops c : mixed_ok B st ops ->
  exists st' B', ms_step c st = Some st' /\ mixed_ok B' st' (ops ++ [c]) /\
    (forall t, t ∈ B' <-> t ∈ B /\ ~ match c with CDelete ts => In t ts | _ => False end).
Proof.
  intros (Hw & Hok & Habs). destruct c as [id a|ts]; cbn [ms_step].
  - destruct (collect_weak st id a Hw) as (st' & Hst' & Hw' & He). exists st', B. split; [done|].
    split; [|intros t; tauto]. destruct (decide (sp_trace id ∈ B)) as [HB|HB].
    + destruct (ok_frame (ms_delete B st) (ms_delete B st') Hok) as [Hok' Habs'].
      * rewrite !ms_delete_fields. cbn. apply map_filter_ext_1 || idtac.
        apply map_eq. intros t. destruct (delete_lookup B st t) as (_ & _ & H1 & _).
        destruct (delete_lookup B st' t) as (_ & _ & H2 & _). rewrite ms_delete_fields in H1, H2. cbn in H1, H2.
        rewrite H1, H2. destruct (bool_decide (t ∈ B)) eqn:E; [done|]. apply bool_decide_eq_false in E.
        apply (we_trace _ _ _ He). intros ->. done.
      * apply map_eq. intros t. destruct (delete_lookup B st t) as (_ & _ & _ & H1).
        destruct (delete_lookup B st' t) as (_ & _ & _ & H2).
        rewrite H1, H2. destruct (bool_decide (t ∈ B)) eqn:E; [done|]. apply bool_decide_eq_false in E.
        apply (we_span _ _ _ He). intros ->. done.
      * rewrite ms_delete_fields. cbn. apply (w_fresh _ Hw').
      * intros t S k l HS Hk. destruct (inv_trace _ Hok t S HS) as (r & _ & Htok).
        destruct (ok_ids _ _ _ _ Htok _ _ Hk) as (i & Hi & Hit & _).
        rewrite ms_delete_fields in Hi. cbn in Hi. rewrite !ms_delete_fields. cbn.
        eapply (we_nodes _ _ _ He); [exact Hi|]. intros E.
        destruct (delete_lookup B st t) as (_ & _ & _ & H1). rewrite HS in H1. destruct (bool_decide (t ∈ B)) eqn:Eb; [done|].
        apply bool_decide_eq_false in Eb. apply Eb. congruence.
      * split_and!; [done|done|]. intros t. specialize (Habs t). apply Habs' in Habs.
        destruct (bool_decide (t ∈ B)) eqn:E; [done|]. apply bool_decide_eq_false in E.
        rewrite live_snoc. replace (sp_trace id =? t) with false; [done|]. destruct (N.eqb_spec (sp_trace id) t); congruence.
    + pose proof (collect_commutes B st st' id a Hw HB Hst') as Hc.
      destruct (collect_ok (ms_delete B st) id a Hok) as (st2 & Hst2 & Hok2 & He2).
      assert (st2 = ms_delete B st') as -> by congruence.
      split_and!; [done|done|]. intros t.
      pose proof (collect_abs _ _ id a _ Hok Hok2 He2 Habs t) as Ha. cbn beta in Ha.
      rewrite live_snoc. destruct (decide (t = sp_trace id)) as [->|Hne].
      * rewrite N.eqb_refl in Ha |- *. rewrite bool_decide_eq_false_2 in Ha |- * by done. exact Ha.
      * replace (sp_trace id =? t) with false in Ha |- * by lia. exact Ha.
  - exists (ms_delete ts st), (filter (fun t => t ∉ ts) B). split; [done|].
    assert (ms_delete (filter (fun t => t ∉ ts) B) (ms_delete ts st) = ms_delete ts (ms_delete B st)) as E.
    { assert (forall t, (t ∈ ts \/ t ∈ filter (fun t => t ∉ ts) B) <-> (t ∈ ts \/ t ∈ B)) as Hiff.
      { intros t. rewrite elem_of_list_filter. destruct (decide (t ∈ ts)); tauto. }
      rewrite (ms_delete_fields _ (ms_delete ts st)), (ms_delete_fields ts (ms_delete B st)).
      rewrite !(ms_delete_fields _ st). cbn [ms_heap ms_next ms_trace ms_span].
      rewrite !map_filter_filter. f_equal; apply map_filter_ext; intros k x _; cbn;
        rewrite elem_of_list_filter; destruct (decide (k ∈ ts)); tauto. }
    split.
    + split_and!; [by apply delete_weak|rewrite E; by apply delete_ok|].
      intros t. rewrite E. pose proof (delete_abs (ms_delete B st) ts _ Habs t) as Ha. cbn beta in Ha.
      rewrite live_snoc. destruct (bool_decide (t ∈ ts)) eqn:Et.
      * by destruct (bool_decide (t ∈ filter _ B)).
      * apply bool_decide_eq_false in Et. replace (bool_decide (t ∈ filter (fun t => t ∉ ts) B)) with (bool_decide (t ∈ B)); [done|].
        apply bool_decide_ext. rewrite elem_of_list_filter. tauto.
    + intros t. rewrite elem_of_list_filter, elem_of_list_In. tauto.
Qed.

(** The call deletes trace t. *)
Definition deletes (c : call) (t : N) : Prop := match c with CDelete ts => In t ts | _ => False end.

Lemma mixed_run B st0 ops : mixed_ok B st0 [] ->
  exists st' B', ms_run ops st0 = Some st' /\ mixed_ok B' st' ops /\
    (forall t, t ∈ B' <-> t ∈ B /\ forall c, In c ops -> ~ deletes c t).
Proof.
  intros H0. induction ops as [|c ops IH] using rev_ind.
  - exists st0, B. split_and!; [done|done|]. intros t. split; [|tauto]. intros Ht. split; [done|]. by intros c [].
  - destruct IH as (st1 & B1 & Hr & Hm & HB). destruct (mixed_step B1 st1 ops c Hm) as (st2 & B2 & Hs & Hm2 & HB2).
    exists st2, B2. split_and!; [|done|].
    + rewrite ms_run_app, Hr. cbn. by rewrite Hs.
    + intros t. rewrite HB2, HB. split.
      * intros [[H1 H2] H3]. split; [done|]. intros c' Hc'. apply in_app_iff in Hc' as [Hc'|[<-|[]]]; [by apply H2|].
        destruct c; done.
      * intros [H1 H2]. split; [split; [done|]|].
        -- intros c' Hc'. apply H2. apply in_app_iff. by left.
        -- specialize (H2 c). destruct c; [tauto|]. apply H2. apply in_app_iff. right. by left.
Qed.

Lemma restored_mixed calls st calls0 st0 d st' n :
  ms_run calls ms_init = Some st -> ms_writes st d ->
  ms_run calls0 ms_init = Some st0 -> ms_read_from d st0 = (st', n) ->
  exists B, mixed_ok B st' [] /\ forall t, t ∈ B <-> ms_trace_of st t <> None.
Proof.
  intros Hrun Hw Hrun0 Hr. pose proof (restored_weak _ _ _ _ _ _ _ Hrun Hw Hrun0 Hr) as Hwk.
  destruct (run_state calls st Hrun) as [Hok _].
  destruct Hw as [Hw1 Hw2].
  destruct (read_from_ok d st0 st' n (run_fresh _ _ Hrun0) Hr) as (_ & R1 & R2 & _).
  exists (map_to_list (ms_trace st)).*1.
  assert (forall t, t ∈ (map_to_list (ms_trace st)).*1 <-> ms_trace_of st t <> None) as HB.
  { intros t. rewrite elem_of_list_fmap. unfold ms_trace_of. split.
    - intros ([k l] & -> & Hk). apply elem_of_map_to_list in Hk. cbn. congruence.
    - intros Hne. destruct (ms_trace st !! t) as [l|] eqn:E; [|done].
      exists (t, l). split; [done|]. by apply elem_of_map_to_list. }
  set (B := (map_to_list (ms_trace st)).*1) in *.
  assert (ms_delete B st' = MkMS (ms_heap st') (ms_next st') ∅ ∅) as E.
  { rewrite ms_delete_fields. f_equal.
    - apply map_eq. intros t. rewrite lookup_empty. apply map_filter_lookup_None.
      destruct (ms_trace st' !! t) as [l|] eqn:El; [|by left]. right. intros x _ Hx. apply Hx. cbn. apply HB.
      specialize (R1 t). rewrite El in R1. inversion R1 as [tr l0 _ E1 E2|]; subst. specialize (Hw1 t).
      rewrite <- E1 in Hw1. inversion Hw1 as [l1 tr1 _ E3 E4|]; subst. unfold ms_trace_of. congruence.
    - apply map_eq. intros t. rewrite lookup_empty. apply map_filter_lookup_None.
      destruct (ms_span st' !! t) as [l|] eqn:El; [|by left]. right. intros x _ Hx. apply Hx. cbn. apply HB.
      specialize (R2 t). rewrite El in R2. inversion R2 as [tr l0 _ E1 E2|]; subst. specialize (Hw2 t).
      rewrite <- E1 in Hw2. inversion Hw2 as [l1 tr1 _ E3 E4|]; subst. unfold ms_trace_of.
      destruct (inv_trace st Hok t l1) as (r & Hr' & _); [done|]. congruence. }
  split; [|done]. split; [done|]. rewrite E. split.
  - split; cbn [ms_heap ms_next ms_trace ms_span].
    + apply (w_fresh _ Hwk).
    + intros t _. apply lookup_empty.
    + intros t S HS. by apply lookup_empty_Some in HS.
  - intros t. unfold abs_trace. cbn [ms_span]. rewrite lookup_empty. by destruct (bool_decide _).
Qed.

(** C20, what holds: no Collect on a restored store panics, and every trace that was not in the
    restored data, or was deleted since, is shown as in an ordinary store. *)
Lemma restored_other_traces calls st calls0 st0 d st1 n ops :
  ms_run calls ms_init = Some st -> ms_writes st d ->
  ms_run calls0 ms_init = Some st0 -> ms_read_from d st0 = (st1, n) ->
  exists st2, ms_run ops st1 = Some st2 /\
  forall t, (ms_trace_of st t = None \/ exists c, In c ops /\ deletes c t) ->
    (live t ops [] = [] -> ms_trace_of st2 t = None) /\
    (live t ops [] <> [] -> exists tr, shows st2 t tr /\ displays (live t ops []) tr /\
      (forall i, In i (map tr_id (nodes tr)) <-> anchored (spans_of (live t ops [])) (tr_id tr) i)).
Proof.
  intros Hrun Hw Hrun0 Hr. destruct (restored_mixed _ _ _ _ _ _ _ Hrun Hw Hrun0 Hr) as (B & HB & HBiff).
  destruct (mixed_run B st1 ops HB) as (st2 & B2 & Hr2 & (Hwk & Hok & Habs) & HB2).
  exists st2. split; [done|]. intros t Ht.
  assert (t ∉ B2) as Hn.
  { rewrite HB2, HBiff. intros [H1 H2]. destruct Ht as [|(c & Hc & Hd)]; [done|]. by apply (H2 c). }
  specialize (Habs t). rewrite bool_decide_eq_false_2 in Habs by done.
  assert (ms_trace (ms_delete B2 st2) !! t = ms_trace st2 !! t) as Etr.
  { destruct (delete_lookup B2 st2 t) as (_ & _ & -> & _). by rewrite bool_decide_eq_false_2. }
  assert (ms_heap (ms_delete B2 st2) = ms_heap st2) as Eh by apply (delete_lookup B2 st2 t).
  split.
  - intros E. rewrite E in Habs. unfold ms_trace_of. rewrite <- Etr.
    apply (inv_none _ Hok). unfold abs_trace in Habs. destruct (ms_span (ms_delete B2 st2) !! t); [|done].
    by destruct Habs.
  - intros Hne. destruct (displays_of_abs (ms_delete B2 st2) t _ Hok Habs Hne) as (tr & (l & Hl & Hrd) & Hd & Ha & _).
    exists tr. split_and!; [|done|done]. exists l. unfold ms_trace_of in *. rewrite <- Etr, <- Eh. done.
Qed.
