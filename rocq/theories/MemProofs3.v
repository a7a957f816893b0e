(** Proofs about MemModel.v: the trees a reader sees. *)
From Verif Require Import Base MemModel MemSpec MemProofs MemProofs2.
From Coq Require Import ZifyBool ZifyNat ZifyN.

Lemma nodes_unfold i a ts : nodes (Tree i a ts) = Tree i a ts :: concat (map nodes ts).
Proof.
  cbn [nodes tr_subs]. f_equal. induction ts as [|t ts IH]; [done|]. cbn [map concat]. by rewrite <- IH.
Qed.

Lemma nodes_self t : In t (nodes t).
Proof. destruct t. rewrite nodes_unfold. by left. Qed.

Definition reads_ind' (h : gmap loc Node) (P : loc -> tree -> Prop)
  (H : forall l n ts, h !! l = Some n -> Forall2 (reads h) (nd_sub n) ts -> Forall2 P (nd_sub n) ts ->
       P l (Tree (nd_id n) (nd_ann n) ts)) : forall l t, reads h l t -> P l t :=
  fix F l t (r : reads h l t) : P l t :=
    match r in reads _ l t return P l t with
    | Reads _ l n ts Hl Hs =>
        H l n ts Hl Hs ((fix G cs ts (f : Forall2 (reads h) cs ts) : Forall2 P cs ts :=
           match f in Forall2 _ cs ts return Forall2 P cs ts with
           | @List.Forall2_nil _ _ _ => @List.Forall2_nil _ _ P
           | @List.Forall2_cons _ _ _ c t cs ts r f => @List.Forall2_cons _ _ P c t cs ts (F c t r) (G cs ts f)
           end) (nd_sub n) ts Hs)
    end.

Lemma reads_det h l t1 : reads h l t1 -> forall t2, reads h l t2 -> t1 = t2.
Proof.
  revert l t1. apply (reads_ind' h (fun l t1 => forall t2, reads h l t2 -> t1 = t2)).
  intros l n ts Hl Hs IH t2 H2. inversion H2 as [l' n' ts' Hl' Hs']; subst.
  assert (n' = n) as -> by congruence. f_equal. clear Hs H2 Hl Hl'.
  revert ts' Hs'. generalize dependent (nd_sub n). intros cs IH. induction IH as [|c t cs ts Hc IH1 IH2]; intros ts' Hs'.
  - by inversion Hs'.
  - inversion Hs'; subst. f_equal; auto.
Qed.

(** Reading only depends on the reachable nodes. *)
Lemma reads_frame h h' (P : loc -> Prop) :
  (forall l, P l -> h' !! l = h !! l) -> (forall l c, P l -> c ∈ subs h l -> P c) ->
  forall l t, reads h l t -> P l -> reads h' l t.
Proof.
  intros Hsame Hcl. apply (reads_ind' h (fun l t => P l -> reads h' l t)).
  intros l n ts Hl Hs IH HP. apply Reads; [by rewrite Hsame|].
  assert (forall c, c ∈ nd_sub n -> P c) as Hc.
  { intros c Hc. apply (Hcl l c HP). unfold subs. by rewrite Hl. }
  clear Hs. induction IH as [|c t cs ts H1 H2 IH]; constructor.
  - apply H1, Hc. set_solver.
  - apply IH. intros x Hx. apply Hc. set_solver.
Qed.

(** Reachability. *)
Definition sub_of (h : gmap loc Node) (l c : loc) : Prop := c ∈ subs h l.
Notation desc h := (rtc (sub_of h)).

Lemma reads_nodes h l t : reads h l t -> forall n, In n (nodes t) <-> exists x, desc h l x /\ reads h x n.
Proof.
  revert l t. apply (reads_ind' h (fun l t => forall n, In n (nodes t) <-> exists x, desc h l x /\ reads h x n)).
  intros l nd ts Hl Hs IH n. rewrite nodes_unfold. cbn [In]. rewrite in_concat.
  assert (subs h l = nd_sub nd) as Hsub by (unfold subs; by rewrite Hl).
  split.
  - intros [<-|(ns & Hns & Hin)].
    + exists l. split; [apply rtc_refl|]. by apply Reads.
    + apply in_map_iff in Hns as (t & <- & Ht).
      apply elem_of_list_In, elem_of_list_lookup in Ht as [k Hk].
      destruct (Forall2_lookup_r _ _ _ _ _ IH Hk) as (c & Hc & Hct).
      destruct (proj1 (Hct n) Hin) as (x & Hx & Hr). exists x. split; [|done].
      eapply rtc_l; [|exact Hx]. unfold sub_of. rewrite Hsub. by eapply elem_of_list_lookup_2.
  - intros (x & Hx & Hr). apply rtc_inv in Hx as [<-|(c & Hstep & Hrest)].
    + left. eapply reads_det; [|exact Hr]. by apply Reads.
    + right. unfold sub_of in Hstep. rewrite Hsub in Hstep. apply elem_of_list_lookup in Hstep as [k Hk].
      destruct (Forall2_lookup_l _ _ _ _ _ IH Hk) as (t & Ht & Hct).
      exists (nodes t). split; [apply in_map, elem_of_list_In; by eapply elem_of_list_lookup_2|].
      apply Hct. eauto.
Qed.

Lemma reads_id h l t : reads h l t -> ids h l = Some (tr_id t) /\ anns h l = Some (tr_anns t) /\
  Forall2 (reads h) (subs h l) (tr_subs t).
Proof. destruct 1 as [l n ts Hl Hs]. unfold ids, anns, subs. rewrite Hl. done. Qed.

(** ** Structure of one trace *)
Section Structure.
Variables (t : N) (h : gmap loc Node) (M : gmap N loc) (r : loc).
Hypothesis Hok : trace_ok t h M r.

Definition inM (l : loc) : Prop := exists k, M !! k = Some l.

Lemma inM_id l : inM l -> exists i, ids h l = Some i /\ M !! sp_span i = Some l.
Proof. intros [k Hk]. destruct (ok_ids _ _ _ _ Hok _ _ Hk) as (i & Hi & _ & <-). eauto. Qed.

Lemma inM_sub l c : inM l -> sub_of h l c -> inM c /\ c <> r /\
  exists i, ids h c = Some i /\ M !! sp_span i = Some c /\ default r (M !! sp_parent i) = l.
Proof.
  intros [k Hk] Hc. apply (ok_subs _ _ _ _ Hok _ _ Hk) in Hc as (Hr & i & Hi & HM & Hd).
  split_and!; [by eexists|done|]. eauto.
Qed.

Lemma inM_desc l x : inM l -> desc h l x -> inM x.
Proof. intros Hl Hd. induction Hd as [|? ? ? Hs _ IH]; [done|]. apply IH. by eapply inM_sub. Qed.

Lemma root_in : inM r.
Proof. apply (ok_root _ _ _ _ Hok). Qed.

(** Distinct nodes of the trace have distinct IDs. *)
Lemma id_inj x y i : inM x -> inM y -> ids h x = Some i -> ids h y = Some i -> x = y.
Proof.
  intros Hx Hy Hix Hiy. destruct (inM_id x Hx) as (i1 & ? & H1). destruct (inM_id y Hy) as (i2 & ? & H2). congruence.
Qed.

Lemma holder_unique l l' c : inM l -> inM l' -> sub_of h l c -> sub_of h l' c -> l = l'.
Proof.
  intros Hl Hl' H H'. destruct (inM_sub l c Hl H) as (_ & _ & i & Hi & _ & <-).
  destruct (inM_sub l' c Hl' H') as (_ & _ & i' & Hi' & _ & <-). congruence.
Qed.

Lemma desc_comparable a b x : inM a -> inM b -> desc h a x -> desc h b x -> desc h a b \/ desc h b a.
Proof.
  intros Ha Hb Hax. revert b Hb. revert x Hax.
  apply (rtc_ind_r (fun x => forall b, inM b -> desc h b x -> desc h a b \/ desc h b a) a).
  - intros b Hb Hba. by right.
  - intros y z Hay Hyz IH b Hb Hbz.
    apply rtc_inv_r in Hbz as [->|(y' & Hby' & Hy'z)].
    + left. by eapply rtc_r.
    + assert (y' = y) as ->. { eapply holder_unique; [| |done|done]; eapply inM_desc; [|done| |done]; done. }
      by apply IH.
Qed.

(** ** The part reachable from the root is a tree, whatever the parents *)
Inductive chain : list loc -> Prop :=
| chain_root : chain [r]
| chain_sub c l p : chain (l :: p) -> sub_of h l c -> chain (c :: l :: p).

Lemma chain_inM p : chain p -> forall x, x ∈ p -> inM x.
Proof.
  induction 1 as [|c l p Hc IH Hs]; intros x Hx.
  - apply elem_of_list_singleton in Hx as ->. apply root_in.
  - apply elem_of_cons in Hx as [->|Hx]; [|by apply IH].
    eapply inM_sub; [|exact Hs]. apply IH. set_solver.
Qed.

(** Every element but the root is preceded by its holder. *)
Lemma chain_holder p : chain p -> forall i x, p !! i = Some x -> x <> r ->
  exists y, p !! S i = Some y /\ sub_of h y x.
Proof.
  induction 1 as [|c l p Hc IH Hs]; intros i x Hi Hx.
  - destruct i as [|i]; [cbn in Hi; congruence|done].
  - destruct i as [|i].
    + cbn in Hi. injection Hi as ->. exists l. done.
    + cbn in Hi. apply IH in Hi as (y & Hy & Hyx); [|done]. exists y. done.
Qed.

Lemma chain_nodup p : chain p -> NoDup p.
Proof.
  induction 1 as [|c l p Hc IH Hs]; [apply NoDup_singleton|].
  apply NoDup_cons. split; [|done]. intros Hin. apply elem_of_list_lookup in Hin as [i Hi].
  assert (inM l) as Hl by (apply (chain_inM _ Hc); set_solver).
  destruct (inM_sub l c Hl Hs) as (_ & Hcr & _).
  destruct (chain_holder _ Hc i c Hi Hcr) as (y & Hy & Hyc).
  assert (y = l) as ->.
  { eapply holder_unique; [|exact Hl|exact Hyc|exact Hs]. apply (chain_inM _ Hc). by eapply elem_of_list_lookup_2. }
  assert (S i = 0)%nat; [|lia]. by eapply (NoDup_lookup _ _ _ l IH).
Qed.

Lemma chain_extend l p x : chain (l :: p) -> desc h l x -> exists q, chain (x :: q ++ l :: p) \/ (x = l /\ q = []).
Proof.
  intros Hc Hd. revert Hd. revert x. apply (rtc_ind_r (fun x => exists q, chain (x :: q ++ l :: p) \/ (x = l /\ q = [])) l).
  - exists []. by right.
  - intros y z Hy Hyz (q & [Hq|[-> ->]]).
    + exists (y :: q). left. by apply chain_sub.
    + exists []. left. by apply chain_sub.
Qed.

Lemma chain_of_desc x : desc h r x -> exists p, chain (x :: p).
Proof.
  intros Hd. destruct (chain_extend r [] x chain_root Hd) as (q & [H|[-> _]]); eauto using chain_root.
Qed.

Lemma chain_length p : chain p -> (length p <= size M)%nat.
Proof.
  intros Hc. change (size M) with (length (map_to_list M)). rewrite <- (fmap_length snd).
  apply submseteq_length, NoDup_submseteq; [by apply chain_nodup|].
  intros x Hx. destruct (chain_inM p Hc x Hx) as [k Hk]. apply elem_of_list_fmap.
  exists (k, x). split; [done|]. by apply elem_of_map_to_list.
Qed.

Lemma no_cycle l c : desc h r l -> sub_of h l c -> ~ desc h c l.
Proof.
  intros Hr Hc Hd. destruct (chain_of_desc l Hr) as [p Hp].
  assert (chain (c :: l :: p)) as Hcp by (by apply chain_sub).
  destruct (chain_extend c (l :: p) l Hcp Hd) as (q & [H|[-> _]]).
  - apply chain_nodup in H. apply NoDup_cons in H as [H _]. set_solver.
  - apply chain_nodup in Hcp. apply NoDup_cons in Hcp as [Hcp _]. set_solver.
Qed.

Lemma reads_exists l : desc h r l -> exists tr, reads h l tr.
Proof.
  intros Hr. destruct (chain_of_desc l Hr) as [p Hp]. clear Hr.
  remember (size M - length (l :: p))%nat as m eqn:Hm. revert l p Hp Hm.
  induction m as [m IH] using lt_wf_ind. intros l p Hp ->.
  assert (inM l) as Hl by (apply (chain_inM _ Hp); set_solver).
  destruct (inM_id l Hl) as (i & Hi & _). unfold ids in Hi. destruct (h !! l) as [n|] eqn:Hn; [|done].
  assert (subs h l = nd_sub n) as Hs by (unfold subs; by rewrite Hn).
  assert (forall c, c ∈ nd_sub n -> exists tr, reads h c tr) as Hex.
  { intros c Hc. rewrite <- Hs in Hc. assert (chain (c :: l :: p)) as Hcp by (by apply chain_sub).
    pose proof (chain_length _ Hcp) as Hlen. cbn in Hlen.
    eapply IH; [|exact Hcp|reflexivity]. cbn. lia. }
  assert (exists ts, Forall2 (reads h) (nd_sub n) ts) as [ts Hts].
  { clear -Hex. induction (nd_sub n) as [|c cs IH]; [by exists []|].
    destruct (Hex c) as [tr Htr]; [set_solver|]. destruct IH as [ts Hts]; [intros; apply Hex; set_solver|].
    exists (tr :: ts). by constructor. }
  eexists. by apply (Reads h l n ts).
Qed.

(** With acyclic parents every node is reachable from the root. *)
Lemma root_reaches (rank : N -> nat) :
  (forall c i p ip, inM c -> ids h c = Some i -> M !! sp_parent i = Some p ->
    ids h p = Some ip -> (rank (sp_span ip) < rank (sp_span i))%nat) ->
  forall l, inM l -> desc h r l.
Proof.
  intros Hrank l.
  remember (match ids h l with Some i => rank (sp_span i) | None => O end) as m eqn:Hm. revert l Hm.
  induction m as [m IH] using lt_wf_ind.
  intros l -> Hl. destruct (decide (l = r)) as [->|Hlr]; [apply rtc_refl|].
  destruct (inM_id l Hl) as (i & Hi & HM).
  set (p := default r (M !! sp_parent i)).
  assert (inM p) as Hp.
  { unfold p. destruct (M !! sp_parent i) eqn:E; cbn; [by eexists|apply root_in]. }
  assert (sub_of h p l) as Hsub.
  { destruct Hp as [k Hk]. apply (ok_subs _ _ _ _ Hok _ _ Hk). split; [done|]. exists i. done. }
  destruct (M !! sp_parent i) as [q|] eqn:Hq.
  - assert (p = q) as Hpq by (unfold p; rewrite ?Hq; done). clearbody p. subst q.
    eapply rtc_r; [|exact Hsub]. destruct (inM_id p Hp) as (ip & Hip & _).
    eapply IH; [|reflexivity|done]. rewrite Hi, Hip. by apply (Hrank l i p ip).
  - assert (p = r) as Hpr by (unfold p; rewrite ?Hq; done). rewrite Hpr in Hsub. by apply rtc_once.
Qed.

(** In general exactly the anchored ones are. *)
Lemma parent_holds l i : inM l -> l <> r -> ids h l = Some i -> sub_of h (default r (M !! sp_parent i)) l.
Proof.
  intros Hl Hlr Hi. destruct (inM_id l Hl) as (i' & Hi' & HM). assert (i' = i) as -> by congruence.
  assert (inM (default r (M !! sp_parent i))) as [k Hk].
  { destruct (M !! sp_parent i) eqn:E; cbn; [by eexists|apply root_in]. }
  apply (ok_subs _ _ _ _ Hok _ _ Hk). split; [done|]. exists i. done.
Qed.

Lemma nodes_nodup l tr : reads h l tr -> desc h r l -> NoDup (map tr_id (nodes tr)).
Proof.
  revert l tr. apply (reads_ind' h (fun l tr => desc h r l -> NoDup (map tr_id (nodes tr)))).
  intros l n ts Hl Hs IH Hrl. assert (inM l) as Hin by (eapply inM_desc; [apply root_in|done]).
  rewrite nodes_unfold. cbn [map tr_id].
  assert (subs h l = nd_sub n) as Hsub by (unfold subs; by rewrite Hl).
  assert (ids h l = Some (nd_id n)) as Hidl by (unfold ids; by rewrite Hl).
  assert (forall c, c ∈ nd_sub n -> inM c) as Hcin.
  { intros c Hc. rewrite <- Hsub in Hc. by apply (inM_sub l c Hin). }
  assert (forall c, c ∈ nd_sub n -> desc h r c) as Hrc.
  { intros c Hc. rewrite <- Hsub in Hc. by eapply rtc_r. }
  assert (forall c, c ∈ nd_sub n -> ~ desc h c l) as Hnc.
  { intros c Hc. rewrite <- Hsub in Hc. by apply no_cycle. }
  assert (forall c1 c2, c1 ∈ nd_sub n -> c2 ∈ nd_sub n -> c1 <> c2 -> ~ desc h c1 c2) as Hsib.
  { intros c1 c2 H1 H2 Hne Hd. apply rtc_inv_r in Hd as [->|(y & Hy & Hyc)]; [done|].
    assert (y = l) as ->.
    { eapply holder_unique; [|exact Hin|exact Hyc|unfold sub_of; by rewrite Hsub].
      eapply inM_desc; [|exact Hy]. auto. }
    by apply (Hnc c1). }
  assert (forall c tc, c ∈ nd_sub n -> reads h c tc -> forall i, i ∈ map tr_id (nodes tc) ->
            exists x, desc h c x /\ inM x /\ ids h x = Some i) as Hloc.
  { intros c tc Hc Hr i Hi. apply elem_of_list_fmap in Hi as (nd & -> & Hnd).
    apply elem_of_list_In in Hnd. apply (reads_nodes h c tc Hr) in Hnd as (x & Hx & Hrx).
    exists x. split_and!; [done| |by apply reads_id in Hrx as [? _]]. eapply inM_desc; [|exact Hx]. auto. }
  apply NoDup_cons. split.
  - intros Hx. rewrite concat_map in Hx. apply elem_of_list_In, in_concat in Hx as (ys & Hys & Hy).
    rewrite map_map in Hys. apply in_map_iff in Hys as (tc & <- & Htc).
    apply elem_of_list_In, elem_of_list_lookup in Htc as [k Hk].
    destruct (Forall2_lookup_r _ _ _ _ _ Hs Hk) as (c & Hc & Hct).
    apply elem_of_list_lookup_2 in Hc.
    destruct (Hloc c tc Hc Hct (nd_id n)) as (x & Hx & Hxm & Hxi); [by apply elem_of_list_In|].
    assert (x = l) as -> by (by eapply id_inj). by apply (Hnc c).
  - assert (NoDup (nd_sub n)) as Hnd.
    { rewrite <- Hsub. destruct Hin as [k Hk]. by eapply ok_nodup. }
    clear Hl Hsub Hidl. revert Hcin Hrc Hnc Hsib Hloc Hnd. revert Hs IH. generalize (nd_sub n) as cs.
    intros cs Hs IH. revert Hs. induction IH as [|c tc cs ts Hc IH2 IHf]; intros Hs Hcin Hrc Hnc Hsib Hloc Hnd.
    + constructor.
    + inversion Hs as [|? ? ? ? Hrd Hs']; subst. apply NoDup_cons in Hnd as [Hnin Hnd].
      cbn [map concat]. rewrite map_app. apply NoDup_app. split_and!.
      * apply Hc. apply Hrc. set_solver.
      * intros i Hi1 Hi2.
        destruct (Hloc c tc ltac:(set_solver) Hrd i Hi1) as (x & Hx & Hxm & Hxi).
        rewrite concat_map in Hi2. apply elem_of_list_In, in_concat in Hi2 as (ys & Hys & Hy).
        rewrite map_map in Hys. apply in_map_iff in Hys as (t2 & <- & Ht2).
        apply elem_of_list_In, elem_of_list_lookup in Ht2 as [k Hk].
        destruct (Forall2_lookup_r _ _ _ _ _ Hs' Hk) as (c2 & Hc2 & Hct2).
        apply elem_of_list_lookup_2 in Hc2.
        destruct (Hloc c2 t2 ltac:(set_solver) Hct2 i) as (x2 & Hx2 & Hxm2 & Hxi2); [by apply elem_of_list_In|].
        assert (x2 = x) as -> by (by eapply id_inj).
        assert (c <> c2) as Hne by congruence.
        destruct (desc_comparable c c2 x) as [H|H]; [apply Hcin; set_solver|apply Hcin; set_solver|done|done|..].
        -- by apply (Hsib c c2); [set_solver|set_solver| |].
        -- apply (Hsib c2 c); [set_solver|set_solver|congruence|done].
      * apply IHf; try done.
        -- intros; apply Hcin; set_solver.
        -- intros; apply Hrc; set_solver.
        -- intros; apply Hnc; set_solver.
        -- intros; apply Hsib; set_solver.
        -- intros c' tc' Hc'. apply Hloc. set_solver.
Qed.

(** Edges of the displayed tree. *)
Lemma reads_edge tr p c : reads h r tr -> edge tr p c ->
  sp_parent (tr_id c) = sp_span (tr_id p) \/
  (p = tr /\ M !! sp_parent (tr_id c) = None).
Proof.
  intros Hr [Hp Hc]. apply (reads_nodes h r tr Hr) in Hp as (x & Hx & Hrx).
  assert (inM x) as Hxm by (eapply inM_desc; [apply root_in|done]).
  pose proof (reads_id h x p Hrx) as (Hpi & _ & Hsubs).
  apply elem_of_list_In, elem_of_list_lookup in Hc as [k Hk].
  destruct (Forall2_lookup_r _ _ _ _ _ Hsubs Hk) as (y & Hy & Hry).
  apply elem_of_list_lookup_2 in Hy. destruct (inM_sub x y Hxm Hy) as (Hym & Hyr & i & Hi & HM & Hd).
  pose proof (reads_id h y c Hry) as (Hci & _). assert (i = tr_id c) as -> by congruence.
  destruct (M !! sp_parent (tr_id c)) as [q|] eqn:Hq; cbn in Hd.
  - left. subst q. destruct (ok_ids _ _ _ _ Hok _ _ Hq) as (j & Hj & _ & Hjs). congruence.
  - right. subst x. split; [|done]. by eapply reads_det.
Qed.
End Structure.

(** ** From a state that agrees with its history *)

Lemma displays_of_abs st t L :
  ms_ok st -> abs_trace st t L -> L <> [] ->
  exists tr, shows st t tr /\ displays L tr /\
    (forall i, In i (map tr_id (nodes tr)) <-> anchored (spans_of L) (tr_id tr) i) /\
    (acyclic (spans_of L) -> Permutation (map tr_id (nodes tr)) (spans_of L)).
Proof.
  intros Hok Habs HL. unfold abs_trace in Habs.
  destruct (ms_span st !! t) as [M|] eqn:HM; [|done]. destruct Habs as (_ & A2 & A3 & (r & Hr & Hroot)).
  destruct (inv_trace st Hok t M HM) as (r2 & Hr2 & Htok). assert (r2 = r) as -> by congruence.
  set (h := ms_heap st) in *.
  assert (forall x i, inM M x -> ids h x = Some i -> In i (spans_of L)) as Hin.
  { intros x i Hx Hi. destruct (inM_id t h M r Htok x Hx) as (i' & Hi' & HM'). assert (i' = i) as -> by congruence.
    apply A2. eauto. }
  pose proof (root_in t h M r Htok) as Hrm.
  destruct (reads_exists t h M r Htok r) as [tr Htr]; [apply rtc_refl|].
  exists tr. split; [by exists r|].
  assert (forall n, In n (nodes tr) -> exists x, desc h r x /\ inM M x /\ reads h x n) as Hn.
  { intros n Hn. apply (reads_nodes h r tr Htr) in Hn as (x & Hx & Hrx). exists x. split_and!; [done| |done].
    by eapply inM_desc. }
  assert (forall x i, inM M x -> ids h x = Some i -> desc h r x -> In i (map tr_id (nodes tr))) as Hn2.
  { intros x i Hxm Hxi Hd. destruct (reads_exists t h M r Htok x Hd) as [n Hrx].
    apply in_map_iff. exists n. split; [apply reads_id in Hrx as [? _]; congruence|].
    apply (reads_nodes h r tr Htr). eauto. }
  assert (NoDup (map tr_id (nodes tr))) as Hnd.
  { eapply (nodes_nodup t h M r Htok r tr Htr). apply rtc_refl. }
  assert (ids h r = Some (tr_id tr)) as Hrid by (by apply reads_id in Htr as [? _]).
  assert (forall n, In n (nodes tr) -> In (tr_id n) (spans_of L)) as Hfrom.
  { intros n Hin2. destruct (Hn n Hin2) as (x & _ & Hxm & Hrx).
    eapply Hin; [done|]. by apply reads_id in Hrx as [? _]. }
  split_and!.
  - split.
    + congruence.
    + by apply NoDup_ListNoDup.
    + done.
    + intros n Hin2. destruct (Hn n Hin2) as (x & _ & Hxm & Hrx). apply reads_id in Hrx as (Hi & Ha & _).
      destruct (inM_id t h M r Htok x Hxm) as (i & Hi' & HMi). assert (i = tr_id n) as -> by congruence.
      rewrite (A3 _ _ HMi) in Ha. by injection Ha.
    + intros p c He. destruct (reads_edge t h M r Htok tr p c Htr He) as [?|[-> Hq]]; [by left|].
      right. split; [done|]. intros (q & Hq1 & Hq2). apply A2 in Hq1 as (l & Hl & _). congruence.
  - intros i. split.
    + intros Hi. apply in_map_iff in Hi as (n & <- & Hin2). destruct (Hn n Hin2) as (x & Hd & Hxm & Hrx).
      apply reads_id in Hrx as (Hi & _). clear Hin2. revert Hi. generalize (tr_id n) as i. clear Hxm n.
      revert x Hd. apply (rtc_ind_r (fun x => forall i, ids h x = Some i -> anchored (spans_of L) (tr_id tr) i) r).
      * intros i Hi. assert (i = tr_id tr) as -> by congruence. apply anch_root. exact (Hin r _ Hrm Hi).
      * intros y z Hy Hyz IH i Hi.
        assert (inM M y) as Hym by (by eapply inM_desc).
        destruct (inM_sub t h M r Htok y z Hym Hyz) as (Hzm & Hzr & i' & Hi' & HMi & Hd).
        assert (i' = i) as -> by congruence.
        destruct (M !! sp_parent i) as [q|] eqn:Hq; cbn in Hd.
        -- subst q. destruct (inM_id t h M r Htok y Hym) as (iy & Hiy & _).
           destruct (ok_ids _ _ _ _ Htok _ _ Hq) as (j & Hj & _ & Hjs).
           apply anch_child with iy; [exact (Hin z i Hzm Hi)|exact (Hin y iy Hym Hiy)|congruence|by apply IH].
        -- apply anch_orphan; [exact (Hin z i Hzm Hi)|]. intros q Hq1 Hq2. apply A2 in Hq1 as (l & Hl & _). congruence.
    + intros Ha.
      assert (forall i l, In i (spans_of L) -> M !! sp_span i = Some l -> ids h l = Some i) as Hlook.
      { intros i2 l Hi2 Hl. apply A2 in Hi2 as (l' & Hl' & Hi'). congruence. }
      enough (forall x, M !! sp_span i = Some x -> desc h r x) as Hd.
      { assert (In i (spans_of L)) as Hi by (by destruct Ha). apply A2 in Hi as (x & Hx & Hxi).
        eapply (Hn2 x); [by eexists|done|by apply Hd]. }
      induction Ha as [Hi|s Hs Hno|s p Hs Hp Hsp Hap IH]; intros x Hx.
      * destruct (inM_id t h M r Htok r Hrm) as (i' & Hi' & HMr). assert (i' = tr_id tr) as -> by congruence.
        assert (x = r) as -> by congruence. apply rtc_refl.
      * destruct (decide (x = r)) as [->|Hxr]; [apply rtc_refl|].
        assert (inM M x) as Hxm by (by eexists).
        pose proof (parent_holds t h M r Htok x s Hxm Hxr (Hlook _ _ Hs Hx)) as Hph.
        destruct (M !! sp_parent s) as [q|] eqn:Hq; cbn in Hph; [|by apply rtc_once].
        destruct (ok_ids _ _ _ _ Htok _ _ Hq) as (j & Hj & _ & Hjs). exfalso.
        apply (Hno j); [|done]. eapply Hin; [|exact Hj]. by eexists.
      * destruct (decide (x = r)) as [->|Hxr]; [apply rtc_refl|].
        assert (inM M x) as Hxm by (by eexists).
        pose proof (parent_holds t h M r Htok x s Hxm Hxr (Hlook _ _ Hs Hx)) as Hph.
        rewrite Hsp in Hph. pose proof Hp as Hp'. apply A2 in Hp' as (y & Hy & Hyi).
        rewrite Hy in Hph. cbn in Hph. eapply rtc_r; [by apply IH|done].
  - intros [rank Hrank].
    assert (forall c i p ip, inM M c -> ids h c = Some i -> M !! sp_parent i = Some p ->
      ids h p = Some ip -> (rank (sp_span ip) < rank (sp_span i))%nat) as Hrk.
    { intros c i p ip Hc Hi Hp Hip. apply Hrank; [by eapply Hin|eapply Hin; [by eexists|done]|].
      destruct (ok_ids _ _ _ _ Htok _ _ Hp) as (j & Hj & _ & ?). congruence. }
    apply NoDup_Permutation; [done|eapply NoDup_fmap_1; apply spans_of_nodup|].
    intros i. rewrite !elem_of_list_In. split.
    + intros Hi. apply in_map_iff in Hi as (n & <- & Hin2). by apply Hfrom.
    + intros Hi. apply A2 in Hi as (x & Hx & Hxi). assert (inM M x) as Hxm by (by eexists).
      eapply Hn2; [done|done|]. by eapply (root_reaches t h M r Htok rank Hrk).
Qed.

Lemma shows_det st t tr tr' : shows st t tr -> shows st t tr' -> tr = tr'.
Proof. intros (l & Hl & H) (l' & Hl' & H'). assert (l' = l) as -> by congruence. by eapply reads_det. Qed.

(** Operations on other traces. *)
Lemma step_isolated st st' c t : ms_ok st -> ms_step c st = Some st' -> ~ touches c t ->
  ms_trace_of st' t = ms_trace_of st t /\ forall tr, shows st' t tr <-> shows st t tr.
Proof.
  intros Hok Hstep Ht. unfold shows, ms_trace_of.
  enough (ms_trace st' !! t = ms_trace st !! t /\ forall l, ms_trace st !! t = Some l -> forall tr,
    reads (ms_heap st') l tr <-> reads (ms_heap st) l tr) as [H1 H2].
  { split; [done|]. intros tr. rewrite H1. split; intros (l & Hl & Hr); exists l; split; try done; by apply (H2 l Hl). }
  destruct c as [id a|ts]; cbn in Hstep, Ht.
  - destruct (collect_ok st id a Hok) as (st2 & Hst2 & Hok' & Heff). pose proof (ce_other_nodes _ _ _ _ Hok Heff) as E3. destruct Heff as [E1 E2 _ _].
    assert (st2 = st') as -> by congruence. split; [apply E2; congruence|].
    intros l Hl tr.
    destruct (ms_span st !! t) as [M|] eqn:HM; [|apply (inv_none st Hok) in HM; congruence].
    destruct (inv_trace st Hok t M HM) as (r & Hr & Htok). assert (r = l) as -> by congruence.
    assert (forall x, inM M x -> ms_heap st' !! x = ms_heap st !! x) as Hsame.
    { intros x [k Hk]. eapply E3; [|exact HM|exact Hk]. congruence. }
    assert (inM M l) as Hlm by (apply (root_in t _ M l Htok)).
    split; intros Hrd.
    + eapply (reads_frame (ms_heap st') (ms_heap st) (inM M)); [| |exact Hrd|done].
      * intros x Hx. by rewrite Hsame.
      * intros x c Hx Hc. unfold subs in Hc. rewrite Hsame in Hc by done.
        eapply (inM_sub t _ M l Htok x c Hx). exact Hc.
    + eapply (reads_frame (ms_heap st) (ms_heap st') (inM M)); [| |exact Hrd|done].
      * done.
      * intros x c Hx Hc. eapply (inM_sub t _ M l Htok x c Hx). exact Hc.
  - injection Hstep as <-. destruct (delete_lookup ts st t) as (Hh & _ & Htr & _).
    rewrite Htr, Hh, bool_decide_eq_false_2 by (by rewrite elem_of_list_In). done.
Qed.
