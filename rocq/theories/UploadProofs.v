(** Proofs about uploads. *)
From Verif Require Import Base MemModel MemSpec MemProofs MemProofs2 MemProofs3 MemProofs4 UploadModel.
From Coq Require Import ssreflect.

(** ** Collecting a tree is collecting its nodes in depth-first order *)
Definition call_of (n : tree) : call := CCollect (tr_id n) (tr_anns n).
Section loop.
  Context (f : tree -> MS -> option MS).
  Fixpoint cloop (subs : list tree) (st : MS) : option MS :=
    match subs with [] => Some st | s :: subs => st ← f s st; cloop subs st end.
End loop.
Lemma collect_trace_unfold id anns subs st : collect_trace (Tree id anns subs) st = (st ← ms_collect id anns st; cloop collect_trace subs st).
Proof. done. Qed.
Lemma collect_trace_run t st : collect_trace t st = ms_run (map call_of (nodes t)) st.
Proof.
  revert st. induction t as [id anns subs IH] using tree_ind'. intros st. rewrite collect_trace_unfold nodes_unfold. cbn [map ms_run call_of ms_step tr_id tr_anns].
  destruct (ms_collect id anns st) as [st1|]; [|done]. cbn [mbind option_bind]. clear st. revert st1.
  induction IH as [|c subs Hc _ IHs]=> st; [done|]. cbn [cloop map concat]. rewrite map_app ms_run_app Hc.
  destruct (ms_run _ st) as [st1|]; [|done]. cbn [mbind option_bind]. apply IHs.
Qed.

(** ** Trees with locations *)
Inductive lt := LT (l : N) (i : SpanID) (a : list Annotation) (subs : list lt).
Definition lt_ind' (P : lt -> Prop) (H : forall l i a ts, Forall P ts -> P (LT l i a ts)) : forall t, P t :=
  fix F t := match t with
    | LT l i a ts => H l i a ts ((fix G ts : Forall P ts := match ts with
        | [] => @List.Forall_nil _ P
        | t :: ts => @List.Forall_cons _ P t ts (F t) (G ts)
        end) ts)
    end.
Definition ll (t : lt) : N := let 'LT l _ _ _ := t in l.
Definition li (t : lt) : SpanID := let 'LT _ i _ _ := t in i.
Definition lsubs (t : lt) : list lt := let 'LT _ _ _ s := t in s.
Fixpoint erase (t : lt) : tree := let 'LT l i a s := t in Tree i a (map erase s).
(** The spans with their locations. *)
Fixpoint keys (t : lt) : list (N * N) := let 'LT l i a s := t in (sp_span i, l) :: concat (map keys s).
Inductive stored (h : gmap N Node) : lt -> Prop :=
| Stored l i a s : h !! l = Some (MkNode i a (map ll s)) -> Forall (stored h) s -> stored h (LT l i a s).
Lemma stored_reads h t : stored h t -> reads h (ll t) (erase t).
Proof.
  induction t as [l i a s IH] using lt_ind'. intros H. inversion H as [? ? ? ? Hl Hs]; subst. cbn [ll erase].
  apply (Reads h l (MkNode i a (map ll s))); [done|]. cbn [nd_sub]. clear -IH Hs.
  induction IH as [|c s Hc _ IHs]; cbn [map]; [constructor|]. apply Forall_cons in Hs as [H1 H2]. constructor; auto.
Qed.
(** A new child at the end of the node at [lp]. *)
Fixpoint add (lp : N) (x : lt) (t : lt) : lt :=
  let 'LT l i a s := t in LT l i a (map (add lp x) s ++ if N.eqb l lp then [x] else []).
Lemma add_ll lp x t : ll (add lp x t) = ll t. Proof. by destruct t. Qed.
Lemma add_li lp x t : li (add lp x t) = li t. Proof. by destruct t. Qed.
Lemma add_subs lp x t : map li (lsubs (add lp x t)) = map li (lsubs t) ++ if N.eqb (ll t) lp then [li x] else [].
Proof.
  destruct t as [l i a s]. cbn [add lsubs ll]. rewrite map_app map_map. f_equal; [|by destruct (N.eqb l lp)].
  apply map_ext. intros. apply add_li.
Qed.
Definition locs (t : lt) : list N := map snd (keys t).
Lemma keys_unfold l i a s : keys (LT l i a s) = (sp_span i, l) :: concat (map keys s). Proof. done. Qed.
Lemma add_fresh lp x t : lp ∉ locs t -> add lp x t = t.
Proof.
  induction t as [l i a s IH] using lt_ind'. rewrite /locs keys_unfold. cbn [map snd add]. intros [Hne Hs]%not_elem_of_cons.
  assert (N.eqb l lp = false) as -> by (apply N.eqb_neq; congruence). rewrite app_nil_r. f_equal.
  clear Hne. induction IH as [|c s Hc _ IHs]; [done|]. cbn [map concat] in Hs |- *. rewrite map_app not_elem_of_app in Hs. destruct Hs. by rewrite Hc // IHs.
Qed.
Lemma add_keys lp x t k : k ∈ keys (add lp x t) <-> k ∈ keys t \/ lp ∈ locs t /\ k ∈ keys x.
Proof.
  induction t as [l i a s IH] using lt_ind'. cbn [add]. rewrite /locs !keys_unfold. cbn [map snd].
  assert (k ∈ concat (map keys (map (add lp x) s)) <-> k ∈ concat (map keys s) \/ lp ∈ map snd (concat (map keys s)) /\ k ∈ keys x) as Hs.
  { clear -IH. induction IH as [|c s Hc _ IHs]; cbn [map concat]; [set_solver|]. rewrite map_app !elem_of_app Hc IHs /locs. tauto. }
  rewrite map_app concat_app !elem_of_cons elem_of_app Hs.
  destruct (N.eqb_spec l lp) as [->|Hne]; cbn [map concat]; rewrite ?app_nil_r ?elem_of_nil; [tauto|].
  split; [|intros [[?|?]|[[?|?] ?]]; [tauto..|congruence|tauto]]. tauto.
Qed.
(** Filling the node at [lc] after having added it. *)
Lemma add_add lp lc i a cs x t : lc ∉ locs t -> Forall (fun c => lc ∉ locs c) cs -> lc <> lp ->
  add lc x (add lp (LT lc i a cs) t) = add lp (LT lc i a (cs ++ [x])) t.
Proof.
  intros Ht Hc Hne. induction t as [l i' a' s IH] using lt_ind'. cbn [add]. f_equal. rewrite /locs keys_unfold in Ht. cbn [map snd] in Ht.
  apply not_elem_of_cons in Ht as [Hl Hs]. assert (N.eqb l lc = false) as -> by (apply N.eqb_neq; congruence). rewrite app_nil_r map_app. f_equal.
  - rewrite map_map. clear Hl. induction IH as [|c s Hc' _ IHs]; [done|]. cbn [map concat] in Hs |- *. rewrite map_app not_elem_of_app in Hs. destruct Hs.
    by rewrite Hc' // IHs.
  - destruct (N.eqb l lp); [|done]. cbn [map add]. rewrite N.eqb_refl. do 3 f_equal. clear -Hc. induction Hc; [done|]. cbn [map]. by rewrite add_fresh // IHHc.
Qed.
Definition adds (lc : N) (cs : list lt) (t : lt) : lt := fold_left (fun t x => add lc x t) cs t.
Lemma adds_add lp lc i a cs t : lc ∉ locs t -> Forall (fun c => lc ∉ locs c) cs -> lc <> lp ->
  adds lc cs (add lp (LT lc i a []) t) = add lp (LT lc i a cs) t.
Proof.
  intros Ht Hcs Hne. assert (forall pre, Forall (fun c => lc ∉ locs c) pre -> adds lc cs (add lp (LT lc i a pre) t) = add lp (LT lc i a (pre ++ cs)) t) as H.
  { induction Hcs as [|x cs Hx Hcs IH]=> pre Hpre; [by rewrite app_nil_r|]. cbn [adds fold_left]. rewrite add_add //. change (fold_left _ cs ?t) with (adds lc cs t).
    rewrite IH; [apply Forall_app; split; [done|by constructor]|]. by rewrite -app_assoc. }
  by apply (H []).
Qed.
Lemma adds_root l i a cs : Forall (fun c => l ∉ locs c) cs -> adds l cs (LT l i a []) = LT l i a cs.
Proof.
  intros Hcs. assert (forall pre, Forall (fun c => l ∉ locs c) pre -> adds l cs (LT l i a pre) = LT l i a (pre ++ cs)) as H.
  { induction Hcs as [|x cs Hx Hcs IH]=> pre Hpre; [by rewrite app_nil_r|]. cbn [adds fold_left add]. rewrite N.eqb_refl. change (fold_left _ cs ?t) with (adds l cs t).
    assert (map (add l x) pre = pre) as ->. { clear -Hpre. induction Hpre; [done|]. cbn [map]. by rewrite add_fresh // IHHpre. }
    rewrite IH; [apply Forall_app; split; [done|by constructor]|]. by rewrite -app_assoc. }
  by apply (H []).
Qed.

(** ** Storing a new leaf *)
Lemma stored_add h lp lx ix ax n t : h !! lp = Some n -> lx <> lp -> h !! lx = None -> stored h t ->
  stored (<[lp := MkNode (nd_id n) (nd_ann n) (nd_sub n ++ [lx])]> (<[lx := MkNode ix ax []]> h)) (add lp (LT lx ix ax []) t).
Proof.
  intros Hlp Hne Hlx. induction t as [l i a s IH] using lt_ind'. intros H. inversion H as [? ? ? ? Hl Hs]; subst.
  cbn [add].
  assert (Forall (stored (<[lp := MkNode (nd_id n) (nd_ann n) (nd_sub n ++ [lx])]> (<[lx := MkNode ix ax []]> h))) (map (add lp (LT lx ix ax [])) s)) as Hs'.
  { clear -IH Hs. induction IH as [|c s Hc _ IHs]; cbn [map]; [constructor|]. apply Forall_cons in Hs as [H1 H2]. constructor; auto. }
  assert (map ll (map (add lp (LT lx ix ax [])) s) = map ll s) as Hll.
  { rewrite map_map. apply map_ext. intros. apply add_ll. }
  constructor.
  - rewrite map_app Hll. destruct (N.eqb_spec l lp) as [->|Hll'].
    + rewrite lookup_insert. rewrite Hl in Hlp. injection Hlp as <-. done.
    + assert (l <> lx) by congruence. rewrite lookup_insert_ne; [congruence|]. rewrite lookup_insert_ne; [congruence|]. rewrite Hl. cbn [map]. by rewrite app_nil_r.
  - apply Forall_app. split; [done|]. destruct (N.eqb l lp); [|constructor]. constructor; [|constructor].
    constructor; [|constructor]. rewrite lookup_insert_ne; [congruence|]. by rewrite lookup_insert.
Qed.

(** ** The state while a trace is being collected *)
Record inv (t : N) (st : MS) (L : lt) : Prop := {
  i_trace : ms_trace st !! t = Some (ll L);
  i_spans : exists S, ms_span st !! t = Some S /\ forall s l, S !! s = Some l <-> (s, l) ∈ keys L;
  i_stored : stored (ms_heap st) L;
  i_fresh : forall l, ms_next st <= l -> ms_heap st !! l = None }.

Lemma stored_in h t : stored h t -> forall s l, (s, l) ∈ keys t -> exists n, h !! l = Some n /\ sp_span (nd_id n) = s.
Proof.
  induction t as [l i a sb IH] using lt_ind'. intros H. inversion H as [? ? ? ? Hl Hs]; subst. intros s l'. rewrite keys_unfold.
  intros [[= -> ->]|Hin]%elem_of_cons; [eexists; split; [exact Hl|done]|]. clear -IH Hs Hin. induction IH as [|c sb Hc _ IHs]; [by apply elem_of_nil in Hin|].
  cbn [map concat] in Hin. apply Forall_cons in Hs as [H1 H2]. apply elem_of_app in Hin as [Hin|Hin]; eauto.
Qed.
Lemma inv_fresh_loc t st L l : inv t st L -> l ∈ locs L -> l < ms_next st.
Proof.
  intros [_ _ Hs Hf] Hin. apply elem_of_list_fmap in Hin as ([s l'] & -> & Hin). destruct (stored_in _ _ Hs _ _ Hin) as (n & Hn & _).
  destruct (N.ltb_spec l' (ms_next st)) as [|Hge]; [done|]. rewrite Hf in Hn; [lia|done].
Qed.
Lemma split_none h s cs : Forall (fun c => exists n, h !! ll c = Some n /\ nd_id n = li c /\ sp_parent (li c) <> s) cs ->
  split_children h (fun p => p =? s) (map ll cs) = Some ([], map ll cs).
Proof.
  induction 1 as [|c cs (n & Hn & Hi & Hp) _ IH]; [done|]. cbn [map split_children]. rewrite Hn. cbn [mbind option_bind]. rewrite IH. cbn [mbind option_bind].
  rewrite Hi. by apply N.eqb_neq in Hp as ->.
Qed.
Lemma stored_node h t : stored h t -> h !! ll t = Some (MkNode (li t) (match t with LT _ _ a _ => a end) (map ll (lsubs t))).
Proof. intros H. by inversion H. Qed.
Lemma stored_subs h t : stored h t -> Forall (stored h) (lsubs t).
Proof. intros H. by inversion H. Qed.

Lemma collect_leaf t st L id anns lp S :
  inv t st L -> ms_span st !! t = Some S -> sp_trace id = t -> S !! sp_span id = None -> sp_parent id <> 0 ->
  sp_parent (li L) <> sp_span id -> sp_parent id <> sp_span id ->
  Forall (fun x => sp_parent (li x) <> sp_span id) (lsubs L) ->
  lp = default (ll L) (S !! sp_parent id) ->
  exists st', ms_collect id anns st = Some st' /\ ms_next st' = ms_next st + 1 /\ inv t st' (add lp (LT (ms_next st) id anns []) L).
Proof.
  intros Hinv HS Ht Hnew Hp Hr Hself Hch ->. pose proof Hinv as [Htr (S' & HS' & Hkeys) Hst Hf]. rewrite HS in HS'. injection HS' as <-.
  set (s := ms_next st). assert (ms_heap st !! s = None) as Hs by (apply Hf; lia).
  pose proof (stored_node _ _ Hst) as Hroot.
  assert (ll L <> s) as Hrs by congruence.
  rewrite /ms_collect Ht HS. cbn [mbind option_bind]. rewrite HS. cbn [mbind option_bind]. rewrite Hnew Htr. fold s.
  rewrite lookup_insert_ne; [congruence|]. rewrite Hroot. cbn [mbind option_bind nd_id].
  assert (s =? ll L = false) as Hsl by (apply N.eqb_neq; congruence). rewrite !Hsl.
  assert (sp_parent id =? 0 = false) as -> by by apply N.eqb_neq.
  assert (sp_parent (li L) =? sp_span id = false) as -> by by apply N.eqb_neq.
  cbn [negb andb orb mbind option_bind].
  set (h := <[s := MkNode id anns []]> (ms_heap st)).
  set (lp := default (ll L) (S !! sp_parent id)).
  (* insert *)
  assert (exists n, ms_heap st !! lp = Some n) as [n Hn].
  { rewrite /lp. destruct (S !! sp_parent id) as [l|] eqn:E; cbn [default]; [|eexists; exact Hroot].
    apply Hkeys in E. destruct (stored_in _ _ Hst _ _ E) as (n & Hn & _). by exists n. }
  assert (lp <> s) as Hlps by congruence.
  set (h1 := <[lp := MkNode (nd_id n) (nd_ann n) (nd_sub n ++ [s])]> h).
  assert (ms_insert (<[t := <[sp_span id := s]> S]> (ms_span st)) (ll L) s h = Some h1) as Hins.
  { rewrite /ms_insert /h lookup_insert. cbn [mbind option_bind nd_id]. rewrite Ht lookup_insert. cbn [mbind option_bind].
    rewrite lookup_insert_ne; [congruence|].
    assert (forall l, l = lp -> upd_sub (fun sub => sub ++ [s]) l h = Some h1) as Hu.
    { intros l ->. rewrite /upd_sub /h lookup_insert_ne; [congruence|]. by rewrite Hn. }
    rewrite /h in Hu. rewrite /lp in Hu. destruct (S !! sp_parent id); by apply Hu. }
  rewrite Hins !Hsl. cbn [negb mbind option_bind].
  (* nothing is reattached *)
  assert (stored h1 (add lp (LT s id anns []) L)) as Hst1 by (apply stored_add; [done|congruence|done|done]).
  pose proof (stored_node _ _ Hst1) as Hroot1. rewrite add_ll in Hroot1.
  assert (h1 !! s = Some (MkNode id anns [])) as Hs1 by (rewrite /h1 /h lookup_insert_ne; [congruence|]; by rewrite lookup_insert).
  assert (reattach_children s (ll L) h1 = Some h1) as Hre.
  { rewrite /reattach_children. assert (s =? ll L = false) as -> by (apply N.eqb_neq; congruence). rewrite Hs1 Hroot1. cbn [mbind option_bind nd_id nd_sub].
    rewrite split_none.
    2: { cbn [mbind option_bind]. rewrite /upd_sub Hs1. cbn [mbind option_bind nd_id nd_ann nd_sub app]. rewrite (insert_id h1 s) //.
         rewrite Hroot1. cbn [mbind option_bind nd_id nd_ann nd_sub]. rewrite insert_id //. }
    pose proof (stored_subs _ _ Hst1) as Hsubs. pose proof (add_subs lp (LT s id anns []) L) as Hli. 
    assert (Forall (fun i => sp_parent i <> sp_span id) (map li (lsubs (add lp (LT s id anns []) L)))) as Hpar.
    { rewrite Hli. apply Forall_app. split; [by apply Forall_map|]. destruct (N.eqb (ll L) lp); [|constructor]. constructor; [done|constructor]. }
    pose proof (proj1 (Forall_map li _ _) Hpar) as Hpar2. apply Forall_forall. intros x Hx. 
    pose proof (stored_node _ _ (proj1 (Forall_forall _ _) Hsubs x Hx)) as Hnx. eexists. split; [exact Hnx|]. split; [done|]. exact (proj1 (Forall_forall _ _) Hpar2 x Hx). }
  rewrite Hre. cbn [mbind option_bind]. eexists. split; [reflexivity|]. cbn [ms_next]. split; [done|].
  split; cbn [ms_trace ms_span ms_heap ms_next].
  - by rewrite add_ll.
  - eexists. rewrite lookup_insert. split; [reflexivity|]. intros k l. rewrite add_keys keys_unfold. cbn [map concat]. rewrite elem_of_list_singleton.
    destruct (decide (k = sp_span id)) as [->|Hk].
    + rewrite lookup_insert. split.
      * intros [= <-]. right. split; [|done].
        rewrite /lp. destruct (S !! sp_parent id) as [l|] eqn:E; cbn [default].
        -- apply Hkeys in E. apply elem_of_list_fmap. by exists (sp_parent id, l).
        -- destruct L. left.
      * intros [Hin|[_ [= ->]]]; [|done]. apply Hkeys in Hin. congruence.
    + rewrite lookup_insert_ne; [congruence|]. rewrite Hkeys. split; [by left|]. intros [?|[_ [= -> _]]]; done.
  - exact Hst1.
  - intros l Hl. assert (l <> s) by lia. assert (l <> lp). { intros ->. rewrite Hf in Hn; [lia|done]. }
    rewrite /h1 /h !lookup_insert_ne; [congruence..|]. apply Hf. lia.
Qed.

(** ** Collecting a subtree *)
Lemma keys_root L : (sp_span (li L), ll L) ∈ keys L.
Proof. destruct L. left. Qed.
Lemma keys_loc_root h L s : stored h L -> (s, ll L) ∈ keys L -> s = sp_span (li L).
Proof. intros Hst Hin. destruct (stored_in _ _ Hst _ _ Hin) as (n & Hn & <-). rewrite (stored_node _ _ Hst) in Hn. by injection Hn as <-. Qed.
Definition spans (t : tree) : list N := map (fun n => sp_span (tr_id n)) (nodes t).
Lemma spans_unfold i a ts : spans (Tree i a ts) = sp_span i :: concat (map spans ts).
Proof. rewrite /spans nodes_unfold. cbn [map]. f_equal. rewrite concat_map map_map. done. Qed.

(** The conditions on a node that is not the root, given the parent of the root. *)
Definition node_ok (t rp : N) (n : tree) : Prop := sp_trace (tr_id n) = t /\ sp_parent (tr_id n) <> 0 /\ rp <> sp_span (tr_id n).
(** Where the nodes of a subtree hang. *)
Definition edges_ok (s : tree) : Prop := forall p c, edge s p c -> sp_parent (tr_id c) = sp_span (tr_id p).
(** The children of the root of [L]. *)
Definition top_ok (All : list N) (L : lt) : Prop :=
  Forall (fun i => sp_parent i = sp_span (li L) \/ sp_parent i ∉ All) (map li (lsubs L)).
Lemma top_ok_fill All lp s i a cs cs' L : top_ok All (add lp (LT s i a cs) L) -> top_ok All (add lp (LT s i a cs') L).
Proof. by rewrite /top_ok !add_li !add_subs. Qed.

Lemma edges_sub id anns cs c : edges_ok (Tree id anns cs) -> In c cs -> edges_ok c.
Proof.
  intros He Hc p q [Hp Hq]. apply He. split; [|done]. apply (nodes_trans _ _ c); [|done]. by apply child_in_nodes.
Qed.
Lemma erase_eq l i a cs : erase (LT l i a cs) = Tree i a (map erase cs). Proof. done. Qed.

Lemma build t All sub : forall st L lp,
  inv t st L -> Forall (node_ok t (sp_parent (li L))) (nodes sub) -> edges_ok sub ->
  NoDup (spans sub) -> (forall s l, (s, l) ∈ keys L -> s ∈ All /\ s ∉ spans sub) -> (forall s, s ∈ spans sub -> s ∈ All) ->
  (sp_parent (tr_id sub), lp) ∈ keys L \/ lp = ll L /\ sp_parent (tr_id sub) ∉ All ->
  top_ok All L ->
  exists st' x, ms_run (map call_of (nodes sub)) st = Some st' /\ erase x = sub /\ inv t st' (add lp x L) /\
    ms_next st <= ms_next st' /\ (forall l, l ∈ locs x -> ms_next st <= l) /\ top_ok All (add lp x L) /\
    (forall s l, (s, l) ∈ keys x -> s ∈ spans sub).
Proof.
  induction sub as [id anns cs IH] using tree_ind'. intros st L lp Hinv Hnodes Hedges Hnd Hdisj Hall Htgt Htop.
  rewrite nodes_unfold in Hnodes. apply Forall_cons in Hnodes as [(Ht & Hp0 & Hrp) Hnodes]. cbn [tr_id] in *.
  rewrite spans_unfold in Hnd. apply NoDup_cons in Hnd as [Hid Hnd].
  pose proof Hinv as [_ (S & HS & Hkeys) Hst _].
  assert (sp_span id ∈ spans (Tree id anns cs)) as Hself by (rewrite spans_unfold; left).
  assert (lp = default (ll L) (S !! sp_parent id)) as Hlp.
  { destruct Htgt as [Hin|[-> Hno]]; [by rewrite (proj2 (Hkeys _ _) Hin)|]. destruct (S !! sp_parent id) eqn:E; [|done].
    apply Hkeys in E. by destruct (Hdisj _ _ E). }
  assert (lp ∈ locs L) as Hlpin.
  { destruct Htgt as [Hin|[-> _]]; apply elem_of_list_fmap; [by exists (sp_parent id, lp)|]. eexists. split; [|apply keys_root]. done. }
  pose proof (inv_fresh_loc _ _ _ _ Hinv Hlpin) as Hlplt.
  destruct (collect_leaf t st L id anns lp S Hinv HS Ht) as (st1 & Hc & Hn1 & Hinv1); [|done|done| | |done|].
  { destruct (S !! sp_span id) eqn:E; [|done]. apply Hkeys in E. by destruct (Hdisj _ _ E). }
  { destruct Htgt as [Hin|[_ Hno]].
    - destruct (Hdisj _ _ Hin) as [_ Hno]. intros E. by rewrite E in Hno.
    - intros E. apply Hno. rewrite E. by apply Hall. }
  { apply (Forall_map li (fun i => sp_parent i <> sp_span id)). eapply Forall_impl; [exact Htop|]. intros x [Hx|Hx] E.
    - destruct (Hdisj _ _ (keys_root L)) as [_ Hno]. apply Hno. by rewrite -Hx E.
    - apply Hx. rewrite E. by apply Hall. }
  set (s := ms_next st) in *.
  assert (s ∉ locs L) as HsL. { intros Hin. pose proof (inv_fresh_loc _ _ _ _ Hinv Hin). lia. }
  assert (s <> lp) as Hsp by lia.
  assert (top_ok All (add lp (LT s id anns []) L)) as Htop1.
  { rewrite /top_ok add_li add_subs. apply Forall_app.
    split; [done|]. destruct (N.eqb_spec (ll L) lp) as [Heq|]; [|constructor]. constructor; [|constructor]. cbn [li].
    destruct Htgt as [Hin|[_ Hno]]; [|by right]. left. apply (keys_loc_root (ms_heap st) L); [done|]. by rewrite Heq. }
  (* the children *)
  assert (forall todo pre st1, Forall (fun c => In c cs) todo ->
    inv t st1 (add lp (LT s id anns pre) L) -> s < ms_next st1 -> NoDup (concat (map spans todo)) ->
    Forall (fun x => s ∉ locs x) pre -> (forall l, l ∈ concat (map locs pre) -> s <= l) ->
    (forall k l, (k, l) ∈ concat (map keys pre) -> k ∈ concat (map spans cs) /\ k ∉ concat (map spans todo)) ->
    exists st' xs, ms_run (map call_of (concat (map nodes todo))) st1 = Some st' /\ map erase xs = todo /\
      inv t st' (add lp (LT s id anns (pre ++ xs)) L) /\ ms_next st1 <= ms_next st' /\
      (forall l, l ∈ concat (map locs (pre ++ xs)) -> s <= l) /\
      (forall k l, (k, l) ∈ concat (map keys (pre ++ xs)) -> k ∈ concat (map spans cs))) as Hloop.
  { intros todo. induction todo as [|c todo IHt]; intros pre st2 Hin Hi2 Hlt Hnd2 Hpre Hplocs Hpks.
    { exists st2, []. cbn [map concat ms_run]. rewrite !app_nil_r. split_and!; try done. intros k l Hk. by destruct (Hpks _ _ Hk). }
    apply Forall_cons in Hin as [Hcin Hin]. cbn [map concat] in Hnd2. apply NoDup_app in Hnd2 as (Hndc & Hdisjc & Hnd2).
    assert (forall x, x ∈ spans c -> x ∈ concat (map spans cs)) as Hsubspan.
    { intros x Hx. apply elem_of_list_In, in_concat. exists (spans c). split; [by apply in_map|by apply elem_of_list_In]. }
    destruct (proj1 (Forall_forall _ _) IH c ltac:(by apply elem_of_list_In) st2 (add lp (LT s id anns pre) L) s) as (st3 & x & Hr3 & Hex & Hi3 & Hn3 & Hx3 & Ht3 & Hk3).
    { done. }
    { rewrite add_li. apply Forall_forall. intros n Hn. apply (proj1 (Forall_forall _ _) Hnodes). apply elem_of_list_In, in_concat.
      exists (nodes c). split; [by apply in_map|by apply elem_of_list_In]. }
    { by apply (edges_sub id anns cs). }
    { done. }
    { intros k l. rewrite add_keys. intros [Hk|[_ Hk]].
      - destruct (Hdisj _ _ Hk) as [? Hno]. split; [done|]. intros Hx. apply Hno. rewrite spans_unfold. right. by apply Hsubspan.
      - rewrite keys_unfold in Hk. apply elem_of_cons in Hk as [[= -> ->]|Hk].
        + split; [by apply Hall|]. intros Hx. apply Hid. by apply Hsubspan.
        + destruct (Hpks _ _ Hk) as [H1 H2]. split; [apply Hall; rewrite spans_unfold; by right|]. cbn [map concat] in H2. set_solver. }
    { intros k Hk. apply Hall. rewrite spans_unfold. right. by apply Hsubspan. }
    { left. rewrite add_keys. right. split; [done|]. assert (sp_parent (tr_id c) = sp_span id) as ->; [|left].
      apply (Hedges (Tree id anns cs) c). split; [apply nodes_self|done]. }
    { exact (top_ok_fill _ _ _ _ _ _ _ _ Htop1). }
    rewrite add_add in Hi3; [done|done|done|].
    destruct (IHt (pre ++ [x]) st3) as (st4 & xs & Hr4 & Hex4 & Hi4 & Hn4 & Hl4 & Hk4).
    { done. } { done. } { lia. } { done. }
    { apply Forall_app. split; [done|]. constructor; [|constructor]. intros Hs'. apply Hx3 in Hs'. lia. }
    { intros l. rewrite map_app concat_app elem_of_app. intros [Hl|Hl]; [by apply Hplocs|]. cbn [map concat] in Hl. rewrite app_nil_r in Hl. apply Hx3 in Hl. lia. }
    { intros k l. rewrite map_app concat_app elem_of_app. intros [Hk|Hk].
      - destruct (Hpks _ _ Hk) as [H1 H2]. split; [done|]. cbn [map concat] in H2. set_solver.
      - cbn [map concat] in Hk. rewrite app_nil_r in Hk. apply Hk3 in Hk. split; [by apply Hsubspan|]. by apply Hdisjc. }
    exists st4, (x :: xs). rewrite -app_assoc in Hi4, Hl4, Hk4. split_and!; try done.
    - cbn [map concat]. rewrite map_app ms_run_app Hr3. exact Hr4.
    - cbn [map]. by rewrite Hex Hex4.
    - lia. }
  destruct (Hloop cs [] st1) as (st' & xs & Hrun & Her & Hinv' & Hn' & Hlocs & Hks).
  { apply Forall_forall. intros c Hc'. by apply elem_of_list_In. }
  { done. } { lia. } { done. } { constructor. } { intros l Hl. by apply elem_of_nil in Hl. } { intros k l Hl. by apply elem_of_nil in Hl. }
  exists st', (LT s id anns xs). split_and!.
  - rewrite nodes_unfold. cbn [map ms_run call_of ms_step tr_id tr_anns]. rewrite Hc. exact Hrun.
  - by rewrite erase_eq Her.
  - done.
  - lia.
  - intros l. rewrite /locs keys_unfold. cbn [map snd]. intros [->|Hl]%elem_of_cons; [lia|]. apply Hlocs. rewrite concat_map map_map in Hl. done.
  - exact (top_ok_fill _ _ _ _ _ _ _ _ Htop1).
  - intros k l. rewrite keys_unfold spans_unfold. intros [[= -> _]|Hk]%elem_of_cons; [left|right]. exact (Hks _ _ Hk).
Qed.

(** ** Collecting a whole tree into a store that has no such trace *)
Lemma collect_first st id anns : ms_ok st -> ms_trace st !! sp_trace id = None ->
  exists st', ms_collect id anns st = Some st' /\ ms_next st' = ms_next st + 1 /\ inv (sp_trace id) st' (LT (ms_next st) id anns []).
Proof.
  intros Hok Hnone. assert (ms_span st !! sp_trace id = None) as Hsn.
  { destruct (ms_span st !! sp_trace id) as [S|] eqn:E; [|done]. destruct (inv_trace _ Hok _ _ E) as (r & Hr & _). congruence. }
  rewrite /ms_collect Hsn lookup_insert. cbn [mbind option_bind]. rewrite lookup_empty Hnone lookup_insert. cbn [mbind option_bind].
  rewrite !N.eqb_refl. cbn [negb andb mbind option_bind]. rewrite ?N.eqb_refl. cbn [negb]. rewrite ?andb_false_r ?N.eqb_refl. cbn [negb mbind option_bind].
  eexists. split; [reflexivity|]. cbn [ms_next]. split; [done|].
  split; cbn [ms_trace ms_span ms_heap ms_next].
  - by rewrite lookup_insert.
  - eexists. rewrite lookup_insert. split; [reflexivity|]. intros k l. rewrite keys_unfold. cbn [map concat]. rewrite elem_of_list_singleton.
    destruct (decide (k = sp_span id)) as [->|Hk].
    + rewrite lookup_insert. split; [by intros [= ->]|by intros [= ->]].
    + rewrite lookup_insert_ne; [congruence|]. rewrite lookup_empty. split; [done|]. by intros [= -> _].
  - constructor; [by rewrite lookup_insert|constructor].
  - intros l Hl. rewrite lookup_insert_ne; [lia|]. destruct (ms_heap st !! l) eqn:E; [|done]. pose proof (inv_fresh _ Hok l ltac:(by rewrite E)). lia.
Qed.

Lemma add_top s i a pre x : Forall (fun c => s ∉ locs c) pre -> add s x (LT s i a pre) = LT s i a (pre ++ [x]).
Proof.
  intros Hpre. cbn [add]. rewrite N.eqb_refl. do 2 f_equal. induction Hpre as [|c pre Hc _ IH]; [done|]. cbn [map]. by rewrite add_fresh // IH.
Qed.

(** What makes a tree of one trace reproducible. *)
Record tree_ok (tr : tree) : Prop := {
  to_trace : forall n, In n (nodes tr) -> sp_trace (tr_id n) = sp_trace (tr_id tr);
  to_once : NoDup (spans tr);
  to_node : forall n, In n (nodes tr) -> n <> tr -> sp_parent (tr_id n) <> 0 /\ sp_parent (tr_id tr) <> sp_span (tr_id n);
  to_edge : forall p c, edge tr p c -> sp_parent (tr_id c) = sp_span (tr_id p) \/ p = tr /\ sp_parent (tr_id c) ∉ spans tr }.

Lemma collect_tree tr st : ms_ok st -> ms_trace_of st (sp_trace (tr_id tr)) = None -> tree_ok tr ->
  exists st', collect_trace tr st = Some st' /\ shows st' (sp_trace (tr_id tr)) tr.
Proof.
  destruct tr as [id anns cs]. cbn [tr_id]. intros Hok Hnone [Htr Honce Hnode Hedge]. cbn [tr_id] in *.
  rewrite collect_trace_run nodes_unfold. cbn [map ms_run call_of ms_step tr_id tr_anns].
  destruct (collect_first st id anns Hok Hnone) as (st1 & -> & Hn1 & Hinv1). cbn [mbind option_bind].
  set (t := sp_trace id) in *. set (s := ms_next st) in *. set (All := spans (Tree id anns cs)) in *.
  assert (All = sp_span id :: concat (map spans cs)) as HAll by apply spans_unfold.
  rewrite HAll in Honce. apply NoDup_cons in Honce as [Hid Honce].
  assert (forall todo pre st1, Forall (fun c => In c cs) todo ->
    inv t st1 (LT s id anns pre) -> s < ms_next st1 -> NoDup (concat (map spans todo)) -> Forall (fun x => s ∉ locs x) pre ->
    (forall k l, (k, l) ∈ concat (map keys pre) -> k ∈ concat (map spans cs) /\ k ∉ concat (map spans todo)) -> top_ok All (LT s id anns pre) ->
    exists st' xs, ms_run (map call_of (concat (map nodes todo))) st1 = Some st' /\ map erase xs = todo /\ inv t st' (LT s id anns (pre ++ xs))) as Hloop.
  { intros todo. induction todo as [|c todo IHt]; intros pre st2 Hin Hi2 Hlt Hnd2 Hpre Hpks Htop.
    { exists st2, []. cbn [map concat ms_run]. by rewrite !app_nil_r. }
    apply Forall_cons in Hin as [Hcin Hin]. cbn [map concat] in Hnd2. apply NoDup_app in Hnd2 as (Hndc & Hdisjc & Hnd2).
    assert (forall x, x ∈ spans c -> x ∈ concat (map spans cs)) as Hsubspan.
    { intros x Hx. apply elem_of_list_In, in_concat. exists (spans c). split; [by apply in_map|by apply elem_of_list_In]. }
    assert (forall n, In n (nodes c) -> In n (nodes (Tree id anns cs)) /\ n <> Tree id anns cs) as Hbelow.
    { intros n Hn. split; [apply (nodes_trans _ _ c); [by apply child_in_nodes|done]|]. intros ->. apply Hid. apply Hsubspan.
      apply elem_of_list_In. rewrite /spans. apply in_map_iff. exists (Tree id anns cs). done. }
    destruct (build t All c st2 (LT s id anns pre) s) as (st3 & x & Hr3 & Hex & Hi3 & Hn3 & Hx3 & Ht3 & Hk3).
    { done. }
    { cbn [li]. apply Forall_forall. intros n Hn%elem_of_list_In. destruct (Hbelow n Hn) as [Hn1' Hne]. split; [by apply Htr|]. by apply Hnode. }
    { intros p q [Hp Hq]. destruct (Hbelow p Hp) as [Hp' Hne]. destruct (Hedge p q) as [He|[-> _]]; done. }
    { done. }
    { intros k l. rewrite keys_unfold HAll. intros [[= -> ->]|Hk]%elem_of_cons.
      - split; [left|]. intros Hx. apply Hid. by apply Hsubspan.
      - destruct (Hpks _ _ Hk) as [H1 H2]. split; [by right|]. cbn [map concat] in H2. set_solver. }
    { intros k Hk. rewrite HAll. right. by apply Hsubspan. }
    { destruct (Hedge (Tree id anns cs) c) as [->|[_ Hno]]; [split; [apply nodes_self|done]|left; left|]. right. done. }
    { done. }
    rewrite add_top in Hi3 Ht3; [done|].
    destruct (IHt (pre ++ [x]) st3) as (st4 & xs & Hr4 & Hex4 & Hi4).
    { done. } { done. } { lia. } { done. }
    { apply Forall_app. split; [done|]. constructor; [|constructor]. intros Hs'. apply Hx3 in Hs'. lia. }
    { intros k l. rewrite map_app concat_app elem_of_app. intros [Hk|Hk].
      - destruct (Hpks _ _ Hk) as [H1 H2]. split; [done|]. cbn [map concat] in H2. set_solver.
      - cbn [map concat] in Hk. rewrite app_nil_r in Hk. apply Hk3 in Hk. split; [by apply Hsubspan|]. by apply Hdisjc. }
    { done. }
    exists st4, (x :: xs). rewrite -app_assoc in Hi4. split_and!; [|cbn [map]; by rewrite Hex Hex4|done].
    cbn [map concat]. rewrite map_app ms_run_app Hr3. exact Hr4. }
  destruct (Hloop cs [] st1) as (st' & xs & Hrun & Her & [H1 H2 H3 H4]).
  { apply Forall_forall. intros c Hc'. by apply elem_of_list_In. }
  { done. } { lia. } { done. } { constructor. } { intros k l Hl. by apply elem_of_nil in Hl. } { constructor. }
  exists st'. split; [exact Hrun|]. exists s. split; [exact H1|]. rewrite -Her. apply stored_reads in H3. exact H3.
Qed.

(** ** Exported trees *)
Lemma exported_ok calls st t tr sub :
  ms_run calls ms_init = Some st -> shows st t tr -> In sub (nodes tr) ->
  (forall n, In n (nodes sub) -> n <> sub -> sp_parent (tr_id n) <> 0 /\ sp_span (tr_id n) <> sp_parent (tr_id sub)) ->
  tree_ok sub /\ sp_trace (tr_id sub) = t.
Proof.
  intros Hrun Hs Hsub Hcond. destruct (trace_displayed_any calls st t tr Hrun Hs) as [[D1 D2 D3 D4 D5] _].
  destruct (shown_annotations calls st t tr Hrun Hs) as [Hann Hnd].
  assert (sp_trace (tr_id sub) = t) as Ht by apply (Hann sub Hsub).
  assert (forall n, In n (nodes sub) -> In n (nodes tr)) as Hin by (intros n Hn; exact (nodes_trans _ _ _ Hsub Hn)).
  split; [|done]. split.
  - intros n Hn. rewrite Ht. apply (Hann n). by apply Hin.
  - apply NoDup_ListNoDup in Hnd. clear -Hnd Hsub. revert Hsub Hnd. change (map _ (nodes tr)) with (spans tr).
    induction tr as [i a ts IH] using tree_ind'. rewrite nodes_unfold spans_unfold. intros [<-|Hsub] Hnd.
    + by rewrite spans_unfold.
    + apply NoDup_cons in Hnd as [_ Hnd]. clear -IH Hsub Hnd. induction IH as [|c ts Hc _ IHs]; [done|]. cbn [map concat] in *.
      apply NoDup_app in Hnd as (H1 & _ & H2). apply in_app_or in Hsub as [Hsub|Hsub]; auto.
  - intros n Hn Hne. destruct (Hcond n Hn Hne). split; [done|congruence].
  - intros p c Hpc. destruct (edge_nodes _ _ _ Hpc) as [Hp Hc]. destruct (D5 p c) as [He|[Hp' Hno]]; [split; [by apply Hin|apply Hpc]|by left|].
    subst p. (* the subtree then is the tree *)
    assert (sub = tr) as ->.
    { destruct (node_has_holder _ _ Hp) as [|[q Hq]]; [done|]. exfalso. apply (root_not_child tr q). split; [apply Hin; apply Hq|apply Hq]. }
    right. split; [done|]. intros Hx. apply Hno. apply elem_of_list_In in Hx. rewrite /spans in Hx. apply in_map_iff in Hx as (q & Hq & Hqin).
    exists (tr_id q). split; [by apply D3|done].
Qed.

(** ** Uploads *)
Lemma collect_trace_total tr st : ms_ok st -> exists st', collect_trace tr st = Some st' /\ ms_ok st'.
Proof.
  intros Hok. rewrite collect_trace_run. revert st Hok. induction (nodes tr) as [|n l IH]; intros st Hok; [by exists st|].
  cbn [map ms_run call_of ms_step]. destruct (collect_ok st (tr_id n) (tr_anns n) Hok) as (st1 & -> & Hok1 & _). cbn [mbind option_bind]. by apply IH.
Qed.
Lemma upload_total ts st : ms_ok st -> exists st', upload_traces ts st = Some st' /\ ms_ok st'.
Proof.
  revert st. induction ts as [|t ts IH]; intros st Hok; [by exists st|]. cbn [upload_traces].
  destruct (ms_trace_of st (sp_trace (tr_id t))); [by apply IH|].
  destruct (collect_trace_total t st Hok) as (st1 & -> & Hok1). by apply IH.
Qed.
Lemma live_app_calls t a b acc : live t (a ++ b) acc = live t b (live t a acc).
Proof. revert acc. induction a as [|c a IH]; intros acc; [done|]. destruct c; cbn [app live]; apply IH. Qed.
Lemma live_collects t l acc : acc <> [] -> live t (map call_of l) acc <> [].
Proof.
  revert acc. induction l as [|n l IH]; intros acc H; [done|]. cbn [map live call_of]. apply IH. destruct (_ =? t); [|done]. by destruct acc.
Qed.
(** An upload is a history of Collect calls, of the nodes of those trees that are not skipped. *)
Lemma upload_run ts calls st st' : ms_run calls ms_init = Some st -> upload_traces ts st = Some st' ->
  exists ops, ms_run ops st = Some st' /\
    forall c, In c ops -> exists tr n, In tr ts /\ ms_trace_of st (sp_trace (tr_id tr)) = None /\ In n (nodes tr) /\ c = call_of n.
Proof.
  revert calls st. induction ts as [|t ts IH]; intros calls st Hst; cbn [upload_traces].
  { intros [= <-]. exists []. split; [done|]. intros c []. }
  destruct (ms_trace_of st (sp_trace (tr_id t))) as [r|] eqn:Et.
  { intros H. destruct (IH calls st Hst H) as (ops & Hr & Hc). exists ops. split; [done|]. intros c Hin. destruct (Hc c Hin) as (tr & n & H1 & H2 & H3 & H4).
    exists tr, n. split; [by right|done]. }
  destruct (collect_trace t st) as [st1|] eqn:Ec; [|done]. cbn [mbind option_bind]. intros H.
  assert (ms_run (calls ++ map call_of (nodes t)) ms_init = Some st1) as Hst1 by (rewrite ms_run_app Hst; cbn [mbind option_bind]; by rewrite -collect_trace_run).
  destruct (IH _ st1 Hst1 H) as (ops & Hr & Hc).
  exists (map call_of (nodes t) ++ ops). rewrite ms_run_app -collect_trace_run Ec. split; [done|].
  intros c [Hin|Hin]%in_app_or.
  - apply in_map_iff in Hin as (n & <- & Hn). exists t, n. split; [by left|done].
  - destruct (Hc c Hin) as (tr & n & H1 & H2 & H3 & H4). exists tr, n. split; [by right|]. split; [|done].
    apply (found_iff _ _ _ Hst1) in H2. rewrite live_app_calls in H2. apply (found_iff _ _ _ Hst).
    destruct (live (sp_trace (tr_id tr)) calls []) eqn:E; [done|]. exfalso. by apply live_collects in H2.
Qed.

Lemma upload_app a b st : upload_traces (a ++ b) st = (st ← upload_traces a st; upload_traces b st).
Proof.
  revert st. induction a as [|t a IH]; intros st; [done|]. cbn [app upload_traces]. destruct (ms_trace_of st _); [apply IH|].
  destruct (collect_trace t st); [|done]. apply IH.
Qed.

(** Traces that none of the uploaded trees touches keep what they show. *)
Lemma upload_keeps ts calls st st' t : ms_run calls ms_init = Some st -> upload_traces ts st = Some st' ->
  (forall x n, In x ts -> In n (nodes x) -> sp_trace (tr_id n) = t -> ms_trace_of st (sp_trace (tr_id x)) <> None) ->
  ms_trace_of st' t = ms_trace_of st t /\ forall tr, shows st' t tr <-> shows st t tr.
Proof.
  intros Hrun Hup Hno. destruct (upload_run ts calls st st' Hrun Hup) as (ops & Hr & Hops).
  apply (ops_isolated calls ops st st' t Hrun Hr). intros c Hc. destruct (Hops c Hc) as (tr & n & H1 & H2 & H3 & ->).
  cbn [touches call_of]. intros E. by apply (Hno tr n).
Qed.

Lemma recreated calls st t tr sub calls' st' before after :
  ms_run calls ms_init = Some st -> shows st t tr -> In sub (nodes tr) ->
  (forall n, In n (nodes sub) -> n <> sub -> sp_parent (tr_id n) <> 0 /\ sp_span (tr_id n) <> sp_parent (tr_id sub)) ->
  ms_run calls' ms_init = Some st' -> ms_trace_of st' t = None ->
  (forall x n, In x before -> In n (nodes x) -> sp_trace (tr_id n) <> t) ->
  (forall x n, In x after -> In n (nodes x) -> sp_trace (tr_id n) = sp_trace (tr_id x)) ->
  exists st'', upload_traces (before ++ sub :: after) st' = Some st'' /\ shows st'' t sub.
Proof.
  intros Hrun Hs Hsub Hcond Hrun' Hnone Hb Ha. destruct (exported_ok calls st t tr sub Hrun Hs Hsub Hcond) as [Hok Ht].
  destruct (run_state _ _ Hrun') as [Hok' _].
  destruct (upload_total before st' Hok') as (st1 & H1 & Hok1).
  destruct (upload_keeps before calls' st' st1 t Hrun' H1) as [Hk1 _]. { intros x n Hx Hn E. by destruct (Hb x n Hx Hn). }
  destruct (upload_run before calls' st' st1 Hrun' H1) as (ops1 & Hr1 & _).
  assert (ms_run (calls' ++ ops1) ms_init = Some st1) as Hrun1 by (rewrite ms_run_app Hrun'; exact Hr1).
  assert (ms_trace_of st1 t = None) as Hn1 by congruence.
  subst t. destruct (collect_tree sub st1 Hok1 Hn1 Hok) as (st2 & H2 & Hs2).
  assert (ms_run (calls' ++ ops1 ++ map call_of (nodes sub)) ms_init = Some st2) as Hrun2.
  { rewrite app_assoc ms_run_app Hrun1. cbn [mbind option_bind]. by rewrite -collect_trace_run. }
  destruct (run_state _ _ Hrun2) as [Hok2 _]. destruct (upload_total after st2 Hok2) as (st3 & H3 & Hok3).
  exists st3. rewrite upload_app H1. cbn [mbind option_bind upload_traces]. rewrite Hn1 H2. cbn [mbind option_bind]. split; [exact H3|].
  apply (upload_keeps after _ st2 st3 _ Hrun2 H3); [|exact Hs2]. intros x n Hx Hn E.
  rewrite -(Ha x n Hx Hn) E. destruct Hs2 as (l & Hl & _). congruence.
Qed.

Lemma rooted_root calls st t tr root : ms_run calls ms_init = Some st -> shows st t tr ->
  (forall s, In s (spans_of (live t calls [])) -> sp_span s <> 0) ->
  In root (spans_of (live t calls [])) -> sp_parent root = 0 ->
  (forall s, In s (spans_of (live t calls [])) -> sp_parent s = 0 -> s = root) ->
  tr_id tr = root.
Proof.
  intros Hrun Hs Hz Hroot Hp Hone. destruct (trace_displayed_any calls st t tr Hrun Hs) as [[D1 _ _ _ _] _].
  destruct (spans_of (live t calls [])) as [|s l]; [done|]. cbn [root_of] in D1. injection D1 as D1. rewrite -D1.
  apply Hone; [apply root_from_in|]. apply root_from_parent0; [done|]. by exists root.
Qed.

Lemma rooted_recreated calls st t tr sub root calls' st' :
  ms_run calls ms_init = Some st -> shows st t tr -> In sub (nodes tr) ->
  (forall s, In s (spans_of (live t calls [])) -> sp_span s <> 0) ->
  In root (spans_of (live t calls [])) -> sp_parent root = 0 ->
  (forall s, In s (spans_of (live t calls [])) -> sp_parent s = 0 -> s = root) ->
  ms_run calls' ms_init = Some st' -> ms_trace_of st' t = None ->
  exists st'', upload_traces [sub] st' = Some st'' /\ shows st'' t sub.
Proof.
  intros Hrun Hs Hsub Hz Hroot Hp Hone Hrun' Hnone.
  pose proof (rooted_root _ _ _ _ _ Hrun Hs Hz Hroot Hp Hone) as Htr.
  destruct (trace_displayed_any calls st t tr Hrun Hs) as [[D1 D2 D3 D4 D5] _].
  destruct (shown_annotations calls st t tr Hrun Hs) as [Hann Hnd].
  assert (forall n, In n (nodes tr) -> n <> tr -> sp_parent (tr_id n) <> 0) as Hpar.
  { intros n Hn Hne E. apply Hne. apply (nodup_id_inj tr); [done|done|apply nodes_self|]. rewrite Htr. apply Hone; [by apply D3|done]. }
  apply (recreated calls st t tr sub calls' st' [] [] Hrun Hs Hsub); [|done|done|by intros ? ? []|by intros ? ? []].
  intros n Hn Hne. assert (In n (nodes tr)) as Hnt by exact (nodes_trans _ _ _ Hsub Hn).
  assert (n <> tr) as Hntr.
  { intros ->. destruct (node_has_holder _ _ Hn) as [|[q Hq]]; [congruence|]. apply (root_not_child tr q). split; [apply (nodes_trans _ _ sub); [done|apply Hq]|apply Hq]. }
  split; [by apply Hpar|].
  destruct (node_has_holder _ _ Hsub) as [->|[p Hp']].
  - rewrite Htr Hp. by apply Hz, D3.
  - destruct (edge_nodes _ _ _ Hp') as [Hpin _]. destruct (D5 p sub Hp') as [E|[-> Hno]].
    + rewrite E. intros E'. assert (n = p) as ->.
      { apply (nodup_id_inj tr); [done|done|done|]. apply (spans_of_span_inj (live t calls [])); [by apply D3|by apply D3|done]. }
      (* a descendant of sub that holds sub *)
      pose proof (tsize_node p sub Hn). destruct Hp' as [_ Hp']. pose proof (tsize_sub p sub Hp'). lia.
    + intros E. apply Hno. exists (tr_id n). split; [by apply D3|done].
Qed.

(** ** Witnesses *)
(** Two spans without a parent. *)
Definition wit_roots : list call := [CCollect (MkSpanID 1 1 0) []; CCollect (MkSpanID 1 2 0) []].
Definition wit_roots_tree : tree := Tree (MkSpanID 1 2 0) [] [Tree (MkSpanID 1 1 0) [] []].
(** No span without a parent: 7 below 3, 2 below a span that is not there, 3 below 2. *)
Definition wit_part : list call := [CCollect (MkSpanID 1 7 3) []; CCollect (MkSpanID 1 2 9) []; CCollect (MkSpanID 1 3 2) []].
Definition wit_part_tree : tree := Tree (MkSpanID 1 3 2) [] [Tree (MkSpanID 1 7 3) [] []; Tree (MkSpanID 1 2 9) [] []].
