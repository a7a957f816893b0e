(** Proofs about RestartModel.v: what the nodes of a store hold, over any number of restarts. *)
From Verif Require Import Base MemModel MemSpec MemProofs MemProofs2 MemProofs3 MemProofs4 MemWeak PersistModel PersistProofs PersistEveryModel PersistEveryProofs ServeModel ServeProps GobSpec GobProofs RestartModel RestartSpec.
From Coq Require Import ssreflect.
Local Open Scope general_if_scope.

(** * Contents of nodes *)
Definition edges (h : gmap loc Node) : Prop := forall l i c, ids h l = Some i -> c ∈ subs h l -> exists j, ids h c = Some j /\ sp_trace j = sp_trace i.
Definition alike (h h' : gmap loc Node) : Prop := forall l, ids h' l = ids h l /\ anns h' l = anns h l.
Lemma alike_trans a b c : alike a b -> alike b c -> alike a c.
Proof. intros H1 H2 l. destruct (H1 l), (H2 l). split; congruence. Qed.
Lemma alike_refl h : alike h h.
Proof. by intros l. Qed.

Lemma ids_ne h l n x : x <> l -> ids (<[l:=n]> h) x = ids h x.
Proof. intros Hne. rewrite ids_insert. by destruct (decide (x = l)). Qed.
Lemma ids_eq h l n : ids (<[l:=n]> h) l = Some (nd_id n).
Proof. rewrite ids_insert. by destruct (decide (l = l)). Qed.
Lemma upd_sub_edges f l h h' i : edges h -> ids h l = Some i ->
  (forall c, c ∈ f (subs h l) -> exists j, ids h c = Some j /\ sp_trace j = sp_trace i) ->
  upd_sub f l h = Some h' -> edges h' /\ alike h h'.
Proof.
  intros He Hi Hf. unfold upd_sub. destruct (ids_lookup _ _ _ Hi) as (n & Hn & <-). rewrite Hn. cbn [mbind option_bind]. intros [= <-].
  assert (alike h (<[l:=MkNode (nd_id n) (nd_ann n) (f (nd_sub n))]> h)) as Ha.
  { intros x. rewrite ids_insert anns_insert. destruct (decide (x = l)) as [->|]; [|done]. rewrite Hi. split; [done|]. by rewrite /anns Hn. }
  assert (subs h l = nd_sub n) as Es by (by rewrite /subs Hn). rewrite Es in Hf.
  split; [|exact Ha]. intros x ix c. destruct (Ha x) as [-> _]. destruct (Ha c) as [-> _]. intros Hx Hc.
  rewrite /subs in Hc. destruct (decide (x = l)) as [->|Hne].
  - rewrite lookup_insert in Hc. cbn [nd_sub] in Hc. assert (ix = nd_id n) as -> by congruence. by apply Hf.
  - rewrite lookup_insert_ne in Hc; [congruence|]. by apply (He x ix c).
Qed.
Lemma split_sub h test cs yes no : split_children h test cs = Some (yes, no) -> (forall c, c ∈ yes -> c ∈ cs) /\ (forall c, c ∈ no -> c ∈ cs).
Proof.
  revert yes no. induction cs as [|c cs IH]=> yes no; cbn [split_children]; [intros [= <- <-]; done|].
  destruct (h !! c) as [n|]; [|done]. cbn [mbind option_bind]. destruct (split_children h test cs) as [[y k]|]; [|done]. cbn [mbind option_bind].
  destruct (IH y k eq_refl) as [H1 H2]. destruct (test _); intros [= <- <-]; set_solver.
Qed.
Lemma reattach_edges dst src h h' i j : edges h -> ids h dst = Some i -> ids h src = Some j -> sp_trace i = sp_trace j ->
  reattach_children dst src h = Some h' -> edges h' /\ alike h h'.
Proof.
  intros He Hi Hj Ht. unfold reattach_children. destruct (_ =? _); [done|].
  destruct (ids_lookup _ _ _ Hi) as (d & Hd & <-). destruct (ids_lookup _ _ _ Hj) as (s & Hs & <-). rewrite Hd Hs. cbn [mbind option_bind].
  destruct (split_children h _ (nd_sub s)) as [[yes no]|] eqn:Esp; [|done]. cbn [mbind option_bind]. destruct (split_sub _ _ _ _ _ Esp) as [Hy Hno].
  assert (subs h src = nd_sub s) as Es by (by rewrite /subs Hs).
  destruct (upd_sub _ dst h) as [h1|] eqn:E1; [|done]. cbn [mbind option_bind]. intros E2.
  destruct (fun X => upd_sub_edges (fun sub => sub ++ yes) _ _ _ _ He Hi X E1) as [He1 Ha1].
  { intros c Hc. apply elem_of_app in Hc as [Hc|Hc]; [by apply (He dst)|]. rewrite Ht. apply (He src); [done|]. rewrite Es. by apply Hy. }
  destruct (fun X => upd_sub_edges (fun _ => no) _ _ _ (nd_id s) He1 ltac:(by destruct (Ha1 src) as [-> _]) X E2) as [He2 Ha2].
  { intros c Hc. destruct (He src (nd_id s) c Hj) as (j & Hj' & Hjt); [rewrite Es; by apply Hno|]. exists j. by destruct (Ha1 c) as [-> _]. }
  split; [done|]. by apply (alike_trans _ h1).
Qed.
Lemma move_edges root old h h' i j : edges h -> ids h root = Some i -> ids h old = Some j -> sp_trace i = sp_trace j ->
  move_temp_children root old h = Some h' -> edges h' /\ alike h h'.
Proof.
  intros He Hi Hj Ht. unfold move_temp_children. destruct (ids_lookup _ _ _ Hj) as (s & Hs & <-). rewrite Hs. cbn [mbind option_bind].
  destruct (split_children h _ (nd_sub s)) as [[yes no]|] eqn:Esp; [|done]. cbn [mbind option_bind]. destruct (split_sub _ _ _ _ _ Esp) as [Hy Hno].
  assert (subs h old = nd_sub s) as Es by (by rewrite /subs Hs).
  destruct (upd_sub _ root h) as [h1|] eqn:E1; [|done]. cbn [mbind option_bind]. intros E2.
  destruct (fun X => upd_sub_edges (fun sub => sub ++ yes) _ _ _ _ He Hi X E1) as [He1 Ha1].
  { intros c Hc. apply elem_of_app in Hc as [Hc|Hc]; [by apply (He root)|]. rewrite Ht. apply (He old); [done|]. rewrite Es. by apply Hy. }
  destruct (fun X => upd_sub_edges (fun _ => no) _ _ _ (nd_id s) He1 ltac:(by destruct (Ha1 old) as [-> _]) X E2) as [He2 Ha2].
  { intros c Hc. destruct (He old (nd_id s) c Hj) as (j & Hj' & Hjt); [rewrite Es; by apply Hno|]. exists j. by destruct (Ha1 c) as [-> _]. }
  split; [done|]. by apply (alike_trans _ h1).
Qed.
Lemma insert_edges (spans : gmap N (gmap N loc)) root x h h' i j : edges h -> ids h x = Some i -> ids h root = Some j -> sp_trace i = sp_trace j ->
  (forall S k l, spans !! sp_trace i = Some S -> S !! k = Some l -> exists q, ids h l = Some q /\ sp_trace q = sp_trace i) ->
  ms_insert spans root x h = Some h' -> edges h' /\ alike h h'.
Proof.
  intros He Hi Hj Ht Hsp. unfold ms_insert. destruct (ids_lookup _ _ _ Hi) as (n & Hn & <-). rewrite Hn. cbn [mbind option_bind].
  assert (forall p q, ids h p = Some q -> sp_trace q = sp_trace (nd_id n) -> upd_sub (fun sub => sub ++ [x]) p h = Some h' -> edges h' /\ alike h h') as Hgen.
  { intros p q Hp Hq E. apply (upd_sub_edges _ _ _ _ q He Hp) with (2:=E). intros c Hc. apply elem_of_app in Hc as [Hc|Hc]; [by apply (He p)|].
    apply elem_of_list_singleton in Hc as ->. exists (nd_id n). by rewrite Hq. }
  destruct (spans !! sp_trace (nd_id n)) as [S|] eqn:ES; cbn [mbind option_bind].
  - destruct (S !! sp_parent (nd_id n)) as [p|] eqn:Ep; [|by apply (Hgen root j)]. destruct (Hsp S _ p eq_refl Ep) as (q & Hq & Hqt). by apply (Hgen p q).
  - by apply (Hgen root j).
Qed.

(** What a store that was restored, perhaps several times, is known to hold. *)
Record holds (H : list (SpanID * list Annotation)) (st : MS) : Prop := {
  ho_weak : weak_ok st;
  ho_edges : edges (ms_heap st);
  ho_key : forall t S k l, ms_span st !! t = Some S -> S !! k = Some l -> exists i, ids (ms_heap st) l = Some i /\ sp_trace i = t /\ sp_span i = k;
  ho_nodes : forall l n, ms_heap st !! l = Some n -> recorded H (nd_id n) (nd_ann n);
}.
Lemma recorded_mono H x id a : recorded H id a -> recorded (H ++ x) id a.
Proof.
  intros [H1 (sub & H2 & H3)]. split; [rewrite map_app; apply in_or_app; by left|]. exists sub. split; [|done].
  rewrite filter_app. etrans; [exact H2|]. by apply sublist_inserts_r.
Qed.
Lemma recorded_more H i id as_ a : recorded H i as_ -> sp_trace i = sp_trace id -> sp_span i = sp_span id -> recorded (H ++ [(id, a)]) i (as_ ++ a).
Proof.
  intros [H1 (sub & H2 & H3)] Ht Hs. split; [rewrite map_app; apply in_or_app; by left|]. exists (sub ++ [(id, a)]). split.
  - rewrite filter_app. apply sublist_app; [exact H2|]. rewrite filter_cons_True; [by split|]. done.
  - rewrite map_app concat_app. apply Forall2_app; [exact H3|]. cbn. rewrite app_nil_r. apply like_anns_refl.
Qed.
Lemma recorded_new H id a : recorded (H ++ [(id, a)]) id a.
Proof.
  split; [rewrite map_app; apply in_or_app; right; by left|]. exists [(id, a)]. split; [|cbn; rewrite app_nil_r; apply like_anns_refl].
  rewrite filter_app. apply sublist_inserts_l. rewrite filter_cons_True; [by split|]. done.
Qed.
Lemma nodes_alike h h' (P : SpanID -> list Annotation -> Prop) : alike h h' -> (forall l n, h !! l = Some n -> P (nd_id n) (nd_ann n)) ->
  forall l n, h' !! l = Some n -> P (nd_id n) (nd_ann n).
Proof.
  intros Ha Hp l n Hn. destruct (Ha l) as [E1 E2]. rewrite /ids /anns Hn in E1, E2. destruct (h !! l) as [m|] eqn:Hm; [|done].
  cbn in E1, E2. injection E1 as ->. injection E2 as ->. exact (Hp l m Hm).
Qed.

Lemma holds_collect H st id a st' : holds H st -> ms_collect id a st = Some st' -> holds (H ++ [(id, a)]) st'.
Proof.
  intros [Hw He Hk Hn] Hc. destruct (collect_weak st id a Hw) as (st1 & E & Hw1 & _). assert (st1 = st') as -> by congruence. clear E.
  destruct Hw as [Wf Wc Ws Wr]. unfold ms_collect in Hc. set (t := sp_trace id) in *.
  set (spans0 := match ms_span st !! t with Some _ => ms_span st | None => <[t:=∅]> (ms_span st) end) in *.
  assert (exists S0, spans0 !! t = Some S0 /\ (forall k l, S0 !! k = Some l -> exists i, ids (ms_heap st) l = Some i /\ sp_trace i = t /\ sp_span i = k))
    as (S0 & HS0 & HS0i).
  { unfold spans0. destruct (ms_span st !! t) as [S|] eqn:ES.
    - exists S. split; [done|]. intros k l HSk. by apply (Hk t S).
    - exists ∅. rewrite lookup_insert. split; [done|]. intros k l HSk. by rewrite lookup_empty in HSk. }
  assert (forall t', t' <> t -> spans0 !! t' = ms_span st !! t') as HSne.
  { intros t' Hne. unfold spans0. destruct (ms_span st !! t); [done|]. rewrite lookup_insert_ne; [congruence|done]. }
  rewrite HS0 in Hc. cbn [mbind option_bind] in Hc. destruct (S0 !! sp_span id) as [s|] eqn:Hs.
  - destruct (HS0i _ _ Hs) as (i & Hi & Hit & Hik). destruct (ids_lookup _ _ _ Hi) as (n & Hnl & <-). rewrite Hnl in Hc. cbn [mbind option_bind] in Hc.
    injection Hc as <-. set (h' := <[s:=_]> (ms_heap st)) in *.
    assert (forall l, ids h' l = ids (ms_heap st) l) as HI.
    { intros l. rewrite /h' ids_insert. destruct (decide (l = s)) as [->|]; [by rewrite Hi|done]. }
    split; cbn [ms_heap ms_span]; [done|..].
    + intros l i c. rewrite !HI. intros Hl Hsub. apply (He l i c Hl). rewrite /subs /h' in Hsub. rewrite /subs. destruct (decide (l = s)) as [->|Hne].
      * rewrite lookup_insert in Hsub. by rewrite Hnl.
      * rewrite lookup_insert_ne in Hsub; [congruence|done].
    + intros t' S k l HS Hl. rewrite HI. destruct (decide (t' = t)) as [->|Hne']; [assert (S = S0) as -> by congruence; by apply HS0i|rewrite HSne // in HS; by apply (Hk t' S)].
    + intros l m Hm. rewrite /h' in Hm. destruct (decide (l = s)) as [->|Hne].
      * rewrite lookup_insert in Hm. injection Hm as <-. cbn [nd_id nd_ann]. apply recorded_more; [by apply (Hn s)|done|done].
      * rewrite lookup_insert_ne in Hm; [congruence|]. apply recorded_mono. by apply (Hn l).
  - set (s := ms_next st) in *. set (h0 := <[s:=MkNode id a []]> (ms_heap st)) in *.
    assert (ms_heap st !! s = None) as Hfresh.
    { apply eq_None_not_Some. intros Hx. apply Wf in Hx. unfold s in Hx. lia. }
    assert (forall l i, ids (ms_heap st) l = Some i -> ids h0 l = Some i) as Hold.
    { intros l i Hi. unfold h0. rewrite ids_ne; [intros ->; unfold ids in Hi; by rewrite Hfresh in Hi|done]. }
    assert (ids h0 s = Some id) as Hids by (unfold h0; by rewrite ids_eq).
    assert (edges h0) as He0.
    { intros l i c Hl Hsub. rewrite /subs /h0 in Hsub. destruct (decide (l = s)) as [->|Hne].
      - rewrite lookup_insert in Hsub. by apply elem_of_nil in Hsub.
      - rewrite lookup_insert_ne in Hsub; [congruence|]. rewrite /h0 ids_ne // in Hl. destruct (He l i c Hl Hsub) as (j & Hj & Hjt). eauto. }
    assert (forall l n, h0 !! l = Some n -> recorded (H ++ [(id, a)]) (nd_id n) (nd_ann n)) as Hn0.
    { intros l n Hl. rewrite /h0 in Hl. destruct (decide (l = s)) as [->|Hne].
      - rewrite lookup_insert in Hl. injection Hl as <-. apply recorded_new.
      - rewrite lookup_insert_ne in Hl; [congruence|]. apply recorded_mono. by apply (Hn l). }
    set (spans := <[t:=<[sp_span id:=s]> S0]> spans0) in *.
    set (root := match ms_trace st !! t with Some r => r | None => s end) in *.
    set (tr := match ms_trace st !! t with Some _ => ms_trace st | None => <[t:=s]> (ms_trace st) end) in *.
    assert (exists ir, ids h0 root = Some ir /\ sp_trace ir = t) as (ir & Hir & Hirt).
    { unfold root. destruct (ms_trace st !! t) as [r|] eqn:E; [|eauto]. destruct (Wr t r E) as (i & Hi & Hit). eauto. }
    assert (forall t' S k l, spans !! t' = Some S -> S !! k = Some l -> exists i, ids h0 l = Some i /\ sp_trace i = t' /\ sp_span i = k) as Hsp.
    { intros t' S k l HS Hl. unfold spans in HS. destruct (decide (t' = t)) as [->|Hne].
      - rewrite lookup_insert in HS. injection HS as <-. apply lookup_insert_Some in Hl as [[<- <-]|[_ Hl]]; [by exists id|].
        destruct (HS0i k l Hl) as (i & Hi & Hit & Hik). eauto.
      - rewrite lookup_insert_ne in HS; [congruence|]. rewrite HSne // in HS. destruct (Hk t' S k l HS Hl) as (i & Hi & ?). eauto. }
    assert (forall h', alike h0 h' -> edges h' -> (forall n, MkMS h' (s + 1) n spans = st' -> holds (H ++ [(id, a)]) st')) as Hgen.
    { intros h' Ha Hed n <-. split; cbn [ms_heap ms_span]; [done|done|..].
      - intros t' S k l HS Hl. destruct (Ha l) as [-> _]. by apply (Hsp t' S k l).
      - exact (nodes_alike _ _ _ Ha Hn0). }
    destruct (ids_lookup _ _ _ Hir) as (rn & Hrn & Hrnid). rewrite Hrn in Hc. cbn [mbind option_bind] in Hc.
    destruct (negb (s =? root) && ((sp_parent id =? 0) || (sp_parent (nd_id rn) =? sp_span id))) eqn:Hcond.
    + destruct (reattach_children s root h0) as [h1|] eqn:E1; [|done]. cbn [mbind option_bind] in Hc.
      destruct (reattach_edges _ _ _ _ _ _ He0 Hids Hir (eq_sym Hirt) E1) as [He1 Ha1].
      destruct (ms_insert spans s root h1) as [h2|] eqn:E2; [|done]. cbn [mbind option_bind] in Hc.
      destruct (insert_edges spans s root h1 h2 ir id He1) with (5:=E2) as [He2 Ha2];
        [by destruct (Ha1 root) as [-> _]|by destruct (Ha1 s) as [-> _]|done|
         intros S k l HS Hl; destruct (Ha1 l) as [-> _]; destruct (Hsp (sp_trace ir) S k l HS Hl) as (q & ? & ? & _); eauto|].
      pose proof (alike_trans _ _ _ Ha1 Ha2) as Ha02.
      destruct (move_temp_children s root h2) as [h3|] eqn:E3; [|done]. cbn [mbind option_bind] in Hc.
      destruct (move_edges s root h2 h3 id ir He2) with (4:=E3) as [He3 Ha3]; [by destruct (Ha02 s) as [-> _]|by destruct (Ha02 root) as [-> _]|done|].
      rewrite N.eqb_refl in Hc. cbn [negb] in Hc. rewrite andb_false_r in Hc. cbn [mbind option_bind] in Hc. injection Hc as Hc.
      exact (Hgen h3 (alike_trans _ _ _ Ha02 Ha3) He3 _ Hc).
    + cbn [mbind option_bind] in Hc.
      destruct (if negb (sp_parent id =? 0) && negb (s =? root) then ms_insert spans root s h0 else Some h0) as [h1|] eqn:E1; [|done]. cbn [mbind option_bind] in Hc.
      assert (edges h1 /\ alike h0 h1) as [He1 Ha1].
      { destruct (negb (sp_parent id =? 0) && negb (s =? root)).
        - apply (insert_edges spans root s h0 h1 id ir He0 Hids Hir (eq_sym Hirt)) with (2:=E1). intros S k l HS Hl.
          destruct (Hsp (sp_trace id) S k l HS Hl) as (q & ? & ? & _). eauto.
        - injection E1 as <-. split; [done|apply alike_refl]. }
      destruct (if negb (s =? root) then reattach_children s root h1 else Some h1) as [h2|] eqn:E2; [|done]. cbn [mbind option_bind] in Hc. injection Hc as Hc.
      assert (edges h2 /\ alike h1 h2) as [He2 Ha2].
      { destruct (negb (s =? root)).
        - apply (reattach_edges s root h1 h2 id ir He1) with (4:=E2); [by destruct (Ha1 s) as [-> _]|by destruct (Ha1 root) as [-> _]|done].
        - injection E2 as <-. split; [done|apply alike_refl]. }
      exact (Hgen h2 (alike_trans _ _ _ Ha1 Ha2) He2 _ Hc).
Qed.
Lemma holds_delete H st ts : holds H st -> holds H (ms_delete ts st).
Proof.
  intros [Hw He Hk Hn]. destruct (delete_lookup ts st 0) as (Hh & _). split; [by apply delete_weak|by rewrite Hh| |by rewrite Hh].
  intros t S k l. destruct (delete_lookup ts st t) as (_ & _ & _ & ->). rewrite Hh. destruct (bool_decide _); [done|]. apply Hk.
Qed.
Lemma holds_run H calls : forall st st', holds H st -> ms_run calls st = Some st' -> holds (H ++ collects calls) st'.
Proof.
  revert H. induction calls as [|c calls IH]=> H st st' Hh; cbn [ms_run]; [intros [= <-]; cbn; by rewrite app_nil_r|].
  destruct c as [id a|ts]; cbn [ms_step].
  - destruct (ms_collect id a st) as [st1|] eqn:E; [|done]. cbn [mbind option_bind]. intros Hr. pose proof (IH _ _ _ (holds_collect _ _ _ _ _ Hh E) Hr) as K.
    rewrite -app_assoc in K. exact K.
  - cbn [mbind option_bind]. intros Hr. exact (IH _ _ _ (holds_delete _ _ ts Hh) Hr).
Qed.
Lemma holds_init : holds [] ms_init.
Proof.
  split; [apply weak_init|..]; unfold ms_init; cbn [ms_heap ms_span].
  - intros l i c. rewrite /ids lookup_empty. done.
  - intros t S k l HS. by rewrite lookup_empty in HS.
  - intros l n Hl. by rewrite lookup_empty in Hl.
Qed.

(** * Writing and reading *)
(** Every node of the heap [h'] is one of [h] or comes from a node of a tree that satisfies P; and such nodes have children of the same trace. *)
Definition tnode (P : SpanID -> list Annotation -> Prop) (t : N) (tr : tree) : Prop :=
  forall n, In n (nodes tr) -> sp_trace (tr_id n) = t /\ P (tr_id n) (tr_anns n).
Definition good (P : SpanID -> list Annotation -> Prop) (h : gmap loc Node) : Prop := edges h /\ forall l n, h !! l = Some n -> P (nd_id n) (nd_ann n).
Lemma good_new P h l i a cs : good P h -> h !! l = None -> P i a ->
  (forall c, c ∈ cs -> exists j, ids h c = Some j /\ sp_trace j = sp_trace i) -> good P (<[l:=MkNode i a cs]> h).
Proof.
  intros [He Hp] Hl Hi Hc. split.
  - assert (forall x j, ids h x = Some j -> ids (<[l:=MkNode i a cs]> h) x = Some j) as Hold.
    { intros x j Hx. rewrite ids_ne; [intros ->; by rewrite /ids Hl in Hx|done]. }
    intros x ix c Hx Hsub. rewrite /subs in Hsub. destruct (decide (x = l)) as [->|Hne].
    + rewrite lookup_insert in Hsub. cbn [nd_sub] in Hsub. rewrite ids_eq in Hx. injection Hx as <-. cbn [nd_id].
      destruct (Hc c Hsub) as (j & Hj & Hjt). eauto.
    + rewrite lookup_insert_ne in Hsub; [congruence|]. rewrite ids_ne // in Hx. destruct (He x ix c Hx Hsub) as (j & Hj & Hjt). eauto.
  - intros x n. destruct (decide (x = l)) as [->|Hne]; [rewrite lookup_insert; by intros [= <-]|rewrite lookup_insert_ne; [congruence|apply Hp]].
Qed.
Lemma alloc_good P t tr : forall hn l hn', fresh hn -> good P (fst hn) -> tnode P t tr -> alloc tr hn = (l, hn') ->
  good P (fst hn') /\ exists i, ids (fst hn') l = Some i /\ i = tr_id tr.
Proof.
  induction tr as [i a ts IH] using tree_ind'. intros hn l hn' Hf Hg Ht Ha. rewrite alloc_unfold in Ha.
  assert (forall hn cs hn', fresh hn -> good P (fst hn) -> (forall tr, In tr ts -> tnode P t tr) -> alloc_list ts hn = (cs, hn') ->
    grows hn hn' /\ good P (fst hn') /\ forall c, c ∈ cs -> exists j, ids (fst hn') c = Some j /\ sp_trace j = t) as Hlist.
  { clear -IH. induction ts as [|tr ts IH2]; intros hn cs hn' Hf Hg Ht Hl; cbn [alloc_list] in Hl.
    - injection Hl as <- <-. split; [by apply grows_refl|]. split; [done|]. intros c Hc. by apply elem_of_nil in Hc.
    - destruct (alloc tr hn) as [c0 hn1] eqn:E1. destruct (alloc_list ts hn1) as [cs1 hn2] eqn:E2. injection Hl as <- <-.
      inversion IH as [|? ? I1 I2]; subst. destruct (alloc_ok _ _ _ _ Hf E1) as [G1 _].
      destruct (I1 _ _ _ Hf Hg (Ht tr (or_introl eq_refl)) E1) as [Hg1 (i1 & Hi1 & ->)].
      destruct (IH2 I2 _ _ _ (gr_fresh _ _ G1) Hg1 (fun x Hx => Ht x (or_intror Hx)) E2) as (G2 & Hg2 & Hc2).
      split; [exact (grows_trans _ _ _ G1 G2)|]. split; [done|]. intros c [->|Hc]%elem_of_cons; [|by apply Hc2].
      exists (tr_id tr). split.
      + destruct (ids_lookup _ _ _ Hi1) as (n & Hn & <-). rewrite /ids (lookup_weaken _ _ _ _ Hn (gr_sub _ _ G2)). done.
      + destruct (Ht tr (or_introl eq_refl) tr) as [E _]; [by destruct tr; left|done]. }
  destruct (alloc_list ts hn) as [cs hn1] eqn:E. injection Ha as <- <-.
  destruct (Hlist hn cs hn1 Hf Hg) as (G & Hg1 & Hc); [|done|].
  { intros x Hx n Hn. apply Ht. cbn [nodes]. right. apply in_flat_map. by exists x. }
  destruct (Ht (Tree i a ts) ltac:(by left)) as [Et HP]. cbn [tr_id tr_anns] in Et, HP. cbn [fst].
  split; [|exists i; split; [by rewrite ids_eq|done]].
  apply good_new; [done|..].
  - apply eq_None_not_Some. intros Hx. apply (gr_fresh _ _ G) in Hx. lia.
  - done.
  - intros c Hcc. rewrite Et. by apply Hc.
Qed.
Lemma alloc_map_good P (T : N -> N) d hn m hn' : fresh hn -> good P (fst hn) -> (forall k tr, d !! k = Some tr -> tnode P (T k) (gob_tree tr)) ->
  alloc_map d hn = (m, hn') -> good P (fst hn').
Proof.
  intros Hf Hg Hd E. assert (grows hn hn' /\ good P (fst hn')) as [_ ?]; [|done]. revert Hd m hn' E. unfold alloc_map.
  apply (map_fold_ind (fun r d => (forall k tr, d !! k = Some tr -> tnode P (T k) (gob_tree tr)) -> forall m hn', r = (m, hn') -> grows hn hn' /\ good P (fst hn'))).
  - intros _ m hn' [= <- <-]. split; [by apply grows_refl|done].
  - intros k t d' [m0 hn0] Hk IH Hd m hn'. destruct (IH ltac:(intros k' tr Hk'; apply Hd; rewrite lookup_insert_ne; [congruence|done]) m0 hn0 eq_refl) as [G0 R0].
    destruct (alloc (gob_tree t) hn0) as [l hn1] eqn:E. intros [= <- <-].
    destruct (alloc_ok _ _ _ _ (gr_fresh _ _ G0) E) as [G1 R1]. split; [exact (grows_trans _ _ _ G0 G1)|].
    eapply (alloc_good P (T k)); [apply (gr_fresh _ _ G0)|done| |exact E]. apply Hd. by rewrite lookup_insert.
Qed.
Lemma alloc_map2_good P d hn m hn' : fresh hn -> good P (fst hn) ->
  (forall t D k tr, d !! t = Some D -> D !! k = Some tr -> tnode P t (gob_tree tr)) ->
  alloc_map2 d hn = (m, hn') -> good P (fst hn').
Proof.
  intros Hf Hg Hd E. assert (grows hn hn' /\ good P (fst hn')) as [_ ?]; [|done]. revert Hd m hn' E. unfold alloc_map2.
  apply (map_fold_ind (fun r d => (forall t D k tr, d !! t = Some D -> D !! k = Some tr -> tnode P t (gob_tree tr)) -> forall m hn', r = (m, hn') -> grows hn hn' /\ good P (fst hn'))).
  - intros _ m hn' [= <- <-]. split; [by apply grows_refl|done].
  - intros k t d' [m0 hn0] Hk IH Hd m hn'. destruct (IH ltac:(intros k' D' k2 tr Hk' Hk2; apply (Hd k' D' k2); [rewrite lookup_insert_ne; [congruence|done]|done]) m0 hn0 eq_refl) as [G0 R0].
    destruct (alloc_map t hn0) as [l hn1] eqn:E. intros [= <- <-].
    destruct (alloc_map_ok _ _ _ _ (gr_fresh _ _ G0) E) as [G1 R1]. split; [exact (grows_trans _ _ _ G0 G1)|].
    eapply (alloc_map_good P (fun _ => k)); [apply (gr_fresh _ _ G0)|done| |exact E]. intros k2 tr Hk2. apply (Hd k t k2); [by rewrite lookup_insert|done].
Qed.

Lemma gob_gob_val v : gob_val (gob_val v) = gob_val v.
Proof. by destruct v as [[|]|]. Qed.
Lemma gob_gob_anns a : map gob_ann (map gob_ann a) = map gob_ann a.
Proof. induction a as [|[k v] a IH]; [done|]. cbn. rewrite IH. unfold gob_ann. cbn. by rewrite gob_gob_val. Qed.
Lemma gob_gob tr : gob_tree (gob_tree tr) = gob_tree tr.
Proof.
  induction tr as [i a ts IH] using tree_ind'. cbn [gob_tree]. rewrite gob_gob_anns. f_equal.
  induction IH as [|x ts Hx _ IHt]; [done|]. cbn [map]. by rewrite Hx IHt.
Qed.
Lemma nodes_flat i a ts : nodes (Tree i a ts) = Tree i a ts :: flat_map nodes ts.
Proof. reflexivity. Qed.
Lemma gob_nodes tr : nodes (gob_tree tr) = map gob_tree (nodes tr).
Proof.
  induction tr as [i a ts IH] using tree_ind'. cbn [gob_tree]. rewrite !nodes_flat. cbn [map gob_tree]. f_equal.
  induction IH as [|x ts Hx _ IHt]; [done|]. cbn [map flat_map]. by rewrite map_app Hx IHt.
Qed.
Lemma recorded_gob H id a : recorded H id a -> recorded H id (map gob_ann a).
Proof. intros (H1 & sub & H2 & H3). split; [exact H1|]. exists sub. split; [exact H2|]. exact (like_anns_trans _ _ _ H3 (gob_like_anns a)). Qed.
(** The nodes of a tree that is read from a heap with [good] nodes. *)
Lemma reads_nodes P h : good P h -> forall tr l i, reads h l tr -> ids h l = Some i -> tnode P (sp_trace i) tr.
Proof.
  intros [He Hp]. induction tr as [j a ts IH] using tree_ind'. intros l i Hr Hi. inversion Hr as [l0 n ts0 Hl Hs]; subst.
  assert (i = nd_id n) as -> by (rewrite /ids Hl in Hi; by injection Hi).
  intros m Hm. cbn [nodes] in Hm. destruct Hm as [<-|Hm]; [split; [done|by apply (Hp l)]|].
  apply in_flat_map in Hm as (x & Hx & Hm).
  assert (exists c, c ∈ nd_sub n /\ reads h c x) as (c & Hc & Hcr).
  { clear -Hs Hx. induction Hs as [|c y cs ys Hy _ IH]; [done|]. destruct Hx as [<-|Hx]; [exists c; split; [by left|done]|].
    destruct (IH Hx) as (c' & Hc' & ?). exists c'. split; [by right|done]. }
  destruct (He l (nd_id n) c Hi) as (j & Hj & Hjt); [by rewrite /subs Hl|].
  rewrite Forall_forall in IH. rewrite -Hjt. by apply (IH x ltac:(by apply elem_of_list_In) c j).
Qed.
Lemma holds_restored H st d : holds H st -> ms_writes st d -> holds H (serve_store (Some d)).
Proof.
  intros [Hw He Hk Hn] [Hw1 Hw2]. rewrite /serve_store. destruct (ms_read_from d ms_init) as [st' n] eqn:Er. cbn [fst].
  pose proof (w_fresh _ weak_init) as Hf0. destruct (read_from_ok d ms_init st' n Hf0 Er) as (G & R1 & R2 & _).
  assert (good (recorded H) (ms_heap st)) as Hg by (by split).
  assert (forall l t tr, reads (ms_heap st) l tr -> (exists i, ids (ms_heap st) l = Some i /\ sp_trace i = t) -> tnode (recorded H) t (gob_tree tr)) as Htn.
  { intros l t tr Hr (i & Hi & <-) m Hm. rewrite gob_nodes in Hm. apply in_map_iff in Hm as (x & <- & Hx).
    destruct (reads_nodes _ _ Hg tr l i Hr Hi x Hx) as [E1 E2]. destruct x as [ix ax tx]. cbn in *. split; [done|]. by apply recorded_gob. }
  assert (good (recorded H) (ms_heap st')) as [He' Hn'].
  { unfold ms_read_from in Er. destruct (alloc_map (gd_trace d) (ms_heap ms_init, ms_next ms_init)) as [tm hn1] eqn:E1.
    destruct (alloc_map2 (gd_span d) hn1) as [sm hn2] eqn:E2. injection Er as <- _. cbn [ms_heap].
    destruct (alloc_map_ok _ (ms_heap ms_init, ms_next ms_init) _ _ Hf0 E1) as [G1 _].
    eapply (alloc_map2_good (recorded H)); [apply (gr_fresh _ _ G1)| | |exact E2].
    - apply (alloc_map_good (recorded H) (fun k => k) (gd_trace d) (ms_heap ms_init, ms_next ms_init) tm hn1 Hf0); [| |exact E1].
      + split; [exact (ho_edges _ _ holds_init)|]. intros l m Hl. cbn in Hl. by rewrite lookup_empty in Hl.
      + intros k tr Hk'. specialize (Hw1 k). rewrite Hk' in Hw1. inversion Hw1 as [l tr0 Hr E3 E4|]; subst. apply (Htn l); [done|]. by apply (w_root _ Hw).
    - intros t D k tr HD Hk'. specialize (Hw2 t). rewrite HD in Hw2. inversion Hw2 as [S D0 HR E3 E4|]; subst. specialize (HR k). rewrite Hk' in HR.
      inversion HR as [l tr0 Hr E5 E6|]; subst. apply (Htn l); [done|]. by apply (w_span _ Hw t S k). }
  assert (forall l x tr, reads (ms_heap st) l tr -> reads (ms_heap st') x (gob_tree tr) -> ids (ms_heap st') x = ids (ms_heap st) l) as Hid.
  { intros l x tr H1 H2. apply reads_id in H1 as [-> _]. apply reads_id in H2 as [-> _]. by destruct tr. }
  split; [|done| |done].
  - split.
    + apply (gr_fresh _ _ G).
    + apply (gr_closed _ _ G), (w_closed _ weak_init).
    + intros t S k l HS Hl. specialize (R2 t). rewrite HS in R2. inversion R2 as [D M HR E1 E2|]; subst.
      specialize (Hw2 t). rewrite -E1 in Hw2. inversion Hw2 as [S0 D0 HR0 E3 E4|]; subst.
      specialize (HR k). rewrite Hl in HR. inversion HR as [tr l0 Hrd E5 E6|]; subst.
      specialize (HR0 k). rewrite -E5 in HR0. inversion HR0 as [l1 tr0 Hrd0 E7 E8|]; subst.
      rewrite (Hid _ _ _ Hrd0 Hrd). eapply (w_span _ Hw); eauto.
    + intros t r HS. specialize (R1 t). rewrite HS in R1. inversion R1 as [tr l HR E1 E2|]; subst.
      specialize (Hw1 t). rewrite -E1 in Hw1. inversion Hw1 as [l0 tr0 HR0 E3 E4|]; subst.
      rewrite (Hid _ _ _ HR0 HR). eapply (w_root _ Hw); eauto.
  - intros t S k l HS Hl. specialize (R2 t). rewrite HS in R2. inversion R2 as [D M HR E1 E2|]; subst.
    specialize (Hw2 t). rewrite -E1 in Hw2. inversion Hw2 as [S0 D0 HR0 E3 E4|]; subst.
    specialize (HR k). rewrite Hl in HR. inversion HR as [tr l0 Hrd E5 E6|]; subst.
    specialize (HR0 k). rewrite -E5 in HR0. inversion HR0 as [l1 tr0 Hrd0 E7 E8|]; subst.
    rewrite (Hid _ _ _ Hrd0 Hrd). eapply Hk; eauto.
Qed.
Lemma restored_shows st d t tr : ms_writes st d -> shows st t tr -> shows (serve_store (Some d)) t (gob_tree tr).
Proof.
  intros [Hw1 _] (l & Hl & Hr). rewrite /serve_store. destruct (ms_read_from d ms_init) as [st' n] eqn:Er. cbn [fst].
  destruct (read_from_ok d ms_init st' n (w_fresh _ weak_init) Er) as (_ & R1 & _).
  specialize (Hw1 t). rewrite /ms_trace_of in Hl. rewrite Hl in Hw1. inversion Hw1 as [l0 tr0 Hr0 E3 E4|]; subst.
  specialize (R1 t). rewrite -E4 in R1. inversion R1 as [tr1 l' HR E1 E2|]; subst. exists l'. split; [done|].
  by rewrite (reads_det _ _ _ Hr _ Hr0).
Qed.
Lemma untouched_shows H st calls st' t tr : holds H st -> shows st t tr -> ms_run calls st = Some st' -> Forall (leaves t) calls -> shows st' t tr.
Proof.
  intros Hh (l & Hl & Hr) Hrun Hun. rewrite Forall_forall in Hun.
  destruct (run_other calls st st' t (ho_weak _ _ Hh) Hrun) as [H1 H2].
  - intros id a Hin. apply elem_of_list_In in Hin. exact (Hun _ Hin).
  - intros ts Hin. apply elem_of_list_In in Hin. exact (Hun _ Hin).
  - exists l. split; [by rewrite H1|]. apply (reads_kept (ms_heap st) _ t H2 tr l Hr).
    destruct (w_root _ (ho_weak _ _ Hh) t l Hl) as (i & Hi & <-). intros n Hn.
    by destruct (reads_nodes _ _ (conj (ho_edges _ _ Hh) (ho_nodes _ _ Hh)) tr l i Hr Hi n Hn).
Qed.
