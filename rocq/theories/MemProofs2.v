(** Proofs about MemModel.v: Collect and Delete preserve the invariant; history abstraction. *)
From Verif Require Import Base MemModel MemSpec MemProofs.
From Coq Require Import ZifyBool ZifyNat ZifyN.

Lemma ids_insert h l n x : ids (<[l:=n]> h) x = if decide (x = l) then Some (nd_id n) else ids h x.
Proof. unfold ids. destruct (decide (x = l)) as [->|]; [by rewrite lookup_insert|by rewrite lookup_insert_ne]. Qed.
Lemma anns_insert h l n x : anns (<[l:=n]> h) x = if decide (x = l) then Some (nd_ann n) else anns h x.
Proof. unfold anns. destruct (decide (x = l)) as [->|]; [by rewrite lookup_insert|by rewrite lookup_insert_ne]. Qed.

(** What a Collect call does, as seen by the abstraction. *)
Record collect_effect (st : MS) (id : SpanID) (as_ : list Annotation) (st' : MS) : Prop := {
  ce_other_span : forall t, t <> sp_trace id -> ms_span st' !! t = ms_span st !! t;
  ce_other_trace : forall t, t <> sp_trace id -> ms_trace st' !! t = ms_trace st !! t;
  ce_other_ids : forall l i, ids (ms_heap st) l = Some i -> sp_trace i <> sp_trace id ->
    ms_heap st' !! l = ms_heap st !! l;
  ce_case :
    (exists S s, ms_span st !! sp_trace id = Some S /\ S !! sp_span id = Some s /\
       ms_span st' = ms_span st /\ ms_trace st' = ms_trace st /\
       (forall l, ids (ms_heap st') l = ids (ms_heap st) l) /\
       (forall l, subs (ms_heap st') l = subs (ms_heap st) l) /\
       (forall l, anns (ms_heap st') l =
          if decide (l = s) then (fun a => a ++ as_) <$> anns (ms_heap st) s else anns (ms_heap st) l)) \/
    (exists S s, S = default ∅ (ms_span st !! sp_trace id) /\ S !! sp_span id = None /\
       ms_heap st !! s = None /\
       ms_span st' !! sp_trace id = Some (<[sp_span id := s]> S) /\
       (forall l, ids (ms_heap st') l = if decide (l = s) then Some id else ids (ms_heap st) l) /\
       (forall l, anns (ms_heap st') l = if decide (l = s) then Some as_ else anns (ms_heap st) l) /\
       ms_trace st' !! sp_trace id = Some
         (match ms_trace st !! sp_trace id with
          | None => s
          | Some r => if (sp_parent id =? 0) || bool_decide (par_is (ms_heap st) (sp_span id) r)
                      then s else r
          end))
}.

Lemma ce_other_nodes st id as_ st' : ms_ok st -> collect_effect st id as_ st' ->
  forall t S k l, t <> sp_trace id -> ms_span st !! t = Some S -> S !! k = Some l ->
    ms_heap st' !! l = ms_heap st !! l.
Proof.
  intros Hok Hce t S k l Hne HS Hk. destruct (inv_trace st Hok t S HS) as (r & _ & Htok).
  destruct (ok_ids _ _ _ _ Htok _ _ Hk) as (i & Hi & Hit & _).
  eapply (ce_other_ids _ _ _ _ Hce); [exact Hi|congruence].
Qed.

Lemma collect_existing st id as_ S s :
  ms_ok st -> ms_span st !! sp_trace id = Some S -> S !! sp_span id = Some s ->
  exists st', ms_collect id as_ st = Some st' /\ ms_ok st' /\ collect_effect st id as_ st'.
Proof.
  intros Hok HS Hs. destruct (inv_trace st Hok _ S HS) as (r & Hr & Htr).
  destruct (ok_ids _ _ _ _ Htr _ _ Hs) as (i & Hi & Hit & His).
  unfold ms_collect. rewrite HS. cbn [mbind option_bind]. rewrite HS. cbn [mbind option_bind]. rewrite Hs.
  pose proof Hi as Hi'. unfold ids in Hi'. destruct (ms_heap st !! s) as [n|] eqn:Hn; [|done].
  cbn in Hi'. injection Hi' as Hi'. cbn [mbind option_bind].
  eexists. split; [reflexivity|].
  set (h' := <[s:=_]> (ms_heap st)).
  assert (forall l, ids h' l = ids (ms_heap st) l) as HI.
  { intros l. unfold h'. rewrite ids_insert. destruct (decide (l = s)) as [->|]; [|done]. cbn. by rewrite Hi, Hi'. }
  assert (forall l, subs h' l = subs (ms_heap st) l) as HU.
  { intros l. unfold h', subs. destruct (decide (l = s)) as [->|]; [by rewrite lookup_insert, Hn|by rewrite lookup_insert_ne]. }
  split.
  - split; cbn [ms_heap ms_next ms_trace ms_span].
    + intros l Hl. apply (inv_fresh st Hok). unfold h' in Hl. destruct (decide (l = s)) as [->|]; [by exists n|].
      by rewrite lookup_insert_ne in Hl.
    + apply (inv_none st Hok).
    + intros t S' HS'. destruct (inv_trace st Hok t S' HS') as (r' & Hr' & Ht').
      exists r'. split; [done|]. destruct Ht' as [T1 T2 T3 T4]. split.
      * intros k l Hl. rewrite HI. eauto.
      * done.
      * intros k l Hl. rewrite HU. eauto.
      * intros k l Hl c. rewrite HU, HI. eauto.
  - split; cbn [ms_heap ms_next ms_trace ms_span].
    + done.
    + done.
    + intros l j Hj Hne. unfold h'. rewrite lookup_insert_ne; [done|]. intros <-. congruence.
    + left. exists S, s. split_and!; try done.
      intros l. unfold h'. rewrite anns_insert. destruct (decide (l = s)) as [->|]; [|done].
      unfold anns. rewrite Hn. done.
Qed.

Lemma collect_new st id as_ S :
  ms_ok st -> S = default ∅ (ms_span st !! sp_trace id) -> S !! sp_span id = None ->
  exists st', ms_collect id as_ st = Some st' /\ ms_ok st' /\ collect_effect st id as_ st'.
Proof.
  intros Hok HS Hs. set (t := sp_trace id). set (s := ms_next st).
  assert (ms_heap st !! s = None) as Hfresh.
  { apply eq_None_not_Some. intros Hx. apply (inv_fresh st Hok) in Hx. unfold s in Hx. lia. }
  unfold ms_collect. fold t.
  set (spans0 := match ms_span st !! t with Some _ => ms_span st | None => <[t:=∅]> (ms_span st) end).
  assert (spans0 !! t = Some S) as HS0.
  { unfold spans0. fold t in HS. destruct (ms_span st !! t) eqn:E; cbn in HS; subst; [done|]. by rewrite lookup_insert. }
  assert (forall t', t' <> t -> spans0 !! t' = ms_span st !! t') as HSne.
  { intros t' Hne. unfold spans0. destruct (ms_span st !! t); [done|]. by rewrite lookup_insert_ne. }
  rewrite HS0. cbn [mbind option_bind]. rewrite Hs. fold s.
  set (h0 := <[s:=MkNode id as_ []]> (ms_heap st)).
  set (S' := <[sp_span id:=s]> S).
  set (spans := <[t:=S']> spans0).
  assert (spans !! t = Some S') as HS' by (unfold spans; by rewrite lookup_insert).
  (* nodes of other traces are not s and do not belong to S' *)
  assert (forall l j, ids (ms_heap st) l = Some j -> sp_trace j <> t ->
            l <> s /\ forall k', S' !! k' <> Some l) as Hdisj.
  { intros l j Hj Hjt.
    assert (l <> s) as Hls. { intros ->. unfold ids in Hj. by rewrite Hfresh in Hj. }
    split; [done|]. intros k' Hk'. unfold S' in Hk'. apply lookup_insert_Some in Hk' as [[_ ?]|[_ Hk']]; [done|].
    destruct (ms_span st !! t) as [S2|] eqn:E.
    - fold t in HS. rewrite E in HS. cbn in HS. subst S2.
      destruct (inv_trace st Hok t S E) as (r & _ & Ht). destruct (ok_ids _ _ _ _ Ht _ _ Hk') as (j' & Hj' & ? & _). congruence.
    - fold t in HS. rewrite E in HS. cbn in HS. subst S. by rewrite lookup_empty in Hk'. }
  (* the generic conclusion from a heap h' and a root r' *)
  assert (forall h' tr' r', (forall l, ids h' l = ids h0 l) -> (forall l, anns h' l = anns h0 l) ->
    (forall l, (forall k, S' !! k <> Some l) -> subs h' l = subs h0 l) ->
    trace_ok t h' S' r' -> tr' !! t = Some r' -> (forall t', t' <> t -> tr' !! t' = ms_trace st !! t') ->
    r' = match ms_trace st !! t with
         | None => s
         | Some r => if (sp_parent id =? 0) || bool_decide (par_is (ms_heap st) (sp_span id) r)
                     then s else r end ->
    ms_ok (MkMS h' (s + 1) tr' spans) /\ collect_effect st id as_ (MkMS h' (s + 1) tr' spans)) as Hgen.
  { intros h' tr' r' HI HA HU Htok Htr Htr' Hr'.
    assert (forall l j, ids (ms_heap st) l = Some j -> sp_trace j <> t -> h' !! l = ms_heap st !! l) as Hsame.
    { intros l j Hj Hjt. destruct (Hdisj l j Hj Hjt) as [Hls Hni].
      transitivity (h0 !! l); [by apply node_ext; auto|]. unfold h0. by rewrite lookup_insert_ne. }
    split.
    - split; cbn [ms_heap ms_next ms_trace ms_span].
      + intros l [n Hn]. destruct (decide (l = s)) as [->|Hls]; [lia|].
        assert (is_Some (ms_heap st !! l)) as Hx.
        { assert (is_Some (ids h' l)) as [i Hi] by (apply fmap_is_Some; eauto).
          rewrite HI in Hi. unfold h0 in Hi. rewrite ids_insert, decide_False in Hi by done.
          unfold ids in Hi. destruct (ms_heap st !! l); [eauto|done]. }
        apply (inv_fresh st Hok) in Hx. unfold s. lia.
      + intros t' Ht'. destruct (decide (t' = t)) as [->|Hne]; [congruence|].
        rewrite Htr' by done. apply (inv_none st Hok). rewrite <- HSne by done.
        unfold spans in Ht'. by rewrite lookup_insert_ne in Ht'.
      + intros t' T HT. destruct (decide (t' = t)) as [->|Hne].
        * exists r'. split; [done|]. assert (T = S') as -> by congruence. done.
        * unfold spans in HT. rewrite lookup_insert_ne, HSne in HT by done.
          destruct (inv_trace st Hok t' T HT) as (r2 & Hr2 & Hok2). exists r2. rewrite Htr' by done. split; [done|].
          eapply trace_ok_frame; [|done]. intros k l Hk.
          destruct (ok_ids _ _ _ _ Hok2 _ _ Hk) as (j & Hj & Hjt & _). eapply Hsame; [exact Hj|congruence].
    - split; cbn [ms_heap ms_next ms_trace ms_span].
      + intros t' Hne. unfold spans. rewrite lookup_insert_ne by done. by apply HSne.
      + done.
      + exact Hsame.
      + right. exists S, s. split_and!.
        * done.
        * done.
        * done.
        * fold t. done.
        * intros l. rewrite HI. unfold h0. by rewrite ids_insert.
        * intros l. rewrite HA. unfold h0. by rewrite anns_insert.
        * fold t. by rewrite Htr, Hr'. }
  destruct (ms_trace st !! t) as [r|] eqn:Hr.
  - (* the trace exists *)
    assert (exists T, ms_span st !! t = Some T) as [T HT].
    { destruct (ms_span st !! t) eqn:E; [eauto|]. apply (inv_none st Hok) in E. congruence. }
    assert (T = S) as ->. { fold t in HS. rewrite HT in HS. by cbn in HS. }
    destruct (inv_trace st Hok t S HT) as (r2 & Hr2 & Htok). assert (r2 = r) as -> by congruence.
    destruct (ns_root_key t (ms_heap st) S r s Htok Hfresh) as (ir & Hir & HSr & Hrs).
    assert (ids h0 r = Some ir) as Hir0.
    { unfold h0. by rewrite ids_insert, decide_False. }
    pose proof Hir0 as Hir1. unfold ids in Hir1. destruct (h0 !! r) as [rn|] eqn:Hrn; [|done].
    cbn in Hir1. injection Hir1 as Hrn'. cbn [mbind option_bind].
    destruct (N.eqb_spec s r) as [E|_]; [congruence|]. cbn [negb andb]. rewrite Hrn'.
    assert (bool_decide (par_is (ms_heap st) (sp_span id) r) = (sp_parent ir =? sp_span id)) as Hbd.
    { destruct (N.eqb_spec (sp_parent ir) (sp_span id)) as [E|Hne];
        [apply bool_decide_eq_true|apply bool_decide_eq_false]; unfold par_is; rewrite Hir; cbn; congruence. }
    destruct ((sp_parent id =? 0) || (sp_parent ir =? sp_span id)) eqn:Hcond.
    + (* new root *)
      destruct (ns_replace t id (ms_heap st) S r s spans Htok Hfresh eq_refl Hs as_ HS') as (h3 & Hh3 & HI & HA & HU & Hok3).
      fold h0 in Hh3.
      destruct (reattach_children s r h0) as [h1|] eqn:E1; [|done]. cbn [mbind option_bind] in Hh3 |- *.
      destruct (ms_insert spans s r h1) as [h2|] eqn:E2; [|done]. cbn [mbind option_bind] in Hh3 |- *.
      rewrite Hh3. cbn [mbind option_bind]. rewrite N.eqb_refl. cbn [negb]. rewrite andb_false_r.
      cbn [mbind option_bind]. eexists. split; [reflexivity|].
      apply (Hgen h3 (<[t:=s]> (ms_trace st)) s); try done.
      * by rewrite lookup_insert.
      * intros t' Hne. by rewrite lookup_insert_ne.
      * rewrite Hbd, Hcond. done.
    + (* ordinary span *)
      destruct (ns_plain t id (ms_heap st) S r s spans Htok Hfresh eq_refl Hs as_ HS') as (h2 & Hh2 & HI & HA & HU & Hok2).
      fold h0 in Hh2. cbn [mbind option_bind].
      destruct (N.eqb_spec s r) as [E|_]; [congruence|].
      apply orb_false_iff in Hcond as [Hp0 Hp1]. rewrite Hp0. cbn [negb andb].
      destruct (ms_insert spans r s h0) as [h1|] eqn:E1; [|done]. cbn [mbind option_bind] in Hh2 |- *.
      rewrite Hh2. cbn [mbind option_bind]. eexists. split; [reflexivity|].
      apply (Hgen h2 (ms_trace st) r); try done.
      rewrite Hbd, Hp0, Hp1. done.
  - (* first span of the trace *)
    assert (S = ∅) as HSe.
    { fold t in HS. destruct (ms_span st !! t) as [T|] eqn:E; [|done].
      destruct (inv_trace st Hok t T E) as (r & ? & _). congruence. }
    assert (h0 !! s = Some (MkNode id as_ [])) as Hh0 by (unfold h0; by rewrite lookup_insert).
    rewrite Hh0. cbn [mbind option_bind]. rewrite N.eqb_refl. cbn [negb andb mbind option_bind].
    rewrite N.eqb_refl. cbn [negb]. rewrite andb_false_r. cbn [mbind option_bind].
    eexists. split; [reflexivity|].
    apply (Hgen h0 (<[t:=s]> (ms_trace st)) s); try done.
    + unfold S'. rewrite HSe, insert_empty. split.
      * intros k l Hk. apply lookup_singleton_Some in Hk as [<- <-]. exists id.
        unfold h0. by rewrite ids_insert, decide_True.
      * exists (sp_span id). by rewrite lookup_singleton.
      * intros k l Hk. apply lookup_singleton_Some in Hk as [<- <-]. unfold subs. rewrite Hh0. constructor.
      * intros k l Hk c. apply lookup_singleton_Some in Hk as [<- <-]. unfold subs. rewrite Hh0. cbn.
        split; [by intros ?%elem_of_nil|]. intros (Hc & i & Hi & HSi & _).
        apply lookup_singleton_Some in HSi as [_ HSi]. congruence.
    + by rewrite lookup_insert.
    + intros t' Hne. by rewrite lookup_insert_ne.
Qed.

Lemma collect_ok st id as_ : ms_ok st ->
  exists st', ms_collect id as_ st = Some st' /\ ms_ok st' /\ collect_effect st id as_ st'.
Proof.
  intros Hok. destruct (ms_span st !! sp_trace id) as [S|] eqn:HS.
  - destruct (S !! sp_span id) as [s|] eqn:Hs.
    + by eapply collect_existing.
    + eapply (collect_new st id as_ S); [done|by rewrite HS|done].
  - eapply (collect_new st id as_ ∅); [done|by rewrite HS|apply lookup_empty].
Qed.

Lemma delete_lookup ts st t :
  ms_heap (ms_delete ts st) = ms_heap st /\ ms_next (ms_delete ts st) = ms_next st /\
  ms_trace (ms_delete ts st) !! t = (if bool_decide (t ∈ ts) then None else ms_trace st !! t) /\
  ms_span (ms_delete ts st) !! t = (if bool_decide (t ∈ ts) then None else ms_span st !! t).
Proof.
  unfold ms_delete. revert st. induction ts as [|x ts IH]; intros st.
  - cbn. rewrite bool_decide_eq_false_2 by set_solver. done.
  - cbn [fold_left]. destruct (IH (MkMS (ms_heap st) (ms_next st) (delete x (ms_trace st)) (delete x (ms_span st))))
      as (H1 & H2 & H3 & H4). rewrite H1, H2, H3, H4. cbn [ms_heap ms_next ms_trace ms_span].
    split_and!; [done..| |].
    + destruct (decide (t = x)) as [->|Hne].
      * rewrite (bool_decide_eq_true_2 (x ∈ x :: ts)) by set_solver. rewrite lookup_delete. by destruct (bool_decide _).
      * rewrite lookup_delete_ne by done. replace (bool_decide (t ∈ x :: ts)) with (bool_decide (t ∈ ts)); [done|].
        apply bool_decide_ext. set_solver.
    + destruct (decide (t = x)) as [->|Hne].
      * rewrite (bool_decide_eq_true_2 (x ∈ x :: ts)) by set_solver. rewrite lookup_delete. by destruct (bool_decide _).
      * rewrite lookup_delete_ne by done. replace (bool_decide (t ∈ x :: ts)) with (bool_decide (t ∈ ts)); [done|].
        apply bool_decide_ext. set_solver.
Qed.

Lemma delete_ok st ts : ms_ok st -> ms_ok (ms_delete ts st).
Proof.
  intros Hok. split.
  - intros l. destruct (delete_lookup ts st 0) as (-> & -> & _). apply (inv_fresh st Hok).
  - intros t. destruct (delete_lookup ts st t) as (_ & _ & -> & ->).
    destruct (bool_decide (t ∈ ts)); [done|]. apply (inv_none st Hok).
  - intros t S. destruct (delete_lookup ts st t) as (-> & _ & -> & ->).
    destruct (bool_decide (t ∈ ts)); [done|]. apply (inv_trace st Hok).
Qed.

(** ** Pure facts about histories *)

Lemma live_snoc t calls c acc :
  live t (calls ++ [c]) acc =
  match c with
  | CCollect id a => if sp_trace id =? t then live t calls acc ++ [(id, a)] else live t calls acc
  | CDelete ts => if bool_decide (t ∈ ts) then [] else live t calls acc
  end.
Proof.
  revert acc. induction calls as [|x calls IH]; intros acc.
  - destruct c; done.
  - destruct x; cbn [app live]; by rewrite IH.
Qed.

Lemma first_ids_snoc seen l id a :
  first_ids seen (l ++ [(id, a)]) =
  first_ids seen l ++
    (if bool_decide (sp_span id ∈ seen ++ map sp_span (first_ids seen l)) then [] else [id]).
Proof.
  revert seen. induction l as [|[i b] l IH]; intros seen.
  - cbn. rewrite app_nil_r. destruct (bool_decide _); done.
  - cbn [app first_ids]. destruct (bool_decide (sp_span i ∈ seen)) eqn:E.
    + by rewrite IH.
    + rewrite IH. cbn [app map]. f_equal. f_equal.
      erewrite bool_decide_ext; [reflexivity|]. set_solver.
Qed.

Lemma spans_of_snoc l id a :
  spans_of (l ++ [(id, a)]) =
  spans_of l ++ (if bool_decide (sp_span id ∈ map sp_span (spans_of l)) then [] else [id]).
Proof. unfold spans_of. by rewrite first_ids_snoc. Qed.

Lemma spans_of_nodup l : NoDup (map sp_span (spans_of l)).
Proof.
  induction l as [|[id a] l IH] using rev_ind; [constructor|].
  rewrite spans_of_snoc. destruct (bool_decide _) eqn:E; [by rewrite app_nil_r|].
  rewrite map_app. apply NoDup_app. split_and!; [done| |apply NoDup_singleton].
  apply bool_decide_eq_false in E. set_solver.
Qed.

Lemma anns_of_snoc s l id a :
  anns_of s (l ++ [(id, a)]) = anns_of s l ++ (if decide (sp_span id = s) then a else []).
Proof.
  unfold anns_of. rewrite filter_app, map_app, concat_app. f_equal.
  rewrite filter_cons. cbn. destruct (decide (sp_span id = s)); cbn; by rewrite ?app_nil_r.
Qed.

Lemma anns_of_absent s l : s ∉ map sp_span (spans_of l) -> anns_of s l = [].
Proof.
  induction l as [|[id a] l IH] using rev_ind; [done|].
  rewrite spans_of_snoc, anns_of_snoc, map_app. intros Hn.
  rewrite IH by set_solver. destruct (decide (sp_span id = s)) as [<-|]; [|done].
  exfalso. destruct (bool_decide _) eqn:E; [apply bool_decide_eq_true in E|]; set_solver.
Qed.

Lemma root_of_snoc ids0 s :
  root_of (ids0 ++ [s]) =
  match root_of ids0 with
  | None => Some s
  | Some r => Some (if (sp_parent s =? 0) || (sp_span s =? sp_parent r) then s else r)
  end.
Proof.
  destruct ids0 as [|x ids0]; [done|]. cbn. f_equal. revert x.
  induction ids0 as [|y ids0 IH]; intros x; [done|]. cbn [app root_from]. by rewrite IH.
Qed.

Lemma spans_of_nil l : spans_of l = [] <-> l = [].
Proof.
  split; [|by intros ->]. destruct l as [|[id a] l]; [done|]. unfold spans_of. cbn.
  rewrite bool_decide_eq_false_2 by set_solver. done.
Qed.

(** ** Abstraction: the state agrees with the history *)
Definition abs_trace (st : MS) (t : N) (L : list (SpanID * list Annotation)) : Prop :=
  match ms_span st !! t with
  | None => L = []
  | Some M => L <> [] /\
     (forall i, In i (spans_of L) <-> exists l, M !! sp_span i = Some l /\ ids (ms_heap st) l = Some i) /\
     (forall s l, M !! s = Some l -> anns (ms_heap st) l = Some (anns_of s L)) /\
     (exists r, ms_trace st !! t = Some r /\ root_of (spans_of L) = ids (ms_heap st) r)
  end.

Lemma abs_span_in st t L S k l :
  ms_ok st -> abs_trace st t L -> ms_span st !! t = Some S -> S !! k = Some l -> k ∈ map sp_span (spans_of L).
Proof.
  intros Hok Habs HS Hk. unfold abs_trace in Habs. rewrite HS in Habs. destruct Habs as (_ & Hi & _).
  destruct (inv_trace st Hok t S HS) as (r & _ & Htok). destruct (ok_ids _ _ _ _ Htok _ _ Hk) as (i & Hil & _ & <-).
  apply elem_of_list_fmap. exists i. split; [done|]. apply elem_of_list_In, Hi. eauto.
Qed.

Lemma abs_span_out st t L S k :
  abs_trace st t L -> ms_span st !! t = Some S -> S !! k = None -> k ∉ map sp_span (spans_of L).
Proof.
  intros Habs HS Hk Hin. unfold abs_trace in Habs. rewrite HS in Habs. destruct Habs as (_ & Hi & _).
  apply elem_of_list_fmap in Hin as (i & -> & Hin). apply elem_of_list_In, Hi in Hin as (l & Hl & _). congruence.
Qed.

Lemma collect_abs st st' id as_ L :
  ms_ok st -> ms_ok st' -> collect_effect st id as_ st' ->
  (forall t, abs_trace st t (L t)) ->
  forall t, abs_trace st' t (if sp_trace id =? t then L t ++ [(id, as_)] else L t).
Proof.
  intros Hok Hok' Heff Habs t. pose proof Heff as [E1 E2 _ E4].
  destruct (N.eqb_spec (sp_trace id) t) as [<-|Hne].
  - set (tr := sp_trace id) in *. specialize (Habs tr) as Ha. unfold abs_trace.
    destruct E4 as [(S & s & HS & Hs & Hsp & Htr & HI & HU & HA)|(S & s & HS & Hs & Hfr & Hsp & HI & HA & Htr)].
    + rewrite Hsp, HS. pose proof (abs_span_in st tr _ S _ _ Hok Ha HS Hs) as Hin.
      unfold abs_trace in Ha. rewrite HS in Ha. destruct Ha as (A1 & A2 & A3 & A4).
      rewrite spans_of_snoc, bool_decide_eq_true_2, app_nil_r by done. split_and!.
      * by destruct (L tr).
      * intros i. rewrite A2. by setoid_rewrite HI.
      * intros k l Hk. rewrite HA, anns_of_snoc.
        destruct (inv_trace st Hok tr S HS) as (r & _ & Htok).
        destruct (decide (l = s)) as [->|Hls].
        -- assert (sp_span id = k) as <-.
           { destruct (ok_ids _ _ _ _ Htok _ _ Hk) as (i1 & ? & _ & <-).
             destruct (ok_ids _ _ _ _ Htok _ _ Hs) as (i2 & ? & _ & <-). congruence. }
           rewrite decide_True by done. rewrite (A3 _ _ Hs). done.
        -- rewrite decide_False by congruence. rewrite (A3 _ _ Hk), app_nil_r. done.
      * destruct A4 as (r & Hr & Hroot). exists r. rewrite Htr, HI. done.
    + rewrite Hsp.
      assert (sp_span id ∉ map sp_span (spans_of (L tr))) as Hout.
      { destruct (ms_span st !! tr) as [T|] eqn:HT.
        - cbn in HS. subst T. by eapply abs_span_out.
        - unfold abs_trace in Ha. rewrite HT in Ha. rewrite Ha. set_solver. }
      rewrite spans_of_snoc, bool_decide_eq_false_2 by done.
      assert (forall k l, S !! k = Some l -> ms_span st !! tr = Some S /\ l <> s) as HSne.
      { intros k l Hk. destruct (ms_span st !! tr) as [T|] eqn:HT; cbn in HS; subst; [|by rewrite lookup_empty in Hk].
        split; [done|]. intros ->. destruct (inv_trace st Hok tr T HT) as (r & _ & Htok).
        destruct (ok_ids _ _ _ _ Htok _ _ Hk) as (i & Hi & _). unfold ids in Hi. by rewrite Hfr in Hi. }
      split_and!.
      * by destruct (L tr).
      * intros i. rewrite in_app_iff. split.
        -- intros [Hin|[<-|[]]].
           ++ unfold abs_trace in Ha. destruct (ms_span st !! tr) as [T|] eqn:HT; [|by rewrite Ha in Hin].
              cbn in HS. subst T. destruct Ha as (_ & A2 & _). apply A2 in Hin as (l & Hl & Hil). exists l.
              rewrite lookup_insert_ne by congruence. destruct (HSne _ _ Hl) as [_ Hls].
              rewrite HI, decide_False by done. done.
           ++ exists s. rewrite lookup_insert, HI, decide_True by done. done.
        -- intros (l & Hl & Hil). rewrite HI in Hil. destruct (decide (l = s)) as [->|Hls].
           ++ injection Hil as <-. right. by left.
           ++ left. apply lookup_insert_Some in Hl as [[_ ?]|[Hk Hl]]; [done|].
              destruct (HSne _ _ Hl) as [HT _]. unfold abs_trace in Ha. rewrite HT in Ha.
              destruct Ha as (_ & A2 & _). apply A2. eauto.
      * intros k l Hk. rewrite HA, anns_of_snoc. apply lookup_insert_Some in Hk as [[<- <-]|[Hk Hl]].
        -- rewrite decide_True, decide_True by done. by rewrite anns_of_absent.
        -- destruct (HSne _ _ Hl) as [HT Hls]. rewrite decide_False, decide_False by done.
           unfold abs_trace in Ha. rewrite HT in Ha. destruct Ha as (_ & _ & A3 & _).
           rewrite (A3 _ _ Hl), app_nil_r. done.
      * eexists. split; [exact Htr|]. rewrite root_of_snoc.
        unfold abs_trace in Ha. destruct (ms_span st !! tr) as [T|] eqn:HT.
        -- cbn in HS. subst T. destruct Ha as (_ & A2 & _ & (r & Hr & Hroot)). rewrite Hroot, Hr.
           destruct (inv_trace st Hok tr S HT) as (r2 & Hr2 & Htok). assert (r2 = r) as -> by congruence.
           destruct (ok_root _ _ _ _ Htok) as [kr Hkr].
           destruct (ok_ids _ _ _ _ Htok _ _ Hkr) as (ir & Hir & _). rewrite Hir.
           destruct (HSne _ _ Hkr) as [_ Hrs].
           replace (bool_decide (par_is (ms_heap st) (sp_span id) r)) with (sp_span id =? sp_parent ir).
           2:{ destruct (N.eqb_spec (sp_span id) (sp_parent ir)); symmetry;
                 [apply bool_decide_eq_true|apply bool_decide_eq_false]; unfold par_is; rewrite Hir; cbn; congruence. }
           destruct ((sp_parent id =? 0) || (sp_span id =? sp_parent ir)).
           ++ by rewrite HI, decide_True.
           ++ by rewrite HI, decide_False.
        -- rewrite Ha. cbn. rewrite (inv_none st Hok tr HT). by rewrite HI, decide_True.
  - specialize (Habs t). unfold abs_trace in *. rewrite E1 by done.
    destruct (ms_span st !! t) as [S|] eqn:HS; [|done]. destruct Habs as (A1 & A2 & A3 & A4).
    assert (forall k l, S !! k = Some l -> ms_heap st' !! l = ms_heap st !! l) as Hh.
    { intros k l Hk. eapply (ce_other_nodes st id _ st' Hok Heff); [|exact HS|exact Hk]. congruence. }
    split_and!; [done|..].
    + intros i. rewrite A2. split; intros (l & Hl & Hi); exists l; (split; [done|]);
        unfold ids in *; specialize (Hh _ _ Hl); congruence.
    + intros s l Hl. unfold anns. rewrite (Hh _ _ Hl). apply (A3 _ _ Hl).
    + destruct A4 as (r & Hr & Hroot). exists r. rewrite E2 by done. split; [done|].
      destruct (inv_trace st Hok t S HS) as (r2 & Hr2 & Htok). assert (r2 = r) as -> by congruence.
      destruct (ok_root _ _ _ _ Htok) as [kr Hkr]. unfold ids. rewrite (Hh _ _ Hkr). exact Hroot.
Qed.

Lemma delete_abs st ts L :
  (forall t, abs_trace st t (L t)) ->
  forall t, abs_trace (ms_delete ts st) t (if bool_decide (t ∈ ts) then [] else L t).
Proof.
  intros Habs t. unfold abs_trace. destruct (delete_lookup ts st t) as (Hh & _ & Htr & Hsp).
  rewrite Hsp, Htr, Hh. destruct (bool_decide (t ∈ ts)); [done|]. apply Habs.
Qed.

Lemma ms_run_app a b st : ms_run (a ++ b) st = st' ← ms_run a st; ms_run b st'.
Proof.
  revert st. induction a as [|o a IH]; intros st; [done|].
  cbn [app ms_run]. destruct (ms_step o st); cbn; [by rewrite IH|done].
Qed.

(** Every history runs without panic, and the final state satisfies the invariant and agrees
    with the history. *)
Lemma run_ok calls : exists st, ms_run calls ms_init = Some st /\ ms_ok st /\
  forall t, abs_trace st t (live t calls []).
Proof.
  induction calls as [|c calls IH] using rev_ind.
  - exists ms_init. split_and!; [done|apply ms_ok_init|]. intros t. done.
  - destruct IH as (st & Hrun & Hok & Habs). rewrite ms_run_app, Hrun. cbn [mbind option_bind].
    destruct c as [id a|ts].
    + destruct (collect_ok st id a Hok) as (st' & Hc & Hok' & Heff).
      exists st'. cbn [ms_run ms_step]. rewrite Hc. split_and!; [done..|].
      intros t. rewrite live_snoc. by apply (collect_abs st st' id a (fun t => live t calls [])).
    + exists (ms_delete ts st). cbn. split_and!; [done|by apply delete_ok|].
      intros t. rewrite live_snoc. by apply (delete_abs st ts (fun t => live t calls [])).
Qed.
