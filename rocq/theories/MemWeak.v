(** Proofs about MemModel.v that do not need the trace and span maps to share nodes: they
    also hold for a store restored by ReadFrom. *)
From Verif Require Import Base MemModel MemSpec MemProofs MemProofs2.
From Coq Require Import ZifyBool ZifyNat ZifyN.

Definition closed (h : gmap loc Node) : Prop :=
  forall l c, c ∈ subs h l -> is_Some (h !! c).

(** The store's pointers are valid and lead to nodes of the right trace. *)
Record weak_ok (st : MS) : Prop := {
  w_fresh : forall l, is_Some (ms_heap st !! l) -> l < ms_next st;
  w_closed : closed (ms_heap st);
  w_span : forall t S k l, ms_span st !! t = Some S -> S !! k = Some l ->
    exists i, ids (ms_heap st) l = Some i /\ sp_trace i = t;
  w_root : forall t r, ms_trace st !! t = Some r -> exists i, ids (ms_heap st) r = Some i /\ sp_trace i = t
}.

(** h' differs from h only in the Sub fields of nodes of trace t. *)
Record ext (t : N) (h h' : gmap loc Node) : Prop := {
  ext_ids : forall l, ids h' l = ids h l;
  ext_anns : forall l, anns h' l = anns h l;
  ext_closed : closed h';
  ext_other : forall l i, ids h l = Some i -> sp_trace i <> t -> h' !! l = h !! l
}.

Lemma ids_is_Some h l : is_Some (ids h l) <-> is_Some (h !! l).
Proof. unfold ids. by rewrite fmap_is_Some. Qed.

Lemma ext_refl t h : closed h -> ext t h h.
Proof. by split. Qed.

Lemma ext_trans t h1 h2 h3 : ext t h1 h2 -> ext t h2 h3 -> ext t h1 h3.
Proof.
  intros [A1 A2 A3 A4] [B1 B2 B3 B4]. split; [congruence|congruence|done|].
  intros l i Hi Hne. rewrite (B4 l i), (A4 l i); [done..|by rewrite A1|done].
Qed.

Lemma upd_sub_ext t f l h i : closed h -> ids h l = Some i -> sp_trace i = t ->
  (forall c, c ∈ f (subs h l) -> is_Some (h !! c)) ->
  exists h', upd_sub f l h = Some h' /\ ext t h h' /\
    (forall x, subs h' x = if decide (x = l) then f (subs h l) else subs h x).
Proof.
  intros Hcl Hi Ht Hf. unfold upd_sub. pose proof Hi as Hi'. unfold ids in Hi'.
  destruct (h !! l) as [n|] eqn:Hn; [|done]. cbn in Hi'. injection Hi' as Hi'. cbn [mbind option_bind].
  eexists. split; [reflexivity|].
  assert (subs h l = nd_sub n) as Hs by (unfold subs; by rewrite Hn). rewrite Hs in *.
  set (h' := <[l:=_]> h).
  assert (forall x, subs h' x = if decide (x = l) then f (nd_sub n) else subs h x) as HU.
  { intros x. unfold h', subs. destruct (decide (x = l)) as [->|]; [by rewrite lookup_insert|by rewrite lookup_insert_ne]. }
  split; [|done]. split.
  - intros x. unfold h'. rewrite ids_insert. destruct (decide (x = l)) as [->|]; [by rewrite Hi, <- Hi'|done].
  - intros x. unfold h'. rewrite anns_insert. destruct (decide (x = l)) as [->|]; [unfold anns; by rewrite Hn|done].
  - intros x c. rewrite HU. intros Hc. assert (is_Some (h !! c)) as Hx.
    { destruct (decide (x = l)); [by apply Hf|by eapply Hcl]. }
    unfold h'. destruct (decide (c = l)) as [->|]; [rewrite lookup_insert; eauto|by rewrite lookup_insert_ne].
  - intros x j Hj Hne. unfold h'. rewrite lookup_insert_ne; [done|]. intros <-. congruence.
Qed.

Lemma split_total h test cs : (forall c, c ∈ cs -> is_Some (h !! c)) ->
  exists yes no, split_children h test cs = Some (yes, no) /\
    (forall c, c ∈ yes -> c ∈ cs) /\ (forall c, c ∈ no -> c ∈ cs).
Proof.
  induction cs as [|c cs IH]; intros Hall; [by exists [], []|]. cbn [split_children].
  destruct (Hall c) as [n Hn]; [set_solver|]. rewrite Hn. cbn [mbind option_bind].
  destruct IH as (yes & no & -> & H1 & H2); [set_solver|]. cbn [mbind option_bind].
  destruct (test _); eexists _, _; (split; [reflexivity|]); set_solver.
Qed.

Lemma ids_lookup h l i : ids h l = Some i -> exists n, h !! l = Some n /\ nd_id n = i.
Proof. unfold ids. destruct (h !! l) as [n|]; [|done]. cbn. intros [= <-]. eauto. Qed.

Lemma reattach_ext t dst src h id_d id_s : closed h -> dst <> src ->
  ids h dst = Some id_d -> sp_trace id_d = t -> ids h src = Some id_s -> sp_trace id_s = t ->
  exists h', reattach_children dst src h = Some h' /\ ext t h h'.
Proof.
  intros Hcl Hne Hd Hdt Hs Hst. unfold reattach_children.
  destruct (N.eqb_spec dst src) as [|_]; [done|].
  destruct (ids_lookup _ _ _ Hd) as (nd & Hnd & <-). destruct (ids_lookup _ _ _ Hs) as (ns & Hns & <-).
  rewrite Hnd, Hns. cbn [mbind option_bind].
  assert (subs h src = nd_sub ns) as Hsub by (unfold subs; by rewrite Hns).
  destruct (split_total h (fun p => p =? sp_span (nd_id nd)) (nd_sub ns)) as (yes & no & -> & H1 & H2).
  { intros c Hc. apply (Hcl src). by rewrite Hsub. }
  cbn [mbind option_bind].
  destruct (upd_sub_ext t (fun sub => sub ++ yes) dst h (nd_id nd) Hcl Hd Hdt) as (h1 & -> & E1 & U1).
  { intros c Hc. apply elem_of_app in Hc as [Hc|Hc]; [by apply (Hcl dst)|]. apply (Hcl src). rewrite Hsub. by apply H1. }
  cbn [mbind option_bind]. 
  destruct (upd_sub_ext t (fun _ => no) src h1 (nd_id ns) (ext_closed _ _ _ E1)) as (h2 & -> & E2 & _).
  { by rewrite (ext_ids _ _ _ E1). }
  { done. }
  { intros c Hc. apply ids_is_Some. rewrite (ext_ids _ _ _ E1). apply ids_is_Some. apply (Hcl src). rewrite Hsub. by apply H2. }
  exists h2. split; [done|]. by eapply ext_trans.
Qed.

Lemma move_temp_ext t root old h id_r id_o : closed h ->
  ids h root = Some id_r -> sp_trace id_r = t -> ids h old = Some id_o -> sp_trace id_o = t ->
  exists h', move_temp_children root old h = Some h' /\ ext t h h'.
Proof.
  intros Hcl Hd Hdt Hs Hst. unfold move_temp_children.
  destruct (ids_lookup _ _ _ Hs) as (ns & Hns & <-). rewrite Hns. cbn [mbind option_bind].
  assert (subs h old = nd_sub ns) as Hsub by (unfold subs; by rewrite Hns).
  destruct (split_total h (fun p => negb (p =? sp_span (nd_id ns))) (nd_sub ns)) as (yes & no & -> & H1 & H2).
  { intros c Hc. apply (Hcl old). by rewrite Hsub. }
  cbn [mbind option_bind].
  destruct (upd_sub_ext t (fun sub => sub ++ yes) root h id_r Hcl Hd Hdt) as (h1 & -> & E1 & U1).
  { intros c Hc. apply elem_of_app in Hc as [Hc|Hc]; [by apply (Hcl root)|]. apply (Hcl old). rewrite Hsub. by apply H1. }
  cbn [mbind option_bind].
  destruct (upd_sub_ext t (fun _ => no) old h1 (nd_id ns) (ext_closed _ _ _ E1)) as (h2 & -> & E2 & _).
  { by rewrite (ext_ids _ _ _ E1). }
  { done. }
  { intros c Hc. apply ids_is_Some. rewrite (ext_ids _ _ _ E1). apply ids_is_Some. apply (Hcl old). rewrite Hsub. by apply H2. }
  exists h2. split; [done|]. by eapply ext_trans.
Qed.

Lemma insert_ext t (spans : gmap N (gmap N loc)) root x h id_r id_x : closed h ->
  ids h x = Some id_x -> sp_trace id_x = t -> ids h root = Some id_r -> sp_trace id_r = t ->
  (forall S k l, spans !! t = Some S -> S !! k = Some l -> exists i, ids h l = Some i /\ sp_trace i = t) ->
  exists h', ms_insert spans root x h = Some h' /\ ext t h h'.
Proof.
  intros Hcl Hx Hxt Hr Hrt Hsp. unfold ms_insert.
  destruct (ids_lookup _ _ _ Hx) as (nx & Hnx & <-). rewrite Hnx. cbn [mbind option_bind]. rewrite Hxt.
  assert (forall p ip, ids h p = Some ip -> sp_trace ip = t ->
    exists h', upd_sub (fun sub => sub ++ [x]) p h = Some h' /\ ext t h h') as Hgen.
  { intros p ip Hp Hpt.
    destruct (upd_sub_ext t (fun sub => sub ++ [x]) p h ip Hcl Hp Hpt) as (h1 & H1 & E1 & _); [|eauto].
    intros c Hc. apply elem_of_app in Hc as [Hc|Hc]; [by apply (Hcl p)|]. apply elem_of_list_singleton in Hc as ->. eauto. }
  destruct (spans !! t ≫= _) as [p|] eqn:E.
  - destruct (spans !! t) as [S|] eqn:ES; [|done]. cbn in E. destruct (Hsp S _ p eq_refl E) as (ip & Hp & Hpt). by eapply Hgen.
  - by eapply Hgen.
Qed.

(** What a Collect on a weakly correct store does. *)
Record weak_effect (st : MS) (id : SpanID) (st' : MS) : Prop := {
  we_span : forall t, t <> sp_trace id -> ms_span st' !! t = ms_span st !! t;
  we_trace : forall t, t <> sp_trace id -> ms_trace st' !! t = ms_trace st !! t;
  we_nodes : forall l i, ids (ms_heap st) l = Some i -> sp_trace i <> sp_trace id ->
    ms_heap st' !! l = ms_heap st !! l;
  we_next : ms_next st <= ms_next st'
}.

Lemma collect_weak st id as_ : weak_ok st ->
  exists st', ms_collect id as_ st = Some st' /\ weak_ok st' /\ weak_effect st id st'.
Proof.
  intros [Wf Wc Ws Wr]. set (t := sp_trace id).
  unfold ms_collect. fold t.
  set (spans0 := match ms_span st !! t with Some _ => ms_span st | None => <[t:=∅]> (ms_span st) end).
  assert (exists S0, spans0 !! t = Some S0 /\ (forall k l, S0 !! k = Some l -> exists i, ids (ms_heap st) l = Some i /\ sp_trace i = t))
    as (S0 & HS0 & HS0i).
  { unfold spans0. destruct (ms_span st !! t) as [S|] eqn:E.
    - exists S. split; [done|]. intros k l Hk. by eapply Ws.
    - exists ∅. rewrite lookup_insert. split; [done|]. intros k l Hk. by rewrite lookup_empty in Hk. }
  assert (forall t', t' <> t -> spans0 !! t' = ms_span st !! t') as HSne.
  { intros t' Hne. unfold spans0. destruct (ms_span st !! t); [done|]. by rewrite lookup_insert_ne. }
  rewrite HS0. cbn [mbind option_bind].
  destruct (S0 !! sp_span id) as [s|] eqn:Hs.
  - (* existing span *)
    destruct (HS0i _ _ Hs) as (i & Hi & Hit). destruct (ids_lookup _ _ _ Hi) as (n & Hn & <-).
    rewrite Hn. cbn [mbind option_bind]. eexists. split; [reflexivity|].
    set (h' := <[s:=_]> (ms_heap st)).
    assert (forall l, ids h' l = ids (ms_heap st) l) as HI.
    { intros l. unfold h'. rewrite ids_insert. destruct (decide (l = s)) as [->|]; [by rewrite Hi|done]. }
    assert (forall l, subs h' l = subs (ms_heap st) l) as HU.
    { intros l. unfold h', subs. destruct (decide (l = s)) as [->|]; [by rewrite lookup_insert, Hn|by rewrite lookup_insert_ne]. }
    split; split; cbn [ms_heap ms_next ms_trace ms_span].
    + intros l Hl. apply Wf. apply ids_is_Some. rewrite <- HI. by apply ids_is_Some.
    + intros l c. rewrite HU. intros Hc. apply ids_is_Some. rewrite HI. apply ids_is_Some. by eapply Wc.
    + intros t' S k l HS Hk. rewrite HI. destruct (decide (t' = t)) as [->|Hne].
      * assert (S = S0) as -> by congruence. by eapply HS0i.
      * rewrite HSne in HS by done. by eapply Ws.
    + intros t' r Hr. rewrite HI. by eapply Wr.
    + intros t' Hne. by apply HSne.
    + done.
    + intros l j Hj Hne. unfold h'. rewrite lookup_insert_ne; [done|]. intros <-. fold t in Hne. congruence.
    + lia.
  - (* new span *)
    set (s := ms_next st). set (h0 := <[s:=MkNode id as_ []]> (ms_heap st)).
    assert (ms_heap st !! s = None) as Hfresh.
    { apply eq_None_not_Some. intros Hx. apply Wf in Hx. unfold s in Hx. lia. }
    assert (forall l i, ids (ms_heap st) l = Some i -> l <> s /\ ids h0 l = Some i) as Hold.
    { intros l i Hi. assert (l <> s) as Hls. { intros ->. unfold ids in Hi. by rewrite Hfresh in Hi. }
      split; [done|]. unfold h0. by rewrite ids_insert, decide_False. }
    assert (ids h0 s = Some id) as Hids by (unfold h0; by rewrite ids_insert, decide_True).
    assert (closed h0) as Hcl0.
    { intros l c Hc. unfold h0, subs in Hc. destruct (decide (l = s)) as [->|Hne].
      - rewrite lookup_insert in Hc. by apply elem_of_nil in Hc.
      - rewrite lookup_insert_ne in Hc by done. assert (is_Some (ms_heap st !! c)) as Hx by (by eapply Wc).
        apply ids_is_Some in Hx as [i Hi]. destruct (Hold c i Hi) as [_ Hi0]. apply ids_is_Some. eauto. }
    set (S' := <[sp_span id:=s]> S0). set (spans := <[t:=S']> spans0).
    set (root := match ms_trace st !! t with Some r => r | None => s end).
    set (tr := match ms_trace st !! t with Some _ => ms_trace st | None => <[t:=s]> (ms_trace st) end).
    assert (exists ir, ids h0 root = Some ir /\ sp_trace ir = t) as (ir & Hir & Hirt).
    { unfold root. destruct (ms_trace st !! t) as [r|] eqn:E; [|eauto].
      destruct (Wr t r E) as (i & Hi & Hit). destruct (Hold r i Hi). eauto. }
    assert (forall S k l, spans !! t = Some S -> S !! k = Some l -> exists i, ids h0 l = Some i /\ sp_trace i = t) as Hsp.
    { intros S k l HS Hk. unfold spans in HS. rewrite lookup_insert in HS. injection HS as <-.
      unfold S' in Hk. apply lookup_insert_Some in Hk as [[_ <-]|[_ Hk]]; [eauto|].
      destruct (HS0i k l Hk) as (i & Hi & Hit). destruct (Hold l i Hi). eauto. }
    assert (exists r0, tr !! t = Some r0 /\ r0 = root) as (r0 & Htr0 & ->).
    { unfold tr, root. destruct (ms_trace st !! t) as [r|] eqn:E; [eauto|]. exists s. by rewrite lookup_insert. }
    assert (forall t', t' <> t -> tr !! t' = ms_trace st !! t') as Htrne.
    { intros t' Hne. unfold tr. destruct (ms_trace st !! t); [done|]. by rewrite lookup_insert_ne. }
    (* generic conclusion *)
    assert (forall h' tr' r', ext t h0 h' -> tr' !! t = Some r' -> (exists i, ids h0 r' = Some i /\ sp_trace i = t) ->
      (forall t', t' <> t -> tr' !! t' = ms_trace st !! t') ->
      weak_ok (MkMS h' (s + 1) tr' spans) /\ weak_effect st id (MkMS h' (s + 1) tr' spans)) as Hgen.
    { intros h' tr' r' [E1 E2 E3 E4] Hr' (i' & Hi' & Hit') Htr'.
      split; split; cbn [ms_heap ms_next ms_trace ms_span].
      - intros l Hl. destruct (decide (l = s)) as [->|Hne]; [unfold s; lia|].
        apply ids_is_Some in Hl. rewrite E1 in Hl. unfold h0 in Hl. rewrite ids_insert, decide_False in Hl by done.
        apply ids_is_Some in Hl. apply Wf in Hl. unfold s. lia.
      - done.
      - intros t' S k l HS Hk. rewrite E1. destruct (decide (t' = t)) as [->|Hne]; [by eapply Hsp|].
        unfold spans in HS. rewrite lookup_insert_ne, HSne in HS by done.
        destruct (Ws t' S k l HS Hk) as (i & Hi & Hit). destruct (Hold l i Hi). eauto.
      - intros t' r Hr. rewrite E1. destruct (decide (t' = t)) as [->|Hne].
        + assert (r = r') as -> by congruence. eauto.
        + rewrite Htr' in Hr by done. destruct (Wr t' r Hr) as (i & Hi & Hit). destruct (Hold r i Hi). eauto.
      - intros t' Hne. unfold spans. rewrite lookup_insert_ne by done. by apply HSne.
      - done.
      - intros l i Hi Hne. destruct (Hold l i Hi) as [Hls Hi0]. rewrite (E4 l i Hi0 Hne).
        unfold h0. by rewrite lookup_insert_ne.
      - unfold s. lia. }
    destruct (ids_lookup _ _ _ Hir) as (rn & Hrn & Hrnid). rewrite Hrn. cbn [mbind option_bind].
    destruct (negb (s =? root) && ((sp_parent id =? 0) || (sp_parent (nd_id rn) =? sp_span id))) eqn:Hcond.
    + apply andb_true_iff in Hcond as [Hsr _]. destruct (N.eqb_spec s root) as [|Hsr']; [done|].
      destruct (reattach_ext t s root h0 id ir Hcl0 Hsr' Hids eq_refl Hir Hirt) as (h1 & -> & E1). cbn [mbind option_bind].
      assert (forall l, ids h1 l = ids h0 l) as I1 by apply (ext_ids _ _ _ E1).
      destruct (insert_ext t spans s root h1 id ir (ext_closed _ _ _ E1)) as (h2 & -> & E2);
        [by rewrite I1|done|by rewrite I1|done|intros S k l HS Hk; rewrite I1; by eapply Hsp|]. cbn [mbind option_bind].
      assert (forall l, ids h2 l = ids h0 l) as I2 by (intros l; by rewrite (ext_ids _ _ _ E2)).
      destruct (move_temp_ext t s root h2 id ir (ext_closed _ _ _ E2)) as (h3 & -> & E3);
        [by rewrite I2|done|by rewrite I2|done|]. cbn [mbind option_bind].
      rewrite N.eqb_refl. cbn [negb]. rewrite andb_false_r. cbn [mbind option_bind].
      eexists. split; [reflexivity|]. apply (Hgen h3 (<[t:=s]> tr) s).
      * eapply ext_trans; [exact E1|]. eapply ext_trans; [exact E2|exact E3].
      * by rewrite lookup_insert.
      * eauto.
      * intros t' Hne. rewrite lookup_insert_ne by done. by apply Htrne.
    + cbn [mbind option_bind].
      assert (exists h1, (if negb (sp_parent id =? 0) && negb (s =? root) then ms_insert spans root s h0 else Some h0) = Some h1
        /\ ext t h0 h1) as (h1 & -> & E1).
      { destruct (negb (sp_parent id =? 0) && negb (s =? root)).
        - apply (insert_ext t spans root s h0 ir id); done.
        - exists h0. split; [done|]. by apply ext_refl. }
      cbn [mbind option_bind].
      assert (forall l, ids h1 l = ids h0 l) as I1 by apply (ext_ids _ _ _ E1).
      assert (exists h2, (if negb (s =? root) then reattach_children s root h1 else Some h1) = Some h2 /\ ext t h1 h2)
        as (h2 & -> & E2).
      { destruct (N.eqb_spec s root) as [|Hsr]; cbn [negb].
        - exists h1. split; [done|]. apply ext_refl, (ext_closed _ _ _ E1).
        - apply (reattach_ext t s root h1 id ir (ext_closed _ _ _ E1) Hsr); [by rewrite I1|done|by rewrite I1|done]. }
      cbn [mbind option_bind]. eexists. split; [reflexivity|]. apply (Hgen h2 tr root).
      * by eapply ext_trans.
      * done.
      * eauto.
      * done.
Qed.

Lemma delete_weak st ts : weak_ok st -> weak_ok (ms_delete ts st).
Proof.
  intros [Wf Wc Ws Wr]. destruct (delete_lookup ts st 0) as (Hh & Hn & _). split.
  - intros l. rewrite Hh, Hn. apply Wf.
  - by rewrite Hh.
  - intros t S k l. destruct (delete_lookup ts st t) as (_ & _ & _ & Hsp). rewrite Hsp, Hh.
    destruct (bool_decide _); [done|]. apply Ws.
  - intros t r. destruct (delete_lookup ts st t) as (_ & _ & Htr & _). rewrite Htr, Hh.
    destruct (bool_decide _); [done|]. apply Wr.
Qed.

Lemma weak_init : weak_ok ms_init.
Proof.
  unfold ms_init. split; cbn [ms_heap ms_next ms_trace ms_span].
  - intros l [x Hx]. by apply lookup_empty_Some in Hx.
  - intros l c. unfold subs. rewrite lookup_empty. by intros ?%elem_of_nil.
  - intros t S k l H. by apply lookup_empty_Some in H.
  - intros t r H. by apply lookup_empty_Some in H.
Qed.

Lemma run_weak calls st : weak_ok st -> exists st', ms_run calls st = Some st' /\ weak_ok st'.
Proof.
  revert st. induction calls as [|c calls IH]; intros st Hw; [by exists st|]. cbn [ms_run].
  destruct c as [id a|ts]; cbn [ms_step].
  - destruct (collect_weak st id a Hw) as (st1 & -> & Hw1 & _). cbn [mbind option_bind]. by apply IH.
  - cbn [mbind option_bind]. by apply IH, delete_weak.
Qed.
