(** Proofs about MemModel.v: the heap invariant. *)
From Verif Require Import Base MemModel MemSpec.
From Coq Require Import ZifyBool ZifyNat ZifyN.

(** ** Views of the heap *)
Definition ids (h : gmap loc Node) (l : loc) : option SpanID := nd_id <$> h !! l.
Definition anns (h : gmap loc Node) (l : loc) : option (list Annotation) := nd_ann <$> h !! l.
Definition subs (h : gmap loc Node) (l : loc) : list loc :=
  match h !! l with Some n => nd_sub n | None => [] end.

Lemma node_ext h h' l :
  ids h l = ids h' l -> anns h l = anns h' l -> subs h l = subs h' l -> h !! l = h' !! l.
Proof.
  unfold ids, anns, subs. destruct (h !! l) as [[]|], (h' !! l) as [[]|]; cbn; congruence.
Qed.

(** Only Sub fields differ; the new ones are given by f. *)
Definition new_subs (h h' : gmap loc Node) (f : loc -> list loc) : Prop :=
  (forall l, ids h' l = ids h l) /\ (forall l, anns h' l = anns h l) /\ (forall l, subs h' l = f l).

Lemma upd_sub_spec g l h i : ids h l = Some i ->
  exists h', upd_sub g l h = Some h' /\
    new_subs h h' (fun x => if decide (x = l) then g (subs h l) else subs h x).
Proof.
  unfold ids, upd_sub. intros Hi. destruct (h !! l) as [n|] eqn:Hn; [|done]. cbn in Hi. injection Hi as <-.
  cbn. eexists. split; [reflexivity|]. unfold new_subs, ids, anns, subs. split_and!; intros x.
  - destruct (decide (x = l)) as [->|]; [by rewrite lookup_insert, Hn|by rewrite lookup_insert_ne].
  - destruct (decide (x = l)) as [->|]; [by rewrite lookup_insert, Hn|by rewrite lookup_insert_ne].
  - destruct (decide (x = l)) as [->|]; [by rewrite lookup_insert, Hn|by rewrite lookup_insert_ne].
Qed.

(** The parent test on a child, through its ID. *)
Definition par_is (h : gmap loc Node) (p : N) (c : loc) : Prop := sp_parent <$> ids h c = Some p.
Global Instance par_is_dec h p c : Decision (par_is h p c).
Proof. unfold par_is. apply _. Defined.

Lemma split_children_spec h p cs :
  (forall c, c ∈ cs -> is_Some (ids h c)) ->
  split_children h (fun q => q =? p) cs =
    Some (filter (par_is h p) cs, filter (fun c => ~ par_is h p c) cs) /\
  split_children h (fun q => negb (q =? p)) cs =
    Some (filter (fun c => ~ par_is h p c) cs, filter (par_is h p) cs).
Proof.
  induction cs as [|c cs IH]; intros Hc; [done|].
  destruct (Hc c) as [i Hi]; [set_solver|].
  destruct IH as [IH1 IH2]; [intros; apply Hc; set_solver|].
  cbn [split_children]. rewrite IH1, IH2.
  unfold ids in Hi. destruct (h !! c) as [n|] eqn:Hn; [|done]. injection Hi as <-. cbn [mbind option_bind].
  assert (par_is h p c <-> sp_parent (nd_id n) = p) as Hp.
  { unfold par_is, ids. rewrite Hn. cbn. split; [by intros [= ?]|by intros ->]. }
  rewrite !filter_cons.
  destruct (N.eqb_spec (sp_parent (nd_id n)) p) as [E|E]; cbn.
  - rewrite !decide_True by tauto. rewrite !decide_False by tauto. done.
  - rewrite !decide_False by tauto. rewrite !decide_True by tauto. done.
Qed.

Lemma par_is_ids h h' p c : ids h' c = ids h c -> par_is h' p c <-> par_is h p c.
Proof. unfold par_is. by intros ->. Qed.

Lemma reattach_spec dst src h id_d id_s :
  dst <> src -> ids h dst = Some id_d -> ids h src = Some id_s ->
  (forall c, c ∈ subs h src -> is_Some (ids h c)) ->
  exists h', reattach_children dst src h = Some h' /\
    new_subs h h' (fun l =>
      if decide (l = dst) then subs h dst ++ filter (par_is h (sp_span id_d)) (subs h src)
      else if decide (l = src) then filter (fun c => ~ par_is h (sp_span id_d) c) (subs h src)
      else subs h l).
Proof.
  intros Hne Hd Hs Hc. unfold reattach_children.
  destruct (N.eqb_spec dst src) as [|_]; [done|].
  pose proof Hd as Hd'. pose proof Hs as Hs'. unfold ids in Hd', Hs'.
  destruct (h !! dst) as [nd|] eqn:Ed; [|done]. destruct (h !! src) as [ns|] eqn:Es; [|done].
  cbn in Hd', Hs'. injection Hd' as Hd'. injection Hs' as Hs'. cbn [mbind option_bind].
  assert (subs h src = nd_sub ns) as Esub by (unfold subs; by rewrite Es).
  rewrite Esub in *. rewrite Hd'.
  rewrite (proj1 (split_children_spec h (sp_span id_d) _ Hc)). cbn [mbind option_bind].
  destruct (upd_sub_spec (fun sub => sub ++ filter (par_is h (sp_span id_d)) (nd_sub ns)) dst h id_d Hd)
    as (h1 & -> & I1 & A1 & S1). cbn [mbind option_bind].
  assert (ids h1 src = Some id_s) as Hs1 by (rewrite I1; done).
  destruct (upd_sub_spec (fun _ => filter (fun c => ~ par_is h (sp_span id_d) c) (nd_sub ns)) src h1 id_s Hs1)
    as (h2 & -> & I2 & A2 & S2).
  exists h2. split; [done|]. split_and!; intros l.
  - by rewrite I2, I1.
  - by rewrite A2, A1.
  - rewrite S2. destruct (decide (l = dst)) as [->|Hl].
    + rewrite decide_False by done. rewrite S1, decide_True by done. done.
    + destruct (decide (l = src)); [done|]. by rewrite S1, decide_False.
Qed.

Lemma move_temp_spec root old h id_r id_o :
  root <> old -> ids h root = Some id_r -> ids h old = Some id_o ->
  (forall c, c ∈ subs h old -> is_Some (ids h c)) ->
  exists h', move_temp_children root old h = Some h' /\
    new_subs h h' (fun l =>
      if decide (l = root) then subs h root ++ filter (fun c => ~ par_is h (sp_span id_o) c) (subs h old)
      else if decide (l = old) then filter (par_is h (sp_span id_o)) (subs h old)
      else subs h l).
Proof.
  intros Hne Hr Ho Hc. unfold move_temp_children.
  pose proof Ho as Ho'. unfold ids in Ho'.
  destruct (h !! old) as [no|] eqn:Eo; [|done].
  cbn in Ho'. injection Ho' as Ho'. cbn [mbind option_bind].
  assert (subs h old = nd_sub no) as Esub by (unfold subs; by rewrite Eo).
  rewrite Esub in *. rewrite Ho'.
  rewrite (proj2 (split_children_spec h (sp_span id_o) _ Hc)). cbn [mbind option_bind].
  destruct (upd_sub_spec (fun sub => sub ++ filter (fun c => ~ par_is h (sp_span id_o) c) (nd_sub no)) root h id_r Hr)
    as (h1 & -> & I1 & A1 & S1). cbn [mbind option_bind].
  assert (ids h1 old = Some id_o) as Ho1 by (rewrite I1; done).
  destruct (upd_sub_spec (fun _ => filter (par_is h (sp_span id_o)) (nd_sub no)) old h1 id_o Ho1)
    as (h2 & -> & I2 & A2 & S2).
  exists h2. split; [done|]. split_and!; intros l.
  - by rewrite I2, I1.
  - by rewrite A2, A1.
  - rewrite S2. destruct (decide (l = root)) as [->|Hl].
    + rewrite decide_False by done. rewrite S1, decide_True by done. done.
    + destruct (decide (l = old)); [done|]. by rewrite S1, decide_False.
Qed.

Lemma insert_spec spans root t h id_t S p :
  ids h t = Some id_t -> spans !! sp_trace id_t = Some S ->
  p = default root (S !! sp_parent id_t) -> is_Some (ids h p) ->
  exists h', ms_insert spans root t h = Some h' /\
    new_subs h h' (fun l => if decide (l = p) then subs h p ++ [t] else subs h l).
Proof.
  intros Ht HS Hp [ip Hip]. unfold ms_insert.
  pose proof Ht as Ht'. unfold ids in Ht'. destruct (h !! t) as [n|] eqn:En; [|done].
  cbn in Ht'. injection Ht' as Ht'. cbn [mbind option_bind]. rewrite Ht', HS. cbn [mbind option_bind].
  destruct (S !! sp_parent id_t) as [q|]; cbn in Hp; subst; by eapply upd_sub_spec.
Qed.

(** ** Invariant of one trace *)

(** The node that holds c: its collected parent, or else the root. *)
Record trace_ok (t : N) (h : gmap loc Node) (S : gmap N loc) (r : loc) : Prop := {
  ok_ids : forall s l, S !! s = Some l -> exists i, ids h l = Some i /\ sp_trace i = t /\ sp_span i = s;
  ok_root : exists s, S !! s = Some r;
  ok_nodup : forall s l, S !! s = Some l -> NoDup (subs h l);
  ok_subs : forall s l, S !! s = Some l -> forall c,
    c ∈ subs h l <-> c <> r /\ exists i, ids h c = Some i /\ S !! sp_span i = Some c /\
                     default r (S !! sp_parent i) = l
}.

(** Invariant of the store. *)
Record ms_ok (st : MS) : Prop := {
  inv_fresh : forall l, is_Some (ms_heap st !! l) -> l < ms_next st;
  inv_none : forall t, ms_span st !! t = None -> ms_trace st !! t = None;
  inv_trace : forall t S, ms_span st !! t = Some S ->
    exists r, ms_trace st !! t = Some r /\ trace_ok t (ms_heap st) S r
}.

Lemma ms_ok_init : ms_ok ms_init.
Proof.
  unfold ms_init. split; cbn [ms_heap ms_next ms_trace ms_span].
  - intros l [x Hx]. by apply lookup_empty_Some in Hx.
  - intros t _. apply lookup_empty.
  - intros t S H. by apply lookup_empty_Some in H.
Qed.

(** A trace's invariant only depends on the nodes of that trace. *)
Lemma trace_ok_frame t h h' S r :
  (forall s l, S !! s = Some l -> h' !! l = h !! l) ->
  trace_ok t h S r -> trace_ok t h' S r.
Proof.
  intros Hh [H1 H2 H3 H4].
  assert (forall s l, S !! s = Some l -> ids h' l = ids h l) as Hi.
  { intros s l Hl. unfold ids. by rewrite (Hh s l Hl). }
  assert (forall s l, S !! s = Some l -> subs h' l = subs h l) as Hs.
  { intros s l Hl. unfold subs. by rewrite (Hh s l Hl). }
  split; [|done| |].
  - intros s l Hl. rewrite (Hi s l Hl). eauto.
  - intros s l Hl. rewrite (Hs s l Hl). eauto.
  - intros s l Hl c. rewrite (Hs s l Hl), (H4 s l Hl). split.
    + intros [Hc (i & Hic & HS & Hd)]. split; [done|]. exists i. rewrite (Hi _ c HS). done.
    + intros [Hc (i & Hic & HS & Hd)]. split; [done|]. exists i. rewrite <- (Hi _ c HS). done.
Qed.

(** ** One new span *)

Section NewSpan.
Variables (t : N) (id : SpanID) (h : gmap loc Node) (S : gmap N loc) (r s : loc) (spans : gmap N (gmap N loc)).
Hypothesis (Hok : trace_ok t h S r).
Hypothesis (Hfresh : h !! s = None).
Hypothesis (Hid : sp_trace id = t).
Hypothesis (Hnew : S !! sp_span id = None).
Variable (as_ : list Annotation).
Let h0 := <[s := MkNode id as_ []]> h.
Let S' := <[sp_span id := s]> S.
Hypothesis (Hspans : spans !! t = Some S').

Lemma ns_img_ne k l : S !! k = Some l -> l <> s.
Proof.
  intros Hl ->. destruct (ok_ids _ _ _ _ Hok k s Hl) as (i & Hi & _).
  unfold ids in Hi. by rewrite Hfresh in Hi.
Qed.

Lemma ns_ids0 l : ids h0 l = if decide (l = s) then Some id else ids h l.
Proof.
  unfold ids, h0. destruct (decide (l = s)) as [->|]; [by rewrite lookup_insert|by rewrite lookup_insert_ne].
Qed.

Lemma ns_subs0 l : subs h0 l = if decide (l = s) then [] else subs h l.
Proof.
  unfold subs, h0. destruct (decide (l = s)) as [->|]; [by rewrite lookup_insert|by rewrite lookup_insert_ne].
Qed.

Lemma ns_ids_s : ids h s = None.
Proof. unfold ids. by rewrite Hfresh. Qed.

(** Membership in an old Sub list, with the old holder. *)
Lemma ns_old k l c : S !! k = Some l ->
  c ∈ subs h l <-> c <> r /\ exists i, ids h c = Some i /\ S !! sp_span i = Some c /\
                     default r (S !! sp_parent i) = l.
Proof. intros Hl. by eapply ok_subs. Qed.

Lemma ns_S' k l : S' !! k = Some l <-> (k = sp_span id /\ l = s) \/ (k <> sp_span id /\ S !! k = Some l).
Proof.
  unfold S'. rewrite lookup_insert_Some. split; intros [[? ?]|[? ?]]; subst; auto.
Qed.

Lemma ns_S'_old k l : S !! k = Some l -> S' !! k = Some l.
Proof. intros H. apply ns_S'. right. split; [|done]. intros ->. congruence. Qed.

(** Any key of an old node. *)
Lemma ns_key k l i : S !! k = Some l -> ids h l = Some i -> k = sp_span i.
Proof. intros Hk Hi. destruct (ok_ids _ _ _ _ Hok k l Hk) as (j & Hj & _ & <-). congruence. Qed.

Lemma ns_child_ids k l c : S !! k = Some l -> c ∈ subs h l -> is_Some (ids h c) /\ c <> s.
Proof.
  intros Hl Hc. apply (ns_old k l c Hl) in Hc as (_ & i & Hi & HS & _). split; [by exists i|].
  by eapply ns_img_ne.
Qed.

Lemma ns_par p c i : ids h0 c = Some i -> par_is h0 p c <-> sp_parent i = p.
Proof. unfold par_is. intros ->. cbn. split; [by intros [= ?]|by intros ->]. Qed.

Lemma ns_root_key : exists ir, ids h r = Some ir /\ S !! sp_span ir = Some r /\ r <> s.
Proof.
  destruct (ok_root _ _ _ _ Hok) as [k Hk]. destruct (ok_ids _ _ _ _ Hok k r Hk) as (ir & Hir & _ & <-).
  exists ir. split_and!; [done..|]. by eapply ns_img_ne.
Qed.

(** What an old node's holder becomes. *)
Lemma ns_lookup_S' k : S' !! k = if decide (k = sp_span id) then Some s else S !! k.
Proof. unfold S'. destruct (decide (k = sp_span id)) as [->|]; [by rewrite lookup_insert|by rewrite lookup_insert_ne]. Qed.

Lemma ns_s_notin k l : S !! k = Some l -> s ∉ subs h l.
Proof. intros Hk Hs. by apply (ns_child_ids k l s Hk) in Hs as [_ ?]. Qed.

Lemma ns_ids_fin h' : (forall l, ids h' l = ids h0 l) ->
  forall k l, S' !! k = Some l -> exists i, ids h' l = Some i /\ sp_trace i = t /\ sp_span i = k.
Proof.
  intros HI k l Hk. rewrite HI, ns_ids0. apply ns_S' in Hk as [[-> ->]|[_ Hk]].
  - rewrite decide_True by done. eauto.
  - rewrite decide_False by (by eapply ns_img_ne). by eapply ok_ids.
Qed.

Lemma ns_plain :
  exists h2, (h1 ← ms_insert spans r s h0; reattach_children s r h1) = Some h2 /\
    (forall l, ids h2 l = ids h0 l) /\ (forall l, anns h2 l = anns h0 l) /\
    (forall l, (forall k, S' !! k <> Some l) -> subs h2 l = subs h0 l) /\
    trace_ok t h2 S' r.
Proof.
  destruct ns_root_key as (ir & Hir & HSr & Hrs).
  assert (ids h0 s = Some id) as Hs0 by (rewrite ns_ids0; by rewrite decide_True).
  assert (ids h0 r = Some ir) as Hr0 by (rewrite ns_ids0; by rewrite decide_False).
  set (p := default r (S' !! sp_parent id)).
  assert (exists k, S' !! k = Some p) as [kp Hkp].
  { unfold p. destruct (S' !! sp_parent id) eqn:E; cbn; [by eauto|].
    exists (sp_span ir). by apply ns_S'_old. }
  assert (is_Some (ids h0 p)) as Hp.
  { destruct (ns_ids_fin h0 (fun _ => eq_refl) kp p Hkp) as (i & Hi & _). by exists i. }
  destruct (insert_spec spans r s h0 id S' p Hs0) as (h1 & Hh1 & I1 & A1 & U1);
    [by rewrite Hid|done|done|].
  rewrite Hh1. cbn [mbind option_bind].
  (* sub lists after insert *)
  assert (forall c, c <> s -> forall l, c ∈ subs h1 l <-> l <> s /\ c ∈ subs h l) as M1.
  { intros c Hc l. rewrite U1, !ns_subs0. destruct (decide (l = p)) as [->|Hl].
    - destruct (decide (p = s)); set_solver.
    - destruct (decide (l = s)); set_solver. }
  assert (forall k l, S' !! k = Some l -> s ∈ subs h1 l <-> l = p) as M1s.
  { intros k l Hk. rewrite U1, !ns_subs0. apply ns_S' in Hk as [[-> ->]|[Hk1 Hk2]].
    - destruct (decide (s = p)) as [<-|Hl]; [rewrite decide_True by done; set_solver|].
      rewrite decide_True by done. set_solver.
    - pose proof (ns_s_notin k l Hk2). pose proof (ns_img_ne k l Hk2).
      destruct (decide (l = p)) as [<-|Hl]; [rewrite decide_False by done; set_solver|].
      rewrite decide_False by done. set_solver. }
  assert (S' !! sp_span ir = Some r) as HSr' by (by apply ns_S'_old).
  assert (forall c, c ∈ subs h1 r -> is_Some (ids h1 c)) as Hci.
  { intros c Hc. rewrite I1. destruct (decide (c = s)) as [->|Hne]; [by exists id|].
    apply (M1 c Hne) in Hc as [_ Hc]. rewrite ns_ids0, decide_False by done.
    by apply (ns_child_ids _ _ _ HSr) in Hc as [? _]. }
  destruct (reattach_spec s r h1 id ir) as (h2 & -> & I2 & A2 & U2);
    [done|by rewrite I1|by rewrite I1|done|].
  exists h2. split; [done|].
  assert (forall l, ids h2 l = ids h0 l) as I20 by (intros; by rewrite I2, I1).
  split; [done|]. split; [intros; by rewrite A2, A1|].
  split.
  { intros l Hl. rewrite U2. rewrite decide_False; [|intros ->; apply (Hl (sp_span id)), ns_S'; by left].
    rewrite decide_False; [|intros ->; by apply (Hl (sp_span ir))].
    rewrite U1, decide_False; [done|]. intros ->. by apply (Hl kp). }
  assert (forall c, c <> s -> forall i, ids h c = Some i -> par_is h1 (sp_span id) c <-> sp_parent i = sp_span id) as Hpar.
  { intros c Hc i Hi. rewrite (par_is_ids h0 h1) by done. apply ns_par. by rewrite ns_ids0, decide_False. }
  assert (par_is h1 (sp_span id) s <-> sp_parent id = sp_span id) as Hpars.
  { rewrite (par_is_ids h0 h1) by done. by apply ns_par. }
  assert (sp_parent id = sp_span id -> p = s) as Hself.
  { intros E. unfold p. by rewrite ns_lookup_S', decide_True. }
  split.
  - by apply ns_ids_fin.
  - eauto.
  - (* NoDup *)
    intros k l Hk. assert (forall k l, S' !! k = Some l -> NoDup (subs h1 l)) as N1.
    { intros k' l' Hk'. rewrite U1, !ns_subs0. apply ns_S' in Hk' as [[-> ->]|[Hk1 Hk2]].
      - destruct (decide (s = p)) as [<-|Hl]; rewrite decide_True by done; [|constructor].
        cbn. apply NoDup_singleton.
      - pose proof (ns_s_notin k' l' Hk2). pose proof (ns_img_ne k' l' Hk2).
        pose proof (ok_nodup _ _ _ _ Hok k' l' Hk2).
        destruct (decide (l' = p)) as [<-|Hl]; rewrite decide_False by done; [|done].
        apply NoDup_app. split_and!; [done|set_solver|apply NoDup_singleton]. }
    rewrite U2. destruct (decide (l = s)) as [->|Hls].
    + apply NoDup_app. split_and!; [by eapply N1|..].
      * intros c Hc Hf. apply elem_of_list_filter in Hf as [Hf1 Hf2].
        destruct (decide (c = s)) as [->|Hcs].
        -- apply (M1s _ _ HSr') in Hf2. apply Hpars, Hself in Hf1. congruence.
        -- apply (M1 c Hcs) in Hc as [? _]. done.
      * apply NoDup_filter. by eapply N1.
    + destruct (decide (l = r)) as [->|Hlr]; [|by eapply N1]. apply NoDup_filter. by eapply N1.
  - (* membership *)
    intros k l Hk c. rewrite I20, U2, ns_ids0. destruct (decide (c = s)) as [->|Hcs].
    + (* the new span itself *)
      transitivity (p = l).
      * destruct (decide (l = s)) as [->|Hls].
        { rewrite elem_of_app, elem_of_list_filter, (M1s _ _ HSr').
          rewrite (M1s (sp_span id) s) by (apply ns_S'; by left).
          rewrite Hpars. split; [|by left]. intros [?|[H1 H2]]; [done|]. by apply Hself. }
        destruct (decide (l = r)) as [->|Hlr].
        { rewrite elem_of_list_filter, (M1s _ _ HSr'), Hpars. split; [by intros [_ ?]|].
          intros H. split; [|done]. intros E. apply Hself in E. congruence. }
        rewrite (M1s k l Hk). naive_solver.
      * split.
        -- intros H. split; [done|]. exists id. split_and!; [done|apply ns_S'; by left|done].
        -- intros (_ & i & [= <-] & _ & H). exact H.
    + (* an old span *)
      transitivity (c <> r /\ exists i, ids h c = Some i /\ S !! sp_span i = Some c /\
        default r (S' !! sp_parent i) = l).
      2:{ split; intros (? & i & ? & HS & ?); (split; [done|]); exists i; (split_and!; [done| |done]).
          - by apply ns_S'_old.
          - apply ns_S' in HS as [[_ ?]|[_ ?]]; done. }
      pose proof (ns_old _ _ c HSr) as Or.
      destruct (decide (l = s)) as [->|Hls].
      { rewrite elem_of_app, elem_of_list_filter, (M1 c Hcs r), (M1 c Hcs s), Or. split.
        - intros [[? _]|(Hp1 & _ & Hc & i & Hi & HS & Hd)]; [done|]. split; [done|]. exists i.
          split_and!; [done..|]. apply (Hpar c Hcs i Hi) in Hp1. by rewrite ns_lookup_S', decide_True.
        - intros (Hc & i & Hi & HS & Hd). right.
          assert (sp_parent i = sp_span id) as E.
          { rewrite ns_lookup_S' in Hd. destruct (decide (sp_parent i = sp_span id)) as [|_]; [done|].
            destruct (S !! sp_parent i) as [q|] eqn:Eq; cbn in Hd; [|done].
            subst q. by apply ns_img_ne in Eq. }
          split; [by apply (Hpar c Hcs i Hi)|]. split; [done|]. split; [done|]. exists i. split_and!; [done..|].
          rewrite E, Hnew. done. }
      destruct (decide (l = r)) as [->|Hlr].
      { rewrite elem_of_list_filter, (M1 c Hcs r), Or. split.
        - intros (Hp1 & _ & Hc & i & Hi & HS & Hd). split; [done|]. exists i. split_and!; [done..|].
          rewrite ns_lookup_S', decide_False; [done|]. intros E. by apply Hp1, (Hpar c Hcs i Hi).
        - intros (Hc & i & Hi & HS & Hd).
          assert (sp_parent i <> sp_span id) as E.
          { intros E. rewrite ns_lookup_S', decide_True in Hd by done. cbn in Hd. congruence. }
          split; [by rewrite (Hpar c Hcs i Hi)|]. split; [done|]. split; [done|]. exists i. split_and!; [done..|].
          rewrite ns_lookup_S', decide_False in Hd; done. }
      apply ns_S' in Hk as [[_ ?]|[Hk1 Hk2]]; [done|].
      rewrite (M1 c Hcs l), (ns_old _ _ c Hk2). split.
      * intros (_ & Hc & i & Hi & HS & Hd). split; [done|]. exists i. split_and!; [done..|].
        rewrite ns_lookup_S', decide_False; [done|]. intros E. rewrite E, Hnew in Hd. cbn in Hd. congruence.
      * intros (Hc & i & Hi & HS & Hd). split; [done|]. split; [done|]. exists i. split_and!; [done..|].
        rewrite ns_lookup_S' in Hd. destruct (decide (sp_parent i = sp_span id)); [|done]. cbn in Hd. congruence.
Qed.

(** The new span becomes the root. *)
Lemma ns_replace :
  exists h3, (h1 ← reattach_children s r h0; h2 ← ms_insert spans s r h1; move_temp_children s r h2) = Some h3 /\
    (forall l, ids h3 l = ids h0 l) /\ (forall l, anns h3 l = anns h0 l) /\
    (forall l, (forall k, S' !! k <> Some l) -> subs h3 l = subs h0 l) /\
    trace_ok t h3 S' s.
Proof.
  destruct ns_root_key as (ir & Hir & HSr & Hrs).
  assert (ids h0 s = Some id) as Hs0 by (rewrite ns_ids0; by rewrite decide_True).
  assert (ids h0 r = Some ir) as Hr0 by (rewrite ns_ids0; by rewrite decide_False).
  assert (S' !! sp_span ir = Some r) as HSr' by (by apply ns_S'_old).
  assert (sp_trace ir = t) as Htr.
  { destruct (ok_ids _ _ _ _ Hok _ _ HSr) as (j & Hj & ? & _). congruence. }
  assert (subs h0 r = subs h r) as Hsr by (rewrite ns_subs0; by rewrite decide_False).
  destruct (reattach_spec s r h0 id ir) as (h1 & -> & I1 & A1 & U1); [done..| |].
  { intros c Hc. rewrite Hsr in Hc. apply (ns_child_ids _ _ _ HSr) in Hc as [? ?].
    by rewrite ns_ids0, decide_False. }
  cbn [mbind option_bind].
  set (p := default s (S' !! sp_parent ir)).
  assert (exists k, S' !! k = Some p) as [kp Hkp].
  { unfold p. destruct (S' !! sp_parent ir) eqn:E; cbn; [by eauto|].
    exists (sp_span id). apply ns_S'. by left. }
  assert (is_Some (ids h1 p)) as Hp.
  { destruct (ns_ids_fin h1 I1 kp p Hkp) as (i & Hi & _). by exists i. }
  destruct (insert_spec spans s r h1 ir S' p) as (h2 & Hh2 & I2 & A2 & U2);
    [by rewrite I1|by rewrite Htr|done|done|].
  rewrite Hh2. cbn [mbind option_bind].
  assert (forall c i, ids h0 c = Some i -> forall q, par_is h0 q c <-> sp_parent i = q) as Hpar
    by (intros; by apply ns_par).
  (* membership after reattach + insert *)
  assert (forall c, c <> r -> forall l, c ∈ subs h2 l <-> c ∈ subs h1 l) as M2.
  { intros c Hc l. rewrite U2. destruct (decide (l = p)) as [->|]; set_solver. }
  assert (forall k l, S !! k = Some l -> r ∉ subs h l) as Hrn.
  { intros k l Hk Hin. by apply (ns_old _ _ _ Hk) in Hin as [? _]. }
  assert (forall k l, S' !! k = Some l -> r ∈ subs h2 l <-> l = p) as M2r.
  { intros k l Hk. assert (r ∉ subs h1 l) as Hn.
    { rewrite U1. destruct (decide (l = s)) as [->|Hls].
      - rewrite ns_subs0, decide_True, Hsr by done. cbn. rewrite elem_of_list_filter.
        intros [_ ?]. by eapply Hrn.
      - destruct (decide (l = r)) as [->|Hlr].
        + rewrite Hsr, elem_of_list_filter. intros [_ ?]. by eapply Hrn.
        + rewrite ns_subs0, decide_False by done. apply ns_S' in Hk as [[_ ?]|[_ Hk]]; [done|]. by eapply Hrn. }
    rewrite U2. destruct (decide (l = p)) as [<-|]; [|naive_solver]. set_solver. }
  assert (forall k l, S' !! k = Some l -> s ∉ subs h1 l) as Hsn.
  { intros k l Hk. rewrite U1. destruct (decide (l = s)) as [->|Hls].
    - rewrite ns_subs0, decide_True, Hsr by done. cbn. rewrite elem_of_list_filter.
      intros [_ ?]. by eapply ns_s_notin.
    - destruct (decide (l = r)) as [->|Hlr].
      + rewrite Hsr, elem_of_list_filter. intros [_ ?]. by eapply ns_s_notin.
      + rewrite ns_subs0, decide_False by done. apply ns_S' in Hk as [[_ ?]|[_ Hk]]; [done|]. by eapply ns_s_notin. }
  assert (S' !! sp_span id = Some s) as HSs by (apply ns_S'; by left).
  assert (forall k l, S' !! k = Some l -> NoDup (subs h1 l)) as N1.
  { intros k l Hk. rewrite U1. pose proof (ok_nodup _ _ _ _ Hok _ _ HSr) as Nr.
    destruct (decide (l = s)) as [->|Hls].
    - rewrite ns_subs0, decide_True, Hsr by done. cbn. by apply NoDup_filter.
    - destruct (decide (l = r)) as [->|Hlr]; [rewrite Hsr; by apply NoDup_filter|].
      rewrite ns_subs0, decide_False by done. apply ns_S' in Hk as [[_ ?]|[_ Hk]]; [done|].
      by eapply ok_nodup. }
  assert (forall k l, S' !! k = Some l -> r ∉ subs h1 l) as Hrn1.
  { intros k l Hk Hin. rewrite U1 in Hin. destruct (decide (l = s)) as [->|Hls].
    - rewrite ns_subs0, decide_True, Hsr in Hin by done. cbn in Hin.
      apply elem_of_list_filter in Hin as [_ ?]. by eapply Hrn.
    - destruct (decide (l = r)) as [->|Hlr].
      + rewrite Hsr in Hin. apply elem_of_list_filter in Hin as [_ ?]. by eapply Hrn.
      + rewrite ns_subs0, decide_False in Hin by done.
        apply ns_S' in Hk as [[_ ?]|[_ Hk]]; [done|]. by eapply Hrn. }
  assert (forall k l, S' !! k = Some l -> NoDup (subs h2 l)) as N2.
  { intros k l Hk. rewrite U2. destruct (decide (l = p)) as [<-|]; [|by eapply N1].
    apply NoDup_app. split_and!; [by eapply N1| |apply NoDup_singleton].
    intros c Hc Hc'. apply elem_of_list_singleton in Hc'. subst c. by eapply Hrn1. }
  assert (forall l, ids h2 l = ids h0 l) as I20 by (intros; by rewrite I2, I1).
  assert (forall c, c ∈ subs h2 r -> is_Some (ids h2 c)) as Hci.
  { intros c Hc. rewrite I20. destruct (decide (c = r)) as [->|Hcr]; [by exists ir|].
    apply (M2 c Hcr) in Hc. rewrite U1, decide_False, decide_True, Hsr in Hc by done.
    apply elem_of_list_filter in Hc as [_ Hc]. apply (ns_child_ids _ _ _ HSr) in Hc as [? ?].
    by rewrite ns_ids0, decide_False. }
  destruct (move_temp_spec s r h2 id ir) as (h3 & -> & I3 & A3 & U3);
    [done|by rewrite I20|by rewrite I20|done|].
  exists h3. split; [done|].
  assert (forall l, ids h3 l = ids h0 l) as I30 by (intros; by rewrite I3, I20).
  split; [done|]. split; [intros; by rewrite A3, A2, A1|].
  split.
  { intros l Hl. assert (l <> s) by (intros ->; by apply (Hl (sp_span id))).
    assert (l <> r) by (intros ->; by apply (Hl (sp_span ir))).
    assert (l <> p) by (intros ->; by apply (Hl kp)).
    rewrite U3, decide_False, decide_False by done. rewrite U2, decide_False by done.
    by rewrite U1, decide_False, decide_False. }
  assert (forall q c, par_is h2 q c <-> par_is h0 q c) as Hp2 by (intros; by apply par_is_ids).
  assert (p = r -> sp_parent ir = sp_span ir) as Hself.
  { unfold p. rewrite ns_lookup_S'. destruct (decide (sp_parent ir = sp_span id)); cbn; [congruence|].
    destruct (S !! sp_parent ir) as [q|] eqn:Eq; cbn; [|congruence].
    intros ->. by eapply ns_key. }
  split.
  - by apply ns_ids_fin.
  - eauto.
  - (* NoDup *)
    intros k l Hk. rewrite U3. destruct (decide (l = s)) as [->|Hls].
    + apply NoDup_app. split_and!; [by eapply N2| |apply NoDup_filter; by eapply N2].
      intros c Hc Hf. apply elem_of_list_filter in Hf as [Hf1 Hf2].
      destruct (decide (c = r)) as [->|Hcr].
      * apply (M2r _ _ HSs) in Hc. apply (M2r _ _ HSr') in Hf2. congruence.
      * apply (M2 c Hcr) in Hc, Hf2. rewrite U1, decide_True in Hc by done.
        rewrite ns_subs0, decide_True in Hc by done. cbn in Hc. apply elem_of_list_filter in Hc as [Hc _].
        rewrite U1, decide_False, decide_True in Hf2 by done.
        apply elem_of_list_filter in Hf2 as [? _]. done.
    + destruct (decide (l = r)) as [->|]; [|by eapply N2]. apply NoDup_filter. by eapply N2.
  - (* membership *)
    intros k l Hk c. rewrite I30, U3. destruct (decide (c = s)) as [->|Hcs].
    { split; [|by intros [? _]]. intros Hin. exfalso.
      assert (forall k l, S' !! k = Some l -> s ∉ subs h2 l) as Hs2.
      { intros k' l' Hk'. rewrite (M2 s) by congruence. by eapply Hsn. }
      destruct (decide (l = s)) as [->|Hls].
      - apply elem_of_app in Hin as [Hin|Hin]; [exact (Hs2 _ _ HSs Hin)|].
        apply elem_of_list_filter in Hin as [_ Hin]. exact (Hs2 _ _ HSr' Hin).
      - destruct (decide (l = r)) as [->|].
        + apply elem_of_list_filter in Hin as [_ Hin]. exact (Hs2 _ _ HSr' Hin).
        + exact (Hs2 _ _ Hk Hin). }
    destruct (decide (c = r)) as [->|Hcr].
    { transitivity (p = l).
      - destruct (decide (l = s)) as [->|Hls].
        + rewrite elem_of_app, elem_of_list_filter, (M2r _ _ HSs), (M2r _ _ HSr'), Hp2, (Hpar r ir Hr0).
          split; [intros [?|[? ?]]; naive_solver|by left].
        + destruct (decide (l = r)) as [->|Hlr].
          * rewrite elem_of_list_filter, (M2r _ _ HSr'), Hp2, (Hpar r ir Hr0). naive_solver.
          * rewrite (M2r _ _ Hk). naive_solver.
      - split.
        + intros H. split; [done|]. exists ir. split_and!; [done..|]. exact H.
        + intros (_ & i & Hi & _ & H). rewrite Hr0 in Hi. injection Hi as <-. exact H. }
    transitivity (exists i, ids h c = Some i /\ S !! sp_span i = Some c /\
        default s (S' !! sp_parent i) = l).
    2:{ rewrite ns_ids0, decide_False by done. split.
        - intros (i & ? & HS & ?). split; [done|]. exists i. split_and!; [done| |done]. by apply ns_S'_old.
        - intros (? & i & ? & HS & ?). exists i. split_and!; [done| |done].
          apply ns_S' in HS as [[_ ?]|[_ ?]]; done. }
    pose proof (ns_old _ _ c HSr) as Or.
    assert (forall k l, S !! k = Some l -> c ∈ subs h l -> exists i, ids h c = Some i /\ ids h0 c = Some i /\
      S !! sp_span i = Some c /\ default r (S !! sp_parent i) = l) as Hc1.
    { intros k' l' Hk' Hin. apply (ns_old _ _ _ Hk') in Hin as (_ & i & Hi & ? & ?). exists i.
      split_and!; [done| |done..]. by rewrite ns_ids0, decide_False. }
    destruct (decide (l = s)) as [->|Hls].
    { rewrite elem_of_app, elem_of_list_filter, !(M2 c Hcr), !U1.
      rewrite decide_True, decide_False, decide_True, Hsr, ns_subs0, decide_True by done.
      cbn [app]. rewrite !elem_of_list_filter, Hp2. split.
      - intros H.
        assert (c ∈ subs h r) as Hin by (destruct H as [[_ ?]|(_ & _ & ?)]; done).
        destruct (Hc1 _ _ HSr Hin) as (i & Hi & Hi0 & HS & Hd). exists i. split_and!; [done..|].
        rewrite ns_lookup_S'. destruct (decide (sp_parent i = sp_span id)) as [|Hne]; [done|].
        destruct H as [[H _]|(H & _)]; [apply (Hpar c i Hi0) in H; done|].
        rewrite (Hpar c i Hi0) in H.
        destruct (S !! sp_parent i) as [q|] eqn:Eq; cbn in Hd |- *; [|done].
        subst q. exfalso. apply H. by eapply ns_key.
      - intros (i & Hi & HS & Hd).
        assert (ids h0 c = Some i) as Hi0 by (by rewrite ns_ids0, decide_False).
        rewrite ns_lookup_S' in Hd. destruct (decide (sp_parent i = sp_span id)) as [E|Hne].
        + left. split; [by apply (Hpar c i Hi0)|]. apply Or. split; [done|]. exists i. split_and!; [done..|].
          rewrite E, Hnew. done.
        + right. destruct (S !! sp_parent i) as [q|] eqn:Eq; cbn in Hd.
          { subst q. by apply ns_img_ne in Eq. }
          rewrite (Hpar c i Hi0). split_and!.
          * intros E. rewrite E in Eq. congruence.
          * rewrite (Hpar c i Hi0). done.
          * apply Or. split; [done|]. exists i. rewrite Eq. split_and!; done. }
    destruct (decide (l = r)) as [->|Hlr].
    { rewrite elem_of_list_filter, (M2 c Hcr), U1, decide_False, decide_True, Hsr by done.
      rewrite elem_of_list_filter, Hp2. split.
      - intros (H1 & H2 & Hin). destruct (Hc1 _ _ HSr Hin) as (i & Hi & Hi0 & HS & Hd).
        rewrite (Hpar c i Hi0) in H1, H2. exists i. split_and!; [done..|].
        rewrite ns_lookup_S', decide_False by done. rewrite H1, HSr. done.
      - intros (i & Hi & HS & Hd).
        assert (ids h0 c = Some i) as Hi0 by (by rewrite ns_ids0, decide_False).
        rewrite ns_lookup_S' in Hd. destruct (decide (sp_parent i = sp_span id)) as [E|Hne].
        { cbn in Hd. congruence. }
        destruct (S !! sp_parent i) as [q|] eqn:Eq; cbn in Hd; [|congruence]. subst q.
        assert (sp_parent i = sp_span ir) by (by eapply ns_key).
        rewrite !(Hpar c i Hi0). split_and!; [done..|]. apply Or. split; [done|]. exists i.
        rewrite Eq. done. }
    apply ns_S' in Hk as [[_ ?]|[Hk1 Hk2]]; [done|].
    rewrite (M2 c Hcr), U1, decide_False, decide_False, ns_subs0, decide_False by done. split.
    + intros Hin. destruct (Hc1 _ _ Hk2 Hin) as (i & Hi & Hi0 & HS & Hd). exists i. split_and!; [done..|].
      rewrite ns_lookup_S', decide_False.
      * destruct (S !! sp_parent i); cbn in *; [done|]. congruence.
      * intros E. rewrite E, Hnew in Hd. cbn in Hd. congruence.
    + intros (i & Hi & HS & Hd). apply (ns_old _ _ _ Hk2). split; [done|]. exists i. split_and!; [done..|].
      rewrite ns_lookup_S' in Hd. destruct (decide (sp_parent i = sp_span id)); cbn in Hd; [congruence|].
      destruct (S !! sp_parent i); cbn in *; congruence.
Qed.
End NewSpan.
