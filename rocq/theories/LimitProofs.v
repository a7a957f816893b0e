From Verif Require Import Base MemModel MemSpec MemProofs MemProofs2 MemProofs3 MemProofs4 LimitModel LimitSpec.
From Coq Require Import ZifyBool ZifyNat ZifyN.

Lemma ls_run_app max ops1 ops2 ls :
  ls_run max (ops1 ++ ops2) ls =
  let '(l1, c1) := ls_run max ops1 ls in let '(l2, c2) := ls_run max ops2 l1 in (l2, c1 ++ c2).
Proof.
  revert ls. induction ops1 as [|op ops1 IH]; intros ls; cbn [ls_run app].
  - destruct (ls_run max ops2 ls) as [l c]. done.
  - destruct (ls_step max op ls) as [l1 c1]. rewrite IH. destruct (ls_run max ops1 l1) as [l2 c2].
    destruct (ls_run max ops2 l2) as [l3 c3]. by rewrite app_assoc.
Qed.

(** ** C22/C24: everything stored is in the ring *)
Definition ring_of (ls : LS) : list N := default [] (ls_ring ls).
Definition stored (calls : list call) (t : N) : Prop := live t calls [] <> [].
Definition z (n : bool) (t : N) : Prop := if n then t <> 0 else True.

Record cap_ok (max : nat) (ls : LS) (calls : list call) : Prop := {
  co_len : length (ring_of ls) = match ls_ring ls with Some _ => max | None => O end;
  co_next : max <> O -> (ls_next ls < max)%nat;
  co_traces : forall t, ls_ring ls <> None -> t ∈ ls_traces ls -> t <> 0 -> t ∈ ring_of ls;
  co_stored : forall t, stored calls t -> t <> 0 -> t ∈ ring_of ls
}.

Lemma stored_collect calls id a t : stored (calls ++ [CCollect id a]) t -> stored calls t \/ t = sp_trace id.
Proof. unfold stored. rewrite live_snoc. destruct (N.eqb_spec (sp_trace id) t); [by right|by left]. Qed.
Lemma stored_delete calls ts t : stored (calls ++ [CDelete ts]) t -> stored calls t /\ t ∉ ts.
Proof. unfold stored. rewrite live_snoc. destruct (bool_decide (t ∈ ts)) eqn:E; [done|]. by apply bool_decide_eq_false in E. Qed.

Lemma elem_insert_ne (l : list N) n x y : x ∈ l -> nth n l 0 <> x -> x ∈ <[n:=y]> l.
Proof.
  intros Hx Hn. apply elem_of_list_lookup in Hx as [k Hk]. apply elem_of_list_lookup. exists k.
  rewrite list_lookup_insert_ne; [done|]. intros ->. apply Hn. by apply nth_lookup_Some.
Qed.

Lemma cap_step max ls calls op ls' cs : cap_ok max ls calls -> ls_step max op ls = (ls', cs) ->
  cap_ok max ls' (calls ++ cs) /\
  forall c1 c2, cs = c1 ++ c2 -> c1 <> cs ->
    forall t, stored (calls ++ c1) t -> t <> 0 -> t ∈ ring_of ls.
Proof.
  intros [H1 H2 H3 H4] Hs. destruct op as [id a ok|ts]; cbn [ls_step] in Hs.
  2:{ injection Hs as <- <-. split.
      - split; try done. intros t [Ht _]%stored_delete. auto.
      - intros c1 c2 E Hne t. destruct c1 as [|x c1].
        + rewrite app_nil_r. auto.
        + injection E as <- E. destruct c1; [|done]. done. }
  unfold ls_collect in Hs. destruct (Nat.eqb_spec max 0) as [->|Hmax].
  { cbn in Hs. injection Hs as <- <-. rewrite app_nil_r. split; [done|]. intros c1 c2 E Hne. destruct c1; done. }
  set (ls1 := match ls_ring ls with Some _ => ls | None => MkLS (Some (repeat 0 max)) ∅ (ls_next ls) end) in *.
  assert (cap_ok max ls1 calls /\ ls_ring ls1 <> None /\ ls_next ls1 = ls_next ls /\
    forall t, t <> 0 -> t ∈ ring_of ls1 -> t ∈ ring_of ls) as ([H1' H2' H3' H4'] & Hring & Hn1 & Hback).
  { unfold ls1. destruct (ls_ring ls) as [r|] eqn:E.
    - split_and!; [|rewrite E; done|done|done]. split; rewrite ?E; done.
    - split_and!; [split|done|done|].
      + cbn. by rewrite repeat_length.
      + done.
      + cbn. set_solver.
      + intros t Ht Hz. specialize (H4 t Ht Hz). unfold ring_of in H4. rewrite E in H4. by apply elem_of_nil in H4.
      + intros t Ht Hin. cbn in Hin. apply elem_of_list_In, repeat_spec in Hin. done. }
  assert (default [] (ls_ring ls1) = ring_of ls1) as Er by done. rewrite Er in Hs.
  assert (length (ring_of ls1) = max) as Hlen by (destruct (ls_ring ls1); done).
  assert (ls_next ls1 < max)%nat as Hnx by auto.
  destruct (bool_decide (sp_trace id ∈ ls_traces ls1)) eqn:Ein.
  - apply bool_decide_eq_true in Ein. injection Hs as <- <-. split.
    + split; try done. intros t [Ht| ->]%stored_collect Hz; [by auto|]. by apply H3'.
    + intros c1 c2 E Hne t Ht Hz. destruct c1 as [|x c1]; [rewrite app_nil_r in Ht; auto|].
      injection E as <- E. destruct c1; done.
  - apply bool_decide_eq_false in Ein. set (old := nth (ls_next ls1) (ring_of ls1) 0) in *.
    destruct (negb (old =? 0) && negb ok) eqn:Eold; cbn [fst] in Hs; injection Hs as <- <-.
    + rewrite app_nil_r. split; [|intros c1 c2 E Hne; destruct c1; done]. split; cbn [ls_ring ls_next ls_traces ring_of]; try done.
      intros t _ Ht Hz. apply H3'; [done|set_solver|done].
    + set (cs := ((if negb (old =? 0) then [CDelete [old]] else []) ++ [CCollect id a])).
      assert (forall c1 c2, cs = c1 ++ c2 -> c1 <> cs -> forall t, stored (calls ++ c1) t -> stored calls t) as Hmid.
      { intros c1 c2 E Hne t Ht. unfold cs in E, Hne. destruct c1 as [|x c1]; [by rewrite app_nil_r in Ht|].
        destruct (negb (old =? 0)); cbn in E, Hne; injection E as <- E.
        - destruct c1 as [|y c1]; [by apply stored_delete in Ht as []|]. injection E as <- E. destruct c1; done.
        - destruct c1; done. }
      split; [|intros c1 c2 E Hne t Ht Hz; apply Hback; [done|]; apply H4'; [by eapply Hmid|done]].
      assert (forall t, t ∈ ring_of ls1 -> t <> old -> t ∈ <[ls_next ls1:=sp_trace id]> (ring_of ls1)) as Hkeep.
      { intros t Ht Hne. apply elem_insert_ne; [done|]. by intros E. }
      assert (sp_trace id ∈ <[ls_next ls1:=sp_trace id]> (ring_of ls1)) as Hself.
      { apply elem_of_list_lookup. exists (ls_next ls1). apply list_lookup_insert. by rewrite Hlen. }
      split; cbn [ls_ring ls_next ls_traces ring_of default].
      * unfold ring_of. cbn. by rewrite insert_length.
      * intros _. apply Nat.mod_upper_bound. done.
      * intros t _ Ht Hz. unfold ring_of at 1. cbn. destruct (decide (t = sp_trace id)) as [->|Hne]; [done|].
        apply Hkeep.
        -- apply H3'; [done| |done]. destruct (negb (old =? 0)); set_solver.
        -- intros ->. destruct (N.eqb_spec old 0); [done|]. cbn in Ht. set_solver.
      * intros t Ht Hz. unfold ring_of at 1. cbn. unfold cs in Ht. rewrite app_assoc in Ht.
        apply stored_collect in Ht as [Ht| ->]; [|done].
        destruct (N.eqb_spec old 0) as [E0|E0]; cbn in Ht.
        -- rewrite app_nil_r in Ht. apply Hkeep; [auto|congruence].
        -- apply stored_delete in Ht as [Ht Hno]. apply Hkeep; [auto|]. intros ->. set_solver.
Qed.

Lemma cap_run max ops ls calls : ls_run max ops ls_init = (ls, calls) -> cap_ok max ls calls.
Proof.
  revert ls calls. induction ops as [|op ops IH] using rev_ind; intros ls calls H.
  - cbn in H. injection H as <- <-. split; [done|cbn; lia|done|]. intros t Ht. by destruct Ht.
  - rewrite ls_run_app in H. destruct (ls_run max ops ls_init) as [l1 c1] eqn:E. cbn [ls_run] in H.
    destruct (ls_step max op l1) as [l2 c2] eqn:E2. injection H as <- <-. rewrite app_nil_r.
    destruct (cap_step max l1 c1 op l2 c2) as [? _]; [by apply IH|done|done].
Qed.

(** ... at every moment, also between the two underlying calls of one Collect. *)
Lemma cap_prefix max ops ls calls pre post : ls_run max ops ls_init = (ls, calls) -> calls = pre ++ post ->
  exists l, (length l <= max)%nat /\ forall t, stored pre t -> t <> 0 -> t ∈ l.
Proof.
  revert ls calls pre post. induction ops as [|op ops IH] using rev_ind; intros ls calls pre post H Hpre.
  - cbn in H. injection H as <- <-. exists []. destruct pre; [|done]. split; [cbn; lia|]. intros t Ht. by destruct Ht.
  - rewrite ls_run_app in H. destruct (ls_run max ops ls_init) as [l1 c1] eqn:E. cbn [ls_run] in H.
    destruct (ls_step max op l1) as [l2 c2] eqn:E2. injection H as <- <-. rewrite app_nil_r in Hpre.
    pose proof (cap_run max ops l1 c1 E) as Hc1.
    destruct (cap_step max l1 c1 op l2 c2 Hc1 E2) as [Hc2 Hmid].
    assert (forall l c, cap_ok max l c -> (length (ring_of l) <= max)%nat) as Hlen.
    { intros l c Hc. rewrite (co_len _ _ _ Hc). destruct (ls_ring l); lia. }
    symmetry in Hpre. destruct (app_eq_inv _ _ _ _ Hpre) as [(k & -> & Hk)|(k & -> & Hk)].
    + assert (k = c2 \/ k <> c2) as [->|Hne].
      { destruct post as [|x post]; [left; by rewrite Hk, app_nil_r|right; intros ->]. apply (f_equal length) in Hk.
        rewrite app_length in Hk. cbn in Hk. lia. }
      * exists (ring_of l2). split; [exact (Hlen _ _ Hc2)|]. intros t Ht Hz. exact (co_stored _ _ _ Hc2 t Ht Hz).
      * exists (ring_of l1). split; [exact (Hlen _ _ Hc1)|]. intros t Ht Hz. exact (Hmid k post Hk Hne t Ht Hz).
    + exact (IH l1 _ pre k eq_refl eq_refl).
Qed.

Lemma stored_iff calls st t : ms_run calls ms_init = Some st -> (ms_trace_of st t <> None <-> stored calls t).
Proof. intros H. unfold stored. pose proof (found_iff calls st t H) as F. destruct (decide (live t calls [] = [])) as [E|E]; tauto. Qed.

Lemma nodup_bound (l ring : list N) : NoDup l -> (forall t, In t l -> t ∈ ring) -> (length l <= length ring)%nat.
Proof.
  intros Hnd Hsub. apply NoDup_incl_length; [by apply NoDup_ListNoDup|]. intros t Ht. apply elem_of_list_In. auto.
Qed.

Lemma limit_capacity max ops ls calls pre post st l :
  (forall op, In op ops -> nonzero op) ->
  ls_run max ops ls_init = (ls, calls) -> calls = pre ++ post -> ms_run pre ms_init = Some st ->
  NoDup l -> (forall t, In t l -> ms_trace_of st t <> None) -> (length l <= max)%nat.
Proof.
  intros Hnz Hrun Hpre Hst Hnd Hl. destruct (cap_prefix max ops ls calls pre post Hrun Hpre) as (ring & Hlen & Hring).
  assert (forall t, stored pre t -> t <> 0) as Hz.
  { assert (forall t, stored pre t -> exists id a, In (CCollect id a) pre /\ sp_trace id = t) as Hex.
    { clear. intros t. induction pre as [|c pre IH] using rev_ind; [by intros []|].
      unfold stored. rewrite live_snoc. destruct c as [id a|ts].
      - destruct (N.eqb_spec (sp_trace id) t) as [<-|].
        + intros _. exists id, a. split; [|done]. apply in_app_iff. right. by left.
        + intros H. destruct (IH H) as (i & b & Hin & E). exists i, b. split; [|done]. apply in_app_iff. by left.
      - destruct (bool_decide (t ∈ ts)); [done|]. intros H. destruct (IH H) as (i & b & Hin & E). exists i, b. split; [|done]. apply in_app_iff. by left. }
    intros t Ht. destruct (Hex t Ht) as (id & a & Hin & <-).
    assert (forall ls0 ls' cs, ls_run max ops ls0 = (ls', cs) -> In (CCollect id a) cs -> exists ok, In (LCollect id a ok) ops) as Hfrom.
    { clear. induction ops as [|op ops IH]; intros ls0 ls' cs H Hin; cbn [ls_run] in H; [injection H as <- <-; done|].
      destruct (ls_step max op ls0) as [l1 c1] eqn:E1. destruct (ls_run max ops l1) as [l2 c2] eqn:E2. injection H as <- <-.
      apply in_app_iff in Hin as [Hin|Hin]; [|destruct (IH _ _ _ E2 Hin) as [ok ?]; exists ok; by right].
      destruct op as [i b ok|ts]; cbn [ls_step] in E1.
      - exists ok. left. unfold ls_collect in E1. destruct (max =? 0)%nat; [by injection E1 as <- <-|].
        destruct (bool_decide _); [injection E1 as <- <-; destruct Hin as [[= -> ->]|[]]; done|].
        destruct (_ && _); [by injection E1 as <- <-|]. injection E1 as <- <-.
        apply in_app_iff in Hin as [Hin|[[= -> ->]|[]]]; [|done]. destruct (negb _); [|done]. by destruct Hin.
      - injection E1 as <- <-. by destruct Hin. }
    destruct (Hfrom ls_init ls calls Hrun) as [ok Hop]; [rewrite Hpre; apply in_app_iff; by left|]. apply (Hnz _ Hop). }
  etrans; [|exact Hlen]. apply nodup_bound; [done|]. intros t Ht. specialize (Hl t Ht).
  apply (stored_iff pre st t Hst) in Hl. auto.
Qed.

Lemma limit_capacity_any max ops ls calls pre post st l :
  ls_run max ops ls_init = (ls, calls) -> calls = pre ++ post -> ms_run pre ms_init = Some st ->
  NoDup l -> (forall t, In t l -> ms_trace_of st t <> None) -> (length l <= max + 1)%nat.
Proof.
  intros Hrun Hpre Hst Hnd Hl. destruct (cap_prefix max ops ls calls pre post Hrun Hpre) as (ring & Hlen & Hring).
  assert (length l <= length (0%N :: ring))%nat; [|cbn in *; lia]. apply nodup_bound; [done|].
  intros t Ht. destruct (decide (t = 0)) as [->|Hz]; [by left|]. right. apply Hring; [|done].
  by apply (stored_iff pre st t Hst), Hl.
Qed.

Lemma limit_zero_refuted : exists max ops ls calls st,
  max <> O /\ ls_run max ops ls_init = (ls, calls) /\ ms_run calls ms_init = Some st /\
  exists l, NoDup l /\ (forall t, In t l -> ms_trace_of st t <> None) /\ (max < length l)%nat.
Proof.
  set (ops := [LCollect (MkSpanID 0 1 0) [] true; LCollect (MkSpanID 7 1 0) [] true]).
  exists 1%nat, ops, (fst (ls_run 1 ops ls_init)), (snd (ls_run 1 ops ls_init)), (final (snd (ls_run 1 ops ls_init))).
  split_and!; [lia|by destruct (ls_run 1 ops ls_init)|apply final_run|].
  exists [0; 7]. split_and!; [|intros t [<-|[<-|[]]]; vm_compute; done|cbn; lia].
  repeat constructor; set_solver.
Qed.

(** ** C23 *)
Definition rot (ls : LS) : list N := drop (ls_next ls) (ring_of ls) ++ take (ls_next ls) (ring_of ls).

Lemma rot_step (ring : list N) n t : (n < length ring)%nat ->
  let ring' := <[n := t]> ring in let n' := ((n + 1) mod length ring)%nat in
  drop n' ring' ++ take n' ring' = tl (drop n ring ++ take n ring) ++ [t].
Proof.
  intros Hn ring' n'.
  destruct (lookup_lt_is_Some_2 ring n Hn) as [x Hx].
  assert (ring = take n ring ++ x :: drop (S n) ring) as Hsplit by (by rewrite take_drop_middle).
  assert (length (take n ring) = n) as Htl by (rewrite take_length; lia).
  assert (ring' = take n ring ++ t :: drop (S n) ring) as Hr'.
  { unfold ring'. rewrite Hsplit at 1. rewrite insert_app_r_alt by lia. rewrite Htl, Nat.sub_diag. done. }
  assert (drop n ring = x :: drop (S n) ring) as Hd by (by apply drop_S).
  rewrite Hd. cbn [tl app].
  destruct (decide (S n = length ring)) as [E|E].
  - assert (n' = O) as -> by (unfold n'; rewrite <- E, Nat.add_1_r; by apply Nat.mod_same).
    rewrite drop_0, take_0, app_nil_r, Hr', (drop_ge ring (S n)) by lia. done.
  - assert (n' = S n) as -> by (unfold n'; rewrite Nat.mod_small; lia).
    rewrite Hr'. rewrite drop_app_ge by lia. rewrite Htl. replace (S n - n)%nat with 1%nat by lia.
    rewrite take_app_ge by lia. rewrite Htl. replace (S n - n)%nat with 1%nat by lia. cbn.
    rewrite take_0, drop_0. by rewrite app_assoc.
Qed.

Lemma content_none t w : t ∉ map fst w -> content t w = [].
Proof.
  induction w as [|[u l] w IH]; [done|]. cbn. intros Hn. apply not_elem_of_cons in Hn as [Hne Hn].
  destruct (N.eqb_spec u t); [congruence|auto].
Qed.
Lemma content_app t w1 w2 : t ∉ map fst w1 -> content t (w1 ++ w2) = content t w2.
Proof.
  induction w1 as [|[u l] w1 IH]; [done|]. cbn. intros Hn. apply not_elem_of_cons in Hn as [Hne Hn].
  destruct (N.eqb_spec u t); [congruence|auto].
Qed.
Lemma content_app_l t w1 w2 : t ∈ map fst w1 -> content t (w1 ++ w2) = content t w1.
Proof.
  induction w1 as [|[u l] w1 IH]; cbn; [by intros ?%elem_of_nil|]. intros Hn.
  destruct (N.eqb_spec u t); [done|]. apply IH. by apply elem_of_cons in Hn as [->|].
Qed.

Record fifo_ok (max : nat) (ls : LS) (calls : list call) (w : window) : Prop := {
  f_ring : ls_ring ls <> None -> rot ls = repeat 0 (max - length w) ++ map fst w;
  f_none : ls_ring ls = None -> w = [];
  f_len : (length w <= max)%nat;
  f_rlen : ls_ring ls <> None -> length (ring_of ls) = max;
  f_next : (ls_next ls < max)%nat;
  f_traces : ls_ring ls <> None -> forall t, t ∈ ls_traces ls <-> t ∈ map fst w;
  f_nodup : NoDup (map fst w);
  f_nz : 0 ∉ map fst w;
  f_live : forall t, live t calls [] = content t w
}.

Lemma fifo_step max ls calls w op ls' cs : (0 < max)%nat -> nonzero op -> succeeds op -> fifo_ok max ls calls w ->
  ls_step max op ls = (ls', cs) -> fifo_ok max ls' (calls ++ cs) (win_op max w op).
Proof.
  intros Hmax Hnz Hsu Hf Hs. destruct op as [id a ok|ts]; cbn [ls_step win_op] in *.
  2:{ injection Hs as <- <-. destruct Hf as [F1 F2 F3 F4 F5 F6 F7 F8 F9].
      assert (map fst (map (fun '(t, l) => if bool_decide (t ∈ ts) then (t, []) else (t, l)) w) = map fst w) as E.
      { rewrite map_map. apply map_ext. intros [t l]. by destruct (bool_decide _). }
      split; rewrite ?E, ?map_length; try done.
      - intros Hr. by rewrite F2.
      - intros t. rewrite live_snoc, F9. clear. induction w as [|[u l] w IH]; [by destruct (bool_decide _)|]. cbn.
        destruct (decide (u = t)) as [->|Hne].
        + rewrite N.eqb_refl. destruct (bool_decide (t ∈ ts)); cbn; by rewrite N.eqb_refl.
        + replace (u =? t) with false by lia. destruct (bool_decide (u ∈ ts)); cbn; replace (u =? t) with false by lia; exact IH. }
  cbn [succeeds] in Hsu. subst ok. unfold ls_collect in Hs. destruct (Nat.eqb_spec max 0); [lia|].
  set (ls1 := match ls_ring ls with Some _ => ls | None => MkLS (Some (repeat 0 max)) ∅ (ls_next ls) end) in *.
  assert (fifo_ok max ls1 calls w /\ ls_ring ls1 <> None) as [[F1 F2 F3 F4 F5 F6 F7 F8 F9] Hring].
  { unfold ls1. destruct (ls_ring ls) as [r|] eqn:E; [split; [done|by rewrite E]|]. split; [|done].
    destruct Hf as [F1 F2 F3 F4 F5 F6 F7 F8 F9]. specialize (F2 E). subst w. split; try done.
    - intros _. unfold rot, ring_of. cbn. rewrite app_nil_r, Nat.sub_0_r.
      assert (forall n k, drop n (repeat 0 k) ++ take n (repeat 0 k) = repeat 0 k) as Hrep.
      { intros n0 k. replace (repeat 0 k) with (take n0 (repeat 0 k) ++ drop n0 (repeat 0 k)) at 3 by apply take_drop.
        assert (forall l1 l2 : list N, Forall (fun x => x = 0) l1 -> Forall (fun x => x = 0) l2 -> l1 ++ l2 = l2 ++ l1) as Hcomm.
        { intros l1 l2 A1 A2. apply list_eq_same_length with (n:=length (l1 ++ l2)); [by rewrite !app_length; lia|done|].
          intros i x y _ Hx Hy. apply elem_of_list_lookup_2 in Hx, Hy. rewrite elem_of_app in Hx, Hy. rewrite Forall_forall in A1, A2.
          transitivity 0; [destruct Hx; auto|symmetry; destruct Hy; auto]. }
        apply Hcomm; [apply Forall_drop|apply Forall_take]; apply Forall_forall; intros x Hx; apply elem_of_list_In in Hx; by eapply repeat_spec. }
      apply Hrep.
    - intros _. cbn. by rewrite repeat_length.
    - intros _ t. cbn. set_solver. }
  assert (default [] (ls_ring ls1) = ring_of ls1) as Er by done. rewrite Er in Hs.
  specialize (F1 Hring). specialize (F4 Hring). specialize (F6 Hring).
  rewrite (bool_decide_ext _ _ (F6 (sp_trace id))) in Hs.
  destruct (bool_decide (sp_trace id ∈ map fst w)) eqn:Ein.
  - apply bool_decide_eq_true in Ein. injection Hs as <- <-.
    assert (map fst (map (fun '(t, l) => if t =? sp_trace id then (t, l ++ [(id, a)]) else (t, l)) w) = map fst w) as E.
    { rewrite map_map. apply map_ext. intros [t l]. by destruct (_ =? _). }
    split; rewrite ?E, ?map_length; try done.
    intros t. rewrite live_snoc, F9. clear -Ein. induction w as [|[u l] w IH]; [by apply elem_of_nil in Ein|]. cbn.
    destruct (N.eqb_spec u (sp_trace id)) as [->|Hne].
    + cbn. destruct (N.eqb_spec (sp_trace id) t) as [E|Hne]; [done|].
      clear -Hne. induction w as [|[v m] w IH]; [done|]. cbn. destruct (N.eqb_spec v (sp_trace id)) as [->|].
      * cbn. by replace (sp_trace id =? t) with false by lia.
      * cbn. destruct (N.eqb_spec v t); [done|exact IH].
    + cbn in Ein. apply elem_of_cons in Ein as [|Ein]; [congruence|]. specialize (IH Ein). cbn.
      destruct (N.eqb_spec u t) as [->|Hut]; [by replace (sp_trace id =? t) with false by lia|exact IH].
  - apply bool_decide_eq_false in Ein. set (old := nth (ls_next ls1) (ring_of ls1) 0) in *.
    assert (exists x r, drop (ls_next ls1) (ring_of ls1) = x :: r /\ old = x) as (x & r & Hdr & Hold).
    { destruct (lookup_lt_is_Some_2 (ring_of ls1) (ls_next ls1)) as [x Hx]; [lia|]. exists x, (drop (S (ls_next ls1)) (ring_of ls1)).
      split; [by apply drop_S|]. unfold old. by apply nth_lookup_Some. }
    assert (hd 0 (rot ls1) = old) as Hhd by (unfold rot; by rewrite Hdr, Hold).
    cbn [negb] in Hs. rewrite andb_false_r in Hs. cbn [fst] in Hs. injection Hs as <- <-.
    pose proof (rot_step (ring_of ls1) (ls_next ls1) (sp_trace id) ltac:(lia)) as Hrot. cbn zeta in Hrot. rewrite F4 in Hrot.
    fold (rot ls1) in Hrot.
    match goal with |- fifo_ok _ _ _ (?x ++ _) => set (w' := x) end.
    assert (old <> 0 <-> length w = max) as Hfull.
    { rewrite <- Hhd, F1. destruct (decide (length w = max)) as [E|E].
      - rewrite E, Nat.sub_diag. cbn. destruct w as [|[u l] w0]; [cbn in E; lia|]. cbn.
        split; [done|]. intros _ ->. apply F8. cbn. by left.
      - replace (max - length w)%nat with (S (max - length w - 1)) by lia. cbn. lia. }
    assert (length w' + 1 <= max)%nat as Hlw.
    { unfold w'. destruct (Nat.ltb_spec (length w) max); [lia|]. destruct w; cbn in *; lia. }
    assert (tl (rot ls1) = repeat 0 (max - (length w' + 1)) ++ map fst w') as Htl.
    { rewrite F1. unfold w'. destruct (Nat.ltb_spec (length w) max) as [Hlt|Hge].
      - replace (max - length w)%nat with (S (max - (length w + 1))) by lia. done.
      - assert (length w = max) as E by lia. rewrite E, Nat.sub_diag. cbn. destruct w as [|p w0]; [cbn in E; lia|]. cbn in *.
        replace (max - (length w0 + 1))%nat with O by lia. done. }
    assert (forall t, t ∈ map fst w' <-> t ∈ map fst w /\ (old <> 0 -> t <> old)) as Hkeys.
    { intros t. unfold w'. destruct (Nat.ltb_spec (length w) max) as [Hlt|Hge].
      - split; [|tauto]. intros Ht. split; [done|]. intros Ho. apply Hfull in Ho. lia.
      - assert (length w = max) as E by lia. assert (old <> 0) as Ho by (by apply Hfull).
        rewrite F1, E, Nat.sub_diag in Hhd. destruct w as [|[u l] w0]; [cbn in E; lia|]. cbn in Hhd. subst u. cbn.
        cbn in F7. apply NoDup_cons in F7 as [Hu _]. rewrite elem_of_cons. split.
        + intros Ht. split; [by right|]. intros _ ->. done.
        + intros [[->|Ht] H]; [by destruct (H Ho)|done]. }
    assert (NoDup (map fst w')) as Hnd'.
    { unfold w'. destruct (length w <? max)%nat; [done|]. destruct w; [done|]. cbn in *. by apply NoDup_cons in F7 as [_ ?]. }
    assert (forall t, t ∈ map fst w' -> content t w' = content t w) as Hcw.
    { intros t Ht. unfold w' in *. destruct (length w <? max)%nat; [done|]. destruct w as [|[u l] w0]; [done|]. cbn in *.
      destruct (N.eqb_spec u t) as [->|]; [|done]. apply NoDup_cons in F7 as [Hu _]. done. }
    assert (old = 0 -> w' = w) as Hsame.
    { intros E0. unfold w'. destruct (Nat.ltb_spec (length w) max); [done|].
      assert (length w = max) as E by lia. by apply Hfull in E. }
    clearbody w'. split.
    + intros _. etransitivity; [exact Hrot|]. rewrite Htl, app_length, map_app. rewrite <- app_assoc. reflexivity.
    + done.
    + rewrite app_length. exact Hlw.
    + intros _. unfold ring_of. cbn. by rewrite insert_length.
    + cbn. apply Nat.mod_upper_bound. lia.
    + intros _ t. cbn [ls_traces]. rewrite map_app, elem_of_app. cbn. rewrite elem_of_list_singleton, elem_of_union, elem_of_singleton, Hkeys.
      assert (t ∈ (if negb (old =? 0) then ls_traces ls1 ∖ {[old]} else ls_traces ls1) <-> t ∈ map fst w /\ (old <> 0 -> t <> old)) as ->; [|tauto].
      destruct (N.eqb_spec old 0) as [E0|E0]; cbn; [rewrite F6; tauto|].
      rewrite elem_of_difference, elem_of_singleton, F6. tauto.
    + rewrite map_app. apply NoDup_app. split_and!; [done| |apply NoDup_singleton].
      intros t Ht Hin. cbn in Hin. apply elem_of_list_singleton in Hin. subst t. apply Hkeys in Ht as [? _]. done.
    + rewrite map_app, elem_of_app. cbn. rewrite elem_of_list_singleton. intros [H|H]; [apply Hkeys in H as [? _]; done|].
      cbn in Hnz. congruence.
    + intros t. rewrite app_assoc, live_snoc.
      assert (live t (calls ++ (if negb (old =? 0) then [CDelete [old]] else [])) [] = content t w') as ->.
      { destruct (N.eqb_spec old 0) as [E0|E0]; cbn.
        - by rewrite app_nil_r, F9, Hsame.
        - rewrite live_snoc, F9. destruct (bool_decide (t ∈ [old])) eqn:Eo.
          + apply bool_decide_eq_true, elem_of_list_singleton in Eo. subst t. symmetry. apply content_none.
            rewrite Hkeys. tauto.
          + apply bool_decide_eq_false in Eo. rewrite elem_of_list_singleton in Eo.
            destruct (decide (t ∈ map fst w)) as [Hin|Hin].
            * symmetry. apply Hcw. by apply Hkeys.
            * rewrite !content_none; [done| |done]. rewrite Hkeys. tauto. }
      destruct (N.eqb_spec (sp_trace id) t) as [<-|Hne].
      * rewrite (content_none _ w'); [|rewrite Hkeys; tauto]. rewrite content_app; [|rewrite Hkeys; tauto]. cbn. by rewrite N.eqb_refl.
      * destruct (decide (t ∈ map fst w')); [by rewrite content_app_l|]. rewrite content_app by done. cbn.
        replace (sp_trace id =? t) with false by lia. by apply content_none.
Qed.

Lemma fifo_run max ops ls calls : (0 < max)%nat -> (forall op, In op ops -> nonzero op /\ succeeds op) ->
  ls_run max ops ls_init = (ls, calls) -> fifo_ok max ls calls (win max ops).
Proof.
  intros Hmax. revert ls calls. induction ops as [|op ops IH] using rev_ind; intros ls calls Hops H.
  - cbn in H. injection H as <- <-. split; try done; cbn; try lia; [apply NoDup_nil_2|set_solver].
  - rewrite ls_run_app in H. destruct (ls_run max ops ls_init) as [l1 c1] eqn:E. cbn [ls_run] in H.
    destruct (ls_step max op l1) as [l2 c2] eqn:E2. injection H as <- <-. rewrite app_nil_r.
    unfold win. rewrite fold_left_app. cbn. destruct (Hops op) as [Hn Hs]; [apply in_app_iff; right; by left|].
    eapply fifo_step; try done. apply IH; [|done]. intros o Ho. apply Hops. apply in_app_iff. by left.
Qed.

Lemma limit_window max ops ls calls st : (0 < max)%nat -> (forall op, In op ops -> nonzero op /\ succeeds op) ->
  ls_run max ops ls_init = (ls, calls) -> ms_run calls ms_init = Some st ->
  forall t, let L := content t (win max ops) in
    (L = [] -> ms_trace_of st t = None) /\
    (L <> [] -> exists tr, shows st t tr /\ displays L tr /\
       (acyclic (spans_of L) -> Permutation (map tr_id (nodes tr)) (spans_of L))).
Proof.
  intros Hmax Hops Hrun Hst t L. pose proof (fifo_run max ops ls calls Hmax Hops Hrun) as Hf.
  assert (live t calls [] = L) as E by apply (f_live _ _ _ _ Hf). split.
  - intros HL. apply (found_iff calls st t Hst). by rewrite E.
  - intros HL. destruct (trace_displayed calls st t Hst) as (tr & Hs & Hd & _ & Hp); [by rewrite E|].
    exists tr. by rewrite <- E.
Qed.
