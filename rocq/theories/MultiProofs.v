From Verif Require Import Base MultiModel.
From Coq Require Import ZifyBool ZifyNat ZifyN.

Section Multi.
Context {St Err Opts : Type}.
Context (coll : nat -> SpanID -> list Annotation -> St -> St * option Err).

(** Running stores i, i+1, ... on the same call. *)
Definition after (id : SpanID) (a : list Annotation) (i : nat) (s : St) : St := fst (coll i id a s).
Definition call_of (id : SpanID) (a : list Annotation) (i : nat) : nat * SpanID * list Annotation := (i, id, a).

Lemma multi_collect_spec i stores id a stores' calls r : multi_collect coll i stores id a = (stores', calls, r) ->
  exists pre rest, stores = pre ++ rest /\
    (forall k s, pre !! k = Some s -> snd (coll (i + k)%nat id a s) = None) /\
    match r with
    | None => rest = [] /\ stores' = imap (fun k => after id a (i + k)%nat) pre /\ calls = map (call_of id a) (seq i (length pre))
    | Some e => exists s post, rest = s :: post /\ snd (coll (i + length pre)%nat id a s) = Some e /\
        stores' = imap (fun k => after id a (i + k)%nat) pre ++ after id a (i + length pre)%nat s :: post /\
        calls = map (call_of id a) (seq i (length pre + 1))
    end.
Proof.
  revert i stores' calls r. induction stores as [|s stores IH]; intros i stores' calls r H; cbn in H.
  - injection H as <- <- <-. by exists [], [].
  - destruct (coll i id a s) as [s' [e|]] eqn:E.
    + injection H as <- <- <-. exists [], (s :: stores). split_and!; [done|done|]. exists s, stores.
      rewrite Nat.add_0_r. unfold after. by rewrite E.
    + destruct (multi_collect coll (S i) stores id a) as [[st2 c2] r2] eqn:E2. injection H as <- <- <-.
      destruct (IH _ _ _ _ E2) as (pre & rest & -> & Hpre & Hr). exists (s :: pre), rest. split_and!; [done| |].
      * intros [|k] x Hx; cbn in Hx; [injection Hx as <-; by rewrite Nat.add_0_r, E|].
        rewrite Nat.add_succ_r. apply (Hpre k x Hx).
      * assert (forall B (g : nat -> St -> B), imap (fun k => g (i + k)%nat) (s :: pre) = g i s :: imap (fun k => g (S i + k)%nat) pre) as Him.
        { intros B g. cbn. rewrite Nat.add_0_r. f_equal. apply imap_ext. intros k x _. cbn. by rewrite Nat.add_succ_r. }
        assert (after id a i s = s') as Hs' by (unfold after; by rewrite E).
        destruct r2 as [e|].
        -- destruct Hr as (s0 & post & -> & He & -> & ->). exists s0, post. cbn [length].
           replace (i + S (length pre))%nat with (S i + length pre)%nat by lia. split_and!; [done|done| |done].
           rewrite (Him _ (after id a)), Hs'. done.
        -- destruct Hr as (-> & -> & ->). split_and!; [done| |done]. by rewrite (Him _ (after id a)), Hs'.
Qed.

Lemma multi_trace_spec (asked : list (tresult Err)) r : multi_trace asked = r ->
  match r with
  | TNotFound => forall x, In x asked -> x = TNotFound
  | _ => exists pre post, asked = pre ++ r :: post /\ forall x, In x pre -> x = TNotFound
  end.
Proof.
  intros <-. induction asked as [|x asked IH]; [by intros x []|]. destruct x as [tr| |e]; cbn.
  - by exists [], asked.
  - destruct (multi_trace asked) as [tr| |e].
    + destruct IH as (pre & post & -> & H). exists (TNotFound :: pre), post. split; [done|]. intros x [<-|Hx]; auto.
    + intros x [<-|Hx]; auto.
    + destruct IH as (pre & post & -> & H). exists (TNotFound :: pre), post. split; [done|]. intros x [<-|Hx]; auto.
  - by exists [], asked.
Qed.

(** Traces in order, without later ones of the same trace ID. *)
Fixpoint first_of (seen : list N) (l : list tree) : list tree :=
  match l with
  | [] => []
  | t :: l => if bool_decide (sp_trace (tr_id t) ∈ seen) then first_of seen l else t :: first_of (sp_trace (tr_id t) :: seen) l
  end.

Lemma first_of_ext seen seen' l : (forall t, t ∈ seen <-> t ∈ seen') -> first_of seen l = first_of seen' l.
Proof.
  revert seen seen'. induction l as [|t l IH]; intros seen seen' H; [done|]. cbn. rewrite (bool_decide_ext _ _ (H _)).
  destruct (bool_decide _); [by apply IH|]. f_equal. apply IH. intros x. rewrite !elem_of_cons, H. done.
Qed.
Lemma first_of_app seen l1 l2 : first_of seen (l1 ++ l2) = first_of seen l1 ++ first_of (map (sp_trace ∘ tr_id) l1 ++ seen) l2.
Proof.
  revert seen. induction l1 as [|t l1 IH]; intros seen; [done|]. cbn. destruct (bool_decide (_ ∈ seen)) eqn:E.
  - apply bool_decide_eq_true in E. rewrite IH. f_equal. apply first_of_ext. intros x. set_solver.
  - cbn. f_equal. rewrite IH. f_equal. apply first_of_ext. intros x. set_solver.
Qed.

Lemma add_new_spec union all traces u' a' seen : (forall t, t ∈ union <-> t ∈ seen) -> add_new union all traces = (u', a') ->
  a' = all ++ first_of seen traces /\ forall t, t ∈ u' <-> t ∈ map (sp_trace ∘ tr_id) traces ++ seen.
Proof.
  revert union all seen. induction traces as [|x traces IH]; intros union all seen Hu H; cbn in H.
  - injection H as <- <-. cbn. by rewrite app_nil_r.
  - rewrite (bool_decide_ext _ _ (Hu _)) in H. cbn. destruct (bool_decide (_ ∈ seen)) eqn:E.
    + destruct (IH _ _ _ Hu H) as [-> H2]. split; [done|]. intros t. rewrite H2. apply bool_decide_eq_true in E. set_solver.
    + destruct (IH ({[sp_trace (tr_id x)]} ∪ union) (all ++ [x]) (sp_trace (tr_id x) :: seen)) as [Ha H2]; [|exact H|].
      { intros t. rewrite elem_of_union, elem_of_singleton, Hu, elem_of_cons. done. }
      rewrite <- app_assoc in Ha. split; [done|]. intros t. rewrite H2. set_solver.
Qed.

Lemma loop_spec no_opts (qs : list (Opts -> list tree + Err)) union all seen : (forall t, t ∈ union <-> t ∈ seen) ->
  match multi_traces_loop no_opts qs union all with
  | inr e => exists pre q post, qs = pre ++ q :: post /\ q no_opts = inr e /\ forall q', In q' pre -> exists l, q' no_opts = inl l
  | inl r => exists ls, map (fun q => q no_opts) qs = map inl ls /\ r = all ++ first_of seen (concat ls)
  end.
Proof.
  revert union all seen. induction qs as [|q qs IH]; intros union all seen Hu; cbn.
  - exists []. cbn. by rewrite app_nil_r.
  - destruct (q no_opts) as [traces|e] eqn:Eq.
    + destruct (add_new union all traces) as [u' a'] eqn:E.
      destruct (add_new_spec _ _ _ _ _ _ Hu E) as [-> Hu']. specialize (IH u' (all ++ first_of seen traces) _ Hu').
      destruct (multi_traces_loop no_opts qs u' _) as [r|e].
      * destruct IH as (ls & -> & ->). exists (traces :: ls). cbn. split; [done|]. by rewrite first_of_app, app_assoc.
      * destruct IH as (pre & q0 & post & -> & Hq & Hpre). exists (q :: pre), q0, post. split_and!; [done|done|].
        intros q' [<-|Hq']; eauto.
    + exists [], q, qs. split_and!; [done|done|]. by intros q' [].
Qed.

Lemma first_of_in seen l tr : In tr (first_of seen l) <->
  exists l1 l2, l = l1 ++ tr :: l2 /\ sp_trace (tr_id tr) ∉ seen /\ forall x, In x l1 -> sp_trace (tr_id x) <> sp_trace (tr_id tr).
Proof.
  revert seen. induction l as [|t l IH]; intros seen; cbn.
  - split; [done|]. intros ([|] & l2 & E & _); done.
  - destruct (bool_decide (sp_trace (tr_id t) ∈ seen)) eqn:E.
    + apply bool_decide_eq_true in E. rewrite IH. split.
      * intros (l1 & l2 & -> & Hs & H1). exists (t :: l1), l2. split_and!; [done|done|]. intros x [<-|Hx]; [congruence|auto].
      * intros (l1 & l2 & El & Hs & H1). destruct l1 as [|y l1]; injection El as -> ->; [done|].
        exists l1, l2. split_and!; [done|done|]. intros x Hx. apply H1. by right.
    + apply bool_decide_eq_false in E. cbn. rewrite IH. split.
      * intros [->|(l1 & l2 & -> & Hs & H1)]; [by exists [], l|]. exists (t :: l1), l2.
        apply not_elem_of_cons in Hs as [Hs1 Hs2]. split_and!; [done|done|]. intros x [<-|Hx]; [congruence|auto].
      * intros (l1 & l2 & El & Hs & H1). destruct l1 as [|y l1]; injection El as -> ->; [by left|right].
        exists l1, l2. split_and!; [done| |intros x Hx; apply H1; by right]. apply not_elem_of_cons. split; [|done].
        intros Ht. apply (H1 y); [by left|done].
Qed.
Lemma first_of_nodup seen l : NoDup (map (sp_trace ∘ tr_id) (first_of seen l)).
Proof.
  revert seen. induction l as [|t l IH]; intros seen; cbn; [constructor|]. destruct (bool_decide _); [auto|]. cbn.
  apply NoDup_cons. split; [|auto]. intros Hin. apply elem_of_list_In, in_map_iff in Hin as (x & Hx & Hin).
  apply first_of_in in Hin as (_ & _ & _ & Hs & _). apply Hs. cbn in Hx. rewrite Hx. by left.
Qed.
Lemma first_of_complete l t : In t (map (sp_trace ∘ tr_id) l) -> In t (map (sp_trace ∘ tr_id) (first_of [] l)).
Proof.
  intros Hin. assert (exists l1 x l2, l = l1 ++ x :: l2 /\ sp_trace (tr_id x) = t /\ forall y, In y l1 -> sp_trace (tr_id y) <> t) as (l1 & x & l2 & -> & Hx & Hy).
  { induction l as [|x l IH]; [done|]. destruct (decide (sp_trace (tr_id x) = t)) as [E|E]; [by exists [], x, l|].
    destruct Hin as [|Hin]; [done|]. destruct (IH Hin) as (l1 & y & l2 & -> & Hy & H1). exists (x :: l1), y, l2.
    split_and!; [done|done|]. intros z [<-|Hz]; auto. }
  apply in_map_iff. exists x. split; [done|]. apply first_of_in. exists l1, l2. split_and!; [done|set_solver|]. intros y Hin'. rewrite Hx. auto.
Qed.

Lemma multi_traces_ok no_opts (qs : list (Opts -> list tree + Err)) opts r : multi_traces no_opts qs opts = inl r ->
  exists ls, map (fun q => q no_opts) qs = map inl ls /\
    NoDup (map (fun tr => sp_trace (tr_id tr)) r) /\
    (forall l tr, In l ls -> In tr l -> exists tr', In tr' r /\ sp_trace (tr_id tr') = sp_trace (tr_id tr)) /\
    (forall tr, In tr r -> exists pre l post, ls = pre ++ l :: post /\ In tr l /\
       forall l' tr', In l' pre -> In tr' l' -> sp_trace (tr_id tr') <> sp_trace (tr_id tr)).
Proof.
  unfold multi_traces. intros H. pose proof (loop_spec no_opts qs ∅ [] [] ltac:(intros; set_solver)) as Hs. rewrite H in Hs.
  destruct Hs as (ls & Hls & ->). cbn [app]. exists ls. split_and!; [done|apply first_of_nodup| |].
  - intros l tr Hl Htr. assert (In (sp_trace (tr_id tr)) (map (sp_trace ∘ tr_id) (first_of [] (concat ls)))) as Hin.
    { apply first_of_complete. apply in_map_iff. exists tr. split; [done|]. apply in_concat. eauto. }
    apply in_map_iff in Hin as (tr' & E & Hin). eauto.
  - intros tr Htr. apply first_of_in in Htr as (l1 & l2 & Hc & _ & H1). revert l1 l2 Hc H1. clear. induction ls as [|l ls IH]; intros l1 l2 Hc H1.
    + by destruct l1.
    + cbn in Hc. destruct (app_eq_inv _ _ _ _ Hc) as [(k & -> & Hk)|(k & -> & Hk)].
      * destruct k as [|y k].
        -- rewrite app_nil_r in *. cbn in Hk. destruct (IH [] l2) as (pre & m & post & -> & Hm & Hn); [done|done|].
           exists (l1 :: pre), m, post. split_and!; [done|done|]. intros l' tr' [<-|Hl'] Htr'; [auto|eauto].
        -- cbn in Hk. injection Hk as <- Hk. exists [], (l1 ++ tr :: k), ls. split_and!; [done| |done]. apply in_app_iff. right. by left.
      * destruct (IH k l2) as (pre & m & post & -> & Hm & Hn); [done| |].
        { intros x Hx. apply H1. apply in_app_iff. by right. }
        exists (l :: pre), m, post. split_and!; [done|done|]. intros l' tr' [<-|Hl'] Htr'; [|eauto].
        apply H1. apply in_app_iff. by left.
Qed.

Lemma multi_traces_err no_opts (qs : list (Opts -> list tree + Err)) opts e : multi_traces no_opts qs opts = inr e ->
  exists pre q post, qs = pre ++ q :: post /\ q no_opts = inr e /\ forall q', In q' pre -> exists l, q' no_opts = inl l.
Proof.
  unfold multi_traces. intros H. pose proof (loop_spec no_opts qs ∅ [] [] ltac:(intros; set_solver)) as Hs. by rewrite H in Hs.
Qed.
Lemma multi_opts_superset no_opts (qs : list (Opts -> list tree + Err)) opts r :
  (forall q l l' tr, In q qs -> q opts = inl l -> q no_opts = inl l' -> In tr l -> In tr l') ->
  multi_traces no_opts qs opts = inl r ->
  forall q l tr, In q qs -> q opts = inl l -> In tr l ->
  exists tr', In tr' r /\ sp_trace (tr_id tr') = sp_trace (tr_id tr).
Proof.
  intros Hsub H q l tr Hq Hl Htr. destruct (multi_traces_ok no_opts qs opts r H) as (ls & Hls & _ & Hc & _).
  assert (In (q no_opts) (map inl ls)) as Hin by (rewrite <- Hls; by apply (in_map (fun q => q no_opts))).
  apply in_map_iff in Hin as (l' & El & Hl'). eapply (Hc l'); [done|]. by eapply Hsub.
Qed.
End Multi.

(** The options are ignored. *)
Definition by_ids (all : list tree) (opts : list N) : list tree + Empty_set :=
  inl (match opts with [] => all | _ => filter (fun tr => sp_trace (tr_id tr) ∈ opts) all end).
Lemma multi_opts_ignored : exists (qs : list (list N -> list tree + Empty_set)) opts r tr,
  (forall q o l, In q qs -> o <> [] -> q o = inl l -> forall x, In x l -> sp_trace (tr_id x) ∈ o) /\
  multi_traces [] qs opts = inl r /\ opts <> [] /\ In tr r /\ sp_trace (tr_id tr) ∉ opts.
Proof.
  set (tr1 := Tree (MkSpanID 1 1 0) [] []). set (tr2 := Tree (MkSpanID 2 1 0) [] []).
  exists [by_ids [tr1; tr2]], [1], [tr1; tr2], tr2. split_and!.
  - intros q o l [<-|[]] Ho Hl x Hx. unfold by_ids in Hl. destruct o as [|a o]; [done|].
    assert (l = filter (fun tr => sp_trace (tr_id tr) ∈ a :: o) [tr1; tr2]) as -> by congruence.
    apply elem_of_list_In, elem_of_list_filter in Hx as [? _]. done.
  - vm_compute. reflexivity.
  - done.
  - cbn. auto.
  - cbn. set_solver.
Qed.
