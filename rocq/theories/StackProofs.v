(** Proofs about stores wrapped in one another. *)
From Verif Require Import Base MemModel MemSpec MemProofs MemProofs2 MemProofs3 MemProofs4 RecentModel RecentSpec RecentProofs LimitModel LimitSpec LimitProofs StackModel StackSpec.
From Coq Require Import ssreflect.
Local Open Scope N_scope.

(** The LimitStore alone, with deletions by others at any moment. *)
Inductive lx (max : nat) : list (list N) -> list (SpanID * list Annotation) -> LS -> list call -> list call -> Prop :=
| LX_nil : lx max [] [] ls_init [] []
| LX_collect dels arr ls dn id a ls' cs : lx max dels arr ls [] dn -> ls_collect max true id a ls = (ls', cs, false) -> lx max dels (arr ++ [(id, a)]) ls' cs dn
| LX_below dels arr ls c busy dn : lx max dels arr ls (c :: busy) dn -> lx max dels arr ls busy (dn ++ [c])
| LX_delete dels arr ls busy dn ts : lx max dels arr ls busy dn -> lx max (dels ++ [ts]) arr ls busy (dn ++ [CDelete ts]).

Lemma live_app t l1 l2 acc : live t (l1 ++ l2) acc = live t l2 (live t l1 acc).
Proof. revert acc. induction l1 as [|c l1 IH]; intros acc; [done|]. destruct c; cbn [live app]; apply IH. Qed.
Lemma live_deletes t l ts acc : (forall c, In c l -> exists us, c = CDelete us) ->
  live t (l ++ [CDelete ts]) acc = live t (CDelete ts :: l) acc.
Proof.
  revert acc. induction l as [|c l IH]; intros acc H; [done|]. destruct (H c (or_introl eq_refl)) as [us ->].
  cbn [app live]. rewrite IH; [intros c Hc; apply H; by right|]. cbn [live]. f_equal.
  destruct (bool_decide (t ∈ us)), (bool_decide (t ∈ ts)); done.
Qed.

Definition op_of (o : lop) : option (SpanID * list Annotation) := match o with LCollect id a _ => Some (id, a) | LDelete _ => None end.
Definition cmd (dels : list (list N)) (o : lop) : Prop := match o with LCollect _ _ ok => ok = true | LDelete ts => In ts dels end.

Lemma collect_calls max id a ls ls' cs : ls_collect max true id a ls = (ls', cs, false) ->
  cs = [] \/ exists ds, cs = ds ++ [CCollect id a] /\ forall c, In c ds -> exists us, c = CDelete us.
Proof.
  rewrite /ls_collect. destruct (max =? 0)%nat; [intros [= <- <-]; by left|]. case_bool_decide.
  - intros [= <- <-]. right. exists []. done.
  - rewrite andb_false_r. intros [= <- <-]. right. eexists; split; [reflexivity|].
    case: (negb _); cbn; [|done]. intros c [<-|[]]. eauto.
Qed.

Lemma lx_ops max dels arr ls busy dn : lx max dels arr ls busy dn ->
  exists ops ls1 calls, ls_run max ops ls_init = (ls1, calls) /\ Forall (cmd dels) ops /\
   ((busy = [] /\ ls = ls1 /\ omap op_of ops = arr /\ forall t, live t dn [] = live t calls []) \/
    (exists arr1 id a ran, busy <> [] /\ arr = arr1 ++ [(id, a)] /\ omap op_of ops = arr1 /\ ls_collect max true id a ls1 = (ls, ran ++ busy, false) /\
      (forall c, In c ran -> exists us, c = CDelete us) /\ forall t, live t dn [] = live t (calls ++ ran) [])).
Proof.
  induction 1 as [|dels arr ls dn id a ls' cs _ (ops & ls1 & calls & H1 & H2 & [(_ & -> & H3 & H4)|(? & ? & ? & ? & ? & _)]) Hc|dels arr ls c busy dn _ (ops & ls1 & calls & H1 & H2 & [(? & _)|(arr1 & id & a & ran & _ & -> & H3 & H4 & H5 & H6)])|dels arr ls busy dn ts _ (ops & ls1 & calls & H1 & H2 & [(-> & -> & H3 & H4)|(arr1 & id & a & ran & Hb & -> & H3 & H4 & H5 & H6)])]; try done.
  - exists [], ls_init, []. split_and!; [done|done|]. left. done.
  - destruct cs as [|c cs].
    + exists (ops ++ [LCollect id a true]), ls', calls. rewrite ls_run_app H1 /= Hc /=. split_and!; [by rewrite app_nil_r|apply Forall_app; by split; [|apply Forall_singleton]|].
      left. split_and!; [done|done|rewrite omap_app H3 //|done].
    + exists ops, ls1, calls. split_and!; [done..|]. right. exists arr, id, a, []. split_and!; [done..|]. intros t. by rewrite app_nil_r.
  - destruct busy as [|c' busy].
    + exists (ops ++ [LCollect id a true]), ls, (calls ++ ran ++ [c]). rewrite ls_run_app H1 /= H4 /=. split_and!; [by rewrite app_nil_r|apply Forall_app; by split; [|apply Forall_singleton]|].
      left. split_and!; [done|done|rewrite omap_app H3 //|]. intros t. rewrite app_assoc !live_app H6 live_app //.
    + exists ops, ls1, calls. split_and!; [done..|]. right. exists arr1, id, a, (ran ++ [c]). rewrite -app_assoc. split_and!; [done..| |].
      * destruct (collect_calls _ _ _ _ _ _ H4) as [E|(ds & E & Hd)]; [by destruct ran|].
        assert (exists r, ds = ran ++ c :: r) as [r ->].
        { destruct (exists_last (l := c' :: busy)) as (r & y & Er); [done|]. rewrite Er in E. exists r.
          assert ((ran ++ c :: r) ++ [y] = ds ++ [CCollect id a]) as E' by (rewrite -E -app_assoc //). by apply app_inj_tail in E' as [-> _]. }
        intros x Hx. apply Hd. apply in_app_iff in Hx as [Hx|[<-|[]]]; apply in_app_iff; [by left|right; by left].
      * intros t. rewrite app_assoc !live_app H6 live_app //.
  - exists (ops ++ [LDelete ts]), ls1, (calls ++ [CDelete ts]). rewrite ls_run_app H1 /=. split_and!; [done| |].
    + apply Forall_app. split; [|apply Forall_singleton; apply in_app_iff; right; by left]. eapply Forall_impl; [exact H2|]. intros [? ? ?|ts']; cbn; [done|].
      intros Hx. apply in_app_iff. by left.
    + left. split_and!; [done|done|rewrite omap_app H3 app_nil_r //|]. intros t. rewrite !live_app H4 //.
  - exists (ops ++ [LDelete ts]), ls1, (calls ++ [CDelete ts]). rewrite ls_run_app H1 /=. split_and!; [done| |].
    + apply Forall_app. split; [|apply Forall_singleton; apply in_app_iff; right; by left]. eapply Forall_impl; [exact H2|]. intros [? ? ?|ts']; cbn; [done|].
      intros Hx. apply in_app_iff. by left.
    + right. exists arr1, id, a, ran. split_and!; [done|done|rewrite omap_app H3 app_nil_r //|done|done|].
      intros t. rewrite live_app H6 -live_app -!app_assoc live_app live_deletes // live_app //.
Qed.

(** Never more than max traces. *)
Lemma lx_capacity max dels arr ls busy dn st l : lx max dels arr ls busy dn -> (forall x, In x arr -> sp_trace (fst x) <> 0) ->
  ms_run dn ms_init = Some st -> List.NoDup l -> (forall t, In t l -> ms_trace_of st t <> None) -> (length l <= max)%nat.
Proof.
  intros Hx Hnz Hst Hnd Hl. destruct (lx_ops _ _ _ _ _ _ Hx) as (ops & ls1 & calls & H1 & H2 & H).
  assert (exists ops' ls' pre post, ls_run max ops' ls_init = (ls', pre ++ post) /\ (forall t, live t dn [] = live t pre []) /\ (forall op, In op ops' -> nonzero op)) as (ops' & ls' & pre & post & R & L & Z).
  { assert (forall op, In op ops -> match op_of op with Some x => In x arr | None => True end) as Ha.
    { intros op Hop. destruct (op_of op) as [x|] eqn:E; [|done]. assert (In x (omap op_of ops)) as Hin.
      { apply elem_of_list_In, elem_of_list_omap. exists op. split; [by apply elem_of_list_In|done]. }
      destruct H as [(_ & _ & <- & _)|(arr1 & id & a & ran & _ & -> & <- & _)]; [done|]. apply in_app_iff. by left. }
    destruct H as [(-> & -> & H3 & H4)|(arr1 & id & a & ran & Hb & -> & H3 & H4 & H5 & H6)].
    - exists ops, ls1, calls, []. rewrite app_nil_r. split_and!; [done..|]. intros [id a ok|ts] Hop; [|done]. exact (Hnz (id, a) (Ha _ Hop)).
    - exists (ops ++ [LCollect id a true]), ls, (calls ++ ran), busy. split_and!; [rewrite ls_run_app H1 /= H4 /= app_nil_r app_assoc //|done|].
      intros op Hop. apply in_app_iff in Hop as [Hop|[<-|[]]].
      + destruct op as [id' a' ok|ts]; [|done]. exact (Hnz (id', a') (Ha _ Hop)).
      + apply (Hnz (id, a)). apply in_app_iff. right. by left. }
  destruct (run_ok pre) as (st' & Hst' & _). eapply (limit_capacity max ops' ls' (pre ++ post) pre post st' l Z R eq_refl Hst').
  - by apply NoDup_ListNoDup.
  - intros t Ht E. apply (Hl t Ht). apply (found_iff dn st t Hst). rewrite L. by apply (found_iff pre st' t Hst').
Qed.

(** The window of the newest traces. *)
Lemma win_snoc max ops op : win max (ops ++ [op]) = win_op max (win max ops) op.
Proof. rewrite /win fold_left_app //. Qed.
Lemma of_trace_app t l1 l2 : of_trace t (l1 ++ l2) = of_trace t l1 ++ of_trace t l2.
Proof. apply List.filter_app. Qed.

Lemma win_before max t ops : of_trace t (omap op_of ops) = [] -> t ∉ map fst (win max ops).
Proof.
  induction ops as [|op ops IH] using rev_ind; [intros _; by apply not_elem_of_nil|]. rewrite omap_app of_trace_app win_snoc. intros [E1 E2]%app_nil.
  specialize (IH E1). destruct op as [id a ok|ts]; cbn [win_op].
  - cbn in E2. destruct (N.eqb_spec (sp_trace id) t) as [|Hne]; [done|]. case_bool_decide as Hin.
    + assert (map fst (map (fun '(t0, l) => if t0 =? sp_trace id then (t0, l ++ [(id, a)]) else (t0, l)) (win max ops)) = map fst (win max ops)) as ->; [|done].
      rewrite map_map. apply map_ext. intros [u l]. by destruct (u =? sp_trace id).
    + rewrite map_app. intros Hx. apply elem_of_app in Hx as [Hx|Hx].
      * apply IH. destruct (length (win max ops) <? max)%nat; [done|]. destruct (win max ops); [done|]. by right.
      * cbn in Hx. apply elem_of_list_singleton in Hx. by apply Hne.
  - assert (map fst (map (fun '(t0, l) => if bool_decide (t0 ∈ ts) then (t0, []) else (t0, l)) (win max ops)) = map fst (win max ops)) as ->; [|done].
    rewrite map_map. apply map_ext. intros [u l]. by destruct (bool_decide _).
Qed.

Definition step_of (max : nat) (w : window) (ops : list lop) : window := fold_left (win_op max) ops w.
Lemma win_after max t dels w1 w2 L ops : (0 < max)%nat -> t ∉ map fst w1 -> t ∉ map fst w2 -> List.NoDup (map fst w2) ->
  Forall (cmd dels) ops -> (forall ts, In ts dels -> ~ In t ts) ->
  (forall others, List.NoDup others -> (forall u, In u others -> u <> t /\ (u ∈ map fst w2 \/ exists y, In y (omap op_of ops) /\ sp_trace (fst y) = u)) -> (length others < max)%nat) ->
  exists w1' w2', step_of max (w1 ++ (t, L) :: w2) ops = w1' ++ (t, L ++ of_trace t (omap op_of ops)) :: w2' /\ t ∉ map fst w1'.
Proof.
  intros Hmax. revert w1 w2 L. induction ops as [|op ops IH]; intros w1 w2 L H1 H2 Hnd Hc Hd Hn.
  - exists w1, w2. by rewrite app_nil_r.
  - apply Forall_cons in Hc as [Hop Hc]. destruct op as [id a ok|ts]; cbn [step_of fold_left win_op omap list_omap op_of]; rewrite -/(step_of _ _ _).
    + case_bool_decide as Hin.
      * rewrite map_app. set (g := fun '(t0, l) => if t0 =? sp_trace id then (t0, l ++ [(id, a)]) else (t0, l)). change (map g ((t, L) :: w2)) with (g (t, L) :: map g w2).
        assert (forall w, map fst (map g w) = map fst w) as Eg.
        { intros w. rewrite map_map. apply map_ext. intros [u l]. cbn. by destruct (u =? sp_trace id). }
        replace (g (t, L)) with (t, L ++ of_trace t [(id, a)]).
        2:{ cbn. rewrite (N.eqb_sym (sp_trace id)). destruct (t =? sp_trace id); [done|by rewrite app_nil_r]. }
        destruct (IH (map g w1) (map g w2) (L ++ of_trace t [(id, a)])) as (w1' & w2' & E & Hw); rewrite ?Eg; try done.
        { intros others Ho Hu. apply Hn; [done|]. intros u Hu'. destruct (Hu u Hu') as [? [?|(y & Hy & <-)]]; (split; [done|]); [by left|]. right. exists y. split; [by right|done]. }
        exists w1', w2'. split; [|done]. etransitivity; [exact E|]. f_equal. rewrite -app_assoc -of_trace_app //.
      * assert (sp_trace id <> t) as Hne. { intros <-. apply Hin. rewrite map_app. apply elem_of_app. right. by left. }
        assert (sp_trace id ∉ map fst w2) as Hin2. { intros Hx. apply Hin. rewrite map_app. apply elem_of_app. right. by right. }
        assert (exists w0, (if (length (w1 ++ (t, L) :: w2) <? max)%nat then w1 ++ (t, L) :: w2 else tl (w1 ++ (t, L) :: w2)) = w0 ++ (t, L) :: w2 /\ t ∉ map fst w0) as (w0 & -> & H0).
        { destruct (Nat.ltb_spec (length (w1 ++ (t, L) :: w2)) max) as [|Hlen]; [by exists w1|]. destruct w1 as [|x w1].
          - exfalso. cbn in Hlen. assert (length (sp_trace id :: map fst w2) < max)%nat; [|cbn in *; rewrite map_length in H; lia].
            apply Hn.
            + constructor; [by intros Hx%elem_of_list_In|done].
            + intros u [<-|Hu]; [split; [done|]; right; eexists; split; [by left|done]|]. split; [|left; by apply elem_of_list_In]. intros ->. apply H2. by apply elem_of_list_In.
          - exists w1. split; [done|]. intros Hx. apply H1. by right. }
        rewrite -app_assoc. cbn [app].
        destruct (IH w0 (w2 ++ [(sp_trace id, [(id, a)])]) L) as (w1' & w2' & E & Hw); try done.
        { rewrite map_app. intros Hx. apply elem_of_app in Hx as [Hx|Hx%elem_of_list_singleton]; [done|by apply Hne]. }
        { rewrite map_app. apply NoDup_ListNoDup. apply NoDup_app. split_and!; [by apply NoDup_ListNoDup| |apply NoDup_singleton].
          intros x Hx Hx'%elem_of_list_singleton. cbn in Hx'. by subst. }
        { intros others Ho Hu. apply Hn; [done|]. intros u Hu'. destruct (Hu u Hu') as [? [Hx|(y & Hy & <-)]]; (split; [done|]).
          - rewrite map_app in Hx. apply elem_of_app in Hx as [Hx|Hx%elem_of_list_singleton]; [by left|]. right. eexists; split; [by left|]. by rewrite Hx.
          - right. exists y. split; [by right|done]. }
        exists w1', w2'. split; [|done]. etransitivity; [exact E|]. f_equal. f_equal. f_equal. rewrite /of_trace /=. destruct (N.eqb_spec (sp_trace id) t); [done|done].
    + rewrite map_app. set (g := fun '(t0, l) => if bool_decide (t0 ∈ ts) then (t0, []) else (t0, l)). change (map g ((t, L) :: w2)) with (g (t, L) :: map g w2).
      assert (forall w, map fst (map g w) = map fst w) as Eg.
      { intros w. rewrite map_map. apply map_ext. intros [u l]. cbn. by destruct (bool_decide _). }
      replace (g (t, L)) with (t, L).
      2:{ cbn. rewrite bool_decide_eq_false_2; [|done]. intros Hx%elem_of_list_In. by apply (Hd ts Hop). }
      by apply (IH (map g w1) (map g w2) L); rewrite ?Eg.
Qed.

(** A trace that nobody else deletes is complete as long as fewer than max others came after it. *)
Lemma lx_complete max dels arr ls dn t : (0 < max)%nat -> lx max dels arr ls [] dn -> (forall x, In x arr -> sp_trace (fst x) <> 0) ->
  (forall ts, In ts dels -> ~ In t ts) -> newest max t arr -> live t dn [] = of_trace t arr.
Proof.
  intros Hmax Hx Hnz Hd (pre & x & post & -> & Hpre & Ht & Hn).
  destruct (lx_ops _ _ _ _ _ _ Hx) as (ops & ls1 & calls & H1 & H2 & [(_ & -> & H3 & H4)|(? & ? & ? & ? & ? & _)]); [|done]. clear Hx.
  assert (exists o1 id a ok o2, ops = o1 ++ LCollect id a ok :: o2 /\ omap op_of o1 = pre /\ (id, a) = x /\ omap op_of o2 = post) as (o1 & id & a & ok & o2 & Eo & E1 & E & E2).
  { clear -H3. revert pre H3. induction ops as [|op ops IH]; intros pre H3; [by destruct pre|]. destruct op as [id a ok|ts]; cbn in H3.
    - destruct pre as [|y pre].
      + injection H3 as E H3. exists [], id, a, ok, ops. done.
      + injection H3 as E H3. destruct (IH pre H3) as (o1 & id' & a' & ok' & o2 & -> & <- & <- & <-). exists (LCollect id a ok :: o1), id', a', ok', o2. split_and!; try done. cbn. by rewrite E.
    - destruct (IH pre H3) as (o1 & id' & a' & ok' & o2 & -> & <- & <- & <-). by exists (LDelete ts :: o1), id', a', ok', o2. }
  subst ops x post. cbn [fst] in Ht.
  assert (forall op, In op (o1 ++ LCollect id a ok :: o2) -> nonzero op /\ succeeds op) as Hops.
  { intros op Hop. pose proof (proj1 (Forall_forall _ _) H2 op) as Hcmd. split.
    - destruct op as [id' a' ok'|ts]; [|done]. apply (Hnz (id', a')). rewrite -H3. apply elem_of_list_In, elem_of_list_omap. exists (LCollect id' a' ok'). split; [by apply elem_of_list_In|done].
    - destruct op as [id' a' ok'|ts]; [|done]. apply Hcmd. by apply elem_of_list_In. }
  rewrite H4 (f_live _ _ _ _ (fifo_run max _ _ _ Hmax Hops H1) t). rewrite of_trace_app Hpre. cbn [app].
  assert (t ∉ map fst (win max o1)) as Hw by (apply win_before; by rewrite E1).
  assert (win max (o1 ++ LCollect id a ok :: o2) = step_of max (win max (o1 ++ [LCollect id a ok])) o2) as ->.
  { rewrite /step_of /win -fold_left_app -app_assoc //. }
  rewrite win_snoc. cbn [win_op]. rewrite bool_decide_eq_false_2; [by rewrite Ht|]. rewrite Ht.
  apply Forall_app in H2 as [_ [_ H2]%Forall_cons].
  destruct (win_after max t dels (if (length (win max o1) <? max)%nat then win max o1 else tl (win max o1)) [] [(id, a)] o2) as (w1' & w2' & E & Hw1); try done.
  - destruct (length (win max o1) <? max)%nat; [done|]. intros Hx. apply Hw. destruct (win max o1); [done|]. by right.
  - by apply not_elem_of_nil.
  - constructor.
  - intros others Ho Hu. apply Hn; [done|]. intros u Hu'. destruct (Hu u Hu') as [? [Hx|?]]; [by apply elem_of_nil in Hx|done].
  - etransitivity; [exact (f_equal (content t) E)|]. rewrite content_app //. cbn. rewrite N.eqb_refl /of_trace /= Ht N.eqb_refl //.
Qed.

Lemma shown_of L dn st t : ms_run dn ms_init = Some st -> live t dn [] = L -> L <> [] ->
  exists tr, shows st t tr /\ displays L tr /\ (acyclic (spans_of L) -> Permutation (map tr_id (nodes tr)) (spans_of L)).
Proof.
  intros Hst <- HL. destruct (trace_displayed dn st t Hst HL) as (tr & Hs & Hd & _ & Hp). by exists tr.
Qed.

(** Both stacks are LimitStores with deletions by others, of traces that the RecentStore has decided to delete. *)
Lemma rl_lx age max h rs pend arr ls busy dn : rl_exec age max h rs pend arr ls busy dn ->
  rs_run age h rs /\ (forall ts, In (CDelete ts) pend -> exists e, In e h /\ ts = re_ev e) /\
  exists dels, lx max dels arr ls busy dn /\ (forall ts, In ts dels -> exists e, In e h /\ ts = re_ev e).
Proof.
  induction 1 as [|h rs pend arr ls busy dn e rs' _ (IH1 & IH2 & dels & IH3 & IH4) Hs|h rs p1 ts p2 arr ls busy dn _ (IH1 & IH2 & dels & IH3 & IH4)|h rs p1 id a p2 arr ls dn ls' cs _ (IH1 & IH2 & dels & IH3 & IH4) Hc|h rs pend arr ls c busy dn _ (IH1 & IH2 & dels & IH3 & IH4)].
  - split_and!; [constructor|done|]. exists []. split; [constructor|done].
  - split_and!; [exact (RR_snoc _ _ _ _ _ IH1 Hs)| |].
    + intros ts Hts. apply in_app_iff in Hts as [Hts|Hts].
      * destruct (IH2 ts Hts) as (e' & He & ->). exists e'. split; [|done]. apply in_app_iff. by left.
      * exists e. split; [apply in_app_iff; right; by left|]. rewrite /actions in Hts. apply in_app_iff in Hts as [Hts|[?|[]]]; [|done].
        rewrite /evict_calls in Hts. destruct (re_ev e); [done|]. destruct Hts as [[= <-]|[]]. done.
    + exists dels. split; [done|]. intros ts Hts. destruct (IH4 ts Hts) as (e' & He & ->). exists e'. split; [|done]. apply in_app_iff. by left.
  - split_and!; [done| |].
    + intros us Hus. apply IH2. apply in_app_iff in Hus as [?|?]; apply in_app_iff; [by left|right; by right].
    + exists (dels ++ [ts]). split; [by constructor|]. intros us Hus. apply in_app_iff in Hus as [?|[<-|[]]]; [by apply IH4|]. apply IH2. apply in_app_iff. right. by left.
  - split_and!; [done| |].
    + intros us Hus. apply IH2. apply in_app_iff in Hus as [?|?]; apply in_app_iff; [by left|right; by right].
    + exists dels. split; [exact (LX_collect _ _ _ _ _ _ _ _ _ IH3 Hc)|done].
  - split_and!; [done..|]. exists dels. split; [by constructor|done].
Qed.

Definition call_in (b : below) : call := match b with ToRecent c | ToMemory c => c end.
Lemma lr_lx age max h rs pend arr ls busy dn : lr_exec age max h rs pend arr ls busy dn ->
  rs_run age h rs /\ (forall ts, In ts pend -> exists e, In e h /\ ts = re_ev e) /\
  exists dels, lx max dels arr ls (map call_in busy) dn /\ (forall ts, In ts dels -> exists e, In e h /\ ts = re_ev e).
Proof.
  induction 1 as [|h rs pend arr ls dn id a ls' cs _ (IH1 & IH2 & dels & IH3 & IH4) Hc|h rs pend arr ls ts busy dn _ (IH1 & IH2 & dels & IH3 & IH4)|h rs pend arr ls e busy dn rs' _ (IH1 & IH2 & dels & IH3 & IH4) Hs|h rs pend arr ls c busy dn _ (IH1 & IH2 & dels & IH3 & IH4)|h rs p1 ts p2 arr ls busy dn _ (IH1 & IH2 & dels & IH3 & IH4)].
  - split_and!; [constructor|done|]. exists []. split; [constructor|done].
  - split_and!; [done..|]. exists dels. split; [|done]. rewrite map_map map_id. exact (LX_collect _ _ _ _ _ _ _ _ _ IH3 Hc).
  - split_and!; [done..|]. exists dels. split; [by constructor|done].
  - split_and!; [exact (RR_snoc _ _ _ _ _ IH1 Hs)| |].
    + intros ts Hts. apply in_app_iff in Hts as [Hts|Hts].
      * destruct (IH2 ts Hts) as (e' & He & ->). exists e'. split; [|done]. apply in_app_iff. by left.
      * exists e. split; [apply in_app_iff; right; by left|]. destruct (re_ev e); [done|]. destruct Hts as [<-|[]]. done.
    + exists dels. split; [done|]. intros ts Hts. destruct (IH4 ts Hts) as (e' & He & ->). exists e'. split; [|done]. apply in_app_iff. by left.
  - split_and!; [done..|]. exists dels. split; [by constructor|done].
  - split_and!; [done| |].
    + intros us Hus. apply IH2. apply in_app_iff in Hus as [?|?]; apply in_app_iff; [by left|right; by right].
    + exists (dels ++ [ts]). split; [by constructor|]. intros us Hus. apply in_app_iff in Hus as [?|[<-|[]]]; [by apply IH4|]. apply IH2. apply in_app_iff. right. by left.
Qed.

Lemma young_kept age h rs t e : rs_run age h rs -> stays_young age h t -> In e h -> ~ In t (re_ev e).
Proof.
  intros Hr Hyoung He Ht. destruct (in_split _ _ He) as (h1 & h2 & ->). destruct (evicted_old age h1 e h2 rs t Hr Ht) as (x & Hs & Hlt).
  destruct (first_seen_at_event _ _ _ _ Hs) as (e0 & He0 & Ht0 & Hx0). assert (In e0 (h1 ++ e :: h2)) as He0'.
  { apply in_app_iff in He0 as [?|[<-|[]]]; apply in_app_iff; [by left|right; by left]. }
  pose proof (Hyoung e0 e He0' He Ht0). lia.
Qed.
