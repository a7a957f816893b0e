(** Property C141: a trace opened by several requests at once. *)
From Verif Require Import Base MemModel MemSpec MemProofs MemProofs2 MemProofs3 MemProofs4 MemProps UploadModel UploadProofs EndProofs UploadConcModel UploadConcSpec.

(** ** The calls of collectTrace *)
Lemma collect_calls_nodes x : collect_calls x = map (fun n => (tr_id n, tr_anns n)) (nodes x).
Proof.
  induction x as [i a ts IH] using tree_ind'. rewrite nodes_unfold. cbn [collect_calls map tr_id tr_anns]. f_equal.
  induction IH as [|x ts Hx _ IHt]; [done|]. cbn [map concat]. rewrite map_app, Hx. f_equal. exact IHt.
Qed.

(** ** The history *)
Fixpoint made (evs : list uevent) : list call :=
  match evs with
  | [] => []
  | UAsk _ _ _ :: evs => made evs
  | UCollect _ id anns :: evs => CCollect id anns :: made evs
  | UOther c :: evs => c :: made evs
  end.
Fixpoint got (t : N) (evs : list uevent) : list (SpanID * list Annotation) :=
  match evs with
  | [] => []
  | UCollect _ id anns :: evs => (if sp_trace id =? t then [(id, anns)] else []) ++ got t evs
  | _ :: evs => got t evs
  end.
Lemma made_app a b : made (a ++ b) = made a ++ made b.
Proof. induction a as [|[] a IH]; cbn; congruence. Qed.
Lemma got_app t a b : got t (a ++ b) = got t a ++ got t b.
Proof. induction a as [|[] a IH]; cbn; rewrite ?IH, ?(assoc_L (++)); done. Qed.
Lemma misses_app t a b : misses t (a ++ b) = (misses t a + misses t b)%nat.
Proof. induction a as [|[? ? []| |] a IH]; cbn; rewrite ?IH; try done. lia. Qed.
Lemma live_made t evs : (forall c, In (UOther c) evs -> ~ touches c t) -> forall acc, live t (made evs) acc = acc ++ got t evs.
Proof.
  induction evs as [|e evs IH]; intros Ho acc; [by rewrite app_nil_r|].
  assert (forall c, In (UOther c) evs -> ~ touches c t) as Ho' by (intros c Hc; apply Ho; by right).
  destruct e as [i t' f|i id a|[id a|ts]]; cbn [made got live]; [by apply IH| | |].
  - rewrite IH by done. destruct (sp_trace id =? t); [by rewrite <-(assoc_L (++))|done].
  - rewrite IH by done. assert (~ sp_trace id = t) as H by (apply (Ho (CCollect id a)); by left). apply N.eqb_neq in H. by rewrite H.
  - rewrite IH by done. assert (~ In t ts) as H by (apply (Ho (CDelete ts)); by left). rewrite bool_decide_eq_false_2; [done|]. by rewrite elem_of_list_In.
Qed.

(** ** The requests *)
Definition pending (t : N) (rs : list request) : list (SpanID * list Annotation) :=
  concat (map (fun r => filter (fun c => sp_trace (fst c) = t) (rq_calls r)) rs).
Lemma pending_at t rs i r : rs !! i = Some r -> exists rest, Permutation (pending t rs) (filter (fun c => sp_trace (fst c) = t) (rq_calls r) ++ rest) /\
  forall r', Permutation (pending t (<[i := r']> rs)) (filter (fun c => sp_trace (fst c) = t) (rq_calls r') ++ rest).
Proof.
  intros H. exists (pending t (take i rs) ++ pending t (drop (S i) rs)). assert (forall r', Permutation (pending t (take i rs ++ r' :: drop (S i) rs))
    (filter (fun c => sp_trace (fst c) = t) (rq_calls r') ++ pending t (take i rs) ++ pending t (drop (S i) rs))) as Hp.
  { intros r'. unfold pending. rewrite map_app, concat_app. cbn [map concat]. rewrite !(assoc_L (++)). apply Permutation_app_tail, Permutation_app_comm. }
  split.
  - rewrite <-(take_drop_middle rs i r H) at 1. apply Hp.
  - intros r'. rewrite insert_take_drop by (by apply lookup_lt_Some in H). apply Hp.
Qed.
Definition fine (t : N) (tr : tree) (x : tree) : Prop := x = tr \/ forall n, In n (nodes x) -> sp_trace (tr_id n) <> t.
Lemma calls_in t tr : whole t tr -> filter (fun c => sp_trace (fst c) = t) (collect_calls tr) = collect_calls tr.
Proof.
  intros [H _ _ _ _]. rewrite collect_calls_nodes. revert H. generalize (nodes tr). intros l. induction l as [|n l IH]; intros H; [done|]. cbn [map].
  rewrite filter_cons_True by (apply H; by left). f_equal. apply IH. intros m Hm. apply H. by right.
Qed.
Lemma calls_out t x : (forall n, In n (nodes x) -> sp_trace (tr_id n) <> t) -> filter (fun c => sp_trace (fst c) = t) (collect_calls x) = [].
Proof.
  rewrite collect_calls_nodes. generalize (nodes x). intros l. induction l as [|n l IH]; intros H; [done|]. cbn [map].
  rewrite filter_cons_False by (apply H; by left). apply IH. intros m Hm. apply H. by right.
Qed.
Lemma self_node (x : tree) : In x (nodes x).
Proof. destruct x. rewrite nodes_unfold. by left. Qed.

Record inv (calls : list call) (t : N) (tr : tree) (past : list uevent) (s : MS * list request) : Prop := {
  i_run : ms_run (calls ++ made past) ms_init = Some (fst s);
  i_got : Permutation (got t past ++ pending t (snd s)) (concat (repeat (collect_calls tr) (misses t past)));
  i_todo : misses t past = 0%nat -> exists r, In r (snd s) /\ In tr (rq_traces r);
  i_fine : forall r x, In r (snd s) -> In x (rq_traces r) -> fine t tr x;
  i_early : forall a i b, past = a ++ UAsk i t false :: b -> got t a = []
}.
Lemma insert_in {A} (l : list A) i x y : In y (<[i := x]> l) -> y = x \/ In y l.
Proof. intros H. apply elem_of_list_In, elem_of_list_lookup in H as [j Hj]. apply list_lookup_insert_Some in Hj as [(_ & -> & _)|[_ Hj]]; [by left|]. right. by apply elem_of_list_In, (elem_of_list_lookup_2 _ j). Qed.
Lemma insert_keep {A} (l : list A) i x y z : l !! i = Some x -> In y l -> y = x \/ In y (<[i := z]> l).
Proof.
  intros Hx Hy. apply elem_of_list_In, elem_of_list_lookup in Hy as [j Hj]. destruct (decide (i = j)) as [->|Hne]; [left; congruence|].
  right. apply elem_of_list_In, (elem_of_list_lookup_2 _ j). by rewrite list_lookup_insert_ne.
Qed.
Lemma lookup_in {A} (l : list A) i x : l !! i = Some x -> In x l.
Proof. intros H. by apply elem_of_list_In, (elem_of_list_lookup_2 _ i). Qed.
Lemma early_snoc t past e : (forall a i b, past = a ++ UAsk i t false :: b -> got t a = []) -> (forall i, e = UAsk i t false -> got t past = []) ->
  forall a i b, past ++ [e] = a ++ UAsk i t false :: b -> got t a = [].
Proof.
  intros H He a i b E. destruct b as [|b0 b _] using rev_ind.
  - apply app_inj_tail in E as [-> ->]. by apply (He i).
  - rewrite app_comm_cons, app_assoc in E. apply app_inj_tail in E as [-> _]. by apply (H a i b).
Qed.
Lemma inv_step calls t tr past e s s' : whole t tr -> live t calls [] = [] -> (forall c, In (UOther c) (past ++ [e]) -> ~ touches c t) ->
  ustep e s s' -> inv calls t tr past s -> inv calls t tr (past ++ [e]) s'.
Proof.
  intros Hw Hc Ho Hs [I1 I2 I3 I4 I5].
  assert (live t (calls ++ made past) [] = got t past) as Hl.
  { rewrite live_app_calls, Hc, live_made; [done|]. intros c Hin. apply Ho, in_or_app. by left. }
  destruct Hs as [i st rs x xs l Hi Hf|i st rs x xs Hi Hf|i st rs xs id anns cs st' Hi Hcol|c st rs st' Hst]; cbn [fst snd] in *.
  - (* found *)
    assert (misses t past <> 0%nat \/ x <> tr) as Hx.
    { destruct (decide (misses t past = 0%nat)) as [Hm|]; [|by left]. right. intros ->. assert (sp_trace (tr_id tr) = t) as Ht by apply Hw, self_node.
      rewrite Ht in Hf. rewrite Hm in I2. cbn in I2. apply Permutation_sym, Permutation_nil in I2. apply app_eq_nil in I2 as [Hg _].
      assert (ms_trace_of st t = None) by (apply (found_iff _ _ _ I1); congruence). congruence. }
    constructor; cbn [fst snd].
    + rewrite made_app. cbn [made]. by rewrite app_nil_r.
    + rewrite got_app, misses_app. cbn [got misses]. rewrite app_nil_r, Nat.add_0_r. rewrite <-I2. apply Permutation_app_head.
      destruct (pending_at t rs i _ Hi) as (rest & E1 & E2). rewrite E1, E2. done.
    + rewrite misses_app. cbn [misses]. intros Hm. destruct Hx as [Hx|Hx]; [lia|]. destruct (I3 ltac:(lia)) as (r & Hr & Htr).
      destruct (insert_keep rs i _ r (MkReq xs []) Hi Hr) as [->|Hk].
      * cbn [rq_traces] in Htr. destruct Htr as [->|Htr]; [done|]. exists (MkReq xs []). split; [|done]. apply (lookup_in _ i). apply list_lookup_insert. by apply lookup_lt_Some in Hi.
      * by exists r.
    + intros r y Hr Hy. apply insert_in in Hr as [->|Hr]; [|by apply (I4 r)]. apply (I4 (MkReq (x :: xs) [])); [by apply (lookup_in _ i)|by right].
    + apply early_snoc; [done|]. intros j [= ].
  - (* missing *)
    assert (fine t tr x) as Hx by (apply (I4 (MkReq (x :: xs) [])); [by apply (lookup_in _ i)|by left]).
    assert (sp_trace (tr_id tr) = t) as Htt by apply Hw, self_node.
    constructor; cbn [fst snd].
    + rewrite made_app. cbn [made]. by rewrite app_nil_r.
    + rewrite got_app, misses_app. cbn [got misses]. rewrite app_nil_r, Nat.add_0_r.
      destruct (pending_at t rs i _ Hi) as (rest & E1 & E2). rewrite E2. rewrite E1 in I2. cbn [rq_calls filter list_filter app] in *.
      destruct Hx as [->|Hx].
      * rewrite Htt, N.eqb_refl, Nat.add_comm, (calls_in t tr Hw). cbn [Nat.add repeat concat]. rewrite <-I2. rewrite !(assoc_L (++)). apply Permutation_app_tail, Permutation_app_comm.
      * rewrite (calls_out t x Hx). assert (sp_trace (tr_id x) <> t) as Hn by (apply Hx, self_node). apply N.eqb_neq in Hn. rewrite Hn, Nat.add_0_r. done.
    + rewrite misses_app. cbn [misses]. intros Hm. destruct (I3 ltac:(lia)) as (r & Hr & Htr). destruct (insert_keep rs i _ r (MkReq xs (collect_calls x)) Hi Hr) as [->|Hk].
      * cbn [rq_traces] in Htr. destruct Htr as [->|Htr]; [rewrite Htt, N.eqb_refl in Hm; lia|]. exists (MkReq xs (collect_calls x)). split; [|done]. apply (lookup_in _ i).
        apply list_lookup_insert. by apply lookup_lt_Some in Hi.
      * by exists r.
    + intros r y Hr Hy. apply insert_in in Hr as [->|Hr]; [|by apply (I4 r)]. apply (I4 (MkReq (x :: xs) [])); [by apply (lookup_in _ i)|by right].
    + apply early_snoc; [done|]. intros j [= _ Ht]. rewrite <-Hl. apply (found_iff _ _ _ I1). by rewrite <-Ht.
  - (* collect *)
    constructor; cbn [fst snd].
    + rewrite made_app, (assoc_L (++)), ms_run_app, I1. cbn [made mbind option_bind ms_run ms_step]. by rewrite Hcol.
    + rewrite got_app, misses_app. cbn [got misses]. rewrite app_nil_r, Nat.add_0_r. rewrite <-I2, <-(assoc_L (++)). apply Permutation_app_head.
      destruct (pending_at t rs i _ Hi) as (rest & E1 & E2). rewrite E1, E2. cbn [rq_calls]. destruct (N.eqb_spec (sp_trace id) t) as [Ht|Ht].
      * rewrite filter_cons_True by done. done.
      * rewrite filter_cons_False by done. done.
    + rewrite misses_app. cbn [misses]. intros Hm. destruct (I3 ltac:(lia)) as (r & Hr & Htr). destruct (insert_keep rs i _ r (MkReq xs cs) Hi Hr) as [->|Hk].
      * exists (MkReq xs cs). split; [|done]. apply (lookup_in _ i). apply list_lookup_insert. by apply lookup_lt_Some in Hi.
      * by exists r.
    + intros r y Hr Hy. apply insert_in in Hr as [->|Hr]; [|by apply (I4 r)]. apply (I4 (MkReq xs ((id, anns) :: cs))); [by apply (lookup_in _ i)|done].
    + apply early_snoc; [done|]. intros j [= ].
  - (* other *)
    constructor; cbn [fst snd].
    + rewrite made_app, (assoc_L (++)), ms_run_app, I1. cbn [made mbind option_bind ms_run]. by rewrite Hst.
    + rewrite got_app, misses_app. cbn [got misses]. by rewrite app_nil_r, Nat.add_0_r.
    + rewrite misses_app. cbn [misses]. rewrite Nat.add_0_r. done.
    + done.
    + apply early_snoc; [done|]. intros j [= ].
Qed.
Lemma inv_steps calls t tr evs s s' : whole t tr -> live t calls [] = [] -> usteps evs s s' ->
  forall past, (forall c, In (UOther c) (past ++ evs) -> ~ touches c t) -> inv calls t tr past s -> inv calls t tr (past ++ evs) s'.
Proof.
  intros Hw Hc H. induction H as [s|e es s s1 s2 H1 _ IH]; intros past Ho HI; [by rewrite app_nil_r|].
  rewrite (app_assoc past [e] es : past ++ e :: es = _). apply IH; [by rewrite <-app_assoc|]. apply (inv_step _ _ _ _ _ s); [done|done| |done|done].
  intros c Hin. apply Ho. apply in_app_or in Hin as [Hin|[->|[]]]; apply in_or_app; [by left|right; by left].
Qed.

(** ** What is shown *)
Lemma nodes_length x n : In n (nodes x) -> (length (nodes n) <= length (nodes x))%nat.
Proof.
  revert n. induction x as [i a ts IH] using tree_ind'. intros n. rewrite nodes_unfold. intros [<-|Hn]; [by rewrite nodes_unfold|].
  cbn [length]. induction IH as [|y ts Hy _ IHt]; [done|]. cbn [map concat] in *. rewrite app_length. apply in_app_or in Hn as [Hn|Hn].
  - apply Hy in Hn. lia.
  - specialize (IHt Hn). lia.
Qed.
Lemma edge_length x p c : edge x p c -> (length (nodes c) < length (nodes p))%nat.
Proof.
  intros [_ Hc]. destruct p as [i a ts]. cbn [tr_subs] in Hc. rewrite nodes_unfold. cbn [length]. enough (length (nodes c) <= length (concat (map nodes ts)))%nat by lia.
  induction ts as [|y ts IH]; [done|]. cbn [map concat]. rewrite app_length. destruct Hc as [->|Hc]; [lia|]. specialize (IH Hc). lia.
Qed.
Lemma span_node t tr n m : whole t tr -> In n (nodes tr) -> In m (nodes tr) -> sp_span (tr_id n) = sp_span (tr_id m) -> n = m.
Proof.
  intros [_ Hnd _ _ _] Hn Hm E. revert Hnd Hn Hm. generalize (nodes tr). intros l. induction l as [|x l IH]; intros Hnd; [done|]. cbn [map] in Hnd.
  apply NoDup_cons_iff in Hnd as [Hx Hnd]. intros [->|Hn] [->|Hm]; [done| | |by apply IH].
  - destruct Hx. rewrite E. apply in_map_iff. by exists m.
  - destruct Hx. rewrite <-E. apply in_map_iff. by exists n.
Qed.
Lemma parent_edge t tr p c : whole t tr -> In p (nodes tr) -> In c (nodes tr) -> sp_parent (tr_id c) = sp_span (tr_id p) -> edge tr p c.
Proof.
  intros Hw Hp Hc E. destruct (node_has_holder tr c Hc) as [->|[q Hq]].
  - exfalso. apply (w_zero _ _ Hw p Hp). rewrite <-E. apply (w_root _ _ Hw).
  - assert (q = p) as <-; [|done]. apply (span_node t tr); [done|by apply edge_nodes in Hq as [? _]|done|]. by rewrite <-E, (w_edge _ _ Hw _ _ Hq).
Qed.
Lemma whole_complete t tr ids : whole t tr -> (forall i, In i ids <-> In i (map tr_id (nodes tr))) -> complete ids (tr_id tr).
Proof.
  intros Hw Hi. assert (forall i, In i ids -> exists n, In n (nodes tr) /\ tr_id n = i) as Hn.
  { intros i H. apply Hi, in_map_iff in H as (n & <- & Hn). by exists n. }
  assert (forall n, In n (nodes tr) -> In (tr_id n) ids) as Hn' by (intros n H; apply Hi, in_map_iff; by exists n).
  constructor.
  - split; [apply Hn', self_node|apply (w_root _ _ Hw)].
  - intros s (n & Hin & <-)%Hn E. destruct (node_has_holder tr n Hin) as [->|[q Hq]]; [done|]. rewrite (w_edge _ _ Hw _ _ Hq) in E.
    exfalso. apply (w_zero _ _ Hw q); [by apply edge_nodes in Hq as [? _]|done].
  - intros s (n & Hin & <-)%Hn. by apply (w_zero _ _ Hw).
  - intros s (n & Hin & <-)%Hn Hne. destruct (node_has_holder tr n Hin) as [->|[q Hq]]; [done|]. exists (tr_id q). split; [apply Hn'; by apply edge_nodes in Hq as [? _]|].
    by apply (w_edge _ _ Hw).
  - exists (fun s => match find (fun n => (sp_span (tr_id n) =? s)%N) (nodes tr) with Some n => length (nodes tr) - length (nodes n) | None => 0 end)%nat.
    intros c p (nc & Hc & <-)%Hn (np & Hp & <-)%Hn E. pose proof (parent_edge _ _ _ _ Hw Hp Hc E) as He.
    assert (forall n, In n (nodes tr) -> find (fun m => sp_span (tr_id m) =? sp_span (tr_id n)) (nodes tr) = Some n) as Hf.
    { intros n H. destruct (find _ _) as [m|] eqn:Ef.
      - apply find_some in Ef as [Hm Hs]. apply N.eqb_eq in Hs. f_equal. by apply (span_node t tr).
      - apply (find_none _ _ Ef) in H. by rewrite N.eqb_refl in H. }
    rewrite !Hf by done. apply edge_length in He. pose proof (nodes_length _ _ Hp). lia.
Qed.
Lemma filter_copies (s : N) (l : list (SpanID * list Annotation)) k : filter (fun c => sp_span (fst c) = s) (concat (repeat l k)) = concat (repeat (filter (fun c => sp_span (fst c) = s) l) k).
Proof. induction k as [|k IH]; [done|]. cbn [repeat concat]. rewrite filter_app. by rewrite IH. Qed.
Lemma filter_node t tr n : whole t tr -> In n (nodes tr) -> filter (fun c => sp_span (fst c) = sp_span (tr_id n)) (collect_calls tr) = [(tr_id n, tr_anns n)].
Proof.
  intros Hw Hn. rewrite collect_calls_nodes. pose proof (w_once _ _ Hw) as Hnd. revert Hnd Hn. generalize (nodes tr). intros l.
  induction l as [|x l IH]; intros Hnd; [done|]. cbn [map] in *. apply NoDup_cons_iff in Hnd as [Hx Hnd]. intros [->|Hn].
  - rewrite filter_cons_True by done. f_equal. clear IH Hnd. induction l as [|y l IH]; [done|]. cbn [map] in *. rewrite filter_cons_False; [apply IH|].
    + intros H. apply Hx. by right.
    + cbn [fst]. intros E. apply Hx. by left.
  - rewrite filter_cons_False; [by apply IH|]. cbn [fst]. intros E. apply Hx. rewrite E. apply in_map_iff. by exists n.
Qed.
Lemma perm_repeat {A} (l : list A) x k : Permutation l (repeat x k) -> l = repeat x k.
Proof.
  intros H. pose proof (Permutation_length H) as Hl. rewrite repeat_length in Hl. rewrite <-Hl. clear Hl.
  assert (forall y, In y l -> y = x) as Hy by (intros y Hin; apply (repeat_spec k x y); by apply (Permutation_in _ H)).
  clear H. induction l as [|y l IH]; [done|]. cbn [length repeat]. rewrite (Hy y) by (by left). f_equal. apply IH. intros z Hz. apply Hy. by right.
Qed.
Lemma concat_singles {A} (x : A) k : concat (repeat [x] k) = repeat x k.
Proof. induction k as [|k IH]; [done|]. cbn. by rewrite IH. Qed.
Lemma anns_copies t tr L k n : whole t tr -> Permutation L (concat (repeat (collect_calls tr) k)) -> In n (nodes tr) ->
  anns_of (sp_span (tr_id n)) L = concat (repeat (tr_anns n) k).
Proof.
  intros Hw HL Hn. unfold anns_of. replace (filter (fun c => sp_span (fst c) = sp_span (tr_id n)) L) with (repeat (tr_id n, tr_anns n) k).
  - f_equal. clear. induction k as [|k IH]; [done|]. cbn [repeat map snd]. by rewrite IH.
  - symmetry. apply perm_repeat. rewrite HL, filter_copies, (filter_node t tr n Hw Hn), concat_singles. done.
Qed.
Lemma spans_copies t tr L k : whole t tr -> Permutation L (concat (repeat (collect_calls tr) k)) -> k <> 0%nat -> forall i, In i (spans_of L) <-> In i (map tr_id (nodes tr)).
Proof.
  intros Hw HL Hk i. assert (forall j, In j (map fst L) <-> In j (map tr_id (nodes tr))) as Hj.
  { intros j. rewrite !in_map_iff. split.
    - intros (c & <- & Hc). apply (Permutation_in _ HL), in_concat in Hc as (l & Hl & Hc). apply repeat_spec in Hl as ->. rewrite collect_calls_nodes in Hc.
      apply in_map_iff in Hc as (n & <- & Hn). by exists n.
    - intros (n & <- & Hn). exists (tr_id n, tr_anns n). split; [done|]. apply (Permutation_in _ (Permutation_sym HL)). destruct k as [|k]; [done|]. cbn [repeat concat].
      apply in_or_app. left. rewrite collect_calls_nodes. apply in_map_iff. by exists n. }
  unfold spans_of. split.
  - intros [H _]%first_ids_elem. by apply Hj.
  - intros H. apply first_ids_all; [by apply Hj|set_solver|]. intros j Hjn E. apply Hj, in_map_iff in Hjn as (m & <- & Hm). apply in_map_iff in H as (n & <- & Hn).
    f_equal. by apply (span_node t tr).
Qed.

(** C141 (proved part): whatever the order in which the requests and the rest of the program act, the trace is shown with its spans, each under its parent, and each
    annotation is there as many times as requests looked for the trace before the first of its spans arrived: at least once. *)
Theorem C141_partial : forall calls st0 t tr uploads evs st rs,
  ms_run calls ms_init = Some st0 -> ms_trace_of st0 t = None -> whole t tr ->
  (exists xs, In xs uploads /\ In tr xs) ->
  (forall xs x, In xs uploads -> In x xs -> x = tr \/ forall n, In n (nodes x) -> sp_trace (tr_id n) <> t) ->
  (forall c, In (UOther c) evs -> ~ touches c t) ->
  usteps evs (st0, begun uploads) (st, rs) -> ended rs ->
  (1 <= misses t evs)%nat /\
  (forall before i after, evs = before ++ UAsk i t false :: after -> forall j id anns, In (UCollect j id anns) before -> sp_trace id <> t) /\
  exists tr', shows st t tr' /\ copies (misses t evs) tr tr'.
Proof.
  intros calls st0 t tr uploads evs st rs Hrun Hnone Hw (xs & Hxs & Htr) Hfine Ho Hev Hend.
  assert (live t calls [] = []) as Hl by (by apply (found_iff _ _ _ Hrun)).
  assert (inv calls t tr [] (st0, begun uploads)) as H0.
  { constructor; cbn [made got misses fst snd].
    - by rewrite app_nil_r.
    - cbn [repeat concat app]. unfold pending, begun. rewrite map_map. clear. induction uploads as [|x l IH]; [done|]. done.
    - intros _. exists (MkReq xs []). split; [|done]. apply in_map_iff. by exists xs.
    - intros r x Hr Hx. apply in_map_iff in Hr as (ys & <- & Hys). by apply (Hfine ys).
    - intros a i b E. by destruct a. }
  pose proof (inv_steps calls t tr evs _ _ Hw Hl Hev [] Ho H0) as [I1 I2 I3 I4 I5]. cbn [app fst snd] in *.
  assert (pending t rs = []) as Hp.
  { clear -Hend. unfold pending. induction Hend as [|r rs -> _ IH]; [done|]. done. }
  rewrite Hp, app_nil_r in I2.
  assert (misses t evs <> 0%nat) as Hm.
  { intros E. destruct (I3 E) as (r & Hr & Hx). unfold ended in Hend. rewrite Forall_forall in Hend. apply elem_of_list_In in Hr. apply Hend in Hr as ->. done. }
  split; [lia|]. split.
  { intros before i after E j id anns Hin Ht. specialize (I5 _ _ _ E). clear -Hin Ht I5. induction before as [|e before IH]; [done|]. destruct Hin as [->|Hin].
    - cbn [got] in I5. by rewrite Ht, N.eqb_refl in I5.
    - destruct e; cbn [got] in I5; [auto| |auto]. apply app_eq_nil in I5 as [_ ?]. auto. }
  assert (live t (calls ++ made evs) [] = got t evs) as HL by (rewrite live_app_calls, Hl; by apply live_made).
  pose proof (spans_copies t tr (got t evs) _ Hw I2 Hm) as Hsp.
  destruct (order_independent (calls ++ made evs) st t (tr_id tr) I1) as (tr' & Hs & Hr & Hids & Hann & Hedge).
  { rewrite HL. by apply (whole_complete t). }
  rewrite HL in *. exists tr'. split; [done|].
  assert (forall n', In n' (nodes tr') -> exists n, In n (nodes tr) /\ tr_id n = tr_id n') as Hback.
  { intros n' Hn'. assert (In (tr_id n') (map tr_id (nodes tr))) as H by (apply Hsp, (Permutation_in _ Hids), in_map_iff; by exists n').
    apply in_map_iff in H as (n & E & Hn). by exists n. }
  assert (forall n, In n (nodes tr) -> exists n', In n' (nodes tr') /\ tr_id n' = tr_id n) as Hforth.
  { intros n Hn. assert (In (tr_id n) (map tr_id (nodes tr'))) as H by (apply (Permutation_in _ (Permutation_sym Hids)), Hsp, in_map_iff; by exists n).
    apply in_map_iff in H as (n' & E & Hn'). by exists n'. }
  constructor.
  - done.
  - rewrite Hids. apply NoDup_Permutation.
    + apply first_ids_nodup.
    + apply (NoDup_fmap_1 sp_span). apply NoDup_ListNoDup. rewrite <-list_fmap_compose. exact (w_once _ _ Hw).
    + intros i. rewrite !elem_of_list_In. apply Hsp.
  - intros p c. split.
    + intros (p' & c' & He & <- & <-). pose proof (edge_nodes _ _ _ He) as [Hp' Hc']. destruct (Hback _ Hp') as (q & Hq & Eq). destruct (Hback _ Hc') as (d & Hd & Ed).
      exists q, d. split; [|done]. apply (parent_edge t); [done..|]. rewrite Eq, Ed. by apply (Hedge p' c').
    + intros (p' & c' & He & <- & <-). pose proof (edge_nodes _ _ _ He) as [Hp' Hc']. destruct (Hforth _ Hp') as (q & Hq & Eq). destruct (Hforth _ Hc') as (d & Hd & Ed).
      exists q, d. split; [|done]. apply (Hedge q d); [done..|]. rewrite Eq, Ed. by apply (w_edge _ _ Hw).
  - intros n n' Hn Hn' E. rewrite (Hann n' Hn'), <-E. by apply (anns_copies t tr).
Qed.
Print Assumptions C141_partial.

(** ** All requests at the same time *)
Lemma usteps_app a b s1 s2 s3 : usteps a s1 s2 -> usteps b s2 s3 -> usteps (a ++ b) s1 s3.
Proof. intros H. revert s3. induction H as [|e es s s' s'' H1 _ IH]; intros s3 H3; [done|]. cbn [app]. econstructor; [done|]. by apply IH. Qed.
Definition asks (t : N) (i n : nat) : list uevent := map (fun k => UAsk k t false) (seq i n).
Lemma misses_asks t i n : misses t (asks t i n) = n.
Proof. revert i. induction n as [|n IH]; intros i; [done|]. unfold asks in *. cbn [seq map misses]. by rewrite N.eqb_refl, IH. Qed.
Lemma all_ask st tr n : ms_trace_of st (sp_trace (tr_id tr)) = None -> forall pre, usteps (asks (sp_trace (tr_id tr)) (length pre) n)
  (st, pre ++ repeat (MkReq [tr] []) n) (st, pre ++ repeat (MkReq [] (collect_calls tr)) n).
Proof.
  intros Hn. induction n as [|n IH]; intros pre; [constructor|]. unfold asks. cbn [seq map repeat]. econstructor.
  - apply (U_missing _ _ _ tr []); [|done]. rewrite lookup_app_r by lia. by rewrite Nat.sub_diag.
  - rewrite insert_app_r_alt by lia. rewrite Nat.sub_diag. cbn [insert list_insert].
    specialize (IH (pre ++ [MkReq [] (collect_calls tr)])). rewrite app_length in IH. cbn [length] in IH. rewrite Nat.add_1_r in IH.
    rewrite <-!(assoc_L (++)) in IH. exact IH.
Qed.
Definition quiet (e : uevent) : Prop := match e with UCollect _ _ _ => True | _ => False end.
Lemma quiet_misses t evs : Forall quiet evs -> misses t evs = 0%nat.
Proof. induction 1 as [|[] evs H _ IH]; [done|done|done|done]. Qed.
Lemma one_ends cs : forall st rs i, ms_ok st -> rs !! i = Some (MkReq [] cs) -> exists evs st', Forall quiet evs /\ ms_ok st' /\ usteps evs (st, rs) (st', <[i := MkReq [] []]> rs).
Proof.
  induction cs as [|[id anns] cs IH]; intros st rs i Hok Hi.
  - exists [], st. rewrite list_insert_id by done. split; [done|]. split; [done|constructor].
  - destruct (collect_ok st id anns Hok) as (st1 & Hc & Hok1 & _).
    destruct (IH st1 (<[i := MkReq [] cs]> rs) i Hok1) as (evs & st' & Hq & Hok' & Hs); [apply list_lookup_insert; by apply lookup_lt_Some in Hi|].
    exists (UCollect i id anns :: evs), st'. split; [by constructor|]. split; [done|]. econstructor; [by apply (U_collect i st rs [] id anns cs st1)|]. by rewrite list_insert_insert in Hs.
Qed.
Lemma all_end cs n : forall st pre, ms_ok st -> exists evs st', Forall quiet evs /\ usteps evs (st, pre ++ repeat (MkReq [] cs) n) (st', pre ++ repeat (MkReq [] []) n).
Proof.
  induction n as [|n IH]; intros st pre Hok; [exists [], st; split; [done|constructor]|]. cbn [repeat].
  destruct (one_ends cs st (pre ++ MkReq [] cs :: repeat (MkReq [] cs) n) (length pre) Hok) as (evs & st1 & Hq & Hok1 & Hs); [rewrite lookup_app_r by lia; by rewrite Nat.sub_diag|].
  rewrite insert_app_r_alt in Hs by lia. rewrite Nat.sub_diag in Hs. cbn [insert list_insert] in Hs.
  destruct (IH st1 (pre ++ [MkReq [] []]) Hok1) as (evs2 & st2 & Hq2 & Hs2). exists (evs ++ evs2), st2. split; [by apply Forall_app|].
  rewrite <-!(assoc_L (++)) in Hs2. by apply (usteps_app _ _ _ _ _ Hs).
Qed.
(** C141 is false: any number of requests that open one trace can all miss it; its annotations are then there that many times. *)
Theorem C141_refuted : forall calls st0 t tr n, ms_run calls ms_init = Some st0 -> ms_trace_of st0 t = None -> whole t tr -> (1 <= n)%nat ->
  exists evs st rs tr', usteps evs (st0, begun (repeat [tr] n)) (st, rs) /\ ended rs /\ shows st t tr' /\ copies n tr tr' /\
    ((2 <= n)%nat -> (exists m, In m (nodes tr) /\ tr_anns m <> []) -> ~ shows st t tr).
Proof.
  intros calls st0 t tr n Hrun Hnone Hw Hn. assert (sp_trace (tr_id tr) = t) as Ht by apply Hw, self_node.
  destruct (run_state _ _ Hrun) as [Hok _]. destruct (all_end (collect_calls tr) n st0 [] Hok) as (evs & st & Hq & Hs). cbn [app] in Hs.
  pose proof (all_ask st0 tr n) as Ha. rewrite Ht in Ha. specialize (Ha Hnone []). cbn [app length] in Ha. pose proof (usteps_app _ _ _ _ _ Ha Hs) as Hall.
  assert (begun (repeat [tr] n) = repeat (MkReq [tr] []) n) as Hb by (clear; unfold begun; induction n as [|n IH]; [done|]; cbn; by rewrite IH).
  assert (ended (repeat (MkReq [] []) n)) as He by (clear; induction n as [|n IH]; [constructor|]; cbn; by constructor).
  assert (misses t (asks t 0 n ++ evs) = n) as Hm by (by rewrite misses_app, misses_asks, quiet_misses, Nat.add_0_r).
  destruct (C141_partial calls st0 t tr (repeat [tr] n) (asks t 0 n ++ evs) st (repeat (MkReq [] []) n)) as (_ & _ & tr' & Hsh & Hcp); try done.
  - exists [tr]. split; [|by left]. destruct n as [|n]; [lia|]. by left.
  - intros xs x Hxs. apply repeat_spec in Hxs as ->. intros [<-|[]]. by left.
  - intros c [Hin|Hin]%in_app_or; exfalso.
    + apply in_map_iff in Hin as (k & E & _). done.
    + rewrite Forall_forall in Hq. apply elem_of_list_In, Hq in Hin. done.
  - by rewrite Hb.
  - rewrite Hm in Hcp. exists (asks t 0 n ++ evs), st, (repeat (MkReq [] []) n), tr'. rewrite Hb. repeat (split; [done|]).
    intros H2 (m & Hin & Hne) Hsh'. rewrite (shows_det _ _ _ _ Hsh Hsh') in Hcp. pose proof (k_anns _ _ _ Hcp m m Hin Hin eq_refl) as E.
    apply (f_equal length) in E. destruct n as [|[|n]]; [lia|lia|]. cbn [repeat concat] in E. rewrite !app_length in E.
    destruct (tr_anns m); [done|]. cbn [length] in E. lia.
Qed.
Print Assumptions C141_refuted.
Definition twice_tree : tree := Tree (MkSpanID 1 1 0) [Ann "Name" (Some "a"%string)] [Tree (MkSpanID 1 2 1) [] [Tree (MkSpanID 1 4 2) [Ann "k" None] []]; Tree (MkSpanID 1 3 1) [] []].
Example C141_nonvacuous : whole 1 twice_tree /\ ms_run [CCollect (MkSpanID 2 1 0) []] ms_init = Some (final [CCollect (MkSpanID 2 1 0) []]) /\
  ms_trace_of (final [CCollect (MkSpanID 2 1 0) []]) 1 = None /\ exists m, In m (nodes twice_tree) /\ tr_anns m <> [].
Proof.
  split.
  - constructor.
    + intros n; cbn; intuition subst; done.
    + cbn. repeat constructor; cbn; intuition discriminate.
    + intros n; cbn; intuition subst; done.
    + done.
    + intros p c [Hp Hc]. cbn in Hp. intuition subst; cbn in Hc; intuition subst; done.
  - split; [apply final_run|]. split; [vm_compute; reflexivity|]. exists twice_tree. split; [apply self_node|discriminate].
Qed.
