(** Property C134 (the buttons of the timeline). *)
From Verif Require Import Base IdModel IdSpec IdProofs TimeModel ReflModel EventModel TraceModel MemSpec ProfModel FloatModel VisModel VisSpec VisProps MenuModel MenuSpec MenuProofs MenuProps SortModel SortSpec SortProofs.
From Coq Require Import ssreflect.
Local Open Scope general_if_scope.
Local Open Scope Z_scope.

Lemma picked {A} (l l' : list A) p : Permutation p (seq 0 (length l)) -> Forall2 (fun i o => l !! i = Some o) p l' -> Permutation l' l.
Proof.
  intros Hp H. assert (l' = omap (fun i => l !! i) p) as ->.
  { clear Hp. induction H as [|i o p l' E H IH]; [done|]. cbn. by rewrite E -IH. }
  rewrite Hp. assert (forall pre s, l = pre ++ s -> omap (fun i => l !! i) (seq (length pre) (length s)) = s) as Hs.
  { intros pre s. revert pre. induction s as [|x s IH]; intros pre E; [done|]. cbn. rewrite E lookup_app_r // Nat.sub_diag /=. f_equal.
    rewrite -E. specialize (IH (pre ++ [x])). rewrite app_length Nat.add_1_r in IH. apply IH. by rewrite -app_assoc. }
  by rewrite (Hs [] l).
Qed.

Section session.
  Variable (low : string -> list N) (fuse : string -> gmap string string -> bool) (reg : registry) (us : urls) (fmt : Z -> string).
  Variable (t : tree) (items : list item).
  Hypothesis Ht : proper t.
  Hypothesis Hi : d3timeline reg us fmt t = ROk items.
  Hypothesis Hfit : bars_fit items.
  Definition kept (ds : list deed) (p : page) : Prop :=
    exists rows, Permutation rows (zip (shown reg 0 t) items) /\
      Forall2 (fun r o => exists v, o = with_visible v (snd r) /\ seen fuse t (rev ds) (fst r) (snd r) v) rows (pg_data p).
  Definition remembered (ds : list deed) (p : page) : Prop :=
    match clicks (rev ds) with None => pg_name p = None | Some (k, n) => pg_name p = Some k /\ pg_desc p = Nat.even n /\ (1 <= n)%nat end.
  Definition ordered (low : string -> list N) (k : key) (desc : bool) (l : list item) : Prop :=
    forall i j a b, (i < j)%nat -> l !! i = Some a -> l !! j = Some b -> ord low k desc a b.
  Lemma kept_good ds p : kept ds p -> Forall good (pg_data p).
  Proof.
    intros (rows & Hrows & Hf). pose proof (items_good reg us fmt t items Hi Hfit) as Hg. apply List.Forall_forall. intros o Ho.
    apply elem_of_list_In, elem_of_list_lookup in Ho as [i Ei]. destruct (Forall2_lookup_r _ _ _ _ _ Hf Ei) as (r & Er & v & -> & _).
    apply elem_of_list_lookup_2, elem_of_list_In in Er. rewrite Hrows in Er. destruct r as [x o']. apply in_rows in Er as (j & _ & Eo).
    rewrite List.Forall_forall in Hg. apply (Hg o'). by apply elem_of_list_lookup_2, elem_of_list_In in Eo.
  Qed.
  Lemma sorted_kept ds p k data' name desc : kept ds p -> js_sort (compare_items low k desc) (pg_data p) data' ->
    kept (ds ++ [Click k]) (MkPage data' name desc) /\ ordered low k desc data'.
  Proof.
    intros Hk (ix & Hix & Hf' & Hord). pose proof (kept_good ds p Hk) as Hg. destruct Hk as (rows & Hrows & Hf). pose proof (Forall2_length _ _ _ Hf) as Hl. split.
    - destruct (map_lookup rows ix) as [rows' Hr'].
      { rewrite Hix. apply List.Forall_forall. intros i Hi'. apply in_seq in Hi'. lia. }
      exists rows'. split; [rewrite -Hrows; apply (picked rows rows' ix); [by rewrite Hl|done]|]. cbn [pg_data]. rewrite rev_unit. cbn [seen].
      pose proof (Forall2_length _ _ _ Hr') as L1. pose proof (Forall2_length _ _ _ Hf') as L2.
      apply Forall2_same_length_lookup. split; [lia|]. intros i r o Er Eo.
      destruct (Forall2_lookup_r _ _ _ _ _ Hr' Er) as (m & Em & Erm). destruct (Forall2_lookup_r _ _ _ _ _ Hf' Eo) as (m' & Em' & Eom).
      rewrite Em in Em'. injection Em' as <-. exact (Forall2_lookup_lr _ _ _ _ _ _ Hf Erm Eom).
    - intros i j a b Hij Ea Eb. destruct (Forall2_lookup_r _ _ _ _ _ Hf' Ea) as (m & Em & Ema). destruct (Forall2_lookup_r _ _ _ _ _ Hf' Eb) as (n & En & Enb).
      rewrite List.Forall_forall in Hg. assert (good a) as Ha by (apply Hg; by apply elem_of_list_lookup_2, elem_of_list_In in Ema). assert (good b) as Hb by (apply Hg; by apply elem_of_list_lookup_2, elem_of_list_In in Enb).
      pose proof (Hord (compare_consistent low k desc _ (proj2 (List.Forall_forall _ _) Hg)) i j a b m n Hij Em En Ema Enb) as Hc.
      destruct (compare_spec low k desc a b Ha Hb) as [(H1 & H2 & H3)|[(H1 & H2 & H3)|(H1 & H2 & H3)]]; [done..|lia].
  Qed.
  Lemma ord_visible k desc v w a b : ord low k desc (with_visible v a) (with_visible w b) <-> ord low k desc a b.
  Proof. by destruct desc, k. Qed.
  Lemma menu_kept ds p a q : kept ds p -> In q (nodes t) -> exists data',
    (exists n, forall fuel, (n <= fuel)%nat -> menu fuel fuse a (id_string (sp_span (tr_id q))) (pg_data p) = Some data') /\
    kept (ds ++ [Menu a (id_string (sp_span (tr_id q)))]) (MkPage data' (pg_name p) (pg_desc p)) /\
    (forall k desc, ordered low k desc (pg_data p) -> ordered low k desc data').
  Proof.
    intros (rows & Hrows & Hf) Hq. assert (Forall2 (fun r o => same (snd r) o) rows (pg_data p)) as Hsame.
    { eapply Forall2_impl; [exact Hf|]. intros r o (v & -> & _). by exists v. }
    destruct (menu_rows reg us fmt t items fuse a q rows (pg_data p) Ht Hi Hq Hrows Hsame) as (data' & Hn & Hl & Hd). exists data'. split; [done|].
    pose proof (Forall2_length _ _ _ Hf) as L1.
    assert (forall i r x', rows !! i = Some r -> data' !! i = Some x' -> exists x v, pg_data p !! i = Some x /\ x = with_visible v (snd r) /\ seen fuse t (rev ds) (fst r) (snd r) v /\
      ((under t (sp_span (tr_id q)) (snd (fst r)) /\ x' = with_visible (marker fuse a (snd r)) (snd r)) \/ (~ under t (sp_span (tr_id q)) (snd (fst r)) /\ x' = x))) as Hall.
    { intros i r x' Er Ex'. destruct (Forall2_lookup_l _ _ _ _ _ Hf Er) as (x & Ex & v & E & Hs). exists x, v. do 3 (split; [done|]). by apply (Hd i). }
    split.
    - exists rows. split; [done|]. cbn [pg_data]. rewrite rev_unit. cbn [seen]. apply Forall2_same_length_lookup. split; [lia|]. intros i r x' Er Ex'.
      destruct (Hall i r x' Er Ex') as (x & v & Ex & -> & Hs & [[Hu ->]|[Hu ->]]).
      + exists (marker fuse a (snd r)). split; [done|]. exists q. split; [done|]. split; [done|]. left. split; [done|apply marker_wanted].
      + exists v. split; [done|]. exists q. split; [done|]. split; [done|]. right. done.
    - intros k desc Ho i j x' y' Hij Ex' Ey'.
      destruct (lookup_lt_is_Some_2 rows i) as [r Er]; [apply lookup_lt_Some in Ex'; lia|]. destruct (lookup_lt_is_Some_2 rows j) as [s Es]; [apply lookup_lt_Some in Ey'; lia|].
      destruct (Hall i r x' Er Ex') as (x & v & Ex & Exv & _ & Hx'), (Hall j s y' Es Ey') as (y & w & Ey & Eyw & _ & Hy').
      pose proof (Ho i j x y Hij Ex Ey) as H. rewrite Exv Eyw ord_visible in H.
      destruct Hx' as [[_ ->]|[_ ->]], Hy' as [[_ ->]|[_ ->]]; rewrite ?Exv ?Eyw ord_visible //.
  Qed.
  Lemma start_kept : kept [] (loaded items).
  Proof.
    exists (zip (shown reg 0 t) items). split; [done|]. cbn [loaded pg_data rev app seen]. pose proof (C62_items _ _ _ _ _ Hi) as Hd. pose proof (Forall2_length _ _ _ Hd) as Hl.
    apply Forall2_same_length_lookup. split; [rewrite combine_length; lia|]. intros i r o Er Eo. rewrite lookup_zip_with Eo in Er. destruct (shown reg 0 t !! i) as [x|] eqn:Ex; [|done].
    cbn in Er. injection Er as <-. exists (it_visible o). split; [by destruct o|]. cbn [fst snd]. exact (d_visible _ _ _ _ (Forall2_lookup_lr _ _ _ _ _ _ Hd Ex Eo)).
  Qed.
  Lemma session_inv ds p : Forall (on_spans t) ds -> session low fuse (loaded items) ds p ->
    kept ds p /\ remembered ds p /\ forall k n, clicks (rev ds) = Some (k, n) -> ordered low k (Nat.even n) (pg_data p).
  Proof.
    intros Hds Hs. induction Hs as [|ds p1 d p2 Hs IH Hd]; [split; [apply start_kept|]; done|].
    apply Forall_app in Hds as [Hds Hd1]. apply Forall_inv in Hd1. destruct (IH Hds) as (Hk & Hr & Ho). destruct Hd as [k desc name' desc' data' Htog Hsort|a id fuel data' Hm].
    - destruct (sorted_kept ds p1 k data' name' desc Hk Hsort) as [Hk' Ho']. split; [exact Hk'|]. rewrite /remembered rev_unit. cbn [clicks].
      rewrite /toggle_order in Htog. rewrite /remembered in Hr. destruct (clicks (rev ds)) as [[k' n]|] eqn:Ec.
      + destruct Hr as (Hn & Hdesc & Hn1). rewrite Hn in Htog. destruct (decide (k' = k)) as [->|Hne].
        * rewrite bool_decide_true // in Htog. injection Htog as <- <- <-. cbn [pg_name pg_desc pg_data]. rewrite Nat.even_succ -Nat.negb_even -Hdesc. split; [split; [done|]; split; [done|lia]|].
          intros ? ? [= <- <-]. by rewrite Nat.even_succ -Nat.negb_even -Hdesc.
        * rewrite bool_decide_false in Htog; [congruence|]. injection Htog as <- <- <-. split; [done|]. by intros ? ? [= <- <-].
      + rewrite Hr bool_decide_false // in Htog. injection Htog as <- <- <-. split; [done|]. by intros ? ? [= <- <-].
    - destruct Hd1 as (q & Hq & Eq). subst id. destruct (menu_kept ds p1 a q Hk Hq) as (d1 & (n & Hn) & Hk' & Ho').
      assert (data' = d1) as ->.
      { pose proof (mark_more_le fuel (fuel + n) _ _ _ _ ltac:(lia) Hm) as H1. rewrite /menu in Hn. rewrite Hn in H1; [lia|]. by injection H1. }
      split; [done|]. rewrite /remembered rev_unit. cbn [clicks pg_name pg_desc pg_data]. split; [exact Hr|]. intros k m Hc. by apply Ho', (Ho k m).
  Qed.
  Lemma goes_on ds p d : Forall (on_spans t) ds -> session low fuse (loaded items) ds p -> on_spans t d -> exists p', does low fuse p d p'.
  Proof.
    intros Hds Hs Hd. destruct (session_inv ds p Hds Hs) as (Hk & _ & _). destruct d as [k|a id].
    - destruct (toggle_order k (pg_name p) (pg_desc p)) as [[desc name'] desc'] eqn:Et. destruct (js_sort_exists low k desc (pg_data p) (kept_good _ _ Hk)) as [data' Hj].
      exists (MkPage data' name' desc'). by apply (D_click _ _ _ k desc).
    - destruct Hd as (q & Hq & <-). destruct (menu_kept ds p a q Hk Hq) as (d1 & (n & Hn) & _). eexists. apply (D_menu _ _ _ _ _ n). by apply Hn.
  Qed.
End session.

(** C134 (proved part): whatever is clicked, in any order and number, each span of the timeline keeps its one line, is
    visible as the last menu entry chosen for a span above it says (the sort buttons change nothing about that), and the
    lines are in the order of the sort button clicked last: ascending after one, three, five clicks on it, descending
    after two, four, six.  (No span is longer than 292 years.) *)
Theorem C134_partial : forall low fuse reg us fmt t items ds p, proper t -> d3timeline reg us fmt t = ROk items -> bars_fit items ->
  Forall (on_spans t) ds -> session low fuse (loaded items) ds p ->
  (exists rows, Permutation rows (zip (shown reg 0 t) items) /\
    Forall2 (fun r o => exists v, now v (snd r) o /\ seen fuse t (rev ds) (fst r) (snd r) v) rows (pg_data p)) /\
  (forall k n, clicks (rev ds) = Some (k, n) -> forall i j a b, (i < j)%nat -> pg_data p !! i = Some a -> pg_data p !! j = Some b ->
    if Nat.odd n then no_later low k a b else no_later low k b a).
Proof.
  intros low fuse reg us fmt t items ds p Ht Hi Hfit Hds Hs. destruct (session_inv low fuse reg us fmt t items Ht Hi Hfit ds p Hds Hs) as (Hk & _ & Ho).
  split.
  { destruct Hk as (rows & Hr & Hf). exists rows. split; [done|]. eapply Forall2_impl; [exact Hf|]. intros r o (v & -> & Hv). by exists v. }
  intros k n Hc i j a b Hij Ea Eb. specialize (Ho k n Hc i j a b Hij Ea Eb). rewrite /ord -Nat.negb_odd in Ho. by destruct (Nat.odd n).
Qed.
Print Assumptions C134_partial.
(** ... Every button and menu entry can be used at any time, and ends. *)
Theorem C134_goes_on_partial : forall low fuse reg us fmt t items ds p d, proper t -> d3timeline reg us fmt t = ROk items -> bars_fit items ->
  Forall (on_spans t) ds -> session low fuse (loaded items) ds p -> on_spans t d -> exists p', does low fuse p d p'.
Proof. intros low fuse reg us fmt t items ds p d Ht Hi Hfit. by apply (goes_on low fuse reg us fmt t items). Qed.
Print Assumptions C134_goes_on_partial.
(** ... Lines that are equal for the button keep their order. *)
Theorem C134_ties_partial : forall low fuse reg us fmt t items ds p k p', proper t -> d3timeline reg us fmt t = ROk items -> bars_fit items ->
  Forall (on_spans t) ds -> session low fuse (loaded items) ds p -> does low fuse p (Click k) p' ->
  exists from : list nat, Permutation from (seq 0 (length (pg_data p))) /\ Forall2 (fun m o => pg_data p !! m = Some o) from (pg_data p') /\
    forall i j m n a b, (i < j)%nat -> from !! i = Some m -> from !! j = Some n -> pg_data p !! m = Some a -> pg_data p !! n = Some b ->
      no_later low k a b -> no_later low k b a -> (m < n)%nat.
Proof.
  intros low fuse reg us fmt t items ds p k p' Ht Hi Hfit Hds Hs Hd. destruct (session_inv low fuse reg us fmt t items Ht Hi Hfit ds p Hds Hs) as (Hk & _ & _).
  pose proof (kept_good fuse reg us fmt t items Hi Hfit ds p Hk) as Hg. inversion Hd as [k0 desc name' desc' data' Htog (ix & Hp & Hf & Hord)|]; subst.
  exists ix. split; [done|]. split; [done|]. intros i j m n a b Hij Em En Ea Eb Hab Hba.
  pose proof (Hord (compare_consistent low k desc _ Hg) i j a b m n Hij Em En Ea Eb) as Hc. rewrite List.Forall_forall in Hg.
  destruct (compare_spec low k desc a b) as [(H1 & H2 & H3)|[(H1 & H2 & H3)|(H1 & H2 & H3)]].
  - apply Hg. by apply elem_of_list_lookup_2, elem_of_list_In in Ea.
  - apply Hg. by apply elem_of_list_lookup_2, elem_of_list_In in Eb.
  - by destruct desc; destruct H3.
  - destruct Hc as [Hc|[_ Hc]]; [lia|done].
  - by destruct desc; destruct H2.
Qed.
Print Assumptions C134_ties_partial.
(** ... The timeline is never empty: the root stays visible. *)
Lemma never_under t s : ~ under t s t.
Proof.
  assert (forall c, under t s c -> (size c < size t)%nat) as H; [|intros Hu; specialize (H t Hu); lia].
  intros c Hu. assert (exists p, In p (nodes t) /\ In c (tr_subs p)) as (p & Hp & Hc).
  { destruct Hu as [p c Hp _ Hc|p c Hp Hc]; exists p; [done|]. split; [by apply (under_node t s)|done]. }
  pose proof (sub_size p c Hc). pose proof (node_size t p Hp). lia.
Qed.
Theorem C134_root_partial : forall low fuse reg us fmt t items ds p, proper t -> d3timeline reg us fmt t = ROk items -> bars_fit items ->
  Forall (on_spans t) ds -> session low fuse (loaded items) ds p -> items <> [] ->
  exists o, In o (drawn p) /\ it_span o = id_string (sp_span (tr_id t)).
Proof.
  intros low fuse reg us fmt t items ds p Ht Hi Hfit Hds Hs Hne. destruct (session_inv low fuse reg us fmt t items Ht Hi Hfit ds p Hds Hs) as ((rows & Hrows & Hf) & _ & _).
  pose proof (C62_items _ _ _ _ _ Hi) as Hd.
  assert (exists o its xs, items = o :: its /\ shown reg 0 t = (0%nat, t) :: xs /\ it_span o = id_string (sp_span (tr_id t))) as (o & its & xs & Ei & Ex & Eo).
  { destruct t as [id anns subs]. cbn [shown] in *. destruct (timed reg _) as [|e es]; [by apply Forall2_nil_inv_l in Hd|]. inversion Hd as [|x o xs its Ho Hos]; subst.
    eexists o, its, _. split; [done|]. split; [done|]. exact (d_span _ _ _ _ Ho). }
  assert (In ((0%nat, t), o) rows) as Hin by (rewrite Hrows Ei Ex; by left).
  apply elem_of_list_In, elem_of_list_lookup in Hin as [i Hr]. destruct (Forall2_lookup_l _ _ _ _ _ Hf Hr) as (o' & Eo' & v & -> & Hseen). cbn [fst snd] in Hseen.
  exists (with_visible v o). split; [|done]. apply filter_In. split; [by apply elem_of_list_lookup_2, elem_of_list_In in Eo'|]. cbn [it_visible with_visible].
  revert Hseen. generalize (rev ds) as rs. intros rs. induction rs as [|d rs IH]; cbn [seen fst snd]; [intros H; apply H; lia|].
  destruct d as [k|a id]; [done|]. intros (q & _ & _ & [[Hu _]|[_ H]]); [by destruct (never_under t (sp_span (tr_id q)))|by apply IH].
Qed.
Print Assumptions C134_root_partial.

(** C134 fails for spans longer than 292 years: the length overflows.  A span that takes 550 years is listed, by
    duration, before one that takes a second. *)
Definition c134_long : tree :=
  Tree (MkSpanID 1 2 0) (c62_name "root" ++ c62_ts "1970-01-01T00:00:01Z" "1970-01-01T00:00:02Z")
    [Tree (MkSpanID 1 3 2) (c62_name "long" ++ c62_ts "1700-01-01T00:00:01Z" "2250-01-01T00:00:02Z") []].
Theorem C134_refuted : exists reg items, register_all library_events = Some reg /\ proper c134_long /\ d3timeline reg c62_us c62_fmt c134_long = ROk items /\
  forall low fuse, exists p, session low fuse (loaded items) [Click Duration] p /\
    map (fun o => (it_label o, map (fun b => (b_start b, b_end b, b_duration b)) (it_times o))) (pg_data p) =
    [("long", [(-8520335999000, 8835955202000, 0)]); ("root", [(1000, 2000, 1000000000)])]%string.
Proof.
  destruct (register_all library_events) as [reg|] eqn:Er; [|by vm_compute in Er]. vm_compute in Er. injection Er as <-.
  eexists _, _. split; [reflexivity|]. split; [|split; [vm_compute; reflexivity|]].
  { split.
    - intros n [<-|[<-|[]]]; done.
    - cbn. repeat constructor; cbn; intuition congruence.
    - intros p c [[<-|[<-|[]]] Hc]; cbn in Hc; [destruct Hc as [<-|[]]|]; done.
    - intros n [<-|[<-|[]]]; done. }
  intros low fuse. match goal with |- exists p, session _ _ (loaded [?a; ?b]) _ p /\ _ => set (x := a); set (y := b) end.
  exists (MkPage [y; x] (Some Duration) false). split; [|reflexivity].
  apply (S_snoc _ _ _ [] (loaded [x; y])); [constructor|]. apply (D_click _ _ _ _ false); [done|]. exists [1; 0]%nat. split; [constructor|]. split; [by repeat constructor|].
  intros _ i j a b m n Hij Em En Ea Eb. destruct j as [|[|j]]; [lia| |by destruct j]. destruct i as [|i]; [|lia]. injection Em as <-. injection En as <-.
  cbn in Ea, Eb. injection Ea as <-. injection Eb as <-. left. vm_compute. done.
Qed.
Print Assumptions C134_refuted.

(** A page that meets the hypotheses, and a session on it. *)
Definition c134_deeds : list deed := [Click Label; Menu HideChildren (id_string 3); Click Label].
Example C134_nonvacuous : exists reg items, register_all library_events = Some reg /\ d3timeline reg c62_us c62_fmt c132_tree = ROk items /\ proper c132_tree /\ bars_fit items /\
  Forall (on_spans c132_tree) c134_deeds /\ clicks (rev c134_deeds) = Some (Label, 2%nat) /\
  forall low fuse, exists p, session low fuse (loaded items) c134_deeds p.
Proof.
  destruct C132_nonvacuous as (reg & st & items & q & Er & _ & _ & _ & _ & Hp & Hi & _). exists reg, items. split; [done|]. split; [done|]. split; [done|].
  assert (bars_fit items) as Hfit.
  { vm_compute in Er. injection Er as <-. vm_compute in Hi. injection Hi as <-. intros o b bs Ho. repeat (destruct Ho as [<-|Ho]; [intros [= <- <-]; done|]). done. }
  split; [done|].
  assert (Forall (on_spans c132_tree) c134_deeds) as Hds.
  { repeat (apply Forall_cons; split; [try done|]); [|by apply Forall_nil]. exists (Tree (MkSpanID 1 3 2) (c132_anns "child") [Tree (MkSpanID 1 4 3) (c132_anns "leaf") []]). split; [|done]. by right; left. }
  split; [done|]. split; [done|]. intros low fuse.
  assert (forall done todo p, Forall (on_spans c132_tree) (done ++ todo) -> session low fuse (loaded items) done p -> exists p', session low fuse (loaded items) (done ++ todo) p') as H.
  { intros dn todo. revert dn. induction todo as [|d todo IH]; intros dn p Hall Hs; [exists p; by rewrite app_nil_r|].
    pose proof Hall as Hall'. apply Forall_app in Hall' as [H1 H2]. apply Forall_cons in H2 as [H2 H3].
    destruct (goes_on low fuse reg c62_us c62_fmt c132_tree items Hp Hi Hfit dn p d H1 Hs H2) as [p1 H4].
    destruct (IH (dn ++ [d]) p1) as [p' Hp']; [by rewrite -app_assoc|by apply (S_snoc _ _ _ dn p)|]. exists p'. by rewrite -app_assoc in Hp'. }
  apply (H [] c134_deeds (loaded items)); [done|constructor].
Qed.
