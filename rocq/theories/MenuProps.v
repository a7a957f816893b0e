(** Property C132 (the context menu of the timeline). *)
From Verif Require Import Base IdModel IdSpec IdProofs ReflModel EventModel TraceModel MemModel MemSpec MemProofs4 EndProofs WebSpec WebProps ProfModel VisModel VisSpec VisProps MenuModel MenuSpec MenuProofs.
From Coq Require Import ssreflect.
Local Open Scope general_if_scope.
Local Open Scope N_scope.

(** ** The filter *)

Lemma parse_strict k x : ~ In ":"%char (bytes k) -> ~ In ":"%char (bytes x) -> parse_filter (k +:+ ":""" +:+ x +:+ """") = Strict k x.
Proof.
  intros Hk Hx. rewrite /parse_filter !bytes_app. cbn [bytes app].
  rewrite (split_on_app ":"%char (bytes k)) // split_on_none.
  { intros [E|[Hi|[E|[]]]%in_app_iff]; done. }
  cbn [drop]. rewrite removelast_last unbytes_bytes.
  assert (List.last ("""" :: bytes x ++ [""""])%char " "%char = """"%char) as ->.
  { change (List.last ((("""" :: bytes x) ++ [""""])%list)%char " "%char = """"%char). by rewrite last_last. }
  cbn. by rewrite unbytes_bytes.
Qed.
Lemma parse_fuzzy text : (forall k x, text <> (k +:+ ":""" +:+ x +:+ """")%string /\ text <> (k +:+ ":""")%string) -> parse_filter text = Fuzzy text.
Proof.
  intros H. rewrite /parse_filter. destruct (split_on ":" (bytes text)) as [|k [|v [|]]] eqn:E; try done.
  apply split_on_inv in E as [Hk (l & El & E)]. apply split_on_inv in E as [Hv ->].
  destruct v as [|c v]; [done|]. destruct (Ascii.eqb_spec c """"%char) as [->|]; [|done]. cbn [andb].
  destruct (Ascii.eqb_spec (List.last ("""" :: v)%char " "%char) """"%char) as [El'|]; [|done]. exfalso.
  assert (text = unbytes (k ++ ":"%char :: """"%char :: v)) as Et by (by rewrite -El unbytes_bytes).
  rewrite unbytes_app in Et. cbn [unbytes] in Et. destruct v as [|d v].
  - by apply (proj2 (H (unbytes k) "")).
  - apply (proj1 (H (unbytes k) (unbytes (removelast (d :: v))))). rewrite Et. cbn [String.append]. do 3 f_equal.
    change (unbytes (d :: v) = (unbytes (removelast (d :: v)) +:+ unbytes [""""%char])%string). rewrite -unbytes_app. f_equal.
    rewrite {1}(app_removelast_last " "%char (l := d :: v)) //. by do 2 f_equal.
Qed.
Lemma marker_wanted fuse a o : wanted fuse a o (marker fuse a o).
Proof.
  destruct a as [| |text]; [done|done|]. cbn. split.
  - intros k x Hk Hx ->. rewrite parse_strict // /strict_match. destruct (it_data o !! k) as [y|]; [|done].
    destruct (String.eqb_spec y x) as [->|Hn]; [done|]. split; [done|]. intros [= ?]. done.
  - intros H. by rewrite parse_fuzzy.
Qed.
Lemma marker_stable fuse a v o : marker fuse a (with_visible v o) = marker fuse a o.
Proof. by destruct a as [| |text]; cbn. Qed.

(** ** The items *)

Lemma over_self items : Forall2 same items items.
Proof. induction items as [|o items IH]; constructor; [|done]. exists (it_visible o). by destruct o. Qed.
Lemma menu_marks reg us fmt t items fuse a q : proper t -> d3timeline reg us fmt t = ROk items -> In q (nodes t) ->
  exists items' n, (forall fuel, (n <= fuel)%nat -> menu fuel fuse a (id_string (sp_span (tr_id q))) items = Some items') /\
    Forall2 (fun xo o' => (under t (sp_span (tr_id q)) (snd (fst xo)) /\ o' = with_visible (marker fuse a (snd xo)) (snd xo)) \/
                          (~ under t (sp_span (tr_id q)) (snd (fst xo)) /\ o' = snd xo)) (combine (shown reg 0 t) items) items'.
Proof.
  intros Ht Hitems%C62_items Hq. destruct (item_rank reg us t items Ht Hitems) as (rank & M & Hr & HM).
  assert (forall fuel, (S M <= fuel)%nat -> exists d', menu (S fuel) fuse a (id_string (sp_span (tr_id q))) items = Some d' /\
    Forall2 (fun xo o' => (under t (sp_span (tr_id q)) (snd (fst xo)) /\ o' = with_visible (marker fuse a (snd xo)) (snd xo)) \/
                          (~ under t (sp_span (tr_id q)) (snd (fst xo)) /\ o' = snd xo)) (combine (shown reg 0 t) items) d') as Hm.
  { intros fuel Hf. destruct (mark_spec (marker fuse a) (marker_stable fuse a) items rank M Hr HM fuel (id_string (sp_span (tr_id q))) items (over_self items)) as (d' & E & Ho & Hd); [lia|].
    exists d'. split; [exact E|]. pose proof (Forall2_length _ _ _ Hitems) as L1. pose proof (Forall2_length _ _ _ Ho) as L2.
    apply Forall2_same_length_lookup. split; [rewrite combine_length; lia|].
    intros i [x o] o' Ei Eo'. cbn [fst snd].
    assert (shown reg 0 t !! i = Some x /\ items !! i = Some o) as [Ex Eo].
    { rewrite lookup_zip_with in Ei. destruct (shown reg 0 t !! i), (items !! i); cbn in Ei; try done. by injection Ei as -> ->. }
    pose proof (Hd i o o o' Eo Eo Eo') as H.
    pose proof (Forall2_lookup_lr _ _ _ _ _ _ Hitems Ex Eo) as Hdesc.
    rewrite (beneath_under reg us t items Ht Hitems q x o) // in H.
    - by apply elem_of_list_lookup_2, elem_of_list_In in Ex.
    - by apply elem_of_list_lookup_2, elem_of_list_In in Eo. }
  destruct (Hm (S M)) as (d0 & E0 & H0); [done|]. exists d0, (S (S M)). split; [|done].
  intros [|fuel] Hf; [lia|]. destruct (Hm fuel) as (d' & E & H); [lia|]. rewrite E. f_equal.
  clear -H H0. revert d0 H0. induction H as [|x o' l d' Hx H IH]; intros d0 H0; inversion H0 as [|? o0 ? d1 Hx0 H1]; subst; [done|].
  f_equal; [|by apply IH]. destruct Hx as [[Hu ->]|[Hu ->]], Hx0 as [[Hu' ->]|[Hu' ->]]; done.
Qed.

(** C132 (proved part): in a trace whose spans all have distinct IDs and stand below their own parents, "Show Children",
    "Hide Children" and the filter set the visibility of exactly the spans below the chosen one, as asked, and they end. *)
Theorem C132_partial : forall reg us fmt t items fuse a q, proper t -> d3timeline reg us fmt t = ROk items -> In q (nodes t) ->
  exists items' n, (forall fuel, (n <= fuel)%nat -> menu fuel fuse a (id_string (sp_span (tr_id q))) items = Some items') /\
    length items' = length items /\
    forall i x o, shown reg 0 t !! i = Some x -> items !! i = Some o -> exists o', items' !! i = Some o' /\
      ((under t (sp_span (tr_id q)) (snd x) /\ exists v, wanted fuse a o v /\ now v o o') \/ (~ under t (sp_span (tr_id q)) (snd x) /\ o' = o)).
Proof.
  intros reg us fmt t items fuse a q Ht Hi Hq. destruct (menu_marks reg us fmt t items fuse a q Ht Hi Hq) as (items' & n & Hm & Hf). exists items', n. split; [done|].
  pose proof (Forall2_length _ _ _ (C62_items _ _ _ _ _ Hi)) as L1. pose proof (Forall2_length _ _ _ Hf) as L2. rewrite combine_length in L2. split; [lia|].
  intros i x o Ex Eo. assert (zip (shown reg 0 t) items !! i = Some (x, o)) as Exo by (by rewrite lookup_zip_with Ex Eo).
  destruct (Forall2_lookup_l _ _ _ _ _ Hf Exo) as (o' & Eo' & H). cbn [fst snd] in H. exists o'. split; [done|].
  destruct H as [[Hu ->]|H]; [left|by right]. split; [done|]. exists (marker fuse a o). split; [apply marker_wanted|done].
Qed.
Print Assumptions C132_partial.

(** ** Traces of the MemoryStore *)

Lemma nodes_trans t p n : In p (nodes t) -> In n (nodes p) -> In n (nodes t).
Proof.
  induction t as [i anns subs IH] using tree_ind'. cbn [nodes]. intros [<- | Hp] Hn; [done|right].
  induction subs as [|x subs IHs]; [done|]. apply Forall_cons in IH as [IHx IH]. apply in_app_iff in Hp as [Hp|Hp]; apply in_app_iff; [left; by apply IHx|right; by apply IHs].
Qed.
Lemma nodes_part t p : In p (nodes t) -> exists b a, nodes t = b ++ nodes p ++ a.
Proof.
  induction t as [i anns subs IH] using tree_ind'. cbn [nodes]. intros [<- | Hp]; [exists [], []; by rewrite app_nil_r|].
  assert (exists b a, tl (nodes (Tree i anns subs)) = b ++ nodes p ++ a) as (b & a & E); [|exists (Tree i anns subs :: b), a; cbn [nodes tl tr_subs] in E; cbn [app]; by rewrite E]. cbn [nodes tl tr_subs].
  induction subs as [|x subs IHs]; [done|]. apply Forall_cons in IH as [IHx IH]. apply in_app_iff in Hp as [Hp|Hp].
  - destruct (IHx Hp) as (b & a & ->). eexists b, (a ++ _). by rewrite -!app_assoc.
  - destruct (IHs IH Hp) as (b & a & ->). exists (nodes x ++ b), a. by rewrite -!app_assoc.
Qed.
Lemma first_ids_spans seen l : List.NoDup (map sp_span (first_ids seen l)).
Proof.
  revert seen. induction l as [|[j a] l IH]=> seen; [constructor|]. cbn [first_ids]. case_bool_decide as H; [done|].
  cbn [map]. constructor; [|done]. intros (k & E & Hk)%in_map_iff. apply first_ids_elem in Hk as [_ Hk]. apply Hk. rewrite E. by left.
Qed.
Lemma node_above t n : In n (nodes t) -> n = t \/ exists p, In p (nodes t) /\ In n (tr_subs p).
Proof.
  induction t as [i anns subs IH] using tree_ind'. cbn [nodes]. intros [<- | Hn]; [by left|right].
  assert (exists s, In s subs /\ In n (nodes s)) as (s & Hs & Hns).
  { clear -Hn. induction subs as [|s subs IHs]; [done|]. apply in_app_iff in Hn as [Hn|Hn]; [exists s; split; [by left|done]|]. destruct (IHs Hn) as (s' & Hs' & Hn'). exists s'. split; [by right|done]. }
  rewrite List.Forall_forall in IH. destruct (IH s Hs Hns) as [->|(p & Hp & Hc)]; [exists (Tree i anns subs); split; [by left|done]|].
  exists p. split; [|done]. apply (nodes_trans (Tree i anns subs) s); [|done]. apply (nodes_sub _ (Tree i anns subs)); [by left|done].
Qed.
Lemma store_proper calls st t root : ms_run calls ms_init = Some st -> Forall ids_64 calls -> complete (spans_of (live t calls [])) root ->
  exists tr, shows st t tr /\ tr_id tr = root /\ forall sub, In sub (nodes tr) -> proper sub.
Proof.
  intros Hrun Hid Hc. destruct (order_independent calls st t root Hrun Hc) as (tr & Hs & Hroot & Hp & _ & He).
  exists tr. split; [done|]. split; [done|]. intros sub Hsub.
  assert (forall n, In n (nodes tr) -> In (tr_id n) (spans_of (live t calls []))) as Hin.
  { intros n Hn. apply elem_of_list_In. rewrite -Hp. apply elem_of_list_In. by apply in_map. }
  assert (forall p c, edge sub p c -> sp_parent (tr_id c) = sp_span (tr_id p)) as Hedge.
  { intros p c [H1 H2]. assert (In p (nodes tr)) by (by apply (nodes_trans tr sub)). apply He; [done|by apply (nodes_sub tr p)|]. by split. }
  split; [| |exact Hedge|].
  - intros n Hn. apply (nodes_trans tr) in Hn; [|done]. apply Hin in Hn as Hn'. split; [|split; [|by apply (co_span _ _ Hc)]].
    + by destruct (shown_ids calls st t tr n Hrun Hs Hid Hn).
    + apply in_first_ids in Hn' as [a [[]|Ha]%in_live]. rewrite Forall_forall in Hid. apply elem_of_list_In in Ha. by destruct (Hid _ Ha) as (_ & _ & ?).
  - assert (List.NoDup (map (fun n => sp_span (tr_id n)) (nodes tr))) as Hnd.
    { rewrite -(map_map tr_id sp_span). apply NoDup_ListNoDup. rewrite Hp. apply NoDup_ListNoDup, first_ids_spans. }
    destruct (nodes_part tr sub Hsub) as (b & a & E). rewrite E !map_app in Hnd. apply NoDup_ListNoDup in Hnd. apply NoDup_ListNoDup.
    apply NoDup_app in Hnd as (_ & _ & Hnd). by apply NoDup_app in Hnd as (? & _ & _).
  - destruct (co_acyclic _ _ Hc) as [rank Hrank].
    assert (forall k n, (size sub - size n < k)%nat -> In n (nodes sub) -> (rank (sp_span (tr_id sub)) <= rank (sp_span (tr_id n)))%nat) as Hle.
    { induction k as [|k IH]; intros n Hk Hn; [lia|]. destruct (node_above sub n Hn) as [->|(p & Hpn & Hc')]; [done|].
      pose proof (sub_size _ _ Hc'). pose proof (node_size _ _ Hpn). pose proof (node_size _ _ Hn).
      assert (rank (sp_span (tr_id sub)) <= rank (sp_span (tr_id p)))%nat by (apply IH; [lia|done]).
      assert (rank (sp_span (tr_id p)) < rank (sp_span (tr_id n)))%nat; [|lia].
      apply Hrank; [by apply Hin, (nodes_trans tr sub)..|]. apply Hedge. by split. }
    intros n Hn E. pose proof (Hle _ n (Nat.lt_succ_diag_r _) Hn).
    assert (rank (sp_span (tr_id n)) < rank (sp_span (tr_id sub)))%nat; [|lia].
    apply Hrank; [by apply Hin|by apply Hin, (nodes_trans tr sub)|done].
Qed.

(** C132 (proved part): so it is for every complete trace of a MemoryStore, on the page of the trace and of each of its
    spans. *)
Theorem C132_store_partial : forall calls st t root reg us fmt fuse a, ms_run calls ms_init = Some st -> Forall ids_64 calls ->
  complete (spans_of (live t calls [])) root ->
  exists tr, shows st t tr /\ tr_id tr = root /\ forall sub items q, In sub (nodes tr) -> d3timeline reg us fmt sub = ROk items -> In q (nodes sub) ->
    exists items' n, (forall fuel, (n <= fuel)%nat -> menu fuel fuse a (id_string (sp_span (tr_id q))) items = Some items') /\
      length items' = length items /\
      forall i x o, shown reg 0 sub !! i = Some x -> items !! i = Some o -> exists o', items' !! i = Some o' /\
        ((under sub (sp_span (tr_id q)) (snd x) /\ exists v, wanted fuse a o v /\ now v o o') \/ (~ under sub (sp_span (tr_id q)) (snd x) /\ o' = o)).
Proof.
  intros calls st t root reg us fmt fuse a Hrun Hid Hc. destruct (store_proper calls st t root Hrun Hid Hc) as (tr & Hs & Hr & Hp).
  exists tr. split; [done|]. split; [done|]. intros sub items q Hsub Hi Hq. exact (C132_partial reg us fmt sub items fuse a q (Hp sub Hsub) Hi Hq).
Qed.
Print Assumptions C132_store_partial.

(** ** Counterexamples *)

Definition c132_anns (n : string) : list Annotation := c62_name n ++ c62_ts "1970-01-01T00:00:01Z" "1970-01-01T00:00:02Z".
Definition c132_url : list Annotation := [Ann "URL" (Some "http://a")].
(** A root 2, a span 3 below it, and a span 5 whose parent 4 has not arrived: the store puts it below the root. *)
Definition c132_calls : list call :=
  [CCollect (MkSpanID 1 2 0) (c132_anns "root"); CCollect (MkSpanID 1 3 2) (c132_anns "child" ++ c132_url); CCollect (MkSpanID 1 5 4) (c132_anns "orphan")].
Definition c132_orphan : tree :=
  Tree (MkSpanID 1 2 0) (c132_anns "root") [Tree (MkSpanID 1 3 2) (c132_anns "child" ++ c132_url) []; Tree (MkSpanID 1 5 4) (c132_anns "orphan") []].
Definition c132_vis (r : option (list item)) : option (list (string * bool)) := map (fun o => (it_label o, it_visible o)) <$> r.
(** C132 fails for spans that a MemoryStore shows below the root because their parent is missing: "Hide Children" on the
    root leaves them. *)
Theorem C132_orphan_refuted : exists reg st items, register_all library_events = Some reg /\ ms_run c132_calls ms_init = Some st /\ shows st 1 c132_orphan /\
  d3timeline reg c62_us c62_fmt c132_orphan = ROk items /\ (forall n, In n (nodes c132_orphan) -> n = c132_orphan \/ under c132_orphan 2 n) /\
  forall fuse fuel, c132_vis (menu (S (S fuel)) fuse HideChildren (id_string 2) items) = Some [("root", true); ("child", false); ("orphan", true)]%string.
Proof.
  destruct (register_all library_events) as [reg|] eqn:Er; [|by vm_compute in Er]. vm_compute in Er. injection Er as <-.
  eexists _, (final c132_calls), _. split; [reflexivity|]. split; [apply final_run|]. split; [apply (shown_by 9); vm_compute; reflexivity|].
  split; [vm_compute; reflexivity|]. split.
  { intros n [<-|[<-|[<-|[]]]]; [by left|right..]; (apply (U_child _ _ c132_orphan); [by left|done|]); [by left|by right; left]. }
  intros fuse fuel. set (id := id_string 2). vm_compute in id. subst id. reflexivity.
Qed.
Print Assumptions C132_orphan_refuted.
(** ... It never ends for a span that names itself as its parent. *)
Definition c132_self : tree := Tree (MkSpanID 1 5 5) (c132_anns "self") [].
Theorem C132_endless_refuted : exists reg st items, register_all library_events = Some reg /\
  ms_run [CCollect (MkSpanID 1 5 5) (c132_anns "self")] ms_init = Some st /\ shows st 1 c132_self /\
  d3timeline reg c62_us c62_fmt c132_self = ROk items /\ forall fuse a fuel, menu fuel fuse a (id_string 5) items = None.
Proof.
  destruct (register_all library_events) as [reg|] eqn:Er; [|by vm_compute in Er]. vm_compute in Er. injection Er as <-.
  eexists _, (final [CCollect (MkSpanID 1 5 5) (c132_anns "self")]), _. split; [reflexivity|]. split; [apply final_run|]. split; [apply (shown_by 9); vm_compute; reflexivity|].
  split; [vm_compute; reflexivity|]. intros fuse a.
  set (id := id_string 5). vm_compute in id. subst id.
  assert (forall fuel o, it_parent o = "0000000000000005"%string -> it_span o = "0000000000000005"%string -> menu fuel fuse a "0000000000000005" [o] = None) as H; [|intros fuel; by apply H].
  induction fuel as [|fuel IH]; intros o E1 E2; [done|]. rewrite /menu /=. rewrite E1 /= E2. by apply IH.
Qed.
Print Assumptions C132_endless_refuted.
(** C132 fails for the documented exact search (key, colon, value in quotes) when the value contains a colon, as all
    URLs do: the filter is not taken as one, and the fuzzy search decides (here: one that finds nothing). *)
Theorem C132_colon_refuted : exists reg items, register_all library_events = Some reg /\
  d3timeline reg c62_us c62_fmt c132_orphan = ROk items /\
  option_map (fun o => it_data o !! "URL"%string) (items !! 1%nat) = Some (Some "http://a"%string) /\
  forall fuse fuel, (forall d, fuse "URL:""http://a"""%string d = false) ->
    c132_vis (menu (S (S fuel)) fuse (Filter "URL:""http://a""") (id_string 2) items) = Some [("root", true); ("child", false); ("orphan", true)]%string.
Proof.
  destruct (register_all library_events) as [reg|] eqn:Er; [|by vm_compute in Er]. vm_compute in Er. injection Er as <-.
  eexists _, _. split; [reflexivity|]. split; [vm_compute; reflexivity|]. split; [reflexivity|].
  intros fuse fuel Hf. set (id := id_string 2). vm_compute in id. subst id.
  assert (marker fuse (Filter "URL:""http://a""") = fun o => fuse "URL:""http://a"""%string (it_data o)) as E by reflexivity.
  rewrite /menu E. cbn -[it_data]. by rewrite Hf.
Qed.
Print Assumptions C132_colon_refuted.
(** A trace that meets the hypotheses, with a span to hide and one that stays. *)
Definition c132_good : list call :=
  [CCollect (MkSpanID 1 4 3) (c132_anns "leaf"); CCollect (MkSpanID 1 2 0) (c132_anns "root"); CCollect (MkSpanID 1 3 2) (c132_anns "child"); CCollect (MkSpanID 1 6 2) (c132_anns "other")].
Definition c132_tree : tree :=
  Tree (MkSpanID 1 2 0) (c132_anns "root") [Tree (MkSpanID 1 3 2) (c132_anns "child") [Tree (MkSpanID 1 4 3) (c132_anns "leaf") []]; Tree (MkSpanID 1 6 2) (c132_anns "other") []].
Example C132_nonvacuous : exists reg st items q, register_all library_events = Some reg /\ ms_run c132_good ms_init = Some st /\ Forall ids_64 c132_good /\
  complete (spans_of (live 1 c132_good [])) (MkSpanID 1 2 0) /\ shows st 1 c132_tree /\ proper c132_tree /\
  d3timeline reg c62_us c62_fmt c132_tree = ROk items /\ In q (nodes c132_tree) /\ sp_span (tr_id q) = 3 /\
  c132_vis (menu 9 (fun _ _ => false) HideChildren (id_string 3) items) = Some [("root", true); ("child", true); ("leaf", false); ("other", true)]%string /\
  c132_vis (menu 9 (fun _ _ => false) (Filter "Name:""leaf""") (id_string 2) items) = Some [("root", true); ("child", false); ("leaf", true); ("other", false)]%string.
Proof.
  destruct (register_all library_events) as [reg|] eqn:Er; [|by vm_compute in Er]. vm_compute in Er. injection Er as <-.
  assert (Forall ids_64 c132_good) as Hid by (repeat (apply Forall_cons; split; [done|]); by apply Forall_nil).
  assert (complete (spans_of (live 1 c132_good [])) (MkSpanID 1 2 0)) as Hc.
  { replace (spans_of (live 1 c132_good [])) with [MkSpanID 1 4 3; MkSpanID 1 2 0; MkSpanID 1 3 2; MkSpanID 1 6 2] by reflexivity. split.
    - split; [by right; left|done].
    - intros s Hs. cbn in Hs. intuition subst; done.
    - intros s Hs. cbn in Hs. intuition subst; done.
    - intros s Hs Hne. destruct Hs as [<-|[<-|[<-|[<-|[]]]]]; [exists (MkSpanID 1 3 2)|done|exists (MkSpanID 1 2 0)..]; cbn; auto.
    - exists N.to_nat. intros c p Hin Hip. cbn in Hin, Hip. intuition subst; cbn in *; try lia. }
  assert (shows (final c132_good) 1 c132_tree) as Hs by (apply (shown_by 9); vm_compute; reflexivity).
  assert (exists q, In q (nodes c132_tree) /\ sp_span (tr_id q) = 3) as (q & Hq & Eq) by (eexists; split; [by right; left|done]).
  eexists _, (final c132_good), _, q. split; [reflexivity|]. split; [apply final_run|]. split; [done|]. split; [done|]. split; [done|]. split.
  { split.
    - intros n Hn. cbn in Hn. intuition subst; done.
    - apply NoDup_ListNoDup. vm_compute. repeat (constructor; [rewrite elem_of_list_In; cbn; intuition done|]). constructor.
    - intros p c [Hp Hc']. cbn in Hp. intuition subst; cbn in Hc'; intuition subst; done.
    - intros n Hn. cbn in Hn. intuition subst; done. }
  split; [vm_compute; reflexivity|]. split; [done|]. split; [done|]. split; vm_compute; reflexivity.
Qed.
