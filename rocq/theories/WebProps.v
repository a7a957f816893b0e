(** Properties C94-C100 (the web application's pages). *)
From Coq Require Import ssreflect.
From Verif Require Import Base FloatModel IdModel IdSpec IdProofs ReflModel ReflProofs TraceModel MemModel MemSpec MemProofs MemProofs2 MemProofs3 MemProofs4 UploadModel UploadProofs Base64Model Base64Proofs WebModel WebSpec WebProofs.
Local Open Scope general_if_scope.
Local Open Scope N_scope.

(** ** C94: which address shows what *)

Lemma id_named v : is_id v -> names_id (id_string v) v.
Proof. intros H. split; [by apply id_string_numeral|done]. Qed.

(** C94: a GET request shows the page of a trace or sub-span exactly if its path is the address of that trace or
    sub-span, for every store... *)
Theorem C94_page : forall store path t,
  (exists link, get_page store path = Some (ShowPage t link)) <-> exists a b, page_address a b path /\ addressed store a b t.
Proof.
  intros store path t. split.
  - intros [link H]. destruct (get_inv _ _ _ H) as (a & b & t' & Ha & [[_ [=]]|[Hp E]]); [done|]. injection E as -> ->. by exists a, b.
  - intros (a & b & Hp & Ha). exists (link_of t). by eapply get_show.
Qed.
Print Assumptions C94_page.
(** ... and its profile exactly if the path is that address followed by /profile. *)
Theorem C94_profile : forall store path t,
  get_page store path = Some (ShowProfile t) <-> exists a b, profile_address a b path /\ addressed store a b t.
Proof.
  intros store path t. split.
  - intros H. destruct (get_inv _ _ _ H) as (a & b & t' & Ha & [[Hp [= ->]]|[_ [=]]]); [done|]. by exists a, b.
  - intros (a & b & Hp & Ha). by eapply get_profile.
Qed.
Print Assumptions C94_profile.
(** So the URLs made for traces and spans lead to them. *)
Theorem C94_links : forall store t tr, is_id t -> store t = Some tr ->
  (exists link, get_page store (url_to_trace t) = Some (ShowPage tr link)) /\
  get_page store (url_to_trace_profile t) = Some (ShowProfile tr) /\
  forall s sub, is_id s -> first_span tr s sub ->
    (exists link, get_page store (url_to_trace_span t s) = Some (ShowPage sub link)) /\
    get_page store (url_to_trace_span_profile t s) = Some (ShowProfile sub).
Proof.
  intros store t tr Ht Hs. assert (addressed store (id_string t) None tr) as A1 by (exists t, tr; split; [by apply id_named|done]).
  split; [apply C94_page; eexists _, _; split; [constructor|exact A1]|]. split.
  { apply C94_profile. eexists _, _. split; [|exact A1]. eexists. split; [constructor|]. by rewrite /url_to_trace_profile ?str_app_assoc. }
  intros s sub Hid Hsub. assert (addressed store (id_string t) (Some (id_string s)) sub) as A2.
  { exists t, tr. split; [by apply id_named|]. split; [done|]. exists s. split; [by apply id_named|done]. }
  split; [apply C94_page; eexists _, _; split; [constructor|exact A2]|].
  apply C94_profile. eexists _, _. split; [|exact A2]. eexists. split; [constructor|]. by rewrite /url_to_trace_span_profile ?str_app_assoc.
Qed.
Print Assumptions C94_links.
Example C94_nonvacuous :
  let leaf := Tree (MkSpanID 1 2 1) [] [] in let tr := Tree (MkSpanID 1 1 0) [] [leaf] in
  let store i := if i =? 1 then Some tr else None in
  get_page store "/traces/1" = Some (ShowPage tr "/traces/0000000000000001/profile") /\
  get_page store "/traces/01/0002/profile" = Some (ShowProfile leaf) /\ get_page store "/traces/2" = Some ShowError /\
  get_page store "/traces/1/" = None /\ dispatch "POST" "/traces/upload" = DRoute TraceUploadRoute [] /\
  first_span tr 2 leaf.
Proof. cbn zeta. split_and!; try (vm_compute; reflexivity). apply first_span_find. reflexivity. Qed.

(** ** C95: the page's link to the profile *)

Lemma in_live t calls acc e : In e (live t calls acc) -> In e acc \/ In (CCollect (fst e) (snd e)) calls.
Proof.
  revert acc. induction calls as [|[id anns|ts] calls IH]; intros acc H; cbn [live] in H; [by left| |].
  - destruct (IH _ H) as [H1|H1]; [|by right; right]. destruct (sp_trace id =? t); [|by left].
    apply in_app_or in H1 as [H1|[<-|[]]]; [by left|by right; left].
  - destruct (IH _ H) as [H1|H1]; [|by right; right]. destruct (bool_decide (t ∈ ts)); [done|by left].
Qed.
Lemma in_first_ids seen l id : In id (first_ids seen l) -> exists a, In (id, a) l.
Proof.
  revert seen. induction l as [|[i a] l IH]; intros seen H; [done|]. cbn [first_ids] in H. destruct (bool_decide _).
  - destruct (IH _ H) as [b Hb]. exists b. by right.
  - destruct H as [->|H]; [exists a; by left|]. destruct (IH _ H) as [b Hb]. exists b. by right.
Qed.
Lemma shown_ids calls st t tr n : ms_run calls ms_init = Some st -> shows st t tr -> Forall ids_64 calls -> In n (nodes tr) ->
  sp_trace (tr_id n) = t /\ is_id (sp_span (tr_id n)).
Proof.
  intros Hrun Hs Hid Hn. destruct (shown_annotations _ _ _ _ Hrun Hs) as [H _]. destruct (H n Hn) as (_ & H1 & H2). split; [done|].
  apply in_first_ids in H1 as [a [[]|Ha]%in_live]. rewrite Forall_forall in Hid. apply elem_of_list_In in Ha. by destruct (Hid _ Ha) as (_ & ? & _).
Qed.
Lemma first_span_in t s sub : first_span t s sub -> In sub (nodes t) /\ sp_span (tr_id sub) = s.
Proof. intros (b & a & E & Hs & _). split; [|done]. rewrite E. apply in_or_app. right. by left. Qed.

(** C95 (proved part): the profile link of a page leads to the profile of what the page shows, if that is the whole trace
    or a span that has a parent. *)
Theorem C95_profile_link_partial : forall calls st store path t link,
  ms_run calls ms_init = Some st -> Forall ids_64 calls -> answers_as store st ->
  get_page store path = Some (ShowPage t link) ->
  store (sp_trace (tr_id t)) = Some t \/ sp_parent (tr_id t) <> 0 ->
  get_page store link = Some (ShowProfile t).
Proof.
  intros calls st store path t link Hrun Hid Hst H Hcase.
  destruct (get_inv _ _ _ H) as (a & b & t' & Ha & [[_ [=]]|[Hp E]]); [done|]. injection E as -> ->.
  destruct Ha as (i & root & [_ Hi] & Hroot & Hb). pose proof (proj1 (Hst _ _) Hroot) as Hshow.
  assert (In t' (nodes root)) as Hin. { destruct b as [b|]; [|subst; by destruct root; left]. destruct Hb as (s & _ & Hb). by apply first_span_in in Hb as [? _]. }
  destruct (shown_ids _ _ _ _ _ Hrun Hshow Hid Hin) as [Htr Hsp].
  assert (first_span root (sp_span (tr_id t')) t') as Hf.
  { destruct b as [b|]; [destruct Hb as (s & _ & Hb); by rewrite (proj2 (first_span_in _ _ _ Hb))|]. subst t'.
    destruct root as [ri ra rs]. eexists [], _. split; [reflexivity|]. split; [done|]. by intros x []. }
  destruct (C94_links store i root Hi Hroot) as (_ & L2 & L3). unfold link_of. rewrite Htr. rewrite Htr in Hcase.
  destruct (N.eqb_spec (sp_parent (tr_id t')) 0) as [E0|E0].
  - destruct Hcase as [Hc|Hc]; [|done]. assert (root = t') as -> by congruence. exact L2.
  - by destruct (L3 _ _ Hsp Hf).
Qed.
Print Assumptions C95_profile_link_partial.
Definition web_hist : list call := [CCollect (MkSpanID 1 3 2) []; CCollect (MkSpanID 1 1 0) []; CCollect (MkSpanID 1 2 0) []].
Definition web_tree : tree := Tree (MkSpanID 1 2 0) [] [Tree (MkSpanID 1 3 2) [] []; Tree (MkSpanID 1 1 0) [] []].
(** C95 is false of all pages: with two spans without parent, the page of the one that is not the displayed root has a
    link to the profile of the whole trace. *)
Theorem C95_refuted : exists calls st store path t link t',
  ms_run calls ms_init = Some st /\ Forall ids_64 calls /\ answers_as store st /\
  get_page store path = Some (ShowPage t link) /\ get_page store link = Some (ShowProfile t') /\ t' <> t.
Proof.
  exists web_hist, (final web_hist), (fun i => if i =? 1 then Some web_tree else None), "/traces/1/1"%string, (Tree (MkSpanID 1 1 0) [] []),
    "/traces/0000000000000001/profile"%string, web_tree.
  split; [apply final_run|]. split; [repeat constructor|]. split; [|split; [vm_compute; reflexivity|split; [vm_compute; reflexivity|discriminate]]].
  assert (shows (final web_hist) 1 web_tree) as Hs by (apply (shown_by 9); vm_compute; reflexivity).
  intros t tr. destruct (N.eqb_spec t 1) as [->|Ht].
  - split; [by intros [= <-]|]. intros H. by rewrite (shows_det _ _ _ _ H Hs).
  - split; [done|]. intros (l & Hl & _). rewrite (proj2 (found_iff web_hist _ t (final_run _))) in Hl; [|done].
    unfold web_hist. cbn [live sp_trace]. by rewrite (proj2 (N.eqb_neq 1 t) (fun H => Ht (eq_sym H))).
Qed.
Print Assumptions C95_refuted.

(** ** C96: the permalink's text *)

Lemma enc_app l1 l2 : (length l1 mod 3 = 0)%nat -> b64_encode alphabet_url false (l1 ++ l2) = b64_encode alphabet_url false l1 ++ b64_encode alphabet_url false l2.
Proof.
  induction l1 as [|a|a b|a b c l IH] using list_ind3; intros H; [done|done|done|]. cbn [b64_encode app].
  rewrite IH; [|done]. cbn [length] in H. rewrite (_ : S (S (S (length l))) = length l + 1 * 3)%nat in H; [lia|]. rewrite Nat.mod_add in H; [lia|done].
Qed.
Lemma div3_mod n : ((n / 3 * 3) mod 3 = 0)%nat. Proof. by apply Nat.mod_mul. Qed.
Lemma div3_le n : (n / 3 * 3 <= n)%nat. Proof. pose proof (Nat.div_mod n 3). lia. Qed.
Definition whole (l : list ascii) : nat := (length l / 3 * 3)%nat.
Lemma enc_writes ws : forall done_, fold_left enc_write ws (drop (whole done_) done_, b64_encode alphabet_url false (take (whole done_) done_)) =
  (drop (whole (done_ ++ concat ws)) (done_ ++ concat ws), b64_encode alphabet_url false (take (whole (done_ ++ concat ws)) (done_ ++ concat ws))).
Proof.
  induction ws as [|w ws IH]; intros d; cbn [fold_left concat]; [by rewrite app_nil_r|].
  rewrite app_assoc -IH. f_equal. unfold enc_write. cbn [fst snd].
  pose proof (div3_le (length d)) as L1. pose proof (div3_mod (length d)) as M1.
  assert (length (take (whole d) d) = whole d) as Lt by (rewrite take_length; unfold whole in *; lia).
  assert (drop (whole d) d ++ w = drop (whole d) (d ++ w)) as E by (rewrite drop_app_le //; unfold whole; lia).
  rewrite E. assert (length (drop (whole d) (d ++ w)) / 3 * 3 + whole d = whole (d ++ w))%nat as Ew.
  { rewrite drop_length. assert (length d <= length (d ++ w))%nat as Lw by (rewrite app_length; lia). unfold whole.
    generalize dependent (length (d ++ w)). intros n Lw. assert (n / 3 = (n - length d / 3 * 3) / 3 + length d / 3)%nat as En; [|lia].
    rewrite -Nat.div_add; [lia|]. f_equal. lia. }
  f_equal.
  - rewrite drop_drop. f_equal. lia.
  - rewrite -enc_app; [by rewrite Lt|]. f_equal.
    rewrite -Ew Nat.add_comm -(take_take_drop (d ++ w)). f_equal. by rewrite take_app_le.
Qed.
(** C96 (proved part): however the compressed trace is written in portions, the permalink's text is valid and decodes to all of
    it but at most the last two bytes (which belong to the checksum and length that end a gzip file). *)
Theorem C96_permalink_partial : forall writes, exists kept lost,
  concat writes = kept ++ lost /\ (length lost <= 2)%nat /\ permalink_bytes (permalink_text writes) = Some kept.
Proof.
  intros writes. exists (take (whole (concat writes)) (concat writes)), (drop (whole (concat writes)) (concat writes)).
  split; [by rewrite take_drop|]. split.
  { rewrite drop_length /whole. pose proof (Nat.div_mod (length (concat writes)) 3 ltac:(lia)). pose proof (Nat.mod_upper_bound (length (concat writes)) 3 ltac:(lia)). lia. }
  unfold permalink_text, permalink_bytes. pose proof (enc_writes writes []) as E. cbn [app] in E. change (fold_left enc_write writes ([], [])) with (fold_left enc_write writes (drop (whole []) [], b64_encode alphabet_url false (take (whole []) []))). rewrite E. apply b64_roundtrip, alpha_url.
Qed.
Print Assumptions C96_permalink_partial.
(** C96: it is complete exactly when the number of bytes is a multiple of three... *)
Theorem C96_complete_iff : forall writes,
  permalink_bytes (permalink_text writes) = Some (concat writes) <-> (length (concat writes) mod 3 = 0)%nat.
Proof.
  intros writes. unfold permalink_text, permalink_bytes. pose proof (enc_writes writes []) as E. cbn [app] in E. change (fold_left enc_write writes ([], [])) with (fold_left enc_write writes (drop (whole []) [], b64_encode alphabet_url false (take (whole []) []))). rewrite E. cbn [snd].
  rewrite (b64_roundtrip _ alpha_url). pose proof (Nat.div_mod (length (concat writes)) 3 ltac:(lia)) as D. split.
  - intros [= H]. apply (f_equal length) in H. rewrite take_length /whole in H. lia.
  - intros H. f_equal. apply take_ge. rewrite /whole. lia.
Qed.
Print Assumptions C96_complete_iff.
(** ... so C96 is false in general. *)
Theorem C96_refuted : exists writes, permalink_bytes (permalink_text writes) <> Some (concat writes).
Proof. exists [bytes "ab"; bytes "cd"]. rewrite C96_complete_iff. done. Qed.
Print Assumptions C96_refuted.
Example C96_nonvacuous :
  permalink_text [bytes "ab"; bytes "cd"] = bytes "YWJj" /\ permalink_bytes (bytes "YWJj") = Some (bytes "abc") /\
  permalink_text [bytes "ab"; []; bytes "cdef"] = bytes "YWJjZGVm".
Proof. split_and!; vm_compute; reflexivity. Qed.

(** ** C97: opening a permalink *)

(** C97 (proved part): opening the permalink of a trace's or sub-span's page on a server that has nothing of that trace shows
    the same trace or sub-span, if below it there is no span without parent and not its own parent (see C64). *)
Theorem C97_elsewhere_partial : forall calls st t tr sub calls' st',
  ms_run calls ms_init = Some st -> is_id t -> shows st t tr -> In sub (nodes tr) ->
  (forall n, In n (nodes sub) -> n <> sub -> sp_parent (tr_id n) <> 0 /\ sp_span (tr_id n) <> sp_parent (tr_id sub)) ->
  ms_run calls' ms_init = Some st' -> ms_trace_of st' t = None ->
  exists st'', open_permalink sub st' = Some st'' /\
    forall store, answers_as store st'' -> exists link, get_page store (url_to_trace (sp_trace (tr_id sub))) = Some (ShowPage sub link).
Proof.
  intros calls st t tr sub calls' st' Hrun Ht Hs Hsub Hc Hrun' Hn.
  destruct (recreated calls st t tr sub calls' st' [] [] Hrun Hs Hsub Hc Hrun' Hn) as (st'' & H1 & H2); [by intros ? ? []..|].
  exists st''. split; [exact H1|]. intros store Hst. destruct (shown_annotations _ _ _ _ Hrun Hs) as [H _]. destruct (H sub Hsub) as (_ & _ & ->).
  apply Hst in H2. by destruct (C94_links store t sub Ht H2) as (? & _).
Qed.
Print Assumptions C97_elsewhere_partial.
(** On a server that has the trace, nothing is added and the page is that of the trace there. *)
Theorem C97_here_partial : forall st t tr sub store,
  is_id t -> shows st t tr -> sp_trace (tr_id sub) = t -> answers_as store st ->
  open_permalink sub st = Some st /\ exists link, get_page store (url_to_trace (sp_trace (tr_id sub))) = Some (ShowPage tr link).
Proof.
  intros st t tr sub store Ht Hs Hsub Hst. split.
  - unfold open_permalink. cbn [upload_traces]. rewrite Hsub. by destruct Hs as (l & -> & _).
  - rewrite Hsub. apply Hst in Hs. by destruct (C94_links store t tr Ht Hs) as (? & _).
Qed.
Print Assumptions C97_here_partial.
(** So C97 is false of the permalinks of sub-spans: on the server itself, they show the whole trace. *)
Theorem C97_refuted : exists calls st tr sub, ms_run calls ms_init = Some st /\ shows st 1 tr /\ In sub (nodes tr) /\
  open_permalink sub st = Some st /\ forall store, answers_as store st ->
    exists link, get_page store (url_to_trace (sp_trace (tr_id sub))) = Some (ShowPage tr link) /\ tr <> sub.
Proof.
  pose (calls := [CCollect (MkSpanID 1 1 0) []; CCollect (MkSpanID 1 2 1) []]).
  pose (sub := Tree (MkSpanID 1 2 1) [] []). pose (tr := Tree (MkSpanID 1 1 0) [] [sub]).
  exists calls, (final calls), tr, sub. split; [apply final_run|].
  assert (shows (final calls) 1 tr) as Hs by (apply (shown_by 9); vm_compute; reflexivity). split; [done|]. split; [by right; left|].
  split. { unfold open_permalink. cbn [upload_traces]. change (sp_trace (tr_id sub)) with 1. by destruct Hs as (l & -> & _). }
  intros store Hst. assert (is_id 1) as Hid by (rewrite /is_id /two64; lia). destruct (C97_here_partial (final calls) 1 tr sub store Hid Hs eq_refl Hst) as [_ [link Hl]]. by exists link.
Qed.
Print Assumptions C97_refuted.

(** ** C98: the list of traces *)

Lemma comma_split ps s : comma_list ps s <-> map unbytes (split_on "," (bytes s)) = ps.
Proof.
  split.
  - induction 1 as [p Hp|p ps s Hp Hj IH].
    + rewrite split_on_none //. cbn. by rewrite unbytes_bytes.
    + rewrite bytes_app. cbn [bytes]. rewrite split_on_app //. cbn [map]. rewrite unbytes_bytes. f_equal. exact IH.
  - intros H. rewrite -(unbytes_bytes s). revert ps H. generalize (bytes s) as l.
    intros l ps H. remember (split_on "," l) as qs eqn:Hqs. symmetry in Hqs.
    revert l ps H Hqs. induction qs as [|q qs IH]; intros l ps H Hqs.
    + by apply split_on_nonempty in Hqs.
    + apply split_on_inv in Hqs as [Hq Hr]. destruct qs as [|q' qs].
      * subst. cbn. apply CL_one. by rewrite bytes_unbytes.
      * destruct Hr as (l' & -> & Hl'). subst ps. rewrite unbytes_app. cbn [unbytes map].
        apply CL_cons; [by rewrite bytes_unbytes|]. exact (IH l' _ eq_refl Hl').
Qed.
Lemma omap_names items : named items (omap (fun a => match parse_id a with inl id => Some id | inr _ => None end) items).
Proof.
  induction items as [|a items IH]; [constructor|]. cbn. destruct (parse_id a) as [i|e] eqn:E.
  - apply N_id; [by apply names_parse|done].
  - apply N_skip; [|done]. intros [v Hv%names_parse]. congruence.
Qed.
Lemma omap_map_str {B} (f : string -> option B) (l : list (list ascii)) : omap (fun p => f (unbytes p)) l = omap f (map unbytes l).
Proof. induction l as [|x l IH]; [done|]. cbn. destruct (f (unbytes x)); [f_equal|]; exact IH. Qed.
(** C98 (proved part): the page asks for exactly the traces that the items of the list name, in their order... *)
Theorem C98_asked_partial : forall items show, show <> ""%string -> comma_list items show -> named items (show_just show).
Proof.
  intros items show Hne Hc%comma_split. unfold show_just. destruct show as [|c s] eqn:E; [done|]. rewrite -E in Hc |- *.
  rewrite (omap_map_str (fun a => match parse_id a with inl id => Some id | inr _ => None end)) Hc. apply omap_names.
Qed.
Print Assumptions C98_asked_partial.
Lemma row_comma l : l <> [] -> Forall is_id l -> comma_list (map id_string l) (row_show l).
Proof.
  intros Hne Hl. unfold row_show. induction Hl as [|x l Hx Hl IH]; [done|].
  assert (~ In ","%char (bytes (id_string x))) as Hn by (by apply (names_no "," _ x), id_named).
  destruct l as [|y l]; [by apply CL_one|]. cbn [map join]. apply CL_cons; [done|]. by apply IH.
Qed.
(** ... so the link of a dashboard row asks for the row's slowest traces, if there are any... *)
Theorem C98_row_partial : forall slowest, slowest <> [] -> Forall is_id slowest -> show_just (row_show slowest) = slowest.
Proof.
  intros l Hne Hl. pose proof (row_comma l Hne Hl) as Hc%comma_split. unfold show_just. destruct (row_show l) as [|c s] eqn:E.
  { destruct l as [|x l]; [done|]. cbn in Hc. apply Forall_cons in Hl as [Hx _]. injection Hc as Hc _. pose proof (id_named x Hx) as Hi. by apply (names_not "" _ x eq_refl) in Hi. }
  rewrite (omap_map_str (fun a => match parse_id a with inl id => Some id | inr _ => None end)) Hc. clear Hc E Hne.
  induction Hl as [|x l Hx Hl IH]; [done|]. cbn. rewrite parse_id_string //. by f_equal.
Qed.
Print Assumptions C98_row_partial.
(** ... and every trace asked for that exists is on the page. *)
Theorem C98_shown_partial : forall calls st show order, ms_run calls ms_init = Some st -> iteration_order st order ->
  exists ls, traces_page st show order = Some ls /\ forall t l, In t (show_just show) -> ms_trace_of st t = Some l -> In l ls.
Proof. intros calls st show order Hrun Ho. by apply (traces_superset calls). Qed.
Print Assumptions C98_shown_partial.
Example C98_nonvacuous : show_just "a,x,0b" = [10; 11] /\ comma_list ["a"; "x"; "0b"]%string "a,x,0b" /\
  row_show [10; 11] = "000000000000000a,000000000000000b"%string.
Proof. split_and!; [vm_compute; reflexivity|by apply comma_split|vm_compute; reflexivity]. Qed.
(** But C98 is false: other traces are on the page too (see C16)... *)
Theorem C98_refuted : exists calls st order ls,
  ms_run calls ms_init = Some st /\ iteration_order st order /\ traces_page st (row_show [1]) order = Some ls /\
  exists l tr, In l ls /\ reads (ms_heap st) l tr /\ sp_trace (tr_id tr) = 2.
Proof.
  destruct traces_ids_refuted as (calls & st & order & ls & H1 & H2 & H3 & H4). exists calls, st, order, ls.
  split; [done|]. split; [done|]. split; [|done]. unfold traces_page. rewrite C98_row_partial; [done|repeat constructor|done].
Qed.
Print Assumptions C98_refuted.
(** ... and with every store, a list without any ID, such as the one of a row without slowest traces, asks for all traces. *)
Theorem C98_none_refuted : show_just (row_show []) = show_just "" /\ exists show, show <> ""%string /\ show_just show = show_just "".
Proof. split; [done|]. by exists "x,y"%string. Qed.
Print Assumptions C98_none_refuted.

(** ** C99: the selection of traces to aggregate *)

(** C99: no selection means all traces... *)
Theorem C99_all : forall traces, selected traces "" = Some traces.
Proof. done. Qed.
Print Assumptions C99_all.
Lemma select_items traces parts : select traces parts = r ← mapM (fun a => match parse_id a with inl i => Some i | inr _ => None end) (map unbytes parts);
  Some (concat (map (fun i => filter (fun t => sp_trace (tr_id t) = i) traces) r)).
Proof.
  induction parts as [|p parts IH]; [done|]. cbn [select map mapM]. rewrite IH. destruct (parse_id (unbytes p)) as [i|e]; [|done]. cbn.
  by destruct (mapM _ (map unbytes parts)).
Qed.
(** ... an item that names no ID is an error... *)
Theorem C99_error : forall traces items sel, sel <> ""%string -> comma_list items sel ->
  (exists a, In a items /\ ~ exists v, names_id a v) -> selected traces sel = None.
Proof.
  intros traces items sel Hne Hc%comma_split (a & Ha & Hv). unfold selected. destruct sel as [|c s] eqn:E; [done|]. rewrite -E in Hc |- *.
  rewrite select_items Hc. destruct (mapM _ items) as [r|] eqn:Em; [|done]. exfalso. apply mapM_Some in Em.
  apply elem_of_list_In, elem_of_list_lookup in Ha as [k Hk]. destruct (Forall2_lookup_l _ _ _ _ _ Em Hk) as (i & _ & Hi).
  destruct (parse_id a) as [j|] eqn:Ea; [|done]. apply Hv. exists j. by apply names_parse.
Qed.
Print Assumptions C99_error.
Lemma select_perm traces ids : List.NoDup ids ->
  concat (map (fun i => filter (fun t => sp_trace (tr_id t) = i) traces) ids) ≡ₚ filter (fun t => sp_trace (tr_id t) ∈ ids) traces.
Proof.
  intros Hnd. induction Hnd as [|i ids Hi Hnd IH]; cbn [map concat].
  { induction traces as [|t traces IH]; [done|]. rewrite filter_cons. case_decide as H; [by apply not_elem_of_nil in H|done]. }
  rewrite IH. clear IH. induction traces as [|t traces IH]; [done|]. rewrite !filter_cons.
  assert (sp_trace (tr_id t) = i -> sp_trace (tr_id t) ∉ ids) as Hni by (intros ->; by rewrite elem_of_list_In).
  assert (sp_trace (tr_id t) ∈ i :: ids <-> sp_trace (tr_id t) = i \/ sp_trace (tr_id t) ∈ ids) as Hc by apply elem_of_cons.
  case_decide as E1; case_decide as E2; case_decide as E3; try tauto.
  - cbn [app]. by rewrite IH.
  - rewrite -IH. by rewrite -Permutation_middle.
Qed.
(** C99 (proved part): ... and otherwise exactly the traces with the IDs are aggregated, each of them once, if no ID is named twice. *)
Theorem C99_selected_partial : forall traces items sel ids, sel <> ""%string -> comma_list items sel ->
  Forall2 names_id items ids -> List.NoDup ids ->
  exists r, selected traces sel = Some r /\ r ≡ₚ filter (fun t => sp_trace (tr_id t) ∈ ids) traces.
Proof.
  intros traces items sel ids Hne Hc%comma_split Hids Hnd. unfold selected. destruct sel as [|c s] eqn:E; [done|]. rewrite -E in Hc |- *.
  rewrite select_items Hc. assert (mapM (fun a => match parse_id a with inl i => Some i | inr _ => None end) items = Some ids) as ->.
  { apply mapM_Some. eapply Forall2_impl; [exact Hids|]. intros a i Ha%names_parse. cbn in Ha. by rewrite Ha. }
  cbn. eexists. split; [done|]. by apply select_perm.
Qed.
Print Assumptions C99_selected_partial.
Example C99_nonvacuous :
  let t1 := Tree (MkSpanID 1 1 0) [] [] in let t2 := Tree (MkSpanID 2 1 0) [] [] in let t3 := Tree (MkSpanID 3 1 0) [] [] in
  selected [t1; t2; t3] "3,01" = Some [t3; t1] /\ selected [t1; t2; t3] "3,x" = None /\
  Forall2 names_id ["3"; "01"]%string [3; 1] /\ comma_list ["3"; "01"]%string "3,01".
Proof. cbn zeta. split_and!; [vm_compute; reflexivity..| |by apply comma_split]. repeat constructor; by apply names_parse. Qed.
(** C99 is false of selections that name an ID twice, in whatever way: its trace is counted twice. *)
Theorem C99_refuted : exists traces sel items ids r t, comma_list items sel /\ Forall2 names_id items ids /\ List.NoDup items /\
  List.NoDup traces /\ selected traces sel = Some r /\ r = [t; t].
Proof.
  exists [Tree (MkSpanID 1 1 0) [] []], "1,01"%string, ["1"; "01"]%string, [1; 1], [Tree (MkSpanID 1 1 0) [] []; Tree (MkSpanID 1 1 0) [] []], (Tree (MkSpanID 1 1 0) [] []).
  split; [by apply comma_split|]. split; [repeat constructor; by apply names_parse|].
  split; [repeat constructor; cbn; intuition discriminate|]. split; [repeat constructor; intros []|]. split; [vm_compute; reflexivity|done].
Qed.
Print Assumptions C99_refuted.

(** ** C100: the dashboard's window *)

(** C100 (proved part): an hour between 292 years ago and 292 years ahead is taken as that many hours from 72 hours ago. *)
Theorem C100_window_partial : forall v : Z, (-2561975 <= v <= 2562119)%Z ->
  window_bound (fmt_int v) = Some ((v - 72) * 3600000000000)%Z.
Proof.
  intros v Hv. unfold window_bound. pose proof (parse_fmt_int v ltac:(lia)) as Hp. destruct (fmt_int v) as [|c s] eqn:E; [done|].
  rewrite Hp. cbn [mbind option_bind]. f_equal. unfold int64.
  rewrite (_ : (v * 3600000000000 + 2 ^ 63) mod 2 ^ 64 - 2 ^ 63 - 72 * 3600000000000 + 2 ^ 63 = (v * 3600000000000 + 2 ^ 63) mod 2 ^ 64 + (- 72 * 3600000000000))%Z; [lia|].
  rewrite Z.add_mod_idemp_l; [lia|]. rewrite Z.mod_small; lia.
Qed.
Print Assumptions C100_window_partial.
(** An absent bound is zero, text that is no integer is an error. *)
Theorem C100_absent : window_bound "" = Some 0%Z /\ forall s, s <> ""%string -> parse_int s = None -> window_bound s = None.
Proof. split; [done|]. intros [|c s] Hs H; [done|]. unfold window_bound. by rewrite H. Qed.
Print Assumptions C100_absent.
Example C100_nonvacuous : window_bound (fmt_int 0) = Some (-259200000000000)%Z /\ window_bound (fmt_int 72) = Some 0%Z /\ window_bound "1h" = None.
Proof. split_and!; vm_compute; reflexivity. Qed.
(** C100 is false of all integers: a later end can be taken as an earlier one. *)
Theorem C100_refuted : exists v w b c : Z, (72 <= v < w)%Z /\ window_bound (fmt_int v) = Some b /\ window_bound (fmt_int w) = Some c /\ (c < 0 < b)%Z.
Proof. exists 73%Z, 2562120%Z. eexists _, _. split; [lia|]. split; [vm_compute; reflexivity|]. split; [vm_compute; reflexivity|]. lia. Qed.
Print Assumptions C100_refuted.
