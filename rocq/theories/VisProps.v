(** Properties C62, C63, C86: the timeline. *)
From Verif Require Import Base FloatModel IdModel TimeModel ReflModel EventModel EventProofs EventProps TraceModel TraceSpec ProfModel VisModel VisSpec VisProofs.
From Coq Require Import ssreflect.
Local Open Scope Z_scope.
Local Open Scope general_if_scope.

Lemma string_map_last anns k v : string_map anns !! k = Some v <->
  exists before a after, anns = before ++ a :: after /\ ann_key a = k /\ val_bytes (ann_val a) = v /\ Forall (fun b => ann_key b <> k) after.
Proof.
  induction anns as [|x anns IH] using rev_ind.
  { split; [by rewrite lookup_empty|]. intros (b & a & c & H & _). by destruct b. }
  rewrite string_map_app. cbn [fold_left]. destruct (decide (ann_key x = k)) as [<-|Hk].
  - rewrite lookup_insert. split.
    + intros [= <-]. exists anns, x, []. by repeat split.
    + intros (b & a & c & H & Ha & <- & Hc). destruct c as [|y c _] using rev_ind.
      * apply app_inj_tail in H as [_ <-]. done.
      * rewrite app_comm_cons app_assoc in H. apply app_inj_tail in H as [_ <-]. apply Forall_app in Hc as [_ [Hc _]%Forall_cons]. congruence.
  - rewrite lookup_insert_ne // IH. split; intros (b & a & c & H & Ha & Hv & Hc).
    + exists b, a, (c ++ [x]). rewrite H -app_assoc. repeat split; [done..|]. apply Forall_app. split; [done|]. by apply Forall_singleton.
    + destruct c as [|y c _] using rev_ind.
      * apply app_inj_tail in H as [_ <-]. done.
      * rewrite app_comm_cons app_assoc in H. apply app_inj_tail in H as [-> <-]. apply Forall_app in Hc as [Hc _]. by exists b, a, c.
Qed.
Lemma shown_timed reg depth t : Forall (fun x => timed reg (snd x) <> [] /\ snd x ∈ visited reg t) (shown reg depth t).
Proof.
  revert depth. induction t as [i anns subs IH] using tree_ind'. intros depth. rewrite shown_unfold visited_unfold.
  destruct (timed reg (Tree i anns subs)) as [|x l] eqn:Ht; [by constructor|]. constructor.
  - cbn [snd]. rewrite Ht. split; [done|left].
  - apply Forall_concat. apply Forall_map. rewrite Forall_forall in IH. apply Forall_forall. intros c Hc.
    eapply Forall_impl; [exact (IH c Hc (S depth))|]. intros y [H1 H2]. split; [done|]. right. apply elem_of_list_In, in_concat.
    exists (visited reg c). split; [by apply in_map, elem_of_list_In|by apply elem_of_list_In].
Qed.
Lemma item_describes reg us fmt x : sound reg us (snd x) -> timed reg (snd x) <> [] -> describes reg us x (item_of reg us fmt x).
Proof.
  intros (Hu & [u Hurl] & Hn) Ht. destruct x as [depth t]. cbn [snd] in *. split; cbn [fst snd item_of it_label it_full it_times it_data it_span it_parent it_url it_visible].
  - done.
  - done.
  - intros Hp. by apply N.eqb_neq in Hp as ->.
  - by intros ->.
  - rewrite Hurl. done.
  - intros k v. apply string_map_last.
  - apply Nat.leb_le.
  - by rewrite bars_nil.
  - intros Hp. rewrite /bars durations_se Hp step_root map_map. by cbn [app].
  - intros Hp. rewrite /bars. destruct (timed reg t) as [|e l]; [done|].
    destruct (step_first _ e l Hp) as (b & -> & _ & _ & He & Hl). rewrite durations_cons. cbn [map].
    eexists. split; [reflexivity|]. by destruct (with_length_se fmt (span_name (tr_anns t)) (length_of b) b) as [-> ->].
Qed.

(** ** C62: timeline items are always drawable *)
(** The items are those of the spans with a timed event whose ancestors have one too, in depth-first order.  Each has
    a label and at least one timespan; that of a span with a parent runs from the earliest start to the latest end. *)
Theorem C62_items reg us fmt t items : d3timeline reg us fmt t = ROk items ->
  Forall2 (describes reg us) (shown reg 0 t) items.
Proof.
  rewrite /d3timeline. intros [Hs ->]%timeline_spec. pose proof (shown_timed reg 0 t) as Hv. rewrite Forall_forall in Hs.
  revert Hv. generalize (shown reg 0 t). induction 1 as [|x l [Ht Hx] _ IH]; cbn [map]; constructor; [|exact IH].
  apply item_describes; [by apply Hs|done].
Qed.
Print Assumptions C62_items.
(** The milliseconds of a time are those since 1970, and they have the order of the instants. *)
Theorem C62_milliseconds a b : in_range a -> in_range b ->
  epoch_ms a = Z.quot (instant a - unix_epoch) 1000000 /\ (instant a <= instant b -> epoch_ms a <= epoch_ms b).
Proof.
  intros Ha Hb. assert (forall t, in_range t -> unix_nano t = instant t - unix_epoch) as H.
  { intros t Ht. rewrite /in_range in Ht. rewrite /unix_nano /int64. rewrite Z.mod_small; lia. }
  rewrite /epoch_ms (H _ Ha) (H _ Hb). split; [done|]. intros Hle. apply Z.quot_le_mono; lia.
Qed.
Print Assumptions C62_milliseconds.

Definition c62_us : urls := MkUrls (fun i => Some ("/traces/" +:+ id_string i)%string) (fun i j => Some ("/traces/" +:+ id_string i +:+ "/" +:+ id_string j)%string).
Definition c62_name (n : string) : list Annotation := [Ann "Name" (Some n); Ann "_schema:name" None].
Definition c62_ts (s e : string) : list Annotation := [Ann "S" (Some s); Ann "E" (Some e); Ann "_schema:timespan" None].
Definition c62_ts' (s e : string) : list Annotation := [Ann "Span.Start" (Some s); Ann "Span.End" (Some e); Ann "_schema:Timespan" None].
(** Formats whole seconds up to nine. *)
Definition c62_fmt (d : Z) : string := String (ascii_of_N (48 + Z.to_N (d / 1000000000))) "s".
Definition c62_show (r : res (list item)) : list (string * string * list bar * bool) :=
  match r with ROk its => map (fun it => (it_label it, it_parent it, it_times it, it_visible it)) its | _ => [] end.
Definition c62_trace : tree :=
  Tree (MkSpanID 1 2 0) (c62_name "root" ++ c62_ts "1970-01-01T00:00:00Z" "1970-01-01T00:00:05Z")
    [Tree (MkSpanID 1 3 2) (c62_name "child" ++ c62_ts "1970-01-01T00:00:01Z" "1970-01-01T00:00:02Z" ++ c62_ts' "1970-01-01T00:00:02Z" "1970-01-01T00:00:04Z")
       [Tree (MkSpanID 1 4 3) (c62_name "leaf" ++ c62_ts "1970-01-01T00:00:03Z" "1970-01-01T00:00:03Z") []]].
Example C62_nonvacuous : exists reg, register_all library_events = Some reg /\
  c62_show (d3timeline reg c62_us c62_fmt c62_trace) =
    [("root", "", [MkBar "root (5s)" 0 5000 5000000000], true);
     ("child", "0000000000000002", [MkBar "child (3s)" 1000 4000 3000000000], true);
     ("leaf", "0000000000000003", [MkBar "" 3000 3000 0], false)]%string.
Proof. eexists. split; [vm_compute; reflexivity|]. vm_compute. reflexivity. Qed.

(** ** C63: the timeline shows every timed span *)
(** False: one span without a name makes the whole timeline fail ... *)
Definition c63_nameless : tree :=
  Tree (MkSpanID 1 2 0) (c62_name "root" ++ c62_ts "1970-01-01T00:00:00Z" "1970-01-01T00:00:05Z") [Tree (MkSpanID 1 3 2) [] []].
(** ... and a span without times hides the spans below it. *)
Definition c63_untimed : tree :=
  Tree (MkSpanID 1 2 0) (c62_name "root")
    [Tree (MkSpanID 1 3 2) (c62_name "child" ++ c62_ts "1970-01-01T00:00:01Z" "1970-01-01T00:00:02Z") []].
Theorem C63_refuted : exists reg t s, register_all library_events = Some reg /\ s ∈ subtrees t /\
  span_name (tr_anns s) <> ""%string /\ timed reg s <> [] /\
  forall items, d3timeline reg c62_us c62_fmt t = ROk items -> Forall (fun it => it_label it <> span_name (tr_anns s)) items.
Proof.
  destruct (register_all library_events) as [reg|] eqn:E; [|exfalso; revert E; vm_compute; congruence].
  exists reg, c63_untimed, (Tree (MkSpanID 1 3 2) (c62_name "child" ++ c62_ts "1970-01-01T00:00:01Z" "1970-01-01T00:00:02Z") []).
  vm_compute in E. injection E as <-. split; [done|]. split; [right; left|]. split; [by vm_compute|]. split; [by vm_compute|].
  intros items H. assert (items = []) as ->; [|by constructor]. revert H. vm_compute. by intros [= <-].
Qed.
Print Assumptions C63_refuted.
Theorem C63_nameless_refuted : exists reg, register_all library_events = Some reg /\
  span_name (tr_anns c63_nameless) <> ""%string /\ timed reg c63_nameless <> [] /\ d3timeline reg c62_us c62_fmt c63_nameless = RErr.
Proof. eexists. split; [vm_compute; reflexivity|]. split; [done|]. split; by vm_compute. Qed.
Print Assumptions C63_nameless_refuted.

(** The timeline fails exactly when one of the spans whose ancestors are all timed has no name, no URL or events that
    cannot be decoded. *)
Theorem C63_fails reg us fmt t :
  (exists items, d3timeline reg us fmt t = ROk items) <->
  Forall (fun s => snd (unmarshal_events reg (tr_anns s)) = EsOk /\ is_Some (url_of us (tr_id s)) /\ span_name (tr_anns s) <> ""%string) (visited reg t).
Proof.
  split.
  - intros [items H]. by apply timeline_spec in H as [H _].
  - intros H. eexists. apply timeline_spec. by split.
Qed.
Print Assumptions C63_fails.
(** What holds: if all the spans have a name and a timed event, they are all shown, in depth-first order.  Missing:
    spans below, or beside, ones without. *)
Theorem C63_partial us fmt t :
  (forall i, is_Some (u_trace us i)) -> (forall i j, is_Some (u_span us i j)) ->
  exists reg, register_all library_events = Some reg /\
  (Forall (fun s => span_name (tr_anns s) <> ""%string /\ timed reg s <> []) (subtrees t) ->
   exists items depths, d3timeline reg us fmt t = ROk items /\ length depths = length (subtrees t) /\
     Forall2 (describes reg us) (zip depths (subtrees t)) items).
Proof.
  intros H1 H2. destruct (C79_library_total []) as (reg & Hreg & _). exists reg. split; [done|]. intros Hall.
  assert (forall anns, snd (unmarshal_events reg anns) = EsOk) as Hok.
  { intros anns. destruct (C79_library_total anns) as (reg' & Hreg' & H). rewrite Hreg in Hreg'. by injection Hreg' as <-. }
  assert (visited reg t = subtrees t) as Hv.
  { clear -Hall. induction t as [i anns subs IH] using tree_ind'. cbn [subtrees] in Hall |- *. apply Forall_cons in Hall as [[_ Ht] Hall].
    rewrite visited_unfold. destruct (timed reg (Tree i anns subs)); [done|]. f_equal. f_equal. clear -IH Hall.
    induction IH as [|c subs Hc _ IHs]; [done|]. cbn [map concat] in Hall |- *. apply Forall_app in Hall as [Hx Hy]. by rewrite Hc // IHs. }
  assert (forall d, exists depths, length depths = length (subtrees t) /\ shown reg d t = zip depths (subtrees t)) as Hz.
  { clear -Hall. induction t as [i anns subs IH] using tree_ind'. intros d. cbn [subtrees] in Hall |- *. apply Forall_cons in Hall as [[_ Ht] Hall].
    rewrite shown_unfold. destruct (timed reg (Tree i anns subs)); [done|].
    assert (exists depths, length depths = length (concat (map subtrees subs)) /\ concat (map (shown reg (S d)) subs) = zip depths (concat (map subtrees subs))) as (depths & Hl & Hd).
    { clear -IH Hall. induction IH as [|c subs Hc _ IHs]; [by exists []|]. cbn [map concat] in Hall |- *. apply Forall_app in Hall as [Hx Hy].
      destruct (Hc Hx (S d)) as (d1 & Hl1 & ->). destruct (IHs Hy) as (d2 & Hl2 & ->). exists (d1 ++ d2).
      split; [by rewrite !app_length Hl1 Hl2|]. by rewrite zip_with_app. }
    exists (d :: depths). cbn [length zip_with]. by rewrite Hl Hd. }
  destruct (Hz 0%nat) as (depths & Hl & Hd).
  destruct (proj2 (C63_fails reg us fmt t)) as [items Hi].
  { rewrite Hv. eapply Forall_impl; [exact Hall|]. intros s [Hn _]. split; [done|]. split; [|done]. rewrite /url_of. destruct (N.eqb _ _); auto. }
  exists items, depths. split; [done|]. split; [done|]. rewrite -Hd. exact (C62_items _ _ _ _ _ Hi).
Qed.
Print Assumptions C63_partial.
Example C63_nonvacuous : exists reg, register_all library_events = Some reg /\
  Forall (fun s => span_name (tr_anns s) <> ""%string /\ timed reg s <> []) (subtrees c62_trace).
Proof. eexists. split; [vm_compute; reflexivity|]. cbn [subtrees c62_trace map concat app]. repeat (apply Forall_cons; split; [split; by vm_compute|]). by apply Forall_nil. Qed.

(** ** C86: the length of a bar is that of its timespan *)
(** False for a root with several timespans: all the bars get the length of the first, in the number and in the label. *)
Definition c86_trace : tree :=
  Tree (MkSpanID 1 2 0) (c62_name "root" ++ c62_ts "1970-01-01T00:00:00Z" "1970-01-01T00:00:01Z" ++ c62_ts' "1970-01-01T00:00:00Z" "1970-01-01T00:00:05Z") [].
Theorem C86_refuted : exists reg it, register_all library_events = Some reg /\
  d3timeline reg c62_us c62_fmt c86_trace = ROk [it] /\
  it_times it = [MkBar "root (1s)" 0 1000 1000000000; MkBar "root (1s)" 0 5000 1000000000]%string.
Proof.
  destruct (register_all library_events) as [reg|] eqn:E; [|exfalso; revert E; vm_compute; congruence].
  vm_compute in E. injection E as <-. eexists _, _. split; [reflexivity|]. split; [vm_compute; reflexivity|]. reflexivity.
Qed.
Print Assumptions C86_refuted.
(** What holds: the bars have the length of the first one, hence a single bar has its own.  Missing: the bars after
    the first. *)
Theorem C86_partial reg us fmt t items it b bs : d3timeline reg us fmt t = ROk items -> it ∈ items ->
  it_times it = b :: bs -> Z.abs (b_end b - b_start b) * 1000000 < 2 ^ 63 ->
  Forall (fun b' =>
    (b_start b < b_end b -> b_duration b' = (b_end b - b_start b) * 1000000 /\ b_label b' = (it_label it +:+ " (" +:+ fmt (b_duration b') +:+ ")")%string) /\
    (b_end b <= b_start b -> b_duration b' = 0)) (it_times it).
Proof.
  rewrite /d3timeline. intros [_ ->]%timeline_spec [[d s] [-> _]]%elem_of_list_fmap Ht Hb.
  cbn [item_of it_times it_label snd] in Ht |- *. rewrite /bars in Ht |- *.
  assert (Forall (fun x => b_duration x = 0) (fold_left (times_step (sp_parent (tr_id s))) (timed reg s) [])) as H0.
  { destruct (decide (sp_parent (tr_id s) = 0%N)) as [->|Hp].
    - rewrite step_root. cbn [app]. apply Forall_map. by apply Forall_true.
    - destruct (timed reg s) as [|e l]; [by constructor|]. destruct (step_first _ e l Hp) as (b' & -> & _ & ? & _). by apply Forall_cons; split; [|constructor]. }
  destruct (fold_left (times_step (sp_parent (tr_id s))) (timed reg s) []) as [|b0 l]; [done|].
  rewrite durations_cons in Ht |- *. 
  assert (b_end b - b_start b = b_end b0 - b_start b0) as Hse.
  { cbn [map] in Ht. injection Ht as <- _. by destruct (with_length_se fmt (span_name (tr_anns s)) (length_of b0) b0) as [-> ->]. }
  assert (length_of b0 = (b_end b - b_start b) * 1000000) as Hl.
  { rewrite /length_of -Hse. assert (forall z, - 2 ^ 63 <= z < 2 ^ 63 -> int64 z = z) as Hsm by (intros z Hz; rewrite /int64 Z.mod_small; lia).
    rewrite (Hsm (b_end b - b_start b)); [lia|]. rewrite Hsm; lia. }
  rewrite Hl. apply Forall_map. eapply Forall_impl; [exact H0|]. intros x Hx. cbn beta in Hx |- *. rewrite /with_length.
  destruct (Z.ltb_spec 0 ((b_end b - b_start b) * 1000000)); split; intros Hlt; try lia; cbn [b_duration b_label]; done.
Qed.
Print Assumptions C86_partial.
Example C86_nonvacuous : exists reg it b, register_all library_events = Some reg /\
  d3timeline reg c62_us c62_fmt c86_trace = ROk [it] /\ hd_error (it_times it) = Some b /\ b_start b < b_end b /\ Z.abs (b_end b - b_start b) * 1000000 < 2 ^ 63.
Proof.
  destruct C86_refuted as (reg & it & H1 & H2 & H3). exists reg, it, (MkBar "root (1s)" 0 1000 1000000000). rewrite H3. done.
Qed.
