(** Property C155: the chart of the aggregated view. *)
From Verif Require Import Base ReflModel ReflProofs IdJsonModel EventModel JsonModel JsonSpec JsonProofs JsonGramSpec JsonGramProofs
  TraceModel TraceSpec UploadModel ExportProps ProfModel ProfSpec ProfProofs ProfProps EscModel DashModel DashProps VisTextProps ChartModel.
From Coq Require Import ssreflect.
Local Open Scope general_if_scope.
Local Open Scope Z_scope.

(** A segment of the chart: its label (replacement characters for what is not UTF-8), its value. *)
Inductive segment (label : string) (v : Z) : json -> Prop :=
| Segment jl jv : text_is jl label -> number_is jv v -> segment label v (JObj [(Base.bytes "label", jl); (Base.bytes "value", jv)]).
(** Nothing to aggregate: no traces; or only traces that consist of their root spans, in the modes that leave these out. *)
Definition nothing (mode : agg_mode) (traces : list tree) : Prop :=
  match mode with TraceOnly => traces = [] | _ => forall t, In t traces -> tr_subs t = [] end.

Lemma chart_read bf items : Forall (fun x => int64_range (snd x)) items ->
  exists l, document false (chart_script bf items) (JArr l) /\ Forall2 (fun x j => segment (fst x) (snd x) j) items l.
Proof.
  intros H. exists (map san (map enc_agg items)).
  assert (nums (JArr (map enc_agg items)) /\ Forall2 (fun x j => segment (fst x) (snd x) j) items (map san (map enc_agg items))) as [H1 H2].
  { cbn [nums]. induction H as [|x items Hx _ [IH1 IH2]]; [split; [done|constructor]|]. cbn [map]. split.
    - split; [|done]. cbn. split; [done|]. split; [apply fmt_int_number|done].
    - constructor; [|done]. apply Segment; [done|]. by apply int_is. }
  split; [|done]. by apply (compact_document bf (JArr (map enc_agg items))).
Qed.

(** C155: the browser draws one segment for each aggregated item, with its label and its value (C61_totals), which is
    positive; and one segment that says so if there is nothing to aggregate. *)
Theorem C155_chart : forall bf reg us mode traces items times,
  aggregate reg us mode traces (ROk items) ->
  Forall2 (longest reg) (concat (map subtrees traces)) times -> sum times + 1 < 2 ^ 63 ->
  exists data l, document false (chart_script bf items) data /\ chart_content data = JArr l /\
    (nothing mode traces /\ items = [] /\ Forall2 (fun x j => segment (fst x) (snd x) j) [("no traces to aggregate"%string, 1)] l \/
     ~ nothing mode traces /\ items <> [] /\ Forall2 (fun x j => segment (fst x) (snd x) j) items l /\ Forall (fun x => 0 < snd x) items).
Proof.
  intros bf reg us mode traces items times Ha Ht Hs.
  assert (forall x, x ∈ items -> 0 < snd x < 2 ^ 63) as Hv.
  { intros [label v] Hin. split; [exact (C61_positive _ _ _ _ _ _ _ _ Ha Ht Hs Hin)|].
    destruct (C61_totals _ _ _ _ _ _ Ha Ht Hs) as (profs & Hf & _ & H).
    destruct (proj1 (H label v) Hin) as (x & rest & E & ->). pose proof (own_all _ _ _ Ht) as Hown. rewrite Hown in Hs.
    destruct (all_counted_bound reg us mode traces profs Hf ltac:(lia)) as [Hpos Hsum].
    destruct (amounts_bound label _ Hpos) as [Hn Hb]. rewrite E sum_cons in Hb. cbn [snd]. destruct (decide (x = 0)); lia. }
  destruct (chart_read bf items) as (l & Hd & Hl).
  { apply Forall_forall. intros x Hx%Hv. unfold int64_range. lia. }
  assert (nothing mode traces <-> items = []) as Hnone.
  { destruct (C61_totals _ _ _ _ _ _ Ha Ht Hs) as (profs & Hf & _ & H).
    assert (items = [] <-> concat (map (counted mode) profs) = []) as ->.
    { split.
      - intros ->. destruct (concat (map (counted mode) profs)) as [|[lb v] r] eqn:E; [done|]. exfalso.
        assert (exists w, (lb, w) ∈ ([] : list (string * Z))) as [w Hw].
        { eexists. apply H. rewrite /amounts filter_cons decide_True //. cbn [map]. by eexists _, _. }
        by apply elem_of_nil in Hw.
      - intros E. destruct items as [|[lb v] r]; [done|]. destruct (proj1 (H lb v) ltac:(left)) as (x & rest & E' & _). by rewrite E in E'. }
    clear -Hf. induction Hf as [|t prof traces profs Hc _ IH].
    - split; [done|]. intros _. destruct mode; [done|by intros ? []..].
    - cbn [map concat]. apply calc_spec in Hc as (-> & _ & _). destruct t as [i anns subs]. cbn [subtrees map].
      destruct mode; cbn [counted].
      + done.
      + rewrite app_nil. cbn [nothing In] in *. rewrite -IH. split.
        * intros G. split; [|intros t Ht; apply G; by right]. specialize (G (Tree i anns subs) (or_introl eq_refl)). cbn in G. by subst.
        * intros [G1 G2] t [<-|Ht]; [|by apply G2]. cbn [tr_subs]. destruct subs as [|[j b k] subs]; done.
      + rewrite app_nil. cbn [nothing In] in *. rewrite -IH. split.
        * intros G. split; [|intros t Ht; apply G; by right]. specialize (G (Tree i anns subs) (or_introl eq_refl)). cbn in G. by subst.
        * intros [G1 G2] t [<-|Ht]; [|by apply G2]. cbn [tr_subs]. destruct subs as [|[j b k] subs]; done. }
  exists (JArr l). destruct items as [|x items].
  - inversion Hl; subst. eexists. split; [done|]. split; [reflexivity|]. left. split; [by apply Hnone|]. split; [done|].
    constructor; [|constructor]. apply Segment; [done|]. by exists "1"%string.
  - exists l. split; [done|]. inversion Hl as [|? y ? l' Hy Hl']; subst. split; [done|]. right. split; [by rewrite Hnone|]. split; [done|]. split; [done|].
    apply Forall_forall. intros z Hz. by apply Hv.
Qed.
Print Assumptions C155_chart.
Example C155_nonvacuous : exists reg items times, register_all library_events = Some reg /\
  aggregate reg c60_us SpanOnly [c60_trace; c60_trace] (ROk items) /\
  Forall2 (longest reg) (concat (map subtrees [c60_trace; c60_trace])) times /\ sum times + 1 < 2 ^ 63 /\
  ~ nothing SpanOnly [c60_trace; c60_trace] /\ ("a"%string, 4) ∈ items.
Proof.
  destruct C61_nonvacuous as (reg & H1 & (times & H2 & H3) & items & H4 & H5 & _). exists reg, items, times. split_and!; try done.
  intros H. specialize (H c60_trace (or_introl eq_refl)). discriminate H.
Qed.
Example C155_text : chart_script false [("a/""b<"%string, 4); ("z"%string, 1)] = Base.bytes "[{""label"":""a/\""b\u003c"",""value"":4},{""label"":""z"",""value"":1}]".
Proof. by vm_compute. Qed.
