(** Property C131 (the aggregated view of the selected traces). *)
From Verif Require Import Base IdModel IdSpec IdProofs TraceModel WebModel WebSpec WebProofs WebProps HrefModel.
From Coq Require Import ssreflect.
Local Open Scope general_if_scope.
Local Open Scope string_scope.

(** The traces with the given IDs, each once, in any order. *)
Definition just_these (traces : list tree) (ids : list N) (shown : list tree) : Prop :=
  shown ≡ₚ filter (fun t => sp_trace (tr_id t) ∈ ids) traces.

Lemma param_of l : selection_param ("?selection=" +:+ l) = l.
Proof.
  rewrite /selection_param. assert (String.prefix "?selection=" ("?selection=" +:+ l) = true) as ->.
  { generalize "?selection=". intros p. induction p as [|c p IH]; [by destruct l|]. cbn. by destruct (ascii_dec c c). }
  rewrite bytes_app. change (String.length "?selection=") with (length (bytes "?selection=")). rewrite drop_app. apply unbytes_bytes.
Qed.
Lemma view_some traces checked : checked <> [] -> Forall is_id checked -> List.NoDup checked ->
  exists shown, selected traces (row_show checked) = Some shown /\ just_these traces checked shown.
Proof.
  intros Hne Hids Hnd. assert (row_show checked <> "") as Hs.
  { intros E. pose proof (C98_row_partial checked Hne Hids) as H. rewrite E in H. cbn in H. congruence. }
  apply (C99_selected_partial traces (map id_string checked) (row_show checked) checked Hs); [by apply row_comma| |done].
  clear -Hids. induction Hids as [|x l Hx Hl IH]; [constructor|]. cbn. constructor; [by apply id_named|done].
Qed.
(** C131, what holds: if one or more, but not all, of the listed traces are selected, or if all are and the list
    shows all traces there are (at the time of the click), then the view is about exactly the selected ones. *)
Theorem C131_partial : forall traces listed checked, Forall is_id checked -> List.NoDup checked -> checked <> [] ->
  (forall t, In t checked -> In t listed) ->
  (length checked = length listed -> forall t, In t traces -> In (sp_trace (tr_id t)) checked) ->
  exists shown, aggregated_view traces listed checked = Some shown /\ just_these traces checked shown.
Proof.
  intros traces listed checked Hids Hnd Hne Hsub Hall. rewrite /aggregated_view /aggregate_query.
  destruct (Nat.eqb_spec (length checked) (length listed)) as [E|E].
  - exists traces. split; [done|]. rewrite /just_these. specialize (Hall E). clear -Hall.
    induction traces as [|t traces IH]; [done|]. rewrite filter_cons decide_True; [apply elem_of_list_In, Hall; by left|].
    f_equiv. apply IH. intros x Hx. apply Hall. by right.
  - rewrite param_of. by apply view_some.
Qed.
Print Assumptions C131_partial.
(** Otherwise the view is about all traces: with all of a partial list selected, and with none selected. *)
Theorem C131_else_partial : forall traces listed checked, checked = [] \/ length checked = length listed ->
  aggregated_view traces listed checked = Some traces.
Proof.
  intros traces listed checked H. rewrite /aggregated_view /aggregate_query.
  destruct (Nat.eqb_spec (length checked) (length listed)) as [E|E]; [done|]. destruct H as [->|H]; [|done]. done.
Qed.
Print Assumptions C131_else_partial.
(** So C131 is false. *)
Theorem C131_refuted : exists traces listed checked, Forall is_id checked /\ List.NoDup checked /\ checked <> [] /\
  (forall t, In t checked -> In t listed) /\ (forall t, In t listed -> exists tr, In tr traces /\ sp_trace (tr_id tr) = t) /\
  exists shown, aggregated_view traces listed checked = Some shown /\ ~ just_these traces checked shown.
Proof.
  exists [Tree (MkSpanID 1 1 0) [] []; Tree (MkSpanID 2 2 0) [] []], [1], [1].
  split; [by repeat constructor|]. split; [repeat constructor; by intros []|]. split; [done|]. split; [done|].
  split; [intros t [<- | []]; eexists; split; [by left|done]|]. eexists. split; [reflexivity|].
  intros H%Permutation_length. vm_compute in H. done.
Qed.
Print Assumptions C131_refuted.
Theorem C131_none_refuted : exists traces listed shown, aggregated_view traces listed [] = Some shown /\ ~ just_these traces [] shown.
Proof.
  exists [Tree (MkSpanID 1 1 0) [] []], [1]. eexists. split; [reflexivity|]. intros H%Permutation_length. vm_compute in H. done.
Qed.
Print Assumptions C131_none_refuted.
Example C131_nonvacuous :
  let t1 := Tree (MkSpanID 1 1 0) [] [] in let t2 := Tree (MkSpanID 2 1 0) [] [] in let t3 := Tree (MkSpanID 3 1 0) [] [] in
  aggregated_view [t1; t2; t3] [1; 2; 3] [3; 1] = Some [t3; t1] /\ aggregate_query [1; 2; 3] [3; 1] = "?selection=0000000000000003,0000000000000001".
Proof. by vm_compute. Qed.
