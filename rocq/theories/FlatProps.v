(** Property C129 (events read from annotations that anyone may have written). *)
From Verif Require Import Base StrOrder ReflModel TimeModel NumModel ReflProofs ReflProofs2 ReflProofs3 EventModel EventSpec EventProofs PyProps FlatSpec FlatProofs.
From Coq Require Import ssreflect Sorted.
From stdpp Require Import sorting.
Local Open Scope general_if_scope.

(** C129 (partial): of an event with simple fields, a field takes the value its text stands for if it and all
    fields before it in alphabetical order have a text that stands for a value; other fields stay as they were.
    Missing: a field without a text, or with one that stands for nothing, should not keep the later fields from
    being read; numerals too large for the field should not be taken.  A field without an annotation must not be
    the beginning of another annotation's key. *)
Theorem C129_partial : forall schema fs anns l,
  NoDup (map fst fs) -> (forall n t, In (n, t) fs -> simple_field t) -> map fst l = map fst fs ->
  (exists v, In (Ann ("_schema:" +:+ schema) v) anns) ->
  (forall n t, In (n, t) fs -> starts_a_key anns n -> exists s, last_text anns n s) ->
  exists l', unmarshal (plain_event schema fs) anns (VStruct l) = EDone (VStruct l') /\ map fst l' = map fst fs /\
    forall n t x x', In (n, t) fs -> In (n, x) l -> In (n, x') l' ->
      (readable_up_to fs anns n -> exists s, last_text anns n s /\ text_value t s x') /\
      (~ readable_up_to fs anns n -> x' = x).
Proof.
  intros schema fs anns l Hnd Hsim Hl [v Hin] Hst. set (M := string_map anns).
  assert (M !! ("_schema:" +:+ schema)%string <> None) as HM.
  { intros E. apply in_split in Hin as (a & b & ->). rewrite /M string_map_app in E. cbn [fold_left ann_key] in E. revert E.
    assert (forall m : gmap string string, m !! ("_schema:" +:+ schema)%string <> None -> fold_left (fun (m : gmap string string) x => <[ann_key x := val_bytes (ann_val x)]> m) b m !! ("_schema:" +:+ schema)%string <> None) as K.
    { clear. induction b as [|c b IH]; intros m Hm; [done|]. cbn [fold_left]. refine (IH _ _). destruct (decide (ann_key c = ("_schema:" +:+ schema)%string)) as [->|Hne]; [by rewrite lookup_insert|by rewrite lookup_insert_ne]. }
    refine (K _ _). by rewrite lookup_insert. }
  assert (map_to_kvs M <> []) as Hne.
  { intros E. destruct (M !! ("_schema:" +:+ schema)%string) as [s|] eqn:Es; [|done]. apply kvs_elem in Es. rewrite E in Es. by apply elem_of_nil in Es. }
  assert (ev_schema (plain_event schema fs) ∈ schemas anns) as Hsch.
  { cbn [ev_schema plain_event]. assert ((schema_prefix +:+ schema)%string ∈ map (fun s => schema_prefix +:+ s)%string (schemas anns)) as K.
    { rewrite schemas_spec. apply elem_of_list_filter. split; [apply has_prefix_spec; by exists schema|]. apply elem_of_list_In, in_map_iff. by exists (Ann ("_schema:" +:+ schema) v). }
    apply elem_of_list_fmap in K as (s & E & K). by injection E as ->. }
  destruct (field_order unflat fs Hnd) as (fs' & Hms & Hp & Hso).
  assert (forall f, f ∈ fs' <-> In f fs) as Hel by (intros f; by rewrite Hp elem_of_list_In).
  assert (NoDup (map fst l)) as Hndl by (by rewrite Hl).
  destruct (run_flat M fs' Hso l (map_to_kvs M)) as [o Hrun].
  - done.
  - apply kvs_sorted.
  - intros [n t] Hf%Hel. cbn [fst snd]. split; [|by eapply Hsim]. rewrite Hl. apply elem_of_list_In, in_map_iff. by exists (n, t).
  - intros [n t] s _. cbn [fst]. by rewrite kvs_elem.
  - intros [n t] [k s] Hf%Hel Hn He. cbn [fst] in *. destruct (has_prefix n k) eqn:E; [|done]. exfalso. apply has_prefix_spec in E as [r ->].
    apply kvs_elem in He. apply string_map_key in He as (a & Ha & Hk). destruct (Hst n t Hf) as [s' Hs'].
    { exists a, r. split; [by apply elem_of_list_In|done]. }
    apply last_text_map in Hs'. rewrite /M in Hn. congruence.
  - destruct (result_spec M fs' Hso l Hndl) as [R1 R2]. exists (result M fs' l). split; [|split; [by rewrite R1|]].
    + rewrite /unmarshal (py_in _ _ Hsch). cbn [negb ev_unmarshaler plain_event ev_ty]. fold M. rewrite (unflat_struct _ _ _ (ssorted_is_sorted _ (kvs_sorted M)) Hne) Hms Hrun. by destruct o.
    + intros n t x x' Hf Hx Hx'. apply elem_of_list_In in Hx, Hx'. destruct (R2 n x x' Hx Hx') as [_ R3]. apply Hel in Hf as Hf'. destruct (R3 t Hf') as [R4 R5].
      assert (readable_up_to fs anns n <-> upto M fs' n) as Hiff.
      { split; intros H m t' Hm Hle.
        - destruct (H m t' ltac:(by apply Hel)) as (s & w & H1 & H2); [by rewrite ltb_slt|]. exists s, w. split; [by apply last_text_map|]. apply pv_text; [|done]. apply (Hsim m). by apply Hel.
        - destruct (H m t' ltac:(by apply Hel)) as (s & w & H1 & H2); [by rewrite -ltb_slt|]. exists s, w. split; [by apply last_text_map|]. apply pv_text; [|done]. by eapply Hsim. }
      rewrite Hiff. split; [|done]. intros Hu. destruct (R4 Hu) as (s & H1 & H2). exists s. split; [by apply last_text_map|]. apply pv_text; [by eapply Hsim|done].
Qed.
Print Assumptions C129_partial.
(** So an event all of whose fields have a text is read completely, whatever else is on the span. *)
Theorem C129_complete : forall schema fs anns l,
  NoDup (map fst fs) -> (forall n t, In (n, t) fs -> simple_field t) -> map fst l = map fst fs ->
  (exists v, In (Ann ("_schema:" +:+ schema) v) anns) ->
  (forall n t, In (n, t) fs -> exists s v, last_text anns n s /\ text_value t s v) ->
  exists l', unmarshal (plain_event schema fs) anns (VStruct l) = EDone (VStruct l') /\ map fst l' = map fst fs /\
    forall n t x', In (n, t) fs -> In (n, x') l' -> exists s, last_text anns n s /\ text_value t s x'.
Proof.
  intros schema fs anns l Hnd Hsim Hl Hin Hall. destruct (C129_partial schema fs anns l Hnd Hsim Hl Hin) as (l' & H1 & H2 & H3).
  { intros n t Hf _. destruct (Hall n t Hf) as (s & v & H & _). by exists s. }
  exists l'. split; [done|]. split; [done|]. intros n t x' Hf Hx'.
  assert (In n (map fst l)) as ([n' x] & E & Hx)%in_map_iff by (rewrite Hl; apply in_map_iff; by exists (n, t)). cbn in E. subst n'.
  destruct (H3 n t x x' Hf Hx Hx') as [H _]. apply H. intros m t' Hm _. by apply (Hall m t').
Qed.
Print Assumptions C129_complete.
(** C129 is false: a faulty text keeps a correct one from being read... *)
Theorem C129_refuted_fault : exists anns, last_text anns "B" "y" /\ text_value tstring "y" (VString "y") /\
  unmarshal (plain_event "q" [("A", TScalar false (KInt 64)); ("B", tstring)]) anns (VStruct [("A", VInt 0); ("B", VString "")]) =
    EDone (VStruct [("A", VInt 0); ("B", VString "")]).
Proof.
  exists [Ann "A" (Some "x"); Ann "B" (Some "y"); Ann "_schema:q" None]. split; [|split; [done|vm_compute; reflexivity]].
  exists [Ann "A" (Some "x")], (Some "y"%string), [Ann "_schema:q" None]. split; [done|]. split; [done|]. by intros a [<- | []].
Qed.
Print Assumptions C129_refuted_fault.
(** ... and a numeral that does not fit the field is taken for another number. *)
Theorem C129_refuted_wraps : 
  unmarshal (plain_event "q" [("A", TScalar false (KInt 8))]) [Ann "A" (Some "300"); Ann "_schema:q" None] (VStruct [("A", VInt 0)]) = EDone (VStruct [("A", VInt 44)]).
Proof. vm_compute. reflexivity. Qed.
Print Assumptions C129_refuted_wraps.
Example C129_nonvacuous : exists anns, let fs := [("A", TScalar false (KInt 16)); ("B", TScalar false KBool)] in
  readable_up_to fs anns "B" /\ last_text anns "A" "-007" /\ text_value (TScalar false (KInt 16)) "-007" (VInt (-7)) /\ starts_a_key anns "A" /\
  ~ readable_up_to fs [Ann "A" (Some "1e3")] "A".
Proof.
  assert (int_text "-007" (-7)) as Hi.
  { apply (I_minus "007" 7). apply (D_more "0" 0 "07" 7 ltac:(done)). apply (D_more "0" 0 "7" 7 ltac:(done)). by apply D_one. }
  set (anns := [Ann "A" (Some "-007"); Ann "B" (Some "T")]). exists anns. cbn zeta.
  assert (last_text anns "A" "-007") as HA. { exists [], (Some "-007"%string), [Ann "B" (Some "T")]. split; [done|]. split; [done|]. by intros a [<- | []]. }
  assert (text_value (TScalar false (KInt 16)) "-007" (VInt (-7))) as HT. { exists (-7)%Z, (-7)%Z. split; [done|]. split; [lia|]. split; [done|]. split; [cbn; lia|]. exists 0%Z. lia. }
  split; [|split; [done|split; [done|split]]].
  - intros m t Hm Hle. destruct Hm as [[= <- <-]|[[= <- <-]|[]]].
    + by exists "-007"%string, (VInt (-7)).
    + exists "T"%string, (VBool true). split; [|left; split; [cbn; tauto|done]]. exists [Ann "A" (Some "-007")], (Some "T"%string), []. split; [done|]. by split.
  - exists (Ann "A" (Some "-007")), ""%string. split; [by left|done].
  - intros H. destruct (H "A"%string _ ltac:(by left) ltac:(by left)) as (s & v & H1 & H2). apply last_text_map in H1. vm_compute in H1. injection H1 as <-.
    destruct H2 as (z & w & Hz & Hr & _). assert (parse_int "1e3" = Some z) as K by (by apply parse_int_text). vm_compute in K. discriminate K.
Qed.
