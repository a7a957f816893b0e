(** C123: reading events with a type that has changed since they were written. *)
From Verif Require Import Base StrOrder TimeModel ReflModel ReflSpec ReflProofs ReflProofs2 ReflProofs3 EventModel EventSpec EventProofs EventProps SkewSpec.
From stdpp Require Import sorting.
Local Open Scope N_scope.

Lemma zero_is_zero t : is_zero t (zero t).
Proof.
  induction t as [b k'| |t IH|fs IH|t IH|t IH|n t IH] using ty_ind'; cbn [zero].
  - destruct k'; constructor.
  - constructor.
  - constructor.
  - constructor. induction IH as [|[n t] fs Ht _ IHfs]; constructor; done.
  - constructor.
  - constructor.
  - constructor. induction n as [|n IHn]; cbn [replicate]; constructor; done.
Qed.
Lemma zeros_are fs : zero_fields fs (map (fun f => (fst f, zero (snd f))) fs).
Proof. induction fs as [|[n t] fs IH]; constructor; [apply zero_is_zero|done]. Qed.

(** ** Fields beside those that are read *)
Lemma get_field_app n l1 l2 x : get_field n l1 = Some x -> get_field n (l1 ++ l2) = Some x.
Proof.
  unfold get_field. destruct (list_find (fun f : string * val => f.1 = n) l1) as [[i f]|] eqn:E; [|done]. intros [= <-].
  by rewrite (list_find_app_l _ _ _ _ _ E).
Qed.
Lemma set_field_app n x l1 l2 : n ∉ map fst l2 -> set_field n x (l1 ++ l2) = set_field n x l1 ++ l2.
Proof.
  intros H. unfold set_field. rewrite map_app. f_equal. induction l2 as [|[m y] l2 IH]; [done|]. cbn in *. apply not_elem_of_cons in H as [H1 H2].
  destruct (String.eqb_spec m n); [congruence|]. by rewrite IH.
Qed.
Lemma run_fields_frame P fns l2 : (forall f, f ∈ fns -> fst f ∉ map fst l2) -> forall l1 kv l1' kv',
  run_fields P fns l1 kv = (l1', Some kv', false) -> run_fields P fns (l1 ++ l2) kv = (l1' ++ l2, Some kv', false).
Proof.
  induction fns as [|[n f] fns IH]; intros Hn l1 kv l1' kv' H; cbn [run_fields] in *; [by injection H as <- <-|].
  destruct (get_field n l1) as [x|] eqn:E; [|done]. rewrite (get_field_app _ _ _ _ E). destruct (f (nest P n) x kv) as [y kv1|y|]; [|done|done].
  rewrite set_field_app by (by apply (Hn (n, f)); left). apply IH; [|done]. intros g Hg. apply Hn. by right.
Qed.
Lemma run_fields_app P f1 f2 l kv l1 kv1 : run_fields P f1 l kv = (l1, Some kv1, false) -> run_fields P (f1 ++ f2) l kv = run_fields P f2 l1 kv1.
Proof.
  revert l kv. induction f1 as [|[n f] f1 IH]; intros l kv H; cbn [run_fields app] in *; [by injection H as <- <-|].
  destruct (get_field n l) as [x|]; [|done]. destruct (f (nest P n) x kv) as [y kv2|y|]; [|done|done]. by apply IH.
Qed.
(** A name with which no key begins is not found. *)
Lemma drop_until_none P kv : (forall e, e ∈ kv -> has_prefix P (fst e) = false) -> drop_until P kv = [].
Proof. induction kv as [|p kv IH]; [done|]. intros H. cbn. rewrite (H p) by left. apply IH. intros e He. apply H. by right. Qed.
Lemma unflat_absent t P x kv : ssorted kv -> (forall e, e ∈ kv -> has_prefix P (fst e) = false) ->
  exists kv', unflat t P x kv = UOk x kv' /\ kv' `suffix_of` kv.
Proof.
  intros Hs Hn. pose proof (ssorted_is_sorted _ Hs) as Hss. destruct kv as [|e0 kv0] eqn:Ek.
  { exists []. split; [|done]. destruct t; reflexivity. }
  rewrite <- Ek in *. pose proof (drop_until_none P kv Hn) as Hd.
  destruct t; try (exists []; split; [cbn [unflat]; rewrite Hss; cbn [negb]; rewrite Ek at 1; rewrite Hd; reflexivity|apply suffix_nil]).
  exists kv. split; [|done]. cbn [unflat]. rewrite Hss. cbn [negb]. rewrite Ek at 1. unfold unflat_map.
  assert (take_prefix (P +:+ ".") (drop_smaller (P +:+ ".") kv) = []) as ->; [|done].
  destruct (drop_smaller (P +:+ ".") kv) as [|p r] eqn:Ed; [done|]. cbn.
  assert (p ∈ kv) as Hp.
  { assert (forall l, p ∈ drop_smaller (P +:+ ".") l -> p ∈ l) as Hsub.
    { intros l. induction l as [|q l IH]; [done|]. cbn. destruct (slt q.1 (P +:+ ".")); [intros H; right; by apply IH|done]. }
    apply Hsub. rewrite Ed. left. }
  specialize (Hn p Hp). destruct (has_prefix (P +:+ ".") p.1) eqn:E; [|done]. exfalso.
  apply has_prefix_spec in E as [q Hq]. rewrite Hq, str_app_assoc, has_prefix_app in Hn. done.
Qed.
Lemma set_same n x l : NoDup (map fst l) -> get_field n l = Some x -> set_field n x l = l.
Proof.
  intros Hnd Hg. apply get_field_spec in Hg. unfold set_field. rewrite <- (map_id l) at 2. apply map_ext_in. intros [m y] Hm. cbn.
  destruct (String.eqb_spec m n) as [->|]; [|done]. f_equal. apply elem_of_list_In in Hm.
  pose proof (get_field_in _ _ _ Hnd Hm) as G1. pose proof (get_field_in _ _ _ Hnd Hg) as G2. congruence.
Qed.
Lemma run_absent P (fs : list (string * ty)) l : NoDup (map fst l) -> (forall f, f ∈ fs -> fst f ∈ map fst l) ->
  forall kv, ssorted kv -> (forall f e, f ∈ fs -> e ∈ kv -> has_prefix (nest P (fst f)) (fst e) = false) ->
  exists kv', run_fields P (map (fun f => (fst f, unflat (snd f))) fs) l kv = (l, Some kv', false).
Proof.
  intros Hnd. induction fs as [|[n t] fs IH]; intros Hin kv Hs Hn; cbn [map run_fields fst snd]; [eauto|].
  assert (n ∈ map fst l) as Hnl by (apply (Hin (n, t)); left). apply elem_of_list_fmap in Hnl as ([n' x] & E & Hx). cbn in E. subst n'.
  pose proof (get_field_in _ _ _ Hnd Hx) as Hg. rewrite Hg.
  destruct (unflat_absent t (nest P n) x kv Hs) as (kv1 & -> & Hsuf); [intros e He; apply (Hn (n, t)); [left|done]|].
  rewrite (set_same n x l Hnd Hg). apply IH.
  - intros f Hf. apply Hin. by right.
  - by eapply ssorted_suffix.
  - intros f e Hf He. apply (Hn f e); [by right|]. destruct Hsuf as [p ->]. apply elem_of_app. by right.
Qed.

(** ** Fields in order *)
Lemma order_app (c a : list (string * ty)) : NoDup (map fst (c ++ a)) -> (forall f g, f ∈ c -> g ∈ a -> slt (fst f) (fst g) = true) ->
  exists a', Permutation a' a /\ merge_sort key_le (map (fun f => (fst f, unflat (snd f))) (c ++ a)) =
    merge_sort key_le (map (fun f => (fst f, unflat (snd f))) c) ++ map (fun f => (fst f, unflat (snd f))) a'.
Proof.
  intros Hnd Hlt. destruct (field_order unflat (c ++ a) Hnd) as (fs & -> & Hp & Hs). rewrite map_app in Hnd. apply NoDup_app in Hnd as (Hc & _ & Ha).
  destruct (field_order unflat c Hc) as (c' & -> & Hpc & Hsc), (field_order unflat a Ha) as (a' & _ & Hpa & Hsa). exists a'. split; [done|].
  assert (AntiSymm (=) (fun f g : string * ty => slt (fst f) (fst g) = true)) as Has.
  { intros f g H1 H2. exfalso. apply slt_asym in H1. congruence. }
  rewrite <- map_app. f_equal. apply (StronglySorted_unique (fun f g : string * ty => slt (fst f) (fst g) = true)).
  - done.
  - assert (forall f g, f ∈ c' -> g ∈ a' -> slt f.1 g.1 = true) as Hlt' by (intros f g Hf Hg; apply Hlt; [by rewrite <- Hpc|by rewrite <- Hpa]).
    clear Hp Hs Hpc. induction Hsc as [|f c' Hsc IH Hf]; [done|]. cbn. constructor; [apply IH; intros; apply Hlt'; [by right|done]|].
    apply Forall_app. split; [done|]. apply Forall_forall. intros g Hg. apply Hlt'; [left|done].
  - by rewrite Hp, Hpc, Hpa.
Qed.

(** ** Reading with a changed type *)
Lemma good_part c r lc lr : map fst lc = map fst c -> good (TStruct (c ++ r)) (VStruct (lc ++ lr)) -> good (TStruct c) (VStruct lc).
Proof.
  intros Hlen Hg. apply good_struct in Hg as (l & [= <-] & Hf & (Hnd & Hn0 & Hnc) & Hall). apply good_struct. exists lc. split; [done|]. split; [done|].
  rewrite map_app in Hnd, Hn0, Hnc. split.
  - split; [by apply NoDup_app in Hnd as [Hnd _]|]. split; [intros n Hn; apply Hn0, elem_of_app; by left|].
    intros a b Ha Hb. apply Hnc; apply elem_of_app; by left.
  - apply Forall2_app_inv in Hall as [H _]; [done|]. apply (f_equal length) in Hlen. by rewrite !map_length in Hlen.
Qed.
Lemma flatten_part lc lr fl : flatten (VStruct (lc ++ lr)) "" = Some fl -> exists fc fr, flatten (VStruct lc) "" = Some fc /\ flatten (VStruct lr) "" = Some fr /\ fl = fc ++ fr.
Proof.
  cbn [flatten]. rewrite map_app. generalize (map (fun f : string * val => flatten f.2 (nest "" f.1)) lr) as b.
  generalize (map (fun f : string * val => flatten f.2 (nest "" f.1)) lc) as a. intros a b. revert fl. induction a as [|o a IH]; intros fl H; [by exists [], fl|].
  cbn [app cat_opt fold_right] in *. fold (cat_opt (a ++ b)) in H. fold (cat_opt a). destruct o as [x|]; [|done].
  destruct (cat_opt (a ++ b)) as [y|] eqn:E; [|done]. injection H as <-. destruct (IH y eq_refl) as (fc & fr & -> & -> & ->). exists (x ++ fc), fr.
  by rewrite app_assoc.
Qed.
(** C123 (partial): on a span there are events, among them one written by a type with the fields [common ++ removed].  It is read by a type of
    the same schema with the fields [common ++ added].  The common fields come back, and the added fields are zero — provided that the added names
    come after the common ones in byte order and begin no key on the span.
    Missing: added fields whose names come before a common one's (C123_refuted). *)
Theorem C123_partial : forall evs anns et common removed lc lr added,
  Forall good_event evs -> separate (map fst evs) -> recorded evs anns ->
  (et, VStruct (lc ++ lr)) ∈ evs -> ev_fields et = common ++ removed -> map fst lc = map fst common ->
  NoDup (map fst (common ++ added)) ->
  (forall f g, f ∈ common -> g ∈ added -> slt (fst f) (fst g) = true) ->
  (forall g a, g ∈ added -> a ∈ anns -> has_prefix (fst g) (ann_key a) = false) ->
  let et' := plain_event (ev_schema et) (common ++ added) in
  exists la, unmarshal et' anns (zero (ev_ty et')) = EDone (VStruct (lc ++ la)) /\ zero_fields added la.
Proof.
  intros evs anns et common removed lc lr added Hgood Hsep Hrec [i Hi]%elem_of_list_lookup Hfs Hlc Hnd Hlt Hno et'.
  pose proof (events_keys evs anns Hgood Hsep Hrec) as Hkeys. pose proof (event_unique evs Hsep) as Huniq. pose proof (name_in evs) as Hnin.
  destruct (event_parts evs anns Hgood Hrec) as (parts & Hanns & Hlen & Hp). destruct (Hp _ _ _ Hi) as (l & fl & fl' & [= <-] & Hg & Hu & Hfl & Hpm & Hpi).
  assert (forall e, e ∈ fl -> ann_of e ∈ anns) as Hin.
  { intros e He. rewrite Hanns. apply elem_of_concat. eexists i, _. split; [exact Hpi|]. apply elem_of_app. left. apply elem_of_list_fmap. exists e. by rewrite <- Hpm. }
  assert (schema_ann (ev_schema et) ∈ anns) as Hsa.
  { rewrite Hanns. apply elem_of_concat. eexists i, _. split; [exact Hpi|]. apply elem_of_app. right. left. }
  unfold ev_ty in Hg. rewrite Hfs in Hg. pose proof (good_part _ _ _ _ Hlc Hg) as Hgc. destruct (flatten_part _ _ _ Hfl) as (fc & fr & Hfc & Hfr & Hcat).
  set (kv := map_to_kvs (string_map anns)).
  assert (ssorted kv) as Hs by apply kvs_sorted.
  assert (forall e, e ∈ kv -> exists a, a ∈ anns /\ ann_key a = fst e /\ val_bytes (ann_val a) = snd e) as Hkv.
  { intros [k s] He. by apply kvs_elem, string_map_lookup in He. }
  destruct (struct_run common lc "" kv fc Hgc) as (kv1 & Hrun & Hsuf & _).
  - apply Forall_forall. intros; apply restores_all.
  - done.
  - done.
  - intros [k s] He. apply kvs_elem, string_map_lookup; [done|]. exists (ann_of (k, s)). split; [|done]. apply Hin. rewrite Hcat. apply elem_of_app. by left.
  - intros [k s] He Hne. destruct (Hkv _ He) as (a & Ha & Hk & Hs'). cbn [fst snd] in *. rewrite Hanns in Ha. apply elem_of_concat in Ha as (j & part & Hj & Ha).
    pose proof (lookup_lt_Some _ _ _ Hj) as Hl. rewrite Hlen in Hl. apply lookup_lt_is_Some_2 in Hl as [[et2 x2] He2].
    destruct (Hp _ _ _ He2) as (l2 & fl2 & fl2' & -> & Hg2 & _ & Hfl2 & Hpm2 & Hpj). rewrite Hpj in Hj. injection Hj as <-.
    destruct Hsep as (_ & (_ & Hn0 & Hnc) & Hsch). apply foreign_struct, Forall_forall. intros [n t] Ht. cbn [fst snd].
    assert (n ∈ names_of et) as Hn by (unfold names_of; rewrite Hfs, map_app; apply elem_of_app; left; apply elem_of_list_fmap; by exists (n, t)). cbn [nest].
    apply elem_of_app in Ha as [Ha|Ha].
    + apply elem_of_list_fmap in Ha as (e & -> & He'). rewrite <- Hpm2 in He'. cbn in Hk, Hs'. subst k s.
      assert (exists m, m ∈ names_of et2 /\ under m (fst e) /\ m <> n) as (m & Hm & Hum & Hmn).
      { destruct (decide (i = j)) as [<-|Hij].
        - rewrite Hi in He2. injection He2 as <- <-. rewrite Hfl in Hfl2. injection Hfl2 as <-. rewrite Hcat in He'. apply elem_of_app in He' as [He'|He']; [by destruct e|].
          assert (good (TStruct removed) (VStruct lr)) as Hgr.
          { clear -Hg Hlc. apply good_struct in Hg as (l & [= <-] & Hf & (Hnd & Hn0 & Hnc) & Hall). apply good_struct. exists lr. split; [done|].
            rewrite !map_app in *. rewrite Hlc in Hf. apply app_inv_head in Hf. split; [done|]. split.
            - split; [by apply NoDup_app in Hnd as (_ & _ & Hnd)|]. split; [intros n Hn; apply Hn0, elem_of_app; by right|]. intros a b Ha Hb. apply Hnc; apply elem_of_app; by right.
            - apply Forall2_app_inv in Hall as [_ H]; [done|]. apply (f_equal length) in Hlc. by rewrite !map_length in Hlc. }
          destruct (top_under _ _ _ Hgr Hfr e He') as (m & Hm & Hum). exists m. split; [unfold names_of; rewrite Hfs, map_app; apply elem_of_app; by right|]. split; [done|].
          intros ->. apply good_struct in Hg as (_ & _ & _ & (Hnd' & _) & _). rewrite map_app in Hnd'. apply NoDup_app in Hnd' as (_ & Hd & _).
          eapply Hd; [|exact Hm]. apply elem_of_list_fmap. by exists (n, t).
        - destruct (top_under _ _ _ Hg2 Hfl2 e He') as (m & Hm & Hum). exists m. split; [done|]. split; [done|]. intros ->. apply Hij. eapply (Huniq i j); [exact Hi|exact He2|exact Hn|exact Hm]. }
      apply (sibling_foreign t "" n m); [eapply Hn0, Hnin; [exact Hi|done]|done|apply Hnc; [exact (Hnin i _ _ _ Hi Hn)|exact (Hnin j _ _ _ He2 Hm)]|apply Hnc; [exact (Hnin j _ _ _ He2 Hm)|exact (Hnin i _ _ _ Hi Hn)]|done].
    + apply elem_of_list_singleton in Ha as ->. cbn [schema_ann ann_key] in Hk. subst k. apply foreign_out; [eapply Hn0, Hnin; [exact Hi|done]|].
      intros Hpf. exfalso. cbn [fst] in Hpf. rewrite not_schema in Hpf; [done|]. exact (Hsch _ (Hnin i _ _ _ Hi Hn)).
  - exists (map (fun f => (fst f, zero (snd f))) added). split; [|apply zeros_are].
    unfold unmarshal. subst et'. cbn [plain_event ev_schema ev_unmarshaler]. rewrite bool_decide_eq_true_2 by (apply schemas_elem; by exists None). cbn [negb].
    unfold ev_ty. cbn [plain_event ev_fields]. fold kv.
    assert (exists e0 r0, kv = e0 :: r0) as (e0 & r0 & Ek).
    { assert ((schema_prefix +:+ ev_schema et, "")%string ∈ kv) as H by (apply kvs_elem, string_map_lookup; [done|]; by exists (schema_ann (ev_schema et))).
      destruct kv as [|e0 r0]; [by apply elem_of_nil in H|eauto]. }
    cbn [zero]. rewrite unflat_struct, ssorted_is_sorted by done. cbn [negb]. assert (drop_until "" kv = kv) as -> by (by rewrite Ek). rewrite Ek at 1. rewrite Ek at 1. rewrite <- Ek.
    destruct (order_app common added Hnd Hlt) as (a' & Hpa & ->). rewrite map_app.
    assert (NoDup (map fst (lc ++ map (fun f => (fst f, zero (snd f))) added))) as Hnd2.
    { rewrite map_app, Hlc, map_map. cbn [fst]. by rewrite map_app in Hnd. }
    erewrite run_fields_app.
    2: { eapply run_fields_frame; [|exact Hrun]. intros f Hf. rewrite map_map. cbn [fst]. rewrite merge_sort_Permutation in Hf.
         apply elem_of_list_fmap in Hf as (g & -> & Hg'). cbn [fst]. intros Hin'. rewrite map_app in Hnd. apply NoDup_app in Hnd as (_ & Hd & _).
         eapply Hd; [|exact Hin']. apply elem_of_list_fmap. by exists g. }
    destruct (run_absent "" a' (lc ++ map (fun f => (fst f, zero (snd f))) added) Hnd2) with (kv := kv1) as (kv2 & ->); [..|done].
    + intros f Hf. rewrite Hpa in Hf. rewrite map_app, map_map. apply elem_of_app. right. apply elem_of_list_fmap. by exists f.
    + by eapply ssorted_suffix.
    + intros f e Hf He. rewrite Hpa in Hf. cbn [nest]. assert (e ∈ kv) as He' by (destruct Hsuf as [p ->]; apply elem_of_app; by right).
      destruct (Hkv _ He') as (a & Ha & <- & _). by apply Hno.
Qed.
Print Assumptions C123_partial.

(** A log event on a span with a name, read by a type without the time and with two new fields. *)
Example C123_nonvacuous : exists evs anns et common removed lc lr added,
  Forall good_event evs /\ separate (map fst evs) /\ recorded evs anns /\
  (et, VStruct (lc ++ lr)) ∈ evs /\ ev_fields et = common ++ removed /\ map fst lc = map fst common /\
  NoDup (map fst (common ++ added)) /\
  (forall f g, f ∈ common -> g ∈ added -> slt (fst f) (fst g) = true) /\
  (forall g a, g ∈ added -> a ∈ anns -> has_prefix (fst g) (ann_key a) = false) /\
  removed <> [] /\ (length evs = 2)%nat /\ added = [("Ok", TScalar false KBool); ("Nesting", tint)].
Proof.
  exists [(name_event, VStruct [("Name", VString "n")]); (log_event, VStruct [("Msg", VString "m"); ("Time", VTime a_time)])].
  exists ([Ann "Name" (Some "n"); Ann "_schema:name" None] ++ [Ann "Msg" (Some "m"); Ann "Time" (Some (fmt_time a_time)); Ann "_schema:log" None]).
  exists log_event, [("Msg", tstring)], [("Time", TTime)], [("Msg", VString "m")], [("Time", VTime a_time)].
  exists [("Ok", TScalar false KBool); ("Nesting", tint)].
  split_and!; try done.
  - pose proof a_time_valid. constructor; [|constructor; [|constructor]]; (split; [done|]; split; [done|]; cbn [fst snd]; fields).
  - apply separate_b_ok. vm_compute. reflexivity.
  - exists [[Ann "Name" (Some "n"); Ann "_schema:name" None]; [Ann "Msg" (Some "m"); Ann "Time" (Some (fmt_time a_time)); Ann "_schema:log" None]].
    split; [|reflexivity]. constructor; [|constructor; [|constructor]]; cbn [fst snd].
    + plainly [("Name", "n")].
    + plainly [("Msg", "m"); ("Time", fmt_time a_time)].
  - right. left.
  - apply (bool_decide_unpack _). vm_compute. done.
  - intros f g Hf Hg. apply elem_of_list_singleton in Hf as ->. apply elem_of_cons in Hg as [->|Hg]; [done|]. by apply elem_of_list_singleton in Hg as ->.
  - intros g a Hg Ha. cbn [app] in Ha. repeat (apply elem_of_cons in Hg as [->|Hg]; [repeat (apply elem_of_cons in Ha as [->|Ha]; [done|]); by apply elem_of_nil in Ha|]).
    by apply elem_of_nil in Hg.
Qed.

(** A field that is added before another loses the other's value. *)
Theorem C123_refuted : exists anns,
  marshal (plain_event "q" [("Text", tstring)]) (VStruct [("Text", VString "select 1")]) anns /\
  let et' := plain_event "q" [("Args", tint); ("Text", tstring)] in
  unmarshal et' anns (zero (ev_ty et')) = EDone (VStruct [("Args", VInt 0); ("Text", VString "")]).
Proof.
  exists [Ann "Text" (Some "select 1"); Ann "_schema:q" None]. split; [plainly [("Text", "select 1")]|vm_compute; reflexivity].
Qed.
Print Assumptions C123_refuted.
