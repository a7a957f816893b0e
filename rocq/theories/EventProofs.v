(** Proofs about events as annotations. *)
From Verif Require Import Base StrOrder TimeModel TimeProofs ReflModel ReflSpec ReflProofs ReflProofs2 ReflProofs3 EventModel EventSpec.
From stdpp Require Import sorting.

(** ** Schemas *)
Lemma schemas_elem anns s : s ∈ schemas anns <-> exists v, Ann (schema_prefix +:+ s) v ∈ anns.
Proof.
  induction anns as [|[k v] anns IH]; cbn [schemas]; [split; [by intros ?%elem_of_nil|by intros [? ?%elem_of_nil]]|].
  cbn [ann_key]. destruct (has_prefix schema_prefix k) eqn:E.
  - apply has_prefix_spec in E as [q ->]. rewrite trim_prefix_app. rewrite elem_of_cons, IH. split.
    + intros [->|[v' H]]; [exists v; left|exists v'; by right].
    + intros [v' [H|H]%elem_of_cons]; [left|right; eauto]. by injection H.
  - rewrite IH. split; [intros [v' H]; exists v'; by right|]. intros [v' [H|H]%elem_of_cons]; [|eauto]. exfalso. assert (k = schema_prefix +:+ s)%string as -> by congruence. by rewrite has_prefix_app in E.
Qed.
Lemma schemas_app a b : schemas (a ++ b) = schemas a ++ schemas b.
Proof. induction a as [|x a IH]; [done|]. cbn [schemas app]. destruct (has_prefix _ _); cbn; by rewrite IH. Qed.
Lemma marshal_schema et x anns : marshal et x anns -> ev_schema et ∈ schemas anns.
Proof.
  intros H. apply schemas_elem. exists None. destruct H; apply elem_of_app; right; left.
Qed.

(** ** The pairs read from annotations *)
Lemma string_map_app a b : string_map (a ++ b) = fold_left (fun m x => <[ann_key x := val_bytes (ann_val x)]> m) b (string_map a).
Proof. unfold string_map. by rewrite fold_left_app. Qed.
Lemma string_map_lookup anns : NoDup (map ann_key anns) -> forall k s, string_map anns !! k = Some s <-> exists a, a ∈ anns /\ ann_key a = k /\ val_bytes (ann_val a) = s.
Proof.
  induction anns as [|a anns IH] using rev_ind; intros Hnd k s.
  - cbn. rewrite lookup_empty. split; [done|by intros (? & ?%elem_of_nil & _)].
  - rewrite string_map_app. cbn [fold_left]. rewrite map_app in Hnd. apply NoDup_app in Hnd as (Hnd & Hdis & _). specialize (IH Hnd).
    destruct (decide (ann_key a = k)) as [<-|Hne].
    + rewrite lookup_insert. split; [intros [= <-]; exists a; split_and!; try done; apply elem_of_app; right; left|].
      intros (b & Hb & Hk & <-). apply elem_of_app in Hb as [Hb|Hb%elem_of_list_singleton]; [|by subst]. exfalso. apply (Hdis (ann_key a)); [|left]. rewrite <- Hk. apply elem_of_list_fmap. eauto.
    + rewrite lookup_insert_ne by done. rewrite IH. split; intros (b & Hb & Hk & Hs); exists b; (split_and!; [|done|done]); [apply elem_of_app; by left|].
      apply elem_of_app in Hb as [Hb|Hb%elem_of_list_singleton]; [done|by subst].
Qed.
Lemma kvs_sorted m : ssorted (map_to_kvs m).
Proof.
  unfold map_to_kvs. pose proof (StronglySorted_merge_sort key_le (map_to_list m)) as Hs. pose proof (merge_sort_Permutation key_le (map_to_list m)) as Hp.
  assert (NoDup (map fst (merge_sort key_le (map_to_list m)))) as Hnd. { rewrite Hp. apply NoDup_fst_map_to_list. }
  clear Hp. induction Hs as [|a l Hs IH Ha]; constructor; cbn in Hnd; apply NoDup_cons in Hnd as [Hn Hnd]; [by apply IH|]. rewrite Forall_forall in *.
  intros b Hb. specialize (Ha b Hb). unfold key_le in Ha. destruct (slt_total a.1 b.1) as [H|[H|H]]; [done| |congruence]. exfalso. apply Hn. rewrite H. apply elem_of_list_fmap. eauto.
Qed.
Lemma kvs_elem m k s : (k, s) ∈ map_to_kvs m <-> m !! k = Some s.
Proof. unfold map_to_kvs. rewrite merge_sort_Permutation. apply elem_of_map_to_list. Qed.

(** ** Distinct keys *)
Lemma sibling_disjoint P a b k : a <> b -> no_clash a b -> no_clash b a -> under (nest P a) k -> under (nest P b) k -> False.
Proof.
  intros Hne H1 H2 Ha Hb. destruct (nest_pre P) as (pre & Hn & _). rewrite !Hn in *. apply under_app in Hb as (k' & -> & Hu).
  apply under_app in Ha as (k'' & E & Hu'). apply str_app_inv_head in E as <-.
  destruct (out_sibling a b k' Hne H1 H2 Hu (under_prefix _ _ Hu')) as [H3 H4]. destruct Hu' as [->|Hu']; [|congruence].
  rewrite slt_asym in H3; [done|]. apply slt_prefix.
Qed.
Lemma cat_nodup (ls : list (list (string * string))) : (forall i l, ls !! i = Some l -> NoDup (map fst l)) ->
  (forall i j l l' k, ls !! i = Some l -> ls !! j = Some l' -> k ∈ map fst l -> k ∈ map fst l' -> i = j) -> NoDup (map fst (concat ls)).
Proof.
  induction ls as [|l ls IH]; intros H1 H2; [constructor|]. cbn. rewrite map_app. apply NoDup_app. split_and!.
  - by apply (H1 0%nat).
  - intros k Hk Hk'. apply elem_of_list_fmap in Hk' as (e & -> & He). apply elem_of_list_In, in_concat in He as (l' & Hl' & He).
    apply elem_of_list_In in Hl', He. apply elem_of_list_lookup in Hl' as [j Hj]. assert (0%nat = S j) as ?; [|done].
    eapply (H2 0%nat (S j)); [done|exact Hj|exact Hk|]. apply elem_of_list_fmap. eauto.
  - apply IH; [intros i; apply (H1 (S i))|]. intros i j l0 l' k Hi Hj Hk Hk'. assert (S i = S j) as [= ?]; [|done]. by eapply (H2 (S i) (S j)).
Qed.
Lemma flat_nodup t : forall x P fl, good t x -> P <> ""%string \/ (exists fs, t = TStruct fs) -> flatten x P = Some fl -> NoDup (map fst fl).
Proof.
  assert (forall t, (forall fs, t <> TStruct fs) -> forall x P fl, good t x -> P <> ""%string \/ (exists fs, t = TStruct fs) -> flatten x P = Some fl -> NoDup (map fst fl)) as Hns.
  { intros t' Hn x P fl Hg HP Hfl. destruct HP as [HP|[fs ->]]; [|by destruct (Hn fs)].
    destruct (good_cases _ _ Hg) as [Hl|[[fs ->]|[[e' ->]|(e' & l & Hl & Hne & Hlen & Ht)]]].
    - apply leaf_text in Hl as (s & Hs & _). rewrite Hs in Hfl. injection Hfl as <-. cbn. apply NoDup_singleton.
    - by destruct (Hn fs).
    - apply map_cases in Hg as [->|(l & -> & Hne & Hs & Hl)]; [injection Hfl as <-; constructor|].
      destruct (flatten_map e' l P HP Hl) as (ss & Hf & _). rewrite Hf in Hfl. injection Hfl as <-.
      pose proof (zip_sorted l (P +:+ ".") ss Hs) as Hz. clear Hf. induction Hz as [|a r Hz IHz Ha]; [constructor|]. cbn. apply NoDup_cons. split; [|done].
      rewrite Forall_forall in Ha. intros (b & Eb & Hb)%elem_of_list_fmap. apply Ha in Hb. by rewrite Eb, slt_irrefl in Hb.
    - destruct (flatten_list e' (fun i => nest P (fmt_int (Z.of_nat i))) l Hl) as (ss & Hf & H2).
      assert (flatten x P = Some (imap (fun i s => (nest P (fmt_int (Z.of_nat i)), s)) ss)) as Hf' by (destruct Ht as [[_ ->]|[_ ->]]; exact Hf).
      rewrite Hf' in Hfl. injection Hfl as <-. apply Forall2_length in H2. apply NoDup_alt. intros i j k. rewrite !list_lookup_fmap, !list_lookup_imap.
      destruct (ss !! i) eqn:Ei, (ss !! j) eqn:Ej; try done. apply lookup_lt_Some in Ei, Ej. cbn. intros [= <-] [= E]. rewrite !nest_dot in E by done.
      apply str_app_inv_head, fmt_int_inj in E; [done|lia|lia]. }
  induction t as [b k'| |t IH|fs IH|t IH|t IH|n t IH] using ty_ind'; try (apply Hns; done).
  intros x P fl Hg _ Hfl. apply good_struct in Hg as (l & -> & Hf & (Hnd & Hn0 & Hnc) & Hall). cbn [flatten] in Hfl.
  apply cat_opt_some in Hfl as (ls & Hls & ->). rewrite Forall_forall in IH.
  assert (forall i flg, ls !! i = Some flg -> exists n t x, fs !! i = Some (n, t) /\ l !! i = Some (n, x) /\ good t x /\ flatten x (nest P n) = Some flg) as Hi.
  { intros i flg Hi. destruct (map_Some_elem' _ _ _ Hls _ _ Hi) as ([n x] & Hx & Hfx). destruct (Forall2_lookup_r _ _ _ _ _ Hall Hx) as ([n' t] & Ht & E & Hg & _).
    cbn in *. subst n'. eauto 10. }
  assert (forall i n t, fs !! i = Some (n, t) -> n ∈ map fst fs) as Hnin by (intros i n t H; apply elem_of_list_fmap; exists (n, t); split; [done|by eapply elem_of_list_lookup_2]).
  apply cat_nodup.
  - intros i flg (n & t & x & Ht & Hx & Hg & Hfg)%Hi. eapply (IH (n, t)); [by eapply elem_of_list_lookup_2|exact Hg|left; by eapply nest_nonempty, Hn0, Hnin|exact Hfg].
  - intros i j l1 l2 k Hi1 Hj1 Hk1 Hk2. destruct (Hi _ _ Hi1) as (n & t & x & Ht & Hx & Hg & Hfg), (Hi _ _ Hj1) as (m & u & y & Hu & Hy & Hh & Hfh).
    apply elem_of_list_fmap in Hk1 as (e1 & -> & He1), Hk2 as (e2 & E & He2).
    apply (flat_under _ _ _ _ Hg) with (e := e1) in Hfg; [|by eapply nest_nonempty, Hn0, Hnin|done].
    apply (flat_under _ _ _ _ Hh) with (e := e2) in Hfh; [|by eapply nest_nonempty, Hn0, Hnin|done]. rewrite <- E in Hfh.
    destruct (decide (n = m)) as [->|Hne].
    + eapply (NoDup_lookup (map fst fs)); [done|..]; rewrite list_lookup_fmap; [by rewrite Ht|by rewrite Hu].
    + exfalso. eapply sibling_disjoint; [exact Hne|..|exact Hfg|exact Hfh]; apply Hnc; by eapply Hnin.
Qed.

(** ** Several events on a span *)
Lemma concat_nodup {A B} (g : A -> B) (ls : list (list A)) : (forall i l, ls !! i = Some l -> NoDup (map g l)) ->
  (forall i j l l' k, ls !! i = Some l -> ls !! j = Some l' -> k ∈ map g l -> k ∈ map g l' -> i = j) -> NoDup (map g (concat ls)).
Proof.
  induction ls as [|l ls IH]; intros H1 H2; [constructor|]. cbn. rewrite map_app. apply NoDup_app. split_and!.
  - by apply (H1 0%nat).
  - intros k Hk Hk'. apply elem_of_list_fmap in Hk' as (e & -> & He). apply elem_of_list_In, in_concat in He as (l' & Hl' & He).
    apply elem_of_list_In in Hl', He. apply elem_of_list_lookup in Hl' as [j Hj]. assert (0%nat = S j) as ?; [|done].
    eapply (H2 0%nat (S j)); [done|exact Hj|exact Hk|]. apply elem_of_list_fmap. eauto.
  - apply IH; [intros i; apply (H1 (S i))|]. intros i j l0 l' k Hi Hj Hk Hk'. assert (S i = S j) as [= ?]; [|done]. by eapply (H2 (S i) (S j)).
Qed.
Lemma elem_of_concat {A} (x : A) ls : x ∈ concat ls <-> exists i l, ls !! i = Some l /\ x ∈ l.
Proof.
  rewrite elem_of_list_In, in_concat. split.
  - intros (l & Hl & Hx). apply elem_of_list_In in Hl, Hx. apply elem_of_list_lookup in Hl as [i Hi]. eauto.
  - intros (i & l & Hi & Hx). exists l. split; apply elem_of_list_In; [by eapply elem_of_list_lookup_2|done].
Qed.
Lemma nodup_concat {A} (ls : list (list A)) : NoDup (concat ls) -> forall i j a b n, ls !! i = Some a -> ls !! j = Some b -> n ∈ a -> n ∈ b -> i = j.
Proof.
  induction ls as [|l ls IH]; intros Hnd i j a b n Hi Hj Ha Hb; [done|]. cbn in Hnd. apply NoDup_app in Hnd as (_ & Hd & Hnd).
  destruct i as [|i], j as [|j]; [done|..]; cbn in *.
  - injection Hi as <-. exfalso. eapply Hd; [exact Ha|]. apply elem_of_concat. eauto.
  - injection Hj as <-. exfalso. eapply Hd; [exact Hb|]. apply elem_of_concat. eauto.
  - f_equal. by eapply IH.
Qed.
(** Every key of an event is under one of its field names. *)
Lemma top_under fs l fl : good (TStruct fs) (VStruct l) -> flatten (VStruct l) "" = Some fl -> forall e, e ∈ fl -> exists n, n ∈ map fst fs /\ under n (fst e).
Proof.
  intros Hg Hfl e He. apply good_struct in Hg as (? & [= <-] & Hf & (Hnd & Hn0 & Hnc) & Hall). apply flatten_struct in Hfl as [_ Hfl].
  destruct (Hfl _ He) as ([n x] & flg & Hx & Hflg & Heg). cbn in Hflg. assert (n ∈ map fst fs) as Hn by (rewrite <- Hf; apply elem_of_list_fmap; by exists (n, x)).
  exists n. split; [done|]. apply elem_of_list_fmap in Hn as ([n' t] & E & Ht). cbn in E. subst n'.
  eapply (flat_under t); [|..|exact Hflg|exact Heg]; [by eapply (struct_fields fs l)|]. apply Hn0, elem_of_list_fmap. by exists (n, t).
Qed.
Lemma not_schema n s : has_prefix n schema_prefix = false /\ has_prefix schema_prefix n = false -> has_prefix n (schema_prefix +:+ s) = false.
Proof.
  intros [H1 H2]. destruct (has_prefix n (schema_prefix +:+ s)) eqn:E; [|done]. apply has_prefix_both in E as [H|(q & -> & _)]; [congruence|]. by rewrite has_prefix_app in H2.
Qed.
Section Recover.
  Context (evs : list (evtype * val)) (anns : list Annotation).
  Context (Hgood : Forall good_event evs) (Hsep : separate (map fst evs)) (Hrec : recorded evs anns).

  Lemma event_parts : exists parts, anns = concat parts /\ length parts = length evs /\ forall i et x, evs !! i = Some (et, x) -> exists l fl fl',
    x = VStruct l /\ good (ev_ty et) (VStruct l) /\ ev_unmarshaler et = None /\ flatten x "" = Some fl /\ Permutation fl fl' /\
    parts !! i = Some (map ann_of fl' ++ [schema_ann (ev_schema et)]).
  Proof.
    destruct Hrec as (parts & H & ->). exists parts. split; [done|]. split; [symmetry; by eapply Forall2_length|]. intros i et x Hi.
    destruct (Forall2_lookup_l _ _ _ _ _ H Hi) as (a & Ha & Hm). cbn in Hm. rewrite Forall_forall in Hgood.
    destruct (Hgood (et, x)) as (H1 & H2 & H3); [by eapply elem_of_list_lookup_2|]. cbn in *. pose proof H3 as H4. apply good_struct in H4 as (l & -> & _).
    inversion Hm as [|fl fl' Hn Hfl Hp]; subst; [congruence|]. exists l, fl, fl'. repeat (split; [by eauto|]). done.
  Qed.
  Lemma event_unique i j et x et' x' n : evs !! i = Some (et, x) -> evs !! j = Some (et', x') -> n ∈ names_of et -> n ∈ names_of et' -> i = j.
  Proof.
    intros Hi Hj. destruct Hsep as (_ & (Hnd & _) & _). eapply (nodup_concat _ Hnd); rewrite !list_lookup_fmap; [by rewrite Hi|by rewrite Hj].
  Qed.
  Lemma name_in i et x n : evs !! i = Some (et, x) -> n ∈ names_of et -> n ∈ concat (map names_of (map fst evs)).
  Proof. intros Hi Hn. apply elem_of_concat. exists i, (names_of et). rewrite !list_lookup_fmap, Hi. done. Qed.
  Lemma schema_not_under i et x j et' x' n k : evs !! i = Some (et, x) -> evs !! j = Some (et', x') -> n ∈ names_of et -> k = (schema_prefix +:+ ev_schema et')%string -> under n k -> False.
  Proof.
    intros Hi Hj Hn -> Hu%under_prefix. destruct Hsep as (_ & _ & H). rewrite not_schema in Hu; [done|]. exact (H _ (name_in i _ _ _ Hi Hn)).
  Qed.
  Lemma events_keys : NoDup (map ann_key anns).
  Proof.
    destruct event_parts as (parts & -> & Hlen & Hp).
    assert (forall i a, parts !! i = Some a -> exists et x l fl fl', evs !! i = Some (et, x) /\ x = VStruct l /\ good (ev_ty et) (VStruct l) /\
      flatten x "" = Some fl /\ Permutation fl fl' /\ a = map ann_of fl' ++ [schema_ann (ev_schema et)]) as Hev.
    { intros i a Hi. pose proof (lookup_lt_Some _ _ _ Hi) as Hl. rewrite Hlen in Hl. apply lookup_lt_is_Some_2 in Hl as [[et x] He].
      destruct (Hp _ _ _ He) as (l & fl & fl' & H1 & H2 & H3 & H4 & H5 & H6). exists et, x, l, fl, fl'. split_and!; try done. congruence. }
    assert (forall et x l fl fl' i k, evs !! i = Some (et, x) -> x = VStruct l -> good (ev_ty et) (VStruct l) -> flatten x "" = Some fl -> Permutation fl fl' ->
      k ∈ map ann_key (map ann_of fl') -> exists n, n ∈ names_of et /\ under n k) as Hkey.
    { intros et x l fl fl' i k Hi -> Hg Hfl Hpm Hk. rewrite map_map in Hk. apply elem_of_list_fmap in Hk as (e & -> & He). rewrite <- Hpm in He.
      destruct (top_under _ _ _ Hg Hfl e He) as (n & Hn & Hu). by exists n. }
    apply concat_nodup.
    - intros i a Hi. destruct (Hev _ _ Hi) as (et & x & l & fl & fl' & He & Hx & Hg & Hfl & Hpm & ->). rewrite map_app. apply NoDup_app. split_and!.
      + rewrite map_map. change (map _ fl') with (map fst fl'). rewrite <- Hpm. subst x. eapply flat_nodup; [exact Hg|right; unfold ev_ty; eauto|exact Hfl].
      + intros k Hk Hk'. apply elem_of_list_singleton in Hk'. destruct (Hkey _ _ _ _ _ _ _ He Hx Hg Hfl Hpm Hk) as (n & Hn & Hu). exact (schema_not_under i _ _ i _ _ n k He He Hn Hk' Hu).
      + apply NoDup_singleton.
    - intros i j a b k Hi Hj Ha Hb. destruct (Hev _ _ Hi) as (et & x & l & fl & fl' & He & Hx & Hg & Hfl & Hpm & ->).
      destruct (Hev _ _ Hj) as (et2 & x2 & l2 & fl2 & fl2' & He2 & Hx2 & Hg2 & Hfl2 & Hpm2 & ->). rewrite map_app in Ha, Hb. apply elem_of_app in Ha, Hb.
      destruct Ha as [Ha|Ha], Hb as [Hb|Hb].
      + destruct (Hkey _ _ _ _ _ _ _ He Hx Hg Hfl Hpm Ha) as (n & Hn & Hu), (Hkey _ _ _ _ _ _ _ He2 Hx2 Hg2 Hfl2 Hpm2 Hb) as (m & Hm & Hu2).
        destruct (decide (n = m)) as [->|Hne]; [exact (event_unique i j _ _ _ _ _ He He2 Hn Hm)|]. exfalso. destruct Hsep as (_ & (_ & _ & Hnc) & _).
        eapply (sibling_disjoint "" n m); [done|apply Hnc; [exact (name_in i _ _ _ He Hn)|exact (name_in j _ _ _ He2 Hm)]|apply Hnc; [exact (name_in j _ _ _ He2 Hm)|exact (name_in i _ _ _ He Hn)]|exact Hu|exact Hu2].
      + exfalso. apply elem_of_list_singleton in Hb. destruct (Hkey _ _ _ _ _ _ _ He Hx Hg Hfl Hpm Ha) as (n & Hn & Hu). exact (schema_not_under i _ _ j _ _ n k He He2 Hn Hb Hu).
      + exfalso. apply elem_of_list_singleton in Ha. destruct (Hkey _ _ _ _ _ _ _ He2 Hx2 Hg2 Hfl2 Hpm2 Hb) as (n & Hn & Hu). exact (schema_not_under j _ _ i _ _ n k He2 He Hn Ha Hu).
      + apply elem_of_list_singleton in Ha, Hb. subst k. injection Hb as Hb. destruct Hsep as (Hnd & _). eapply (NoDup_lookup _ _ _ (ev_schema et) Hnd); rewrite !list_lookup_fmap; [by rewrite He|].
        rewrite He2. cbn. by rewrite Hb.
  Qed.
  Lemma event_recovered et x : (et, x) ∈ evs -> unmarshal et anns (zero (ev_ty et)) = EDone x.
  Proof.
    intros [i Hi]%elem_of_list_lookup. pose proof events_keys as Hkeys. pose proof event_unique as Huniq. pose proof name_in as Hnin.
    destruct event_parts as (parts & Hanns & Hlen & Hp). destruct (Hp _ _ _ Hi) as (l & fl & fl' & -> & Hg & Hu & Hfl & Hpm & Hpi).
    assert (forall e, e ∈ fl -> ann_of e ∈ anns) as Hin.
    { intros e He. rewrite Hanns. apply elem_of_concat. eexists i, _. split; [exact Hpi|]. apply elem_of_app. left. apply elem_of_list_fmap. exists e. by rewrite <- Hpm. }
    unfold unmarshal. rewrite bool_decide_eq_true_2. 2: { apply schemas_elem. exists None. rewrite Hanns. apply elem_of_concat. eexists i, _. split; [exact Hpi|]. apply elem_of_app. right. left. }
    cbn [negb]. rewrite Hu. destruct (restores_top (ev_fields et) l (map_to_kvs (string_map anns)) fl) as [kv' Hr].
    - exact Hg. - apply kvs_sorted. - done.
    - intros [k s] He. apply kvs_elem, string_map_lookup; [done|]. exists (ann_of (k, s)). split; [by apply Hin|done].
    - intros [k s] He Hne. apply kvs_elem, string_map_lookup in He as (a & Ha & Hk & Hs); [|done]. rewrite Hanns in Ha. apply elem_of_concat in Ha as (j & part & Hj & Ha).
      pose proof (lookup_lt_Some _ _ _ Hj) as Hl. rewrite Hlen in Hl. apply lookup_lt_is_Some_2 in Hl as [[et2 x2] He2].
      destruct (Hp _ _ _ He2) as (l2 & fl2 & fl2' & -> & Hg2 & _ & Hfl2 & Hpm2 & Hpj). rewrite Hpj in Hj. injection Hj as <-.
      destruct Hsep as (_ & (_ & Hn0 & Hnc) & Hsch). apply foreign_struct, Forall_forall. intros [n t] Ht. cbn [fst snd].
      assert (n ∈ names_of et) as Hn by (apply elem_of_list_fmap; by exists (n, t)). cbn [nest].
      apply elem_of_app in Ha as [Ha|Ha].
      + apply elem_of_list_fmap in Ha as (e & -> & He). rewrite <- Hpm2 in He. destruct (top_under _ _ _ Hg2 Hfl2 e He) as (m & Hm & Hum). cbn in Hk, Hs. subst k s.
        destruct (decide (m = n)) as [->|Hmn].
        * assert (i = j) as <- by (eapply (Huniq i j); [exact Hi|exact He2|exact Hn|exact Hm]). rewrite Hi in He2. injection He2 as <- <-. rewrite Hfl in Hfl2. injection Hfl2 as <-. by destruct e.
        * apply (sibling_foreign t "" n m); [eapply Hn0, Hnin; [exact Hi|done]|done|apply Hnc; [exact (Hnin i _ _ _ Hi Hn)|exact (Hnin j _ _ _ He2 Hm)]|apply Hnc; [exact (Hnin j _ _ _ He2 Hm)|exact (Hnin i _ _ _ Hi Hn)]|done].
      + apply elem_of_list_singleton in Ha as ->. cbn [schema_ann ann_key] in Hk. subst k. apply foreign_out; [eapply Hn0, Hnin; [exact Hi|done]|].
        intros Hpf. exfalso. cbn [fst] in Hpf. rewrite not_schema in Hpf; [done|]. exact (Hsch _ (Hnin i _ _ _ Hi Hn)).
    - unfold ev_ty. by rewrite Hr.
  Qed.
End Recover.

(** ** UnmarshalEvents *)
Lemma schemas_none l : (forall a, a ∈ l -> has_prefix schema_prefix (ann_key a) = false) -> schemas l = [].
Proof. induction l as [|a l IH]; intros H; [done|]. cbn [schemas]. rewrite (H a) by left. apply IH. intros; apply H; by right. Qed.
Lemma under_schema n k : under n k -> has_prefix schema_prefix k = true -> has_prefix n schema_prefix = true \/ has_prefix schema_prefix n = true.
Proof.
  intros Hu%under_prefix Hk. apply has_prefix_spec in Hk as [q ->]. apply has_prefix_both in Hu as [H|(r & -> & _)]; [by left|]. right. apply has_prefix_app.
Qed.
Lemma recorded_schemas evs anns : Forall good_event evs -> separate (map fst evs) -> recorded evs anns -> schemas anns = map (fun e => ev_schema (fst e)) evs.
Proof.
  intros Hg (_ & _ & Hsep) (parts & Hall & ->). induction Hall as [|[et x] a evs parts Hm Hall IH]; [done|]. cbn [concat map fst snd] in *. apply Forall_cons in Hg as [(Hg1 & Hg2 & Hg3) Hg].
  cbn in Hg1, Hg2, Hg3. rewrite schemas_app, IH; [|done|intros n Hn; apply Hsep; cbn; apply elem_of_app; by right]. change (ev_schema et :: ?l) with ([ev_schema et] ++ l). f_equal.
  pose proof Hg3 as Hg4. apply good_struct in Hg4 as (l & -> & _). inversion Hm as [|fl fl' Hn Hfl Hp]; subst; [congruence|]. rewrite schemas_app, schemas_none; [done|].
  intros b (e & -> & He)%elem_of_list_fmap. cbn [ann_of ann_key]. destruct (has_prefix schema_prefix e.1) eqn:E; [|done]. exfalso. rewrite <- Hp in He.
  destruct (top_under _ _ _ Hg3 Hfl e He) as (n & Hnn & Hu). destruct (Hsep n) as [H1 H2]; [cbn; apply elem_of_app; by left|]. destruct (under_schema _ _ Hu E); congruence.
Qed.
Lemma loop_recovered reg anns evs : Forall (fun e => reg !! ev_schema (fst e) = None \/ reg !! ev_schema (fst e) = Some (fst e) /\ unmarshal (fst e) anns (zero (ev_ty (fst e))) = EDone (snd e)) evs ->
  unmarshal_loop reg anns (map (fun e => ev_schema (fst e)) evs) =
  (map (fun e => (ev_schema (fst e), snd e)) (filter (fun e => is_Some (reg !! ev_schema (fst e))) evs), EsOk).
Proof.
  induction 1 as [|[et x] evs H _ IH]; [done|]. cbn [map fst snd unmarshal_loop] in *. rewrite filter_cons. cbn [fst snd]. destruct H as [H|[H Hu]]; rewrite H.
  - by rewrite decide_False by (intros [? ?]; congruence).
  - rewrite decide_True by eauto. rewrite Hu, IH. done.
Qed.
(** How UnmarshalEvents ends, for all annotations. *)
Lemma loop_events reg anns ss : (forall s et, reg !! s = Some et -> ev_schema et = s) -> (forall s, s ∈ ss -> s ∈ schemas anns) -> snd (unmarshal_loop reg anns ss) = EsOk ->
  map fst (fst (unmarshal_loop reg anns ss)) = filter (fun s => is_Some (reg !! s)) ss /\
  forall s x, (s, x) ∈ fst (unmarshal_loop reg anns ss) -> exists et, reg !! s = Some et /\ unmarshal et anns (zero (ev_ty et)) = EDone x.
Proof.
  intros Hreg. induction ss as [|s ss IH]; intros Hin Hok; [split; [done|by intros ? ? ?%elem_of_nil]|]. cbn [unmarshal_loop] in *. rewrite filter_cons.
  destruct (reg !! s) as [et|] eqn:E.
  - rewrite decide_True by eauto. destruct (unmarshal et anns (zero (ev_ty et))) as [found| | |x] eqn:Eu; try done. cbn [fst snd] in *.
    destruct IH as [IH1 IH2]; [intros; apply Hin; by right|done|]. split; [cbn; by rewrite IH1|]. intros s' x' [[= -> ->]|H]%elem_of_cons; eauto.
  - rewrite decide_False by (by intros [? ?]). apply IH; [intros; apply Hin; by right|done].
Qed.
Lemma loop_ok reg anns ss : (forall s, s ∈ ss -> s ∈ schemas anns) -> (forall s et, reg !! s = Some et -> ev_schema et = s /\ ev_unmarshaler et = None) ->
  (forall s et, reg !! s = Some et -> unmarshal et anns (zero (ev_ty et)) <> EPanics) -> snd (unmarshal_loop reg anns ss) = EsOk.
Proof.
  intros Hin Hreg Hnp. induction ss as [|s ss IH]; [done|]. cbn [unmarshal_loop]. destruct (reg !! s) as [et|] eqn:E; [|apply IH; intros; apply Hin; by right].
  destruct (Hreg _ _ E) as [Hs Hc]. specialize (Hnp _ _ E). unfold unmarshal in *. rewrite Hs, bool_decide_eq_true_2 in * by (apply Hin; left). cbn [negb] in *. rewrite Hc in *.
  destruct (unflat _ _ _ _); cbn; try (apply IH; intros; apply Hin; by right). done.
Qed.

(** ** No panics for plain types *)
Fixpoint shape (t : ty) (x : val) {struct t} : Prop :=
  match t, x with
  | TStruct fs, VStruct l => map fst l = map fst fs /\
      (fix all fs := match fs with f :: fs => (forall y, (fst f, y) ∈ l -> shape (snd f) y) /\ all fs | [] => True end) fs
  | TStruct fs, _ => False
  | _, _ => True
  end.
Lemma shape_struct fs x : shape (TStruct fs) x <-> exists l, x = VStruct l /\ map fst l = map fst fs /\ Forall (fun f => forall y, (fst f, y) ∈ l -> shape (snd f) y) fs.
Proof.
  destruct x as [| | | | | | | | |l| | |]; cbn [shape]; try (split; [done|intros (? & ? & _); done]).
  assert (forall fs, (fix all fs := match fs with f :: fs => (forall y, (fst f, y) ∈ l -> shape (snd f) y) /\ all fs | [] => True end) fs <->
    Forall (fun f : string * ty => forall y, (fst f, y) ∈ l -> shape (snd f) y) fs) as Hiff.
  { intros fs'. induction fs' as [|f fs' IH]; [split; constructor|]. by rewrite Forall_cons, <- IH. }
  rewrite Hiff. split; [intros []; eauto|]. intros (? & [= <-] & ? & ?). done.
Qed.
Lemma sorted_app a b : is_sorted (a ++ b) = true -> is_sorted b = true.
Proof. induction a as [|x a IH]; [done|]. intros H. apply IH. cbn in H. destruct (a ++ b); [done|]. by apply andb_true_iff in H as [_ H]. Qed.
Lemma sorted_suffix a b : a `suffix_of` b -> is_sorted b = true -> is_sorted a = true.
Proof. intros [p ->]. apply sorted_app. Qed.
Lemma nodup_fst {A} (fs : list (string * A)) n a b : NoDup (map fst fs) -> (n, a) ∈ fs -> (n, b) ∈ fs -> a = b.
Proof.
  intros Hnd [i Hi]%elem_of_list_lookup [j Hj]%elem_of_list_lookup. assert (i = j) as ->; [|congruence].
  eapply (NoDup_lookup (map fst fs)); [done|..]; rewrite list_lookup_fmap; [by rewrite Hi|by rewrite Hj].
Qed.
Lemma zero_shape t : plain t = true -> shape t (zero t).
Proof.
  induction t as [b k'| |t IH|fs IH|t IH|t IH|n t IH] using ty_ind'; intros Hp; try done.
  apply shape_struct. eexists. split; [done|]. split; [rewrite map_map; done|]. cbn [plain] in Hp. apply andb_true_iff in Hp as [Hnd Hp]. apply bool_decide_eq_true in Hnd.
  rewrite forallb_forall in Hp. rewrite Forall_forall in *. intros [n t] Ht y Hy. cbn [fst snd] in *. apply elem_of_list_fmap in Hy as ([n' t'] & [= -> ->] & Ht').
  cbn [fst snd] in *. assert (t' = t) as -> by (by eapply nodup_fst). apply (IH (n', t) Ht). by apply (Hp (n', t)), elem_of_list_In.
Qed.
Definition no_panic (t : ty) : Prop := forall P x kv, shape t x -> is_sorted kv = true ->
  match unflat t P x kv with UOk y kv' => shape t y /\ is_sorted kv' = true | UErr _ => True | UPanic => False end.
Lemma run_no_panic fs P : NoDup (map fst fs) -> Forall (fun f => no_panic (snd f)) fs -> forall fs' l kv, (forall f, f ∈ fs' -> f ∈ fs) ->
  shape (TStruct fs) (VStruct l) -> is_sorted kv = true ->
  match run_fields P (map (fun f => (fst f, unflat (snd f))) fs') l kv with
  | (_, _, true) => False | (l, Some kv, _) => shape (TStruct fs) (VStruct l) /\ is_sorted kv = true | (_, None, _) => True end.
Proof.
  intros Hnd Hnp fs'. induction fs' as [|[n t] fs' IH]; intros l kv Hin Hsh Hs; [done|]. cbn [map run_fields fst snd].
  pose proof Hsh as Hsh'. apply shape_struct in Hsh' as (? & [= <-] & Hf & Hall). assert ((n, t) ∈ fs) as Ht by (apply Hin; left).
  assert (n ∈ map fst l) as Hn by (rewrite Hf; apply elem_of_list_fmap; by exists (n, t)). apply elem_of_list_fmap in Hn as ([n' x] & E & Hx). cbn in E. subst n'.
  rewrite (get_field_in n l x) by (rewrite ?Hf; done). rewrite Forall_forall in Hnp, Hall. pose proof (Hnp _ Ht (nest P n) x kv (Hall _ Ht _ Hx) Hs) as Hu. cbn [snd] in Hu.
  destruct (unflat t (nest P n) x kv) as [y kv'|y|]; [|done|done]. destruct Hu as [Hy Hs']. apply IH; [intros; apply Hin; by right| |done].
  apply shape_struct. eexists. split; [done|]. split; [by rewrite set_field_fst|]. apply Forall_forall. intros [m u] Hu z Hz. cbn [fst snd] in *. apply set_field_in in Hz as [[Hne Hz]|(-> & -> & _)].
  - by apply (Hall _ Hu).
  - by assert (u = t) as -> by (by eapply nodup_fst).
Qed.
Lemma drop_sorted n kv : is_sorted kv = true -> is_sorted (drop n kv) = true.
Proof. apply sorted_suffix. exists (take n kv). by rewrite take_drop. Qed.
Lemma plain_no_panic t : plain t = true -> no_panic t.
Proof.
  induction t as [b k'| |t IH|fs IH|t IH|t IH|n t IH] using ty_ind'; intros Hp P x kv Hsh Hs.
  all: try discriminate Hp.
  - cbn [unflat]. rewrite Hs. cbn [negb]. destruct kv as [|e kv]; [done|]. pose proof (sorted_suffix _ _ (drop_until_suffix P (e :: kv)) Hs) as Hs'.
    destruct (drop_until P (e :: kv)) as [|[k s] r]; [done|]. destruct b; [done|]. cbn [parse_value]. destruct (parse_scalar k' s); cbn [opt_res]; [|done].
    split; [done|]. by apply (sorted_app [(k, s)]).
  - cbn [unflat]. rewrite Hs. cbn [negb]. destruct kv as [|e kv]; [done|]. pose proof (sorted_suffix _ _ (drop_until_suffix P (e :: kv)) Hs) as Hs'.
    destruct (drop_until P (e :: kv)) as [|[k s] r]; [done|]. cbn [parse_value]. destruct (parse_time s); cbn [opt_res fmap option_fmap option_map]; [|done].
    split; [done|]. by apply (sorted_app [(k, s)]).
  - cbn [plain] in Hp. apply andb_true_iff in Hp as [Hnd Hp]. apply bool_decide_eq_true in Hnd. rewrite forallb_forall in Hp.
    pose proof Hsh as Hsh'. apply shape_struct in Hsh' as (l & -> & Hf & Hall).
    rewrite unflat_struct, Hs. cbn [negb]. destruct kv as [|e kv]; [done|]. pose proof (sorted_suffix _ _ (drop_until_suffix P (e :: kv)) Hs) as Hs'.
    destruct (drop_until P (e :: kv)) as [|e' r]; [done|]. destruct (field_order unflat fs Hnd) as (fs' & -> & Hperm & _).
    pose proof (run_no_panic fs P Hnd) as Hrun. specialize (Hrun ltac:(rewrite Forall_forall in *; intros f Hff; apply IH; [done|by apply Hp, elem_of_list_In]) fs' l (e' :: r)).
    specialize (Hrun ltac:(intros f; by rewrite Hperm) Hsh Hs').
    destruct (run_fields P (map _ fs') l (e' :: r)) as [[l' [kv'|]] [|]]; done.
  - cbn [unflat]. rewrite Hs. cbn [negb]. destruct kv as [|e kv]; [done|]. unfold unflat_map.
    assert (forall found, map_entries t (P +:+ ".") found <> MPanic) as Hm.
    { intros found. induction found as [|[k s] found IHf]; [done|]. cbn [map_entries]. destruct t as [[] k'| | | | | |]; try done; cbn [parse_value].
      - destruct (parse_scalar k' s); cbn [opt_res]; [|done]. destruct (map_entries _ _ found); done.
      - destruct (parse_time s); cbn [opt_res fmap option_fmap option_map]; [|done]. destruct (map_entries _ _ found); done. }
    specialize (Hm (take_prefix (P +:+ ".") (drop_smaller (P +:+ ".") (e :: kv)))).
    destruct (map_entries t _ _); [|done|done]. destruct (take_prefix _ _); [done|]. split; [done|by apply drop_sorted].
Qed.
Lemma unmarshal_no_panic et anns : ev_unmarshaler et = None -> plain (ev_ty et) = true -> unmarshal et anns (zero (ev_ty et)) <> EPanics.
Proof.
  intros Hc Hp. unfold unmarshal. destruct (negb _); [done|]. rewrite Hc. 
  pose proof (plain_no_panic _ Hp "" (zero (ev_ty et)) (map_to_kvs (string_map anns)) (zero_shape _ Hp) (ssorted_is_sorted _ (kvs_sorted _))) as H.
  destruct (unflat _ _ _ _); done.
Qed.

(** ** Deciding which types are separate *)
Definition clash_b (a b : string) : bool :=
  has_prefix a b && match trim_prefix a b with String c _ => N.leb (N_of_ascii c) 46 | "" => false end.
Lemma clash_b_ok a b : clash_b a b = false -> no_clash a b.
Proof.
  intros H c r ->. unfold clash_b in H. rewrite has_prefix_app, trim_prefix_app in H. cbn [andb] in H. lia.
Qed.
Definition names_ok_b (ns : list string) : bool :=
  bool_decide (NoDup ns) && forallb (fun n => negb (String.eqb n "")) ns && forallb (fun a => forallb (fun b => negb (clash_b a b)) ns) ns.
Lemma names_ok_b_ok ns : names_ok_b ns = true -> names_ok ns.
Proof.
  intros [[H1 H2]%andb_true_iff H3]%andb_true_iff. apply bool_decide_eq_true in H1. rewrite forallb_forall in H2, H3. split_and!; [done|..].
  - intros n Hn. apply elem_of_list_In, H2 in Hn. intros ->. done.
  - intros a b Ha Hb. apply elem_of_list_In in Ha, Hb. apply H3 in Ha. rewrite forallb_forall in Ha. apply Ha in Hb. apply clash_b_ok. by destruct (clash_b a b).
Qed.
Definition separate_b (ets : list evtype) : bool :=
  bool_decide (NoDup (map ev_schema ets)) && names_ok_b (concat (map names_of ets)) &&
  forallb (fun n => negb (has_prefix n schema_prefix) && negb (has_prefix schema_prefix n)) (concat (map names_of ets)).
Lemma separate_b_ok ets : separate_b ets = true -> separate ets.
Proof.
  intros [[H1 H2]%andb_true_iff H3]%andb_true_iff. apply bool_decide_eq_true in H1. rewrite forallb_forall in H3. split_and!; [done|by apply names_ok_b_ok|].
  intros n Hn. apply elem_of_list_In, H3 in Hn. apply andb_true_iff in Hn as [H4 H5]. by destruct (has_prefix n _), (has_prefix _ n).
Qed.
Lemma submseteq_concat {A} (a b : list (list A)) : a ⊆+ b -> concat a ⊆+ concat b.
Proof.
  induction 1 as [|x a b H IH|x y a|x a b H IH|a b c H1 IH1 H2 IH2]; cbn; [done|by apply submseteq_skips_l| |by apply submseteq_inserts_l|by etrans].
  rewrite !(assoc_L (++)). apply submseteq_skips_r. by rewrite (comm (++)).
Qed.
Lemma separate_sub ets big : NoDup ets -> (forall et, et ∈ ets -> et ∈ big) -> separate big -> separate ets.
Proof.
  intros Hnd Hin (H1 & (H2 & H3 & H4) & H5). assert (ets ⊆+ big) as Hs by (by apply NoDup_submseteq).
  assert (concat (map names_of ets) ⊆+ concat (map names_of big)) as Hc by (by apply submseteq_concat, fmap_submseteq).
  assert (forall n, n ∈ concat (map names_of ets) -> n ∈ concat (map names_of big)) as Hn by (intros n Hn; by eapply elem_of_submseteq).
  split_and!; [|split_and!|]; [..|auto].
  - assert (map ev_schema ets ⊆+ map ev_schema big) as Hm by (apply (fmap_submseteq ev_schema); done). apply submseteq_Permutation in Hm as [k Hk]. rewrite Hk in H1. by apply NoDup_app in H1 as [? _].
  - apply submseteq_Permutation in Hc as [k Hk]. rewrite Hk in H2. by apply NoDup_app in H2 as [? _].
  - auto.
  - auto.
Qed.
(** The registry *)
Lemma register_all_spec ets : forall reg, register_all ets = Some reg -> forall s et, reg !! s = Some et <-> et ∈ ets /\ ev_schema et = s.
Proof.
  unfold register_all. induction ets as [|et ets IH] using rev_ind; intros reg.
  - cbn. intros [= <-] s et. rewrite lookup_empty. split; [done|by intros [?%elem_of_nil _]].
  - rewrite fold_left_app. cbn [fold_left]. destruct (fold_left _ ets (Some ∅)) as [r|] eqn:E; [|done]. cbn [mbind option_bind]. specialize (IH r eq_refl). unfold register.
    destruct (decide (is_Some (r !! ev_schema et))) as [|Hn]; [done|]. destruct (decide (ev_schema et = "")); [done|]. intros [= <-] s et'.
    destruct (decide (s = ev_schema et)) as [->|Hne].
    + rewrite lookup_insert. split.
      * intros [= ->]. split; [apply elem_of_app; right; left|done].
      * intros [[He|He%elem_of_list_singleton]%elem_of_app Hs]; [|by subst]. exfalso. apply Hn. exists et'. by apply IH.
    + rewrite lookup_insert_ne by done. rewrite IH. split; intros [He Hs]; (split; [|done]); [apply elem_of_app; by left|].
      apply elem_of_app in He as [He|He%elem_of_list_singleton]; [done|]. by subst.
Qed.
Lemma schemas_spec anns : map (fun s => schema_prefix +:+ s)%string (schemas anns) = filter (fun k => has_prefix schema_prefix k = true) (map ann_key anns).
Proof.
  induction anns as [|[k v] anns IH]; [done|]. cbn [schemas map ann_key]. rewrite filter_cons. destruct (has_prefix schema_prefix k) eqn:E.
  - rewrite decide_True by done. apply has_prefix_spec in E as [q ->]. rewrite trim_prefix_app. cbn [map]. by rewrite IH.
  - by rewrite decide_False by done.
Qed.
(** The order of annotations *)
Lemma string_map_perm a b : Permutation a b -> NoDup (map ann_key a) -> string_map a = string_map b.
Proof.
  intros Hp Hnd. apply map_eq. intros k. assert (NoDup (map ann_key b)) as Hnd' by (by rewrite <- Hp). 
  assert (forall s, string_map a !! k = Some s <-> string_map b !! k = Some s) as H. { intros s. rewrite !string_map_lookup by done. by setoid_rewrite Hp. }
  destruct (string_map a !! k) as [s|] eqn:E; [symmetry; by apply H|]. destruct (string_map b !! k) as [s|] eqn:E'; [|done]. by destruct (proj2 (H s) eq_refl).
Qed.
Lemma string_map_dup k v a : k ∈ map ann_key a -> string_map (Ann k v :: a) = string_map a.
Proof.
  intros Hk. unfold string_map. cbn [fold_left ann_key ann_val].
  assert (forall m : gmap string string, k ∈ map ann_key a -> fold_left (fun m x => <[ann_key x := val_bytes (ann_val x)]> m) a (<[k := val_bytes v]> m) =
    fold_left (fun m x => <[ann_key x := val_bytes (ann_val x)]> m) a m) as H; [|by apply H].
  clear Hk. induction a as [|[k' v'] a IH]; intros m Hk; [by apply elem_of_nil in Hk|]. cbn [fold_left ann_key ann_val map] in *.
  destruct (decide (k = k')) as [->|Hne]; [by rewrite insert_insert|]. apply elem_of_cons in Hk as [?|Hk]; [done|]. rewrite insert_commute by done. by apply IH.
Qed.
Lemma unmarshal_map et a b x y : ev_unmarshaler et = None -> string_map a = string_map b -> (forall s, s ∈ schemas a <-> s ∈ schemas b) ->
  unmarshal et a x = EDone y <-> unmarshal et b x = EDone y.
Proof.
  intros Hc Hm Hs. unfold unmarshal. rewrite Hc, Hm. rewrite (bool_decide_ext _ _ (Hs (ev_schema et))). destruct (bool_decide _); cbn [negb]; done.
Qed.
