(** Unflattening restores what flattening wrote. *)
From Verif Require Import Base StrOrder TimeModel TimeProofs ReflModel ReflSpec ReflProofs ReflProofs2.
From stdpp Require Import sorting.
Local Open Scope N_scope.

Lemma nest_dot P n : P <> ""%string -> nest P n = ((P +:+ ".") +:+ n)%string.
Proof. destruct P; [done|]. intros _. cbn [nest]. by rewrite str_app_assoc. Qed.

(** ** What good values write *)
Lemma good_cases t x : good t x ->
  leaf t x \/ (exists fs, t = TStruct fs) \/ (exists e, t = TMap e) \/
  exists e l, Forall (leaf e) l /\ l <> [] /\ (Z.of_nat (length l) < 9223372036854775808)%Z /\
    (t = TSlice e /\ x = VSlice (Some l) \/ t = TArray (length l) e /\ x = VArray l).
Proof.
  destruct t as [| | | | | |]; cbn [good]; try (intros H; by left); [eauto|eauto|..].
  - destruct x as [| | | | | | | | | | |[l|]|]; try (by intros []). intros (H1 & H2 & H3). right. right. right. exists t, l. split_and!; auto.
  - destruct x as [| | | | | | | | | | | |l]; try (by intros []). intros (H1 & <- & H2 & H3). right. right. right. exists t, l. split_and!; auto.
Qed.
Lemma map_cases e x : good (TMap e) x -> x = VMap None \/ exists l, x = VMap (Some l) /\ l <> [] /\
  StronglySorted (fun a b => slt (fst a) (fst b) = true) l /\ Forall (fun f => leaf e (snd f)) l.
Proof. cbn [good]. destruct x as [| | | | | | | | | |[l|]| |]; try (by intros []); [|by left]. right. eauto. Qed.
Lemma struct_fields (fs : list (string * ty)) (l : list (string * val)) : map fst l = map fst fs -> Forall2 (fun f g => fst f = fst g /\ good (snd f) (snd g) /\ (is_map (snd f) = true \/ writes (snd g) = true)) fs l ->
  NoDup (map fst fs) -> forall n t x, (n, t) ∈ fs -> (n, x) ∈ l -> good t x /\ (is_map t = true \/ writes x = true).
Proof.
  intros Hf H Hnd n t x H1 H2. apply elem_of_list_lookup in H1 as [i Hi], H2 as [j Hj].
  destruct (Forall2_lookup_l _ _ _ _ _ H Hi) as ([n' x'] & Hx & Hr & Hg). cbn in *. subst n'.
  assert (i = j) as ->; [|rewrite Hj in Hx; injection Hx as ->; done].
  eapply (NoDup_lookup (map fst l)); [by rewrite Hf|..]; rewrite list_lookup_fmap; [by rewrite Hx|by rewrite Hj].
Qed.
Lemma flat_under t : forall x P fl, good t x -> P <> ""%string -> flatten x P = Some fl -> forall e, e ∈ fl -> under P (fst e).
Proof.
  assert (forall t, (forall fs, t <> TStruct fs) -> forall x P fl, good t x -> P <> ""%string -> flatten x P = Some fl -> forall e, e ∈ fl -> under P (fst e)) as Hns.
  { intros t' Hn x P fl Hg HP Hfl e He. destruct (good_cases _ _ Hg) as [Hl|[[fs ->]|[[e' ->]|(e' & l & Hl & Hne & Hlen & Ht)]]].
    - apply leaf_text in Hl as (s & Hs & _). rewrite Hs in Hfl. injection Hfl as <-. apply elem_of_list_singleton in He as ->. by left.
    - by destruct (Hn fs).
    - apply map_cases in Hg as [->|(l & -> & Hne & Hs & Hl)]; [injection Hfl as <-; by apply elem_of_nil in He|].
      destruct (flatten_map e' l P HP Hl) as (ss & Hf & _). rewrite Hf in Hfl. injection Hfl as <-. right. by eapply zip_elem.
    - destruct (flatten_list e' (fun i => nest P (fmt_int (Z.of_nat i))) l Hl) as (ss & Hf & _).
      assert (flatten x P = Some (imap (fun i s => (nest P (fmt_int (Z.of_nat i)), s)) ss)) as Hf' by (destruct Ht as [[_ ->]|[_ ->]]; exact Hf).
      rewrite Hf' in Hfl. injection Hfl as <-. apply elem_of_lookup_imap in He as (i & s & -> & _). right. cbn [fst]. rewrite nest_dot by done. apply has_prefix_app. }
  induction t as [b k'| |t IH|fs IH|t IH|t IH|n t IH] using ty_ind'; try (apply Hns; done).
  intros x P fl Hg HP Hfl e He. apply good_struct in Hg as (l & -> & Hf & (Hnd & Hn0 & _) & Hall). apply flatten_struct in Hfl as [_ H2].
  destruct (H2 _ He) as ([n x] & flg & Hg & Hflg & Heg). cbn in *. assert (n ∈ map fst fs) as Hn by (rewrite <- Hf; apply elem_of_list_fmap; by exists (n, x)).
  apply elem_of_list_fmap in Hn as ([n' t] & E & Ht). cbn in E. subst n'. rewrite Forall_forall in IH.
  eapply under_nest; [done|]. eapply (IH _ Ht); cbn; [|apply nest_nonempty, Hn0, elem_of_list_fmap; by exists (n, t)|exact Hflg|done].
  by eapply (struct_fields fs l).
Qed.
Lemma writes_flat t : forall x P fl, good t x -> P <> ""%string -> writes x = true -> flatten x P = Some fl -> fl <> [].
Proof.
  assert (forall t, (forall fs, t <> TStruct fs) -> forall x P fl, good t x -> P <> ""%string -> writes x = true -> flatten x P = Some fl -> fl <> []) as Hns.
  { intros t' Hn x P fl Hg HP Hw Hfl ->. destruct (good_cases _ _ Hg) as [Hl|[[fs ->]|[[e' ->]|(e' & l & Hl & Hne & Hlen & Ht)]]].
    - apply leaf_text in Hl as (s & Hs & _). by rewrite Hs in Hfl.
    - by destruct (Hn fs).
    - apply map_cases in Hg as [->|(l & -> & Hne & Hs & Hl)]; [done|].
      destruct (flatten_map e' l P HP Hl) as (ss & Hf & H2). rewrite Hf in Hfl. destruct H2; done.
    - destruct (flatten_list e' (fun i => nest P (fmt_int (Z.of_nat i))) l Hl) as (ss & Hf & H2).
      assert (flatten x P = Some (imap (fun i s => (nest P (fmt_int (Z.of_nat i)), s)) ss)) as Hf' by (destruct Ht as [[_ ->]|[_ ->]]; exact Hf).
      rewrite Hf' in Hfl. destruct H2; done. }
  induction t as [b k'| |t IH|fs IH|t IH|t IH|n t IH] using ty_ind'; try (apply Hns; done).
  intros x P fl Hg HP Hw Hfl ->. apply good_struct in Hg as (l & -> & Hf & (Hnd & Hn0 & _) & Hall). apply flatten_struct in Hfl as [H1 _].
  cbn [writes] in Hw. apply existsb_exists in Hw as ([n x] & Hin & Hw). apply elem_of_list_In in Hin. destruct (H1 _ Hin) as (flg & Hflg & Hsub). cbn in *.
  assert (n ∈ map fst fs) as Hn by (rewrite <- Hf; apply elem_of_list_fmap; by exists (n, x)).
  apply elem_of_list_fmap in Hn as ([n' t] & E & Ht). cbn in E. subst n'. rewrite Forall_forall in IH.
  assert (flg <> []) as Hne. { eapply (IH _ Ht); cbn; [|apply nest_nonempty, Hn0, elem_of_list_fmap; by exists (n, t)|exact Hw|exact Hflg]. by eapply (struct_fields fs l). }
  destruct flg as [|e flg]; [done|]. assert (e ∈ @nil (string * string)) as []%elem_of_nil by (apply Hsub; left).
Qed.
(** Flattening a good value does not panic. *)
Lemma flatten_total t : forall x P, good t x -> P <> ""%string \/ (exists fs, t = TStruct fs) -> exists fl, flatten x P = Some fl.
Proof.
  assert (forall t, (forall fs, t <> TStruct fs) -> forall x P, good t x -> P <> ""%string \/ (exists fs, t = TStruct fs) -> exists fl, flatten x P = Some fl) as Hns.
  { intros t' Hn x P Hg HP. destruct HP as [HP|[fs ->]]; [|by destruct (Hn fs)].
    destruct (good_cases _ _ Hg) as [Hl|[[fs ->]|[[e' ->]|(e' & l & Hl & Hne & Hlen & Ht)]]].
    - apply leaf_text in Hl as (s & Hs & _). eauto.
    - by destruct (Hn fs).
    - apply map_cases in Hg as [->|(l & -> & Hne & Hs & Hl)]; [by exists []|].
      destruct (flatten_map e' l P HP Hl) as (ss & Hf & _). eauto.
    - destruct (flatten_list e' (fun i => nest P (fmt_int (Z.of_nat i))) l Hl) as (ss & Hf & _).
      exists (imap (fun i s => (nest P (fmt_int (Z.of_nat i)), s)) ss). destruct Ht as [[_ ->]|[_ ->]]; exact Hf. }
  induction t as [b k'| |t IH|fs IH|t IH|t IH|n t IH] using ty_ind'; try (apply Hns; done).
  intros x P Hg _. apply good_struct in Hg as (l & -> & Hf & (Hnd & Hn0 & _) & Hall). cbn [flatten]. clear Hf Hnd.
  induction Hall as [|[n t] [n' x] fs l (E & Hg & _) Hall IHl]; [by exists []|]. cbn in E, Hg. subst n'.
  apply Forall_cons in IH as [IH1 IH2]. destruct IHl as [fl2 H2]; [done|intros; apply Hn0; by right|].
  destruct (IH1 x (nest P n)) as [fl1 H1]; [done|left; apply nest_nonempty, Hn0; left|].
  exists (fl1 ++ fl2). cbn [map cat_opt fold_right fst snd]. rewrite H1. by fold (cat_opt (map (fun f : string * val => flatten f.2 (nest P f.1)) l)); rewrite H2.
Qed.

(** ** Siblings *)
Lemma sibling_above P a b k : slt a b = true -> no_clash a b -> under (nest P b) k -> above (nest P a) k.
Proof.
  intros H1 H2 H3. destruct (nest_pre P) as (pre & Hn & _). rewrite !Hn in *. apply under_app in H3 as (k' & -> & Hu). apply above_app. by eapply above_sibling.
Qed.
Lemma sibling_foreign t P a b k : a <> ""%string -> a <> b -> no_clash a b -> no_clash b a -> under (nest P b) k -> foreign t (nest P a) k.
Proof.
  intros Ha Hne H1 H2 H3. apply foreign_out; [by apply nest_nonempty|]. destruct (nest_pre P) as (pre & Hn & _). rewrite !Hn in *. apply under_app in H3 as (k' & -> & Hu).
  unfold out. rewrite has_prefix_app_l, above_app. by apply (out_sibling a b).
Qed.

Definition restores (t : ty) : Prop := forall x P kv fl, good t x -> P <> ""%string -> ssorted kv -> flatten x P = Some fl ->
  (forall e, e ∈ fl -> e ∈ kv) -> (forall e, e ∈ kv -> e ∉ fl -> foreign t P (fst e)) -> (is_map t = true \/ writes x = true) ->
  exists kv', unflat t P (zero t) kv = UOk x kv' /\ kv' `suffix_of` kv /\ forall e, e ∈ kv -> above P (fst e) -> e ∈ kv'.

(** ** Structs *)
Lemma run_fields_ok fs l P kv0 fl : map fst l = map fst fs -> names_ok (map fst fs) ->
  Forall2 (fun f g => fst f = fst g /\ good (snd f) (snd g) /\ (is_map (snd f) = true \/ writes (snd g) = true)) fs l ->
  Forall (fun f => restores (snd f)) fs -> ssorted kv0 -> flatten (VStruct l) P = Some fl ->
  (forall e, e ∈ fl -> e ∈ kv0) -> (forall e, e ∈ kv0 -> e ∉ fl -> foreign (TStruct fs) P (fst e)) ->
  forall fs', StronglySorted (fun a b => slt (fst a) (fst b) = true) fs' -> (forall f, f ∈ fs' -> f ∈ fs) ->
  forall cur kv, map fst cur = map fst l ->
    (forall n t, (n, t) ∈ fs' -> (n, zero t) ∈ cur) -> (forall n x, (n, x) ∈ l -> (n, x) ∈ cur \/ n ∈ map fst fs') ->
    kv `suffix_of` kv0 -> (forall n t x flg e, (n, t) ∈ fs' -> (n, x) ∈ l -> flatten x (nest P n) = Some flg -> e ∈ flg -> e ∈ kv) ->
  exists kv', run_fields P (map (fun f => (fst f, unflat (snd f))) fs') cur kv = (l, Some kv', false) /\ kv' `suffix_of` kv /\
    forall e, e ∈ kv -> (forall f, f ∈ fs' -> above (nest P (fst f)) (fst e)) -> e ∈ kv'.
Proof.
  intros Hf (Hnd & Hn0 & Hnc) Hall Hres Hs0 Hfl Hsub Hfor fs' Hsf. rewrite Forall_forall in Hres.
  assert (forall n t x, (n, t) ∈ fs -> (n, x) ∈ l -> good t x /\ (is_map t = true \/ writes x = true)) as Hgood by (by eapply (struct_fields fs l)).
  assert (forall n t, (n, t) ∈ fs -> n ∈ map fst fs) as Hnin by (intros n t H; apply elem_of_list_fmap; by exists (n, t)).
  apply flatten_struct in Hfl as [Hfl1 Hfl2].
  assert (forall n x flg e, (n, x) ∈ l -> flatten x (nest P n) = Some flg -> e ∈ flg -> under (nest P n) (fst e)) as Hund.
  { intros n x flg e Hx Hflg He. assert (n ∈ map fst fs) as Hn by (rewrite <- Hf; apply elem_of_list_fmap; by exists (n, x)).
    apply elem_of_list_fmap in Hn as ([n' t] & E & Ht). cbn in E. subst n'. eapply (flat_under t); [|..|exact Hflg|exact He]; [by eapply Hgood|by eapply nest_nonempty, Hn0, Hnin]. }
  induction Hsf as [|[n t] fs' Hsf IH Hlt]; intros Hin cur kv Hcur Hz0 Hst Hsuf Hkv.
  - exists kv. cbn [map run_fields]. split_and!; [|done|done]. repeat f_equal. apply fields_ext; [done|by rewrite Hcur, Hf|].
    intros [n x] Hx. assert (exists y, (n, y) ∈ l) as [y Hy].
    { assert (n ∈ map fst l) as Hn by (rewrite <- Hcur; apply elem_of_list_fmap; by exists (n, x)). apply elem_of_list_fmap in Hn as ([n' y] & E & Hy). cbn in E. subst. eauto. }
    destruct (Hst _ _ Hy) as [Hc|[]%elem_of_nil]. assert (NoDup (map fst cur)) as Hndc by (by rewrite Hcur, Hf).
    apply get_field_in in Hc; [|done]. apply get_field_in in Hx; [|done]. rewrite Hx in Hc. by injection Hc as ->.
  - assert ((n, t) ∈ fs) as Ht by (apply Hin; left). rewrite Forall_forall in Hlt.
    assert (n ∈ map fst l) as Hn by (rewrite Hf; by eapply Hnin). apply elem_of_list_fmap in Hn as ([n' x] & E & Hx). cbn in E. subst n'.
    destruct (Hfl1 _ Hx) as (flg & Hflg & Hflgin). cbn in Hflg, Hflgin. destruct (Hgood _ _ _ Ht Hx) as [Hg Hw].
    assert (NoDup (map fst cur)) as Hndc by (by rewrite Hcur, Hf).
    assert (forall f, f ∈ fs' -> fst f <> n) as Hnn. { intros f Hff E. apply Hlt in Hff. cbn in Hff. by rewrite E, slt_irrefl in Hff. }
    pose proof (ssorted_suffix _ _ Hsuf Hs0) as Hs.
    assert (forall e, e ∈ kv -> e ∈ kv0) as Hkk by (intros e He; destruct Hsuf as [p ->]; apply elem_of_app; by right).
    assert (exists kv1, unflat t (nest P n) (zero t) kv = UOk x kv1 /\ kv1 `suffix_of` kv /\
      forall e, e ∈ kv -> above (nest P n) (fst e) -> e ∈ kv1) as (kv1 & Hu & Hs1 & Hk1).
    { eapply (Hres _ Ht); [exact Hg|by eapply nest_nonempty, Hn0, Hnin|done|exact Hflg|..|exact Hw].
      - intros e He. eapply Hkv; [left|exact Hx|exact Hflg|exact He].
      - intros e He Hne. cbn. destruct (decide (e ∈ fl)) as [Hefl|Hefl].
        + destruct (Hfl2 _ Hefl) as ([m z] & flz & Hz & Hflz & Hez). cbn in Hflz.
          assert (m <> n) as Hmn. { intros ->. assert (get_field n l = Some z) as G1 by (apply get_field_in; [by rewrite Hf|done]).
            assert (get_field n l = Some x) as G2 by (apply get_field_in; [by rewrite Hf|done]). rewrite G1 in G2. injection G2 as ->. congruence. }
          assert (m ∈ map fst fs) as Hm by (rewrite <- Hf; apply elem_of_list_fmap; by exists (m, z)).
          eapply (sibling_foreign t P n m); [by eapply Hn0, Hnin|done|apply Hnc; [by eapply Hnin|done]|apply Hnc; [done|by eapply Hnin]|]. by eapply Hund.
        + pose proof (Hfor e (Hkk _ He) Hefl) as Hff. apply foreign_struct in Hff. rewrite Forall_forall in Hff. exact (Hff _ Ht). }
    assert (get_field n cur = Some (zero t)) as Hy by (apply get_field_in; [done|apply Hz0; left]).
    destruct (IH ltac:(intros f Hff; apply Hin; by right) (set_field n x cur) kv1) as (kv' & H1 & H2 & H3).
    + by rewrite set_field_fst.
    + intros m t' Hm. apply set_field_in. left. split; [intros ->; by apply Hnn in Hm|apply Hz0; by right].
    + intros m z Hm. destruct (decide (m = n)) as [->|Hmn].
      * left. apply set_field_in. right. split_and!; [done| |rewrite Hcur, Hf; by eapply Hnin].
        assert (get_field n l = Some z) as G1 by (apply get_field_in; [by rewrite Hf|done]).
        assert (get_field n l = Some x) as G2 by (apply get_field_in; [by rewrite Hf|done]). congruence.
      * destruct (Hst _ _ Hm) as [Hc|Hc]; [left; apply set_field_in; by left|]. cbn in Hc. apply elem_of_cons in Hc as [?|?]; [done|by right].
    + by etrans.
    + intros m t' z flz e Hm Hz Hflz He. apply Hk1; [eapply Hkv; [right; exact Hm|exact Hz|exact Hflz|exact He]|].
      eapply sibling_above; [exact (Hlt _ Hm)| |by eapply Hund]. apply Hnc; [by eapply Hnin|]. eapply Hnin, Hin. by right.
    + exists kv'. split_and!.
      * cbn [map run_fields fst snd]. rewrite Hy, Hu. exact H1.
      * by etrans.
      * intros e He Ha. apply H3; [|intros f Hff; apply Ha; by right]. apply Hk1; [done|]. apply (Ha (n, t)). left.
Qed.
Lemma zero_fields (fs : list (string * ty)) n t : (n, t) ∈ fs -> (n, zero t) ∈ map (fun f => (fst f, zero (snd f))) fs.
Proof. intros H. apply elem_of_list_fmap. by exists (n, t). Qed.
Global Instance key_le_total {A} : Total (@key_le A).
Proof. intros a b. unfold key_le. destruct (slt b.1 a.1) eqn:E; [right; by apply slt_asym|by left]. Qed.
Lemma slt_false_trans a b c : slt b a = false -> slt c b = false -> slt c a = false.
Proof.
  intros H1 H2. destruct (slt c a) eqn:E; [|done]. destruct (slt_total a b) as [H|[->|H]]; [|congruence|congruence].
  rewrite (slt_trans _ _ _ E H) in H2. done.
Qed.
Global Instance key_le_trans {A} : Transitive (@key_le A).
Proof. intros a b c. unfold key_le. intros. by eapply slt_false_trans. Qed.
Lemma field_order {A} (g : ty -> A) (fs : list (string * ty)) : NoDup (map fst fs) -> exists fs',
  merge_sort key_le (map (fun f => (fst f, g (snd f))) fs) = map (fun f => (fst f, g (snd f))) fs' /\ Permutation fs' fs /\ StronglySorted (fun a b : string * ty => slt (fst a) (fst b) = true) fs'.
Proof.
  intros Hnd. pose proof (merge_sort_Permutation key_le (map (fun f : string * ty => (fst f, g (snd f))) fs)) as Hp.
  pose proof (StronglySorted_merge_sort key_le (map (fun f : string * ty => (fst f, g (snd f))) fs)) as Hs.
  apply Permutation_map_inv in Hp as (fs' & Heq & Hp). rewrite Heq in *. exists fs'. split_and!; [done|done|].
  assert (NoDup (map fst fs')) as Hnd' by (by rewrite <- Hp). clear Heq Hp Hnd. induction fs' as [|f fs' IH]; [constructor|].
  cbn in Hs, Hnd'. inversion Hs as [|? ? Hs1 Hs2]; subst. apply NoDup_cons in Hnd' as [Hn Hnd']. constructor; [by apply IH|].
  rewrite Forall_forall in Hs2. apply Forall_forall. intros f2 Hf2.
  assert (key_le (f.1, g f.2) (f2.1, g f2.2)) as Hk by (apply Hs2, elem_of_list_fmap; by exists f2). unfold key_le in Hk. cbn in Hk.
  destruct (slt_total f.1 f2.1) as [H|[H|H]]; [done| |congruence]. exfalso. apply Hn. rewrite H. apply elem_of_list_fmap. by exists f2.
Qed.
(** Reading the fields of a struct from the pairs, with any prefix. *)
Lemma struct_run fs l P kv fl : good (TStruct fs) (VStruct l) -> Forall (fun f => restores (snd f)) fs -> ssorted kv -> flatten (VStruct l) P = Some fl ->
  (forall e, e ∈ fl -> e ∈ kv) -> (forall e, e ∈ kv -> e ∉ fl -> foreign (TStruct fs) P (fst e)) ->
  exists kv', run_fields P (merge_sort key_le (map (fun f => (fst f, unflat (snd f))) fs)) (map (fun f => (fst f, zero (snd f))) fs) kv = (l, Some kv', false) /\
    kv' `suffix_of` kv /\ forall e, e ∈ kv -> (forall f, f ∈ fs -> above (nest P (fst f)) (fst e)) -> e ∈ kv'.
Proof.
  intros Hg Hres Hs Hfl Hsub Hfor. apply good_struct in Hg as (l' & [= <-] & Hf & Hno & Hall). destruct Hno as (Hnd & Hn0 & Hnc).
  destruct (field_order unflat fs Hnd) as (fs' & Heq & Hp & Hss). setoid_rewrite Heq.
  destruct (run_fields_ok fs l P kv fl Hf (conj Hnd (conj Hn0 Hnc)) Hall Hres Hs Hfl Hsub Hfor fs' Hss) with (cur := map (fun f => (fst f, zero (snd f))) fs) (kv := kv) as (kv' & H1 & H2 & H3).
  - intros f. by rewrite Hp.
  - rewrite Hf, map_map. done.
  - intros n t. rewrite Hp. apply zero_fields.
  - intros n x Hx. right. rewrite Hp, <- Hf. apply elem_of_list_fmap. by exists (n, x).
  - done.
  - intros n t x flg e Hn Hx Hflg He. apply Hsub. apply flatten_struct in Hfl as [Hfl1 _]. destruct (Hfl1 _ Hx) as (flg' & E & Hin). cbn in E. rewrite E in Hflg. injection Hflg as <-. auto.
  - exists kv'. split_and!; [done|done|]. intros e He Ha. apply H3; [done|]. intros f. rewrite Hp. apply Ha.
Qed.

(** ** Every good value is restored *)
Lemma imap_elem_prefix P (ss : list string) e : P <> ""%string -> e ∈ imap (fun i s => (nest P (fmt_int (Z.of_nat i)), s)) ss ->
  exists i s, e = ((P +:+ ".") +:+ fmt_int (Z.of_nat i), s)%string /\ ss !! i = Some s.
Proof. intros HP (i & s & -> & Hi)%elem_of_lookup_imap. exists i, s. by rewrite nest_dot. Qed.
Lemma leaf_scalar t x : leaf t x -> forall P kv, ssorted kv -> match drop_until P kv with
  | (k, s) :: r => parse_value t s = POk x -> unflat t P (zero t) kv = UOk x r | [] => True end.
Proof.
  intros Hl P kv Hs. destruct kv as [|e0 kv0] eqn:Ek; [done|]. rewrite <- Ek. destruct (drop_until P kv) as [|[k s] r] eqn:Ed; [done|]. intros Hp.
  pose proof (ssorted_is_sorted _ Hs) as Hss. rewrite <- Ek in *.
  destruct t as [[] k'| |t| | | |]; try done; [| |destruct t as [[] k'| | | | | |]; try done];
    unfold unflat; rewrite Hss; cbn [negb]; rewrite Ed, Ek; rewrite Hp; reflexivity.
Qed.
Lemma unflat_struct fs P l kv : unflat (TStruct fs) P (VStruct l) kv =
  if negb (is_sorted kv) then UPanic else match kv with [] => UOk (VStruct l) [] | _ =>
  match drop_until P kv with [] => UOk (VStruct l) [] | e :: r =>
    match run_fields P (merge_sort key_le (map (fun f => (fst f, unflat (snd f))) fs)) l (e :: r) with
    | (_, _, true) => UPanic | (l, Some kv, _) => UOk (VStruct l) kv | (l, None, _) => UErr (VStruct l) end end end.
Proof. cbn [unflat]. destruct (negb (is_sorted kv)); [done|]. destruct kv; [done|]. by destruct (drop_until P _) as [|[k s] r]. Qed.
Lemma restores_all t : restores t.
Proof.
  assert (forall t, (forall fs, t <> TStruct fs) -> restores t) as Hns.
  { intros t' Hn x P kv fl Hg HP Hs Hfl Hsub Hfor Hw. pose proof (ssorted_is_sorted _ Hs) as Hss.
    destruct (good_cases _ _ Hg) as [Hl|[[fs ->]|[[e' ->]|(e' & l & Hl & Hne & Hlen & Ht)]]].
    - pose proof (leaf_scalar _ _ Hl P kv Hs) as Hu. apply leaf_text in Hl as (s & Hs' & Hp). rewrite Hs' in Hfl. injection Hfl as <-.
      destruct (drop_until_exact P s kv Hs) as (r & Hr & Hsuf & Hk); [apply Hsub; left|]. rewrite Hr in Hu. exists r. split_and!; [by apply Hu|done|].
      intros e He Ha. apply Hk; [done|by apply above_slt].
    - by destruct (Hn fs).
    - destruct kv as [|e0 kv0] eqn:Ek.
      { apply map_cases in Hg as [->|(l & -> & Hne & Hsl & Hl)]; [by exists []|]. exfalso.
        destruct (flatten_map e' l P HP Hl) as (ss & Hf & H2). rewrite Hf in Hfl. injection Hfl as <-. destruct H2 as [|f s l ss]; [done|].
        eapply not_elem_of_nil. apply Hsub. left. }
      rewrite <- Ek in *. assert (unflat (TMap e') P (zero (TMap e')) kv = unflat_map e' P kv (VMap None) (fun m kv => UOk (VMap (Some m)) kv)) as ->.
      { cbn [unflat]. rewrite Hss. by rewrite Ek. }
      unfold unflat_map. apply map_cases in Hg as [->|(l & -> & Hne & Hsl & Hl)].
      + injection Hfl as <-. destruct (found_map P kv [] Hs) as (Hf & _ & _); [constructor|by intros ? ?%elem_of_nil|intros; by apply Hfor|].
        rewrite Hf. cbn [map_entries]. by exists kv.
      + destruct (flatten_map e' l P HP Hl) as (ss & Hf & H2). rewrite Hf in Hfl. injection Hfl as <-.
        destruct (found_map P kv (zip_with (fun f s => ((P +:+ ".") +:+ fst f, s)%string) l ss) Hs) as (Hfd & Hsuf & Hk).
        { by apply zip_sorted. } { intros e He. split; [by apply Hsub|by eapply zip_elem]. } { intros; by apply Hfor. }
        rewrite Hfd, map_entries_ok by done. destruct (zip_with _ l ss) as [|f0 r0] eqn:Ez; [destruct H2; done|]. exists (drop (length (f0 :: r0)) kv). split; [reflexivity|by split].
    - destruct (flatten_list e' (fun i => nest P (fmt_int (Z.of_nat i))) l Hl) as (ss & Hf & H2).
      assert (flatten x P = Some (imap (fun i s => (nest P (fmt_int (Z.of_nat i)), s)) ss)) as Hf' by (destruct Ht as [[_ ->]|[_ ->]]; exact Hf).
      rewrite Hf' in Hfl. injection Hfl as <-. set (fl := imap _ ss) in *.
      assert (length ss = length l) as Hls by (symmetry; by eapply Forall2_length).
      assert (ss <> []) as Hss0 by (by destruct l, ss).
      destruct (found_slice P kv fl Hs) as (Hk1 & Hfound & Hsuf & Hkeep).
      { subst fl. by destruct ss. }
      { intros e He. split; [by apply Hsub|]. apply imap_elem_prefix in He as (i & s & -> & _); [|done]. apply has_prefix_app. }
      { intros e He Hne' Hp. pose proof (Hfor _ He Hne') as Hff. destruct Ht as [[-> _]|[-> _]]; cbn in Hff; auto. }
      destruct kv as [|e0 kv0] eqn:Ek; [done|]. rewrite <- Ek in *.
      destruct (drop_until P kv) as [|[k0 s0] r0] eqn:Ed; [done|]. rewrite <- Ed in *.
      destruct (index_all_ok (P +:+ ".") ss (take_prefix (P +:+ ".") (drop_until P kv))) as (elems & Hidx & He1 & He2).
      { by rewrite Hls. } { intros e He. apply Hfound in He. by apply imap_elem_prefix. }
      assert (forall i s, ss !! i = Some s -> (Z.of_nat i, s) ∈ elems) as He3.
      { intros i s Hi. apply He2; [|done]. apply Hfound. apply elem_of_lookup_imap. exists i, s. by rewrite nest_dot. }
      assert (max_index elems = Z.of_nat (length l) - 1)%Z as Hmax.
      { apply max_index_spec.
        - intros z s (i & -> & Hi)%He1. apply lookup_lt_Some in Hi. lia.
        - destruct (lookup_lt_is_Some_2 ss (length l - 1)) as [s Hlast]; [destruct l; [done|]; cbn in *; lia|]. exists s. apply He3 in Hlast.
          replace (Z.of_nat (length l) - 1)%Z with (Z.of_nat (length l - 1)); [done|]. destruct l; [done|]. cbn [length]. lia. }
      assert (set_all e' elems (replicate (length l) (zero e')) = EOk l) as Hset.
      { apply set_all_ok.
        - intros z s (i & -> & Hi)%He1. destruct (Forall2_lookup_r _ _ _ _ _ H2 Hi) as (y & Hy & Hpy). eauto.
        - apply replicate_length.
        - intros i y Hi. right. destruct (Forall2_lookup_l _ _ _ _ _ H2 Hi) as (s & Hs' & _). eauto. }
      assert (is_sorted kv = true) as Hso by (by apply ssorted_is_sorted).
      exists (drop (length (take_prefix (P +:+ ".") (drop_until P kv))) (drop_until P kv)). split; [|done].
      destruct Ht as [[-> ->]|[-> ->]].
      + unfold unflat. rewrite Hso. cbn [negb]. rewrite Ek at 1. rewrite Ed in *. cbn zeta. setoid_rewrite Hidx. rewrite Hmax.
        replace (Z.of_nat (length l) - 1 + 1)%Z with (Z.of_nat (length l)) by lia. replace (9223372036854775808 <=? Z.of_nat (length l))%Z with false by lia.
        rewrite Nat2Z.id, Hset. done.
      + unfold unflat. rewrite Hso. cbn [negb]. rewrite Ek at 1. rewrite Ed in *. cbn zeta. setoid_rewrite Hidx. cbn [zero]. rewrite Hset. done. }
  induction t as [b k'| |t IH|fs IH|t IH|t IH|n t IH] using ty_ind'; try (apply Hns; done).
  intros x P kv fl Hg HP Hs Hfl Hsub Hfor Hw. pose proof Hg as Hg'. apply good_struct in Hg' as (l & -> & Hf & Hno & Hall).
  destruct Hw as [Hw|Hw]; [done|].
  assert (exists e0, e0 ∈ fl) as [e0 He0]. { pose proof (writes_flat _ _ _ _ Hg HP Hw Hfl). destruct fl as [|e0 fl']; [done|]. exists e0. left. }
  pose proof (flat_under _ _ _ _ Hg HP Hfl) as Hund. pose proof (Hund _ He0) as Hu0.
  pose proof (drop_until_suffix P kv) as Hsuf1. remember (drop_until P kv) as kv1 eqn:Ekv1.
  assert (forall e, e ∈ fl -> e ∈ kv1) as Hsub1.
  { intros e He. rewrite Ekv1. eapply drop_until_prefix; [done|apply Hsub; exact He0|by apply under_prefix|by apply Hsub|apply under_prefix; by apply Hund]. }
  destruct (struct_run fs l P kv1 fl Hg IH) as (kv' & Hrun & Hsuf & Hk).
  { by eapply ssorted_suffix. } { done. } { done. } { intros e He. apply Hfor. destruct Hsuf1 as [p Hp]. rewrite Hp. apply elem_of_app. by right. }
  exists kv'. split_and!.
  - pose proof (Hsub1 _ He0) as Hin1. pose proof (Hsub _ He0) as Hin. destruct kv as [|a kv0] eqn:Ek; [by apply elem_of_nil in Hin|]. rewrite <- Ek in *.
    cbn [zero]. rewrite unflat_struct, <- Ekv1. rewrite ssorted_is_sorted by done. cbn [negb]. rewrite Ek at 1.
    destruct kv1 as [|[k s] r]; [by apply elem_of_nil in Hin1|]. by rewrite Hrun.
  - by etrans.
  - intros e He Ha. apply Hk; [|intros f Hff; by apply above_nest].
    rewrite Ekv1. eapply drop_until_keep; [done|apply Hsub; exact He0|by apply under_prefix|done|]. right. destruct Hu0 as [->|Hu0]; [by apply above_slt|].
    apply has_prefix_spec in Hu0 as [q ->]. apply slt_noprefix; apply Ha.
Qed.
(** A struct at the top, with an empty prefix. *)
Lemma restores_top fs l kv fl : good (TStruct fs) (VStruct l) -> ssorted kv -> flatten (VStruct l) "" = Some fl ->
  (forall e, e ∈ fl -> e ∈ kv) -> (forall e, e ∈ kv -> e ∉ fl -> foreign (TStruct fs) "" (fst e)) ->
  exists kv', unflat (TStruct fs) "" (zero (TStruct fs)) kv = UOk (VStruct l) kv'.
Proof.
  intros Hg Hs Hfl Hsub Hfor. assert (Forall (fun f => restores (snd f)) fs) as Hres by (apply Forall_forall; intros; apply restores_all).
  destruct (struct_run fs l "" kv fl Hg Hres Hs Hfl Hsub Hfor) as (kv' & Hrun & _).
  cbn [zero]. rewrite unflat_struct. rewrite ssorted_is_sorted by done. cbn [negb].
  assert (drop_until "" kv = kv) as -> by (by destruct kv). destruct kv as [|[k s] r].
  - exists []. assert (l = map (fun f => (f.1, zero f.2)) fs) as ->; [|done].
    apply good_struct in Hg as (? & [= <-] & Hf & (Hnd & Hn0 & Hnc) & Hall). clear Hrun Hres Hs Hfor Hnd Hnc Hf. apply flatten_struct in Hfl as [Hfl _].
    assert (forall g, g ∈ l -> flatten g.2 (nest "" g.1) = Some []) as Hnil.
    { intros g (flg & -> & Hin)%Hfl. destruct flg as [|e flg]; [done|]. assert (e ∈ @nil (string * string)) as []%elem_of_nil by (apply Hsub, Hin; left). }
    clear Hfl Hsub. induction Hall as [|[n t] [n' x] fs l (E & Hg & Hw) Hall IH]; [done|]. cbn in *. subst n'. f_equal; [f_equal|apply IH].
    + specialize (Hnil (n, x) ltac:(left)). cbn in Hnil. destruct Hw as [Hw|Hw]; [|exfalso; eapply writes_flat; [exact Hg| |exact Hw|exact Hnil|done]; apply Hn0; left].
      destruct t as [| | | |t| |]; try done. apply map_cases in Hg as [->|(m & -> & Hne & _ & Hl)]; [done|]. exfalso.
      destruct (flatten_map t m n ltac:(apply Hn0; left) Hl) as (ss & Hf & H2). rewrite Hf in Hnil. destruct H2; done.
    + intros; apply Hn0; by right.
    + intros; apply Hnil; by right.
  - rewrite Hrun. eauto.
Qed.
