(** Unflattening restores what was flattened. *)
From Verif Require Import Base StrOrder TimeModel TimeProofs ReflModel ReflSpec ReflProofs.
From Coq Require Import ZifyBool ZifyNat ZifyN.
From stdpp Require Import sorting.
Local Open Scope N_scope.
Notation ssorted := (StronglySorted (fun a b : string * string => slt (fst a) (fst b) = true)).

(** ** Pairs with a prefix *)
Definition sle (a b : string) : Prop := a = b \/ slt a b = true.
Lemma sle_slt a b c : sle a b -> slt b c = true -> slt a c = true.
Proof. intros [->|H]; [done|]. by apply slt_trans. Qed.
Lemma noprefix_up p h k : sle p h -> has_prefix p h = false -> slt h k = true -> has_prefix p k = false.
Proof.
  intros [->|Hp] Hh Hk; [by rewrite has_prefix_refl in Hh|]. destruct (has_prefix p k) eqn:E; [|done]. apply has_prefix_spec in E as [r ->].
  destruct (slt_noprefix p h r Hp Hh) as [H _]. apply slt_asym in H. congruence.
Qed.
Lemma drop_smaller_spec b kv : ssorted kv -> exists skip, kv = skip ++ drop_smaller b kv /\ (forall e, e ∈ skip -> slt (fst e) b = true) /\
  (forall e, e ∈ drop_smaller b kv -> sle b (fst e)).
Proof.
  induction 1 as [|a kv H (skip & IH1 & IH2 & IH3) Ha]; [exists []; split_and!; [done|..]; by intros ? ?%elem_of_nil|]. cbn [drop_smaller].
  destruct (slt (fst a) b) eqn:E.
  - exists (a :: skip). split_and!; [cbn; by f_equal| |done]. intros e [->|He]%elem_of_cons; auto.
  - exists []. split_and!; [done|by intros ? ?%elem_of_nil|]. intros e He.
    assert (sle b (fst a)) as Hba by (destruct (slt_total b (fst a)) as [?|[?|?]]; [by right|by left|congruence]).
    apply elem_of_cons in He as [->|He]; [done|]. rewrite Forall_forall in Ha. right. eapply sle_slt; [exact Hba|]. by apply Ha.
Qed.
Lemma take_prefix_spec p kv : ssorted kv -> (forall e, e ∈ kv -> sle p (fst e)) -> exists rest, kv = take_prefix p kv ++ rest /\
  (forall e, e ∈ take_prefix p kv <-> e ∈ kv /\ has_prefix p (fst e) = true).
Proof.
  induction 1 as [|a kv H IH Ha]; intros Hle. { exists []. split; [done|]. intros e. split; [by intros ?%elem_of_nil|]. by intros [? _]. }
  cbn [take_prefix]. destruct (has_prefix p (fst a)) eqn:E.
  - destruct IH as (rest & IH1 & IH2). { intros e He. apply Hle. by right. }
    exists rest. split; [cbn; by f_equal|]. intros e. rewrite !elem_of_cons, IH2. split; [intros [->|[? ?]]; auto|]. intros [[->|?] ?]; auto.
  - exists (a :: kv). split; [done|]. intros e. split; [by intros ?%elem_of_nil|]. intros [[->|He]%elem_of_cons Hp]; [congruence|].
    rewrite Forall_forall in Ha. rewrite (noprefix_up p (fst a) (fst e)) in Hp; [done| |done|by apply Ha]. apply Hle. left.
Qed.
Lemma take_prefix_sorted p kv : ssorted kv -> ssorted (take_prefix p kv).
Proof.
  induction 1 as [|a kv H IH Ha]; [constructor|]. cbn [take_prefix]. destruct (has_prefix p a.1); [|constructor]. constructor; [done|].
  rewrite Forall_forall in *. intros e He. apply Ha. clear -He. induction kv as [|b kv IH]; [done|]. cbn in He.
  destruct (has_prefix p b.1); [|by apply elem_of_nil in He]. apply elem_of_cons in He as [->|He]; [left|right; auto].
Qed.

(** ** Maps *)
Lemma map_entries_ok e kp l ss : Forall2 (fun f s => parse_value e s = POk (snd f)) l ss ->
  map_entries e kp (zip_with (fun f s => (kp +:+ fst f, s)%string) l ss) = MOk l.
Proof. induction 1 as [|[k x] s l ss H _ IH]; [done|]. cbn [zip_with map_entries]. rewrite H, IH. cbn. by rewrite trim_prefix_app. Qed.
Lemma zip_sorted (l : list (string * val)) kp (ss : list string) : StronglySorted (fun a b => slt (fst a) (fst b) = true) l ->
  ssorted (zip_with (fun f s => (kp +:+ fst f, s)%string) l ss).
Proof.
  intros H. revert ss. induction H as [|f l H IH Hf]; intros [|s ss]; try constructor; [apply IH|]. rewrite Forall_forall in *.
  intros e He. apply (elem_of_lookup_zip_with_1 (fun (f : string * val) s => (kp +:+ fst f, s)%string)) in He as (i & g & s' & -> & Hg & _).
  cbn. rewrite slt_app_l. rewrite Forall_forall in Hf. apply Hf. by eapply elem_of_list_lookup_2.
Qed.
Lemma zip_elem (l : list (string * val)) kp (ss : list string) e : e ∈ zip_with (fun f s => (kp +:+ fst f, s)%string) l ss -> has_prefix kp (fst e) = true.
Proof.
  intros (i & g & s' & -> & _ & _)%elem_of_lookup_zip_with_1. apply has_prefix_app.
Qed.

Lemma drop_tail_elem {A} (e : A) n l1 l2 : (n <= length l1)%nat -> e ∈ l2 -> e ∈ drop n (l1 ++ l2).
Proof. intros H He. rewrite drop_app_le by done. apply elem_of_app. by right. Qed.
Lemma found_map P kv fl : ssorted kv -> ssorted fl -> (forall e, e ∈ fl -> e ∈ kv /\ has_prefix (P +:+ ".") (fst e) = true) ->
  (forall e, e ∈ kv -> e ∉ fl -> has_prefix (P +:+ ".") (fst e) = false) ->
  take_prefix (P +:+ ".") (drop_smaller (P +:+ ".") kv) = fl /\
  drop (length fl) kv `suffix_of` kv /\ forall e, e ∈ kv -> above P (fst e) -> e ∈ drop (length fl) kv.
Proof.
  intros Hs Hf H1 H2. destruct (drop_smaller_spec (P +:+ ".") kv Hs) as (skip & E & Hskip & Hle).
  assert (ssorted (drop_smaller (P +:+ ".") kv)) as Hs' by (eapply ssorted_suffix; [by exists skip|done]).
  destruct (take_prefix_spec (P +:+ ".") _ Hs' Hle) as (rest & E2 & Hin).
  assert (take_prefix (P +:+ ".") (drop_smaller (P +:+ ".") kv) = fl) as Hfl.
  { apply ssorted_ext; [by apply take_prefix_sorted|done|]. intros e. rewrite Hin. split.
    - intros [He Hp]. destruct (decide (e ∈ fl)) as [?|Hn]; [done|]. rewrite H2 in Hp; [done| |done]. rewrite E. apply elem_of_app. by right.
    - intros He. destruct (H1 _ He) as [Hk Hp]. split; [|done]. rewrite E in Hk. apply elem_of_app in Hk as [Hk|Hk]; [|done]. apply Hskip in Hk.
      apply prefix_le in Hp as [Hp|Hp]; [rewrite Hp, slt_irrefl in Hk; done|]. apply slt_asym in Hk. congruence. }
  split; [done|]. split; [eexists; symmetry; apply take_drop|].
  intros e He [Ha Hb]. rewrite Hfl in E2. rewrite E, E2. rewrite app_assoc. apply drop_tail_elem; [rewrite app_length; lia|].
  rewrite E, E2, !elem_of_app in He. destruct He as [He|[He|He]]; [|apply H1 in He as [_ He]; congruence|done].
  apply Hskip, slt_asym in He. congruence.
Qed.

(** ** Slices and arrays *)
Lemma imap_map {A B C} (f : nat -> B -> C) (g : A -> B) l : imap f (map g l) = imap (fun i x => f i (g x)) l.
Proof. revert f. induction l as [|a l IH]; intros f; [done|]. cbn. f_equal. apply (IH (f ∘ S)). Qed.
Lemma flatten_list (e : ty) (f : nat -> string) l : Forall (leaf e) l -> exists ss,
  cat_opt (imap (fun i g => g (f i)) (map (fun x => flatten x) l)) = Some (imap (fun i s => (f i, s)) ss) /\ Forall2 (fun x s => parse_value e s = POk x) l ss.
Proof.
  intros H. revert f. induction H as [|x l Hx H IH]; intros f; [by exists []|].
  apply leaf_text in Hx as (s & H1 & H2). destruct (IH (f ∘ S)) as (ss & IH1 & IH2). exists (s :: ss). split; [|by constructor].
  rewrite imap_map in *. cbn [imap cat_opt fold_right]. rewrite H1. fold (cat_opt (imap ((fun i x => flatten x (f i)) ∘ S) l)).
  change (imap ((fun i x => flatten x (f i)) ∘ S) l) with (imap (fun i x => flatten x ((f ∘ S) i)) l). rewrite IH1. done.
Qed.
Lemma fmt_int_inj a b : (Z.of_nat a < 9223372036854775808)%Z -> (Z.of_nat b < 9223372036854775808)%Z -> fmt_int (Z.of_nat a) = fmt_int (Z.of_nat b) -> a = b.
Proof.
  intros Ha Hb H. pose proof (parse_fmt_int (Z.of_nat a) ltac:(lia)) as H1. rewrite H, parse_fmt_int in H1 by lia. injection H1. lia.
Qed.
Lemma index_all_ok kp (ss : list string) found : (Z.of_nat (length ss) < 9223372036854775808)%Z ->
  (forall e, e ∈ found -> exists i s, e = (kp +:+ fmt_int (Z.of_nat i), s)%string /\ ss !! i = Some s) ->
  exists elems, index_all kp found = Some elems /\
    (forall z s, (z, s) ∈ elems -> exists i, z = Z.of_nat i /\ ss !! i = Some s) /\
    (forall i s, (kp +:+ fmt_int (Z.of_nat i), s)%string ∈ found -> ss !! i = Some s -> (Z.of_nat i, s) ∈ elems).
Proof.
  intros Hlen. induction found as [|e found IH]; intros H.
  - exists []. split_and!; [done|by intros ? ? ?%elem_of_nil|by intros ? ? ?%elem_of_nil].
  - destruct IH as (elems & H1 & H2 & H3). { intros e' He'. apply H. by right. }
    destruct (H e) as (i & s & -> & Hi); [by left|]. pose proof (lookup_lt_Some _ _ _ Hi).
    exists ((Z.of_nat i, s) :: elems). cbn [index_all]. rewrite trim_prefix_app, parse_fmt_int by lia. cbn [mbind option_bind]. rewrite H1. split_and!; [done|..].
    + intros z s' [E|He]%elem_of_cons; [|by apply H2]. injection E as -> ->. by exists i.
    + intros j s' [E|He]%elem_of_cons Hj; [|right; by apply H3]. injection E as E ->. apply str_app_inv_head in E. pose proof (lookup_lt_Some _ _ _ Hj).
      apply fmt_int_inj in E; [subst; left|lia|lia].
Qed.
Lemma max_index_spec elems m : (forall z s, (z, s) ∈ elems -> (0 <= z <= m)%Z) -> (exists s, (m, s) ∈ elems) -> max_index elems = m.
Proof.
  intros H1 [s H2]. unfold max_index.
  assert (forall (l : list (Z * string)) a, (0 <= a <= m)%Z -> (forall z s, (z, s) ∈ l -> (0 <= z <= m)%Z) -> (a = m \/ (exists s, (m, s) ∈ l)) -> fold_left (fun m e => Z.max m (fst e)) l a = m) as Hg.
  { induction l as [|[z t] l IH]; intros a Ha Hl Hm; cbn [fold_left]. { by destruct Hm as [?|[? ?%elem_of_nil]]. }
    assert (0 <= z <= m)%Z by (eapply Hl; left). apply IH; [cbn; lia|intros z' t' Hz; eapply Hl; right; exact Hz|].
    destruct Hm as [->|[t' [E|Ht]%elem_of_cons]]; [left; cbn; lia|injection E as -> ->; left; cbn; lia|right; eauto]. }
  pose proof (H1 _ _ H2). apply Hg; [lia|done|right; eauto].
Qed.
Lemma set_all_ok e elems l : (forall z s, (z, s) ∈ elems -> exists i x, z = Z.of_nat i /\ l !! i = Some x /\ parse_value e s = POk x) ->
  forall base, length base = length l -> (forall i x, l !! i = Some x -> base !! i = Some x \/ exists s, (Z.of_nat i, s) ∈ elems) -> set_all e elems base = EOk l.
Proof.
  induction elems as [|[z s] elems IH]; intros H base Hlen Hb; cbn [set_all].
  - f_equal. apply list_eq. intros i. destruct (l !! i) as [x|] eqn:E; [by destruct (Hb _ _ E) as [?|[? ?%elem_of_nil]]|].
    apply lookup_ge_None in E. apply lookup_ge_None. lia.
  - destruct (H z s) as (i & x & -> & Hi & ->); [by left|]. pose proof (lookup_lt_Some _ _ _ Hi).
    replace ((0 <=? Z.of_nat i) && (Z.of_nat i <? Z.of_nat (length base)))%Z with true by lia. rewrite Nat2Z.id.
    apply IH; [intros; apply H; by right|by rewrite insert_length|]. intros j y Hj. destruct (decide (i = j)) as [->|Hne].
    + left. rewrite list_lookup_insert by lia. congruence.
    + rewrite list_lookup_insert_ne by done. destruct (Hb _ _ Hj) as [?|[s' [E|He]%elem_of_cons]]; [by left|injection E; lia|right; eauto].
Qed.
(** The pairs of a slice are together at the front. *)
Lemma found_slice P kv fl : ssorted kv -> fl <> [] -> (forall e, e ∈ fl -> e ∈ kv /\ has_prefix (P +:+ ".") (fst e) = true) ->
  (forall e, e ∈ kv -> e ∉ fl -> has_prefix P (fst e) = true -> above P (fst e)) ->
  let kv1 := drop_until P kv in let found := take_prefix (P +:+ ".") kv1 in
  kv1 <> [] /\ (forall e, e ∈ found <-> e ∈ fl) /\ drop (length found) kv1 `suffix_of` kv /\
  forall e, e ∈ kv -> above P (fst e) -> e ∈ drop (length found) kv1.
Proof.
  intros Hs Hne H1 H2 kv1 found. destruct fl as [|f0 fl'] eqn:Efl; [done|]. rewrite <- Efl in *. assert (f0 ∈ fl) as Hf0 by (subst; left). clear Efl fl'.
  assert (forall k, has_prefix (P +:+ ".") k = true -> has_prefix P k = true) as Hpp by (intros k; apply has_prefix_trans, has_prefix_app).
  destruct (H1 _ Hf0) as [Hk0 Hp0]. pose proof (Hpp _ Hp0) as Hp0'.
  assert (forall e, e ∈ kv -> has_prefix P (fst e) = true -> e ∈ kv1) as Hkeep by (intros e He Hp; by apply (drop_until_prefix P kv e f0)).
  pose proof (drop_until_suffix P kv) as Hsuf. fold kv1 in Hsuf. pose proof (ssorted_suffix _ _ Hsuf Hs) as Hs1.
  pose proof (drop_until_head P kv) as Hh. fold kv1 in Hh. pose proof (Hkeep _ Hk0 Hp0') as Hk1.
  assert (forall e, e ∈ kv1 -> e ∈ kv) as Hsub by (intros e He; destruct Hsuf as [pre Hpre]; rewrite Hpre; apply elem_of_app; by right).
  assert (forall e, e ∈ kv -> above P (fst e) -> e ∈ kv1) as Hkeep2.
  { intros e He Ha. eapply drop_until_keep; [done|exact Hk0|done|done|]. right. apply has_prefix_spec in Hp0 as [q ->]. apply slt_noprefix; apply Ha. }
  clearbody kv1. assert (exists h r, kv1 = h :: r) as (h & r & E1).
  { destruct kv1 as [|h r]; [by apply elem_of_nil in Hk1|eauto]. }
  assert (has_prefix P (fst h) = true) as Hhp by (by rewrite E1 in Hh).
  assert (h ∈ fl) as Hhfl.
  { destruct (decide (h ∈ fl)) as [?|Hn]; [done|]. exfalso. assert (above P h.1) as [Ha Hb] by (apply H2; [apply Hsub; rewrite E1; left|done|done]).
    apply has_prefix_spec in Hp0 as [q Hq]. destruct (slt_noprefix _ _ q Ha Hb) as [Hlt _]. rewrite <- Hq in Hlt.
    rewrite E1 in Hk1. apply elem_of_cons in Hk1 as [->|Hk1]; [by rewrite slt_irrefl in Hlt|]. rewrite E1 in Hs1. inversion Hs1 as [|? ? _ Hall]; subst.
    rewrite Forall_forall in Hall. apply Hall, slt_asym in Hk1. congruence. }
  assert (forall e, e ∈ kv1 -> sle (P +:+ ".") (fst e)) as Hle.
  { intros e He. destruct (H1 _ Hhfl) as [_ Hph]. apply prefix_le in Hph. assert (sle (P +:+ ".") h.1) as Hsl by (destruct Hph; [by left|by right]).
    rewrite E1 in He. apply elem_of_cons in He as [->|He]; [done|]. rewrite E1 in Hs1. inversion Hs1 as [|? ? _ Hall]; subst. rewrite Forall_forall in Hall.
    right. eapply sle_slt; [exact Hsl|]. by apply Hall. }
  destruct (take_prefix_spec _ _ Hs1 Hle) as (rest & Er & Hin). fold found in Er, Hin. split_and!.
  - by rewrite E1.
  - intros e. rewrite Hin. split.
    + intros [He Hp]. destruct (decide (e ∈ fl)) as [?|Hn]; [done|]. exfalso. destruct (H2 e (Hsub _ He) Hn (Hpp _ Hp)). congruence.
    + intros He. destruct (H1 _ He) as [Hk Hp]. split; [apply Hkeep; auto|done].
  - destruct Hsuf as [pre ->]. exists (pre ++ take (length found) kv1). by rewrite <- app_assoc, take_drop.
  - intros e He Ha. rewrite Er, drop_app. pose proof (Hkeep2 _ He Ha) as Hk.
    rewrite Er in Hk. apply elem_of_app in Hk as [Hk|Hk]; [|done]. apply Hin in Hk as [_ Hk]. destruct Ha. congruence.
Qed.

(** ** Fields *)
Lemma get_field_spec n l x : get_field n l = Some x -> (n, x) ∈ l.
Proof.
  unfold get_field. destruct (list_find _ l) as [[i [m y]]|] eqn:E; [|done]. intros [= <-]. apply list_find_Some in E as (H1 & H2 & _). cbn in H2. subst. by eapply elem_of_list_lookup_2.
Qed.
Lemma get_field_in n l x : NoDup (map fst l) -> (n, x) ∈ l -> get_field n l = Some x.
Proof.
  intros Hnd Hin. unfold get_field. destruct (list_find (fun f : string * val => f.1 = n) l) as [[i [m y]]|] eqn:E.
  - apply list_find_Some in E as (H1 & H2 & _). cbn in H2. subst. apply elem_of_list_lookup in Hin as [j Hj]. cbn. f_equal.
    assert (i = j) as ->; [|congruence]. eapply (NoDup_lookup (map fst l)); [done|..]; rewrite list_lookup_fmap; [by rewrite H1|by rewrite Hj].
  - apply list_find_None in E. rewrite Forall_forall in E. by apply E in Hin.
Qed.
Lemma set_field_fst n x l : map fst (set_field n x l) = map fst l.
Proof. unfold set_field. rewrite map_map. apply map_ext. intros [m y]. cbn. destruct (String.eqb_spec m n); by subst. Qed.
Lemma set_field_in n x l m y : (m, y) ∈ set_field n x l <-> (m <> n /\ (m, y) ∈ l) \/ (m = n /\ y = x /\ n ∈ map fst l).
Proof.
  unfold set_field. rewrite elem_of_list_In, in_map_iff. split.
  - intros ([m' y'] & H & Hin). cbn in H. apply elem_of_list_In in Hin. destruct (String.eqb_spec m' n) as [->|Hne]; injection H as -> ->; [right|left]; [|done].
    split_and!; try done. apply elem_of_list_In, in_map_iff. exists (m, y'). split; [done|by apply elem_of_list_In].
  - intros [[Hne Hin]|(-> & -> & Hin)].
    + exists (m, y). cbn. destruct (String.eqb_spec m n); [done|]. split; [done|by apply elem_of_list_In].
    + apply elem_of_list_In, in_map_iff in Hin as ([m' y'] & <- & Hin). exists (m', y'). cbn. by rewrite String.eqb_refl.
Qed.
Lemma fields_ext (l1 l2 : list (string * val)) : map fst l1 = map fst l2 -> NoDup (map fst l1) -> (forall f, f ∈ l1 -> f ∈ l2) -> l1 = l2.
Proof.
  revert l2. induction l1 as [|[n x] l1 IH]; intros [|[m y] l2] Hf Hnd Hin; try done. cbn in Hf. injection Hf as <- Hf.
  cbn in Hnd. apply NoDup_cons in Hnd as [Hni Hnd].
  assert ((n, x) ∈ (n, y) :: l2) as [[= ->]|Hx]%elem_of_cons by (apply Hin; left).
  2: { exfalso. apply Hni. rewrite Hf. apply elem_of_list_In, (in_map fst l2 (n, x)). by apply elem_of_list_In. }
  f_equal. apply IH; [done|done|]. intros [m z] Hm. assert ((m, z) ∈ (n, y) :: l2) as [[= -> ->]|Hx]%elem_of_cons by (apply Hin; by right); [|done].
  exfalso. apply Hni. apply elem_of_list_In, (in_map fst l1 (n, y)). by apply elem_of_list_In.
Qed.
