(** C124: events recorded by several goroutines at once get the field names of their types. *)
From Verif Require Import Base CacheModel CacheSpec.

Section inv.
Context (tys : N -> list sfield).

Definition entries (fs : list sfield) (i : nat) (m : gmap nat string) : Prop :=
  forall j n, m !! j = Some n <-> exists f, fs !! j = Some f /\ sf_exported f = true /\ n = field_name f /\ (j < i)%nat.
Definition full (heap : gmap nat (gmap nat string)) (t : N) (a : nat) : Prop :=
  exists m, heap !! a = Some m /\ entries (tys t) (length (tys t)) m.
Definition cref (p : cpc) : option nat :=
  match p with CGot _ o => o | CFilling _ a _ | CFull _ a | CStored _ a | CRange _ a _ => Some a | _ => None end.
Definition pc_full (heap : gmap nat (gmap nat string)) (p : cpc) : Prop :=
  match p with
  | CGot t (Some a) | CFull t a | CStored t a => full heap t a
  | CFilling t a i => exists m, heap !! a = Some m /\ entries (tys t) i m /\ (i <= length (tys t))%nat
  | CRange t a seen => full heap t a /\ NoDup seen.*1 /\ forall m i n, heap !! a = Some m -> (i, n) ∈ seen -> m !! i = Some n
  | _ => True
  end.
Definition wpc (p : cpc) : bool := match p with CLocked _ | CFilling _ _ _ | CFull _ _ | CStored _ _ => true | _ => false end.
Definition rpc (p : cpc) : bool := match p with CReading _ | CGot _ _ => true | _ => false end.

Record Inv (s : CS) : Prop := {
  iA : forall t a, cs_cache s !! t = Some a -> full (cs_heap s) t a;
  iB : forall g p, cs_calls s !! g = Some p -> pc_full (cs_heap s) p;
  iW : forall g p, cs_calls s !! g = Some p -> wpc p = true <-> cs_writer s = Some g;
  iR : forall g p, cs_calls s !! g = Some p -> rpc p = true <-> g ∈ cs_readers s;
  iW' : forall g, cs_writer s = Some g -> is_Some (cs_calls s !! g);
  iR' : forall g, g ∈ cs_readers s -> is_Some (cs_calls s !! g);
  iE : cs_writer s <> None -> cs_readers s = ∅;
  iF : forall g t a i, cs_calls s !! g = Some (CFilling t a i) ->
         (forall t', cs_cache s !! t' <> Some a) /\ forall h q, h <> g -> cs_calls s !! h = Some q -> cref q <> Some a }.

Lemma pc_ref_live heap p a : pc_full heap p -> cref p = Some a -> is_Some (heap !! a).
Proof.
  destruct p as [| |t o| | |t b i|t b|t b|t b seen]; simpl; intros H E; simplify_eq; unfold full in H.
  all: try (destruct H as [m [-> _]]; eauto; fail).
  destruct H as [[m [-> _]] _]. eauto.
Qed.
Lemma pc_full_other heap a x p : cref p <> Some a -> pc_full heap p -> pc_full (<[a := x]> heap) p.
Proof.
  destruct p as [| |t o| | |t b i|t b|t b|t b seen]; simpl; intros N H; try done.
  - destruct o as [b|]; [|done]. unfold full in *. by rewrite lookup_insert_ne by congruence.
  - by rewrite lookup_insert_ne by congruence.
  - unfold full in *. by rewrite lookup_insert_ne by congruence.
  - unfold full in *. by rewrite lookup_insert_ne by congruence.
  - unfold full in *. by rewrite lookup_insert_ne by congruence.
Qed.
Lemma entries_fun fs i m m' : entries fs i m -> entries fs i m' -> m = m'.
Proof. intros H H'. apply map_eq. intros j. apply option_eq. intros n. by rewrite (H j n), (H' j n). Qed.

Lemma Inv_new : Inv cs_new.
Proof. split; simpl; try done; intros; try set_solver; by rewrite lookup_empty in *. Qed.

(** A step that changes only where goroutine [g] is. *)
Lemma step_pc s g p q : Inv s -> cs_calls s !! g = Some p \/ cs_calls s !! g = None /\ wpc q = false /\ rpc q = false ->
  (forall p', cs_calls s !! g = Some p' -> wpc p' = wpc q /\ rpc p' = rpc q) ->
  pc_full (cs_heap s) q ->
  (forall a, cref q = Some a -> (exists t, cs_cache s !! t = Some a) \/ exists p', cs_calls s !! g = Some p' /\ cref p' = Some a) ->
  (forall t a i, q = CFilling t a i -> exists t' i', cs_calls s !! g = Some (CFilling t' a i')) ->
  Inv (c_at s g q).
Proof.
  intros I Hp Hk Hf Href Hfill. destruct I as [A B W R W' R' E F]. unfold c_at. split; simpl; try done.
  - intros h r. destruct (decide (h = g)) as [->|Hn]; [rewrite lookup_insert|rewrite lookup_insert_ne by done]; intros Hr; simplify_eq; [done|eauto].
  - intros h r. destruct (decide (h = g)) as [->|Hn]; [rewrite lookup_insert|rewrite lookup_insert_ne by done]; intros Hr; simplify_eq; [|eauto].
    destruct Hp as [Hp|(Hp & Hw & _)]; [destruct (Hk _ Hp) as [<- _]; eauto|]. rewrite Hw. split; [done|]. intros Hg. destruct (W' _ Hg). congruence.
  - intros h r. destruct (decide (h = g)) as [->|Hn]; [rewrite lookup_insert|rewrite lookup_insert_ne by done]; intros Hr; simplify_eq; [|eauto].
    destruct Hp as [Hp|(Hp & _ & Hw)]; [destruct (Hk _ Hp) as [_ <-]; eauto|]. rewrite Hw. split; [done|]. intros Hg. destruct (R' _ Hg). congruence.
  - intros h Hh. destruct (decide (h = g)) as [->|Hn]; [rewrite lookup_insert; eauto|rewrite lookup_insert_ne by done; eauto].
  - intros h Hh. destruct (decide (h = g)) as [->|Hn]; [rewrite lookup_insert; eauto|rewrite lookup_insert_ne by done; eauto].
  - intros h t a i. destruct (decide (h = g)) as [->|Hn]; [rewrite lookup_insert|rewrite lookup_insert_ne by done]; intros Hr; simplify_eq.
    + destruct (Hfill _ _ _ eq_refl) as (t' & i' & Hg). destruct (F _ _ _ _ Hg) as [F1 F2]. split; [done|].
      intros h q Hn. rewrite lookup_insert_ne by done. eauto.
    + destruct (F _ _ _ _ Hr) as [F1 F2]. split; [done|]. intros h' q' Hn'. destruct (decide (h' = g)) as [->|Hn2];
        [rewrite lookup_insert|rewrite lookup_insert_ne by done; eauto]. intros ?; simplify_eq. intros Hq.
      destruct (Href _ Hq) as [[t' Ht]|(p' & Hp' & Hr')]; [by apply (F1 t')|]. by apply (F2 g p').
Qed.

Ltac here h g := destruct (decide (h = g)) as [->|?]; [rewrite ?lookup_insert|rewrite ?lookup_insert_ne by done].

Lemma fresh_ref s a : Inv s -> cs_heap s !! a = None -> (forall t, cs_cache s !! t <> Some a) /\ forall h q, cs_calls s !! h = Some q -> cref q <> Some a.
Proof.
  intros I Ha. split.
  - intros t Ht. destruct (iA _ I _ _ Ht) as [m [Hm _]]. congruence.
  - intros h q Hq Hr. destruct (pc_ref_live _ _ _ (iB _ I _ _ Hq) Hr). congruence.
Qed.
Lemma full_other heap t b a x : b <> a -> full heap t b -> full (<[a := x]> heap) t b.
Proof. intros N H. unfold full in *. by rewrite lookup_insert_ne by congruence. Qed.

Lemma Inv_step s evs s' : Inv s -> c_step tys s evs s' -> Inv s'.
Proof.
  intros I Hs. destruct Hs as [s g t H|s g t H Hw|s g t H|s g t o H|s g t H Hw Hr|s g t a H Ha|s g t a i f H Hi|s g t a i H Hi|s g t a H|s g t a H|s g t a seen m i n H Hm Hi Hn|s g t a seen m H Hm Hall].
  - (* call *) eapply (step_pc s g (CStart t) (CStart t)); try done; [right; done|intros p' ?; by simplify_eq].
  - (* rlock *) destruct I as [A B W R W' R' E F]. split; simpl; try done.
    + intros h r. here h g; intros ?; simplify_eq; [done|eauto].
    + intros h r. here h g; intros Hq; simplify_eq; [done|]. rewrite (W _ _ Hq). by rewrite Hw.
    + intros h r. here h g; intros Hq; simplify_eq; [set_solver|]. rewrite (R _ _ Hq). set_solver.
    + intros h. here h g; [eauto|]. intros Hh. apply R'. set_solver.
    + intros h t' a i. here h g; intros Hq; simplify_eq. destruct (F _ _ _ _ Hq) as [F1 F2]. split; [done|].
      intros h' q' Hn'. here h' g; [intros ?; by simplify_eq|eauto].
  - (* read *) eapply (step_pc s g (CReading t)); try done; [by left|intros p' ?; by simplify_eq| |].
    + simpl. destruct (cs_cache s !! t) as [a|] eqn:Ec; [|done]. by apply (iA _ I).
    + simpl. intros a Ea. left. eauto.
  - (* runlock *) set (q := match o with Some a => CRange t a [] | None => CMissed t end).
    assert (wpc q = false /\ rpc q = false) as [Hqw Hqr] by (unfold q; destruct o; done).
    assert (cref q = o) as Hqf by (unfold q; destruct o; done).
    assert (forall t' b j, q <> CFilling t' b j) as Hqn by (unfold q; destruct o; done).
    pose proof (iB _ I _ _ H) as HB. assert (pc_full (cs_heap s) q) as Hqp.
    { unfold q. destruct o as [a|]; [|done]. simpl in *. split; [done|]. split; [constructor|]. intros m i n _ Hin. by apply elem_of_nil in Hin. }
    clearbody q. destruct I as [A B W R W' R' E F]. pose proof (proj1 (R _ _ H) eq_refl) as Hg.
    assert (cs_writer s = None) as Hw by (destruct (cs_writer s); [rewrite E in Hg by done; set_solver|done]).
    split; simpl; try done.
    + intros h r. here h g; intros ?; simplify_eq; [done|eauto].
    + intros h r. here h g; intros Hq; simplify_eq; [|eauto]. rewrite Hqw, Hw. done.
    + intros h r. here h g; intros Hq; simplify_eq; [rewrite Hqr; set_solver|]. rewrite (R _ _ Hq). set_solver.
    + intros h. here h g; [eauto|]. eauto.
    + intros h. here h g; [eauto|]. intros Hh. apply R'. set_solver.
    + intros h t' a i. here h g; intros Hq; simplify_eq. destruct (F _ _ _ _ Hq) as [F1 F2]. split; [done|].
      intros h' q' Hn'. here h' g; [intros ?; simplify_eq|eauto]. exact (F2 g _ Hn' H).
  - (* lock *) destruct I as [A B W R W' R' E F]. split; simpl; try done.
    + intros h r. here h g; intros ?; simplify_eq; [done|eauto].
    + intros h r. here h g; intros Hq; simplify_eq; [done|]. rewrite (W _ _ Hq), Hw. split; [done|congruence].
    + intros h r. here h g; intros Hq; simplify_eq; [|eauto]. rewrite Hr. set_solver.
    + intros h ?; simplify_eq. rewrite lookup_insert. eauto.
    + intros h. here h g; [eauto|]. eauto.
    + intros h t' a i. here h g; intros Hq; simplify_eq. apply W in Hq as Hq2. exfalso. rewrite Hw in Hq2. naive_solver.
  - (* make *) destruct (fresh_ref _ _ I Ha) as [FA FB]. destruct I as [A B W R W' R' E F]. pose proof (proj1 (W _ _ H) eq_refl) as Hg.
    split; simpl; try done.
    + intros t' b Hb. apply full_other; [intros ->; by apply (FA t')|eauto].
    + intros h r. here h g; intros Hq; simplify_eq.
      * simpl. exists ∅. rewrite lookup_insert. split; [done|]. split; [|lia]. intros j n. rewrite lookup_empty. split; [done|]. intros (f & _ & _ & _ & Hj). lia.
      * apply pc_full_other; eauto.
    + intros h r. here h g; intros Hq; simplify_eq; [done|eauto].
    + intros h r. here h g; intros Hq; simplify_eq; [|eauto]. rewrite E by congruence. set_solver.
    + intros h. here h g; [eauto|]. eauto.
    + intros h. here h g; [eauto|]. eauto.
    + intros h t' b i. here h g; intros Hq; simplify_eq.
      * split; [done|]. intros h' q' Hn'. rewrite lookup_insert_ne by done. eauto.
      * pose proof (proj1 (W _ _ Hq) eq_refl). congruence.
  - (* fill *) pose proof (iB _ I _ _ H) as HB. pose proof (iF _ I _ _ _ _ H) as [FA FB]. destruct HB as (m & Hm & Hen & Hle).
    assert (exists m', (if sf_exported f then alter (<[i := field_name f]>) a (cs_heap s) else cs_heap s) = <[a := m']> (cs_heap s) /\ entries (tys t) (S i) m') as (m' & -> & Hen').
    { destruct (sf_exported f) eqn:Ef.
      - exists (<[i := field_name f]> m). split.
        + apply map_eq. intros b. destruct (decide (b = a)) as [->|Hn]; [by rewrite lookup_alter, lookup_insert, Hm|by rewrite lookup_alter_ne, lookup_insert_ne].
        + intros j n. destruct (decide (j = i)) as [->|Hn].
          * rewrite lookup_insert. split; [intros ?; simplify_eq; exists f; repeat split; [done|done|lia]|]. intros (f' & ? & ? & -> & _). by simplify_eq.
          * rewrite lookup_insert_ne, (Hen j n) by done. split; intros (f' & ? & ? & ? & ?); exists f'; repeat split; try done; lia.
      - exists m. split; [by rewrite insert_id|]. intros j n. rewrite (Hen j n). split; intros (f' & ? & ? & ? & ?); exists f'; repeat split; try done; [lia|].
        destruct (decide (j = i)) as [->|]; [congruence|lia]. }
    destruct I as [A B W R W' R' E F]. pose proof (proj1 (W _ _ H) eq_refl) as Hg. split; simpl; try done.
    + intros t' b Hb. apply full_other; [intros ->; by apply (FA t')|eauto].
    + intros h r. here h g; intros Hq; simplify_eq.
      * simpl. exists m'. rewrite lookup_insert. split; [done|]. split; [done|]. apply lookup_lt_Some in Hi. lia.
      * apply pc_full_other; eauto.
    + intros h r. here h g; intros Hq; simplify_eq; [done|eauto].
    + intros h r. here h g; intros Hq; simplify_eq; [|eauto]. rewrite E by congruence. set_solver.
    + intros h. here h g; [eauto|]. eauto.
    + intros h. here h g; [eauto|]. eauto.
    + intros h t' b i'. here h g; intros Hq; simplify_eq.
      * split; [done|]. intros h' q' Hn'. rewrite lookup_insert_ne by done. eauto.
      * pose proof (proj1 (W _ _ Hq) eq_refl). congruence.
  - (* full *) eapply (step_pc s g (CFilling t a i)); try done; [by left|intros p' ?; by simplify_eq| |].
    + pose proof (iB _ I _ _ H) as HB. destruct HB as (m & Hm & Hen & Hle). apply lookup_ge_None in Hi. simpl. exists m. split; [done|].
      by replace (length (tys t)) with i by lia.
    + simpl. intros b Hb. right. eexists. split; [done|]. done.
  - (* store *) pose proof (iB _ I _ _ H) as HB. simpl in HB. destruct I as [A B W R W' R' E F]. pose proof (proj1 (W _ _ H) eq_refl) as Hg. split; simpl; try done.
    + intros t' b. destruct (decide (t' = t)) as [->|]; [rewrite lookup_insert; intros ?; by simplify_eq|rewrite lookup_insert_ne by done; eauto].
    + intros h r. here h g; intros Hq; simplify_eq; [done|eauto].
    + intros h r. here h g; intros Hq; simplify_eq; [done|eauto].
    + intros h r. here h g; intros Hq; simplify_eq; [|eauto]. rewrite E by congruence. set_solver.
    + intros h. here h g; [eauto|]. eauto.
    + intros h. here h g; [eauto|]. eauto.
    + intros h t' b i'. here h g; intros Hq; simplify_eq. pose proof (proj1 (W _ _ Hq) eq_refl). congruence.
  - (* unlock *) pose proof (iB _ I _ _ H) as HB. simpl in HB. destruct I as [A B W R W' R' E F]. pose proof (proj1 (W _ _ H) eq_refl) as Hg.
    assert (cs_readers s = ∅) as Hr by (apply E; congruence). split; simpl; try done.
    + intros h r. here h g; intros Hq; simplify_eq; [|eauto]. simpl. split; [done|]. split; [constructor|]. intros m i n _ Hin. by apply elem_of_nil in Hin.
    + intros h r. here h g; intros Hq; simplify_eq; [done|]. rewrite (W _ _ Hq). split; [congruence|done].
    + intros h r. here h g; intros Hq; simplify_eq; [|eauto]. rewrite Hr. set_solver.
    + intros h. here h g; [eauto|]. eauto.
    + intros h t' b i'. here h g; intros Hq; simplify_eq. pose proof (proj1 (W _ _ Hq) eq_refl). congruence.
  - (* next *) eapply (step_pc s g (CRange t a seen)); try done; [by left|intros p' ?; by simplify_eq| |].
    + pose proof (iB _ I _ _ H) as (HB1 & HB2 & HB3). simpl. split; [done|]. split.
      * rewrite fmap_app. apply NoDup_app. split; [done|]. split; [|apply NoDup_singleton]. intros j Hj. simpl. rewrite elem_of_list_singleton. by intros ->.
      * intros m' j n' Hm' Hin. apply elem_of_app in Hin as [Hin|Hin%elem_of_list_singleton]; [eauto|]. by simplify_eq.
    + simpl. intros b Hb. right. eexists. split; [done|]. done.
  - (* end *) destruct I as [A B W R W' R' E F]. split; simpl; try done.
    + intros h r Hr. apply lookup_delete_Some in Hr as [_ Hr]. eauto.
    + intros h r Hr. apply lookup_delete_Some in Hr as [_ Hr]. eauto.
    + intros h r Hr. apply lookup_delete_Some in Hr as [_ Hr]. eauto.
    + intros h Hh. destruct (decide (h = g)) as [->|]; [|rewrite lookup_delete_ne by done; eauto]. pose proof (proj2 (W _ _ H) Hh). done.
    + intros h Hh. destruct (decide (h = g)) as [->|]; [|rewrite lookup_delete_ne by done; eauto]. pose proof (proj2 (R _ _ H) Hh). done.
    + intros h t' b i Hr. apply lookup_delete_Some in Hr as [_ Hr]. destruct (F _ _ _ _ Hr) as [F1 F2]. split; [done|].
      intros h' q' Hn' Hq'. apply lookup_delete_Some in Hq' as [_ Hq']. eauto.
Qed.

Lemma Inv_run log s : c_run tys log s -> Inv s.
Proof. induction 1; [apply Inv_new|eapply Inv_step; eauto]. Qed.

(** What has been given to the callers. *)
Lemma recorded_spec fs k j n : (j, n) ∈ recorded_fields k fs <-> exists f, (k <= j)%nat /\ fs !! (j - k)%nat = Some f /\ sf_exported f = true /\ n = field_name f.
Proof.
  revert k. induction fs as [|[ex nm tg] fs IH]; intros k; simpl.
  - split; [intros H; by apply elem_of_nil in H|intros (f & _ & H & _); done].
  - assert ((j, n) ∈ recorded_fields (S k) fs <-> exists f, (k <= j)%nat /\ j <> k /\ (MkField ex nm tg :: fs) !! (j - k)%nat = Some f /\ sf_exported f = true /\ n = field_name f) as IH'.
    { rewrite (IH (S k)). split; intros (f & Hj & H).
      - exists f. split; [lia|]. split; [lia|]. replace (j - k)%nat with (S (j - S k)) by lia. done.
      - exists f. destruct H as (Hn & H). split; [lia|]. replace (j - k)%nat with (S (j - S k)) in H by lia. done. }
    destruct ex.
    + assert ((j, n) ∈ ((k, field_name (MkField true nm tg)) :: recorded_fields (S k) fs) <-> exists f, (k <= j)%nat /\ (MkField true nm tg :: fs) !! (j - k)%nat = Some f /\ sf_exported f = true /\ n = field_name f) as IHH.
      { rewrite elem_of_cons, IH'. split.
        - intros [He|(f & ? & ? & H)]; [simplify_eq|by exists f]. exists (MkField true nm tg). rewrite Nat.sub_diag. done.
        - intros (f & Hj & H). destruct (decide (j = k)) as [->|]; [left|right; by exists f]. rewrite Nat.sub_diag in H. destruct H as (H & _ & ->). simpl in H. by simplify_eq. }
      unfold field_name in IHH. simpl in IHH. destruct tg; exact IHH.
    + rewrite IH'. split; intros (f & Hj & H); exists f; [naive_solver|]. destruct (decide (j = k)) as [->|]; [|done].
      rewrite Nat.sub_diag in H. destruct H as (H & H' & _). simpl in H. by simplify_eq.
Qed.
Lemma recorded_fst fs k j : j ∈ (recorded_fields k fs).*1 -> (k <= j)%nat.
Proof. intros ([j' n] & -> & H)%elem_of_list_fmap. apply recorded_spec in H as (f & H & _). done. Qed.
Lemma recorded_nodup fs k : NoDup (recorded_fields k fs).*1.
Proof.
  revert k. induction fs as [|[ex nm tg] fs IH]; intros k; simpl; [constructor|]. destruct ex; [|done].
  destruct tg; simpl; (constructor; [intros H%recorded_fst; lia|done]).
Qed.

Lemma given s g t a seen m : Inv s -> cs_calls s !! g = Some (CRange t a seen) -> cs_heap s !! a = Some m ->
  (forall i n, m !! i = Some n -> i ∈ seen.*1) -> seen ≡ₚ recorded_fields 0 (tys t).
Proof.
  intros I H Hm Hall. destruct (iB _ I _ _ H) as ((m' & Hm' & Hen) & Hnd & Hin). simplify_eq.
  apply NoDup_Permutation; [by apply NoDup_fmap_1 in Hnd|eapply NoDup_fmap_1, recorded_nodup|]. intros [j n]. rewrite recorded_spec, Nat.sub_0_r.
  assert (m !! j = Some n <-> exists f, (0 <= j)%nat /\ tys t !! j = Some f /\ sf_exported f = true /\ n = field_name f) as <-.
  { rewrite (Hen j n). split; intros (f & HH); exists f; [naive_solver lia|]. destruct HH as (_ & HH & ? & ?). repeat split; try done. by apply lookup_lt_Some in HH. }
  split; [by apply Hin|]. intros Hj. pose proof (Hall _ _ Hj) as ([j' n'] & -> & HH)%elem_of_list_fmap. simpl in *. pose proof (Hin _ _ _ Hm HH). congruence.
Qed.

Lemma log_given log s : c_run tys log s -> forall g t l, CNames g t l ∈ log -> l ≡ₚ recorded_fields 0 (tys t).
Proof.
  induction 1 as [|log s evs s' Hr IH Hs]; intros g t l Hl; [by apply elem_of_nil in Hl|].
  apply elem_of_app in Hl as [Hl|Hl]; [eauto|]. apply Inv_run in Hr. inversion Hs; subst; try (by apply elem_of_nil in Hl).
  apply elem_of_list_singleton in Hl. simplify_eq. by eapply given.
Qed.

(** No two goroutines use a map while one writes it. *)
Lemma no_race s : Inv s -> ~ race s.
Proof.
  intros I (g & h & p & q & m & w & w' & Hn & Hp & Hq & Hup & Huq & Hw).
  assert (forall g h p q w', g <> h -> cs_calls s !! g = Some p -> cs_calls s !! h = Some q -> uses p = Some (m, true) -> uses q = Some (m, w') -> False) as Hmain.
  { clear -I. intros g h p q w' Hn Hp Hq Hup Huq.
    destruct p as [| |t o| | |t b i|t b|t b|t b seen]; simplify_eq/=.
    - destruct (iF _ I _ _ _ _ Hp) as [_ F2]. apply (F2 _ _ (not_eq_sym Hn) Hq). destruct q; by simplify_eq/=.
    - pose proof (proj1 (iW _ I _ _ Hp) eq_refl) as Hg. assert (cs_writer s <> None) as Hs by congruence. apply (iE _ I) in Hs.
      destruct q; simplify_eq/=.
      + pose proof (proj1 (iR _ I _ _ Hq) eq_refl). set_solver.
      + pose proof (proj1 (iW _ I _ _ Hq) eq_refl). congruence. }
  destruct Hw as [-> | ->]; [by eapply (Hmain g h)|by eapply (Hmain h g)].
Qed.

(** ** No deadlock *)
Lemma can_move s g p : Inv s -> cs_calls s !! g = Some p ->
  (forall t, p = CStart t -> cs_writer s = None) -> (forall t, p = CMissed t -> cs_writer s = None /\ cs_readers s = ∅) ->
  exists evs s', c_step tys s evs s' /\ dom (cs_calls s') ⊆ dom (cs_calls s).
Proof.
  intros I H Hs Hm. assert (forall q, dom (<[g := q]> (cs_calls s)) ⊆ dom (cs_calls s)) as Hd.
  { intros q. rewrite dom_insert. apply elem_of_dom_2 in H. set_solver. }
  destruct p as [t|t|t o|t|t|t a i|t a|t a|t a seen].
  - eexists _, _. split; [eapply cs_rlock; eauto|]. apply Hd.
  - eexists _, _. split; [eapply cs_read; eauto|]. apply Hd.
  - eexists _, _. split; [eapply cs_runlock; eauto|]. apply Hd.
  - destruct (Hm _ eq_refl). eexists _, _. split; [eapply cs_lock; eauto|]. apply Hd.
  - eexists _, _. split; [eapply (cs_make tys s g t (fresh (dom (cs_heap s)))); [done|]; apply not_elem_of_dom, is_fresh|]. apply Hd.
  - destruct (tys t !! i) as [f|] eqn:Ef; eexists _, _; [split; [eapply cs_fill; eauto|apply Hd]|split; [eapply cs_full; eauto|apply Hd]].
  - eexists _, _. split; [eapply cs_store; eauto|]. apply Hd.
  - eexists _, _. split; [eapply cs_unlock; eauto|]. apply Hd.
  - destruct (iB _ I _ _ H) as ((m & Hm' & _) & _).
    destruct (decide (filter (fun kv : nat * string => kv.1 ∉ seen.*1) m = ∅)) as [He|Hne].
    + eexists _, _. split.
      * eapply cs_end; [done|done|]. intros i n Hi. destruct (decide (i ∈ seen.*1)) as [|Hn]; [done|].
        assert (filter (fun kv : nat * string => kv.1 ∉ seen.*1) m !! i = Some n) as Hx by by apply map_filter_lookup_Some.
        rewrite He in Hx. done.
      * simpl. rewrite dom_delete. set_solver.
    + apply map_choose in Hne as (i & n & [Hi Hn]%map_filter_lookup_Some). eexists _, _. split; [eapply cs_next; eauto|]. apply Hd.
Qed.

Lemma progress s : Inv s -> cs_calls s <> ∅ -> exists evs s', c_step tys s evs s' /\ dom (cs_calls s') ⊆ dom (cs_calls s).
Proof.
  intros I Hne. destruct (cs_writer s) as [g|] eqn:Ew.
  - destruct (iW' _ I _ Ew) as [p Hp]. pose proof (proj2 (iW _ I _ _ Hp) Ew) as Hw. eapply (can_move s g p); try done; intros t ->; done.
  - destruct (decide (cs_readers s = ∅)) as [Hr|Hr].
    + apply map_choose in Hne as (g & p & Hp). by eapply (can_move s g p).
    + apply set_choose_L in Hr as [g Hg]. destruct (iR' _ I _ Hg) as [p Hp]. pose proof (proj2 (iR _ I _ _ Hp) Hg) as Hw.
      eapply (can_move s g p); try done; intros t ->; done.
Qed.

(** ** Every call ends *)
Definition left_of (p : cpc) : nat :=
  match p with
  | CStart t => 2 * length (tys t) + 10
  | CReading t => 2 * length (tys t) + 9
  | CGot t _ => 2 * length (tys t) + 8
  | CMissed t => 2 * length (tys t) + 7
  | CLocked t => 2 * length (tys t) + 6
  | CFilling t _ i => 2 * length (tys t) + 5 - i
  | CFull t _ => length (tys t) + 4
  | CStored t _ => length (tys t) + 3
  | CRange t _ seen => length (tys t) + 1 - length seen
  end.
Definition total (calls : gmap nat cpc) : nat := sum_list_with (fun gp : nat * cpc => left_of gp.2) (map_to_list calls).
Lemma sum_perm {A} (f : A -> nat) (l k : list A) : l ≡ₚ k -> sum_list_with f l = sum_list_with f k.
Proof. induction 1; simpl; lia. Qed.
Lemma total_insert calls g p : calls !! g = None -> total (<[g := p]> calls) = (left_of p + total calls)%nat.
Proof. intros H. unfold total. by rewrite (sum_perm _ _ _ (map_to_list_insert calls g p H)). Qed.
Lemma total_delete calls g p : calls !! g = Some p -> total calls = (left_of p + total (delete g calls))%nat.
Proof. intros H. rewrite <- (total_insert _ g p) by apply lookup_delete. by rewrite insert_delete. Qed.
Lemma total_update calls g p q : calls !! g = Some p -> (left_of q < left_of p)%nat -> (total (<[g := q]> calls) < total calls)%nat.
Proof.
  intros H Hl. rewrite (total_delete _ _ _ H), <- (insert_delete_insert calls g q), total_insert by apply lookup_delete. lia.
Qed.
Lemma seen_length s g t a seen m : Inv s -> cs_calls s !! g = Some (CRange t a seen) -> cs_heap s !! a = Some m ->
  (length seen <= length (tys t))%nat /\ forall i n, m !! i = Some n -> i ∉ seen.*1 -> (length seen < length (tys t))%nat.
Proof.
  intros I H Hm. destruct (iB _ I _ _ H) as ((m' & Hm' & Hen) & Hnd & Hin). simplify_eq.
  assert (forall l, NoDup l -> (forall j, j ∈ l -> (j < length (tys t))%nat) -> (length l <= length (tys t))%nat) as Hlen.
  { intros l Hl Hlt. rewrite <- (seq_length (length (tys t)) 0). apply submseteq_length, NoDup_submseteq; [done|]. intros j Hj. apply elem_of_seq. pose proof (Hlt j Hj). lia. }
  assert (forall j, j ∈ seen.*1 -> (j < length (tys t))%nat) as Hs.
  { intros j ([j' n'] & -> & HH)%elem_of_list_fmap. simpl. pose proof (Hin _ _ _ Hm HH) as Hj. apply Hen in Hj as (f & Hf & _). by apply lookup_lt_Some in Hf. }
  split; [rewrite <- (fmap_length fst seen); by apply Hlen|]. intros i n Hi Hni.
  pose proof (Hlen (i :: seen.*1)) as HH. simpl in HH. rewrite fmap_length in HH. apply HH; [by constructor|].
  intros j [->|Hj]%elem_of_cons; [|eauto]. apply Hen in Hi as (f & Hf & _). by apply lookup_lt_Some in Hf.
Qed.
Lemma step_down s evs s' : Inv s -> c_step tys s evs s' -> dom (cs_calls s') ⊆ dom (cs_calls s) -> (total (cs_calls s') < total (cs_calls s))%nat.
Proof.
  intros I Hs Hd. destruct Hs as [s g t H|s g t H Hw|s g t H|s g t o H|s g t H Hw Hr|s g t a H Ha|s g t a i f H Hi|s g t a i H Hi|s g t a H|s g t a H|s g t a seen m i n H Hm Hi Hn|s g t a seen m H Hm Hall]; simpl in *.
  - exfalso. rewrite dom_insert in Hd. assert (g ∈ dom (cs_calls s)) as Hg by set_solver. apply elem_of_dom in Hg as [? Hg]. congruence.
  - eapply total_update; [done|simpl; lia].
  - eapply total_update; [done|simpl; lia].
  - eapply total_update; [done|]. destruct o; simpl; lia.
  - eapply total_update; [done|simpl; lia].
  - eapply total_update; [done|simpl; lia].
  - eapply total_update; [done|]. apply lookup_lt_Some in Hi. simpl. lia.
  - eapply total_update; [done|]. destruct (iB _ I _ _ H) as (m & _ & _ & Hle). simpl. lia.
  - eapply total_update; [done|simpl; lia].
  - eapply total_update; [done|simpl; lia].
  - eapply total_update; [done|]. destruct (seen_length _ _ _ _ _ _ I H Hm) as [_ Hl]. pose proof (Hl _ _ Hi Hn). simpl. rewrite app_length. simpl. lia.
  - rewrite (total_delete _ _ _ H). destruct (seen_length _ _ _ _ _ _ I H Hm) as [Hl _]. simpl. lia.
Qed.
Lemma bounded n s s' : Inv s -> runs_on tys n s s' -> Inv s' /\ (n + total (cs_calls s') <= total (cs_calls s))%nat.
Proof.
  intros I. induction 1 as [s|n s s1 evs s2 _ IH Hs Hd]; [split; [done|lia]|]. destruct (IH I) as [I1 H1].
  pose proof (step_down _ _ _ I1 Hs Hd). split; [by eapply Inv_step|lia].
Qed.
End inv.

(** Every goroutine is given, in some order, the exported fields of its type with their positions and names, whatever other goroutines do. *)
Theorem C124_names tys log s g t l : c_run tys log s -> CNames g t l ∈ log -> l ≡ₚ recorded_fields 0 (tys t).
Proof. intros H. by apply (log_given tys log s H). Qed.
Print Assumptions C124_names.

(** No map is written while another goroutine uses it. *)
Theorem C124_no_race tys log s : c_run tys log s -> ~ race s.
Proof. intros H. eapply no_race, Inv_run, H. Qed.
Print Assumptions C124_no_race.

(** Calls that have begun never block each other for good: some call can go on, and there are only finitely many steps until all have ended. *)
Theorem C124_ends tys log s : c_run tys log s ->
  (cs_calls s <> ∅ -> exists s', runs_on tys 1 s s') /\ exists n, forall k s', runs_on tys k s s' -> (k <= n)%nat.
Proof.
  intros H%Inv_run. split.
  - intros Hne. destruct (progress tys s H Hne) as (evs & s' & Hs & Hd). exists s'. eapply ro_step; [apply ro_none|exact Hs|exact Hd].
  - exists (total tys (cs_calls s)). intros k s' Hk. destruct (bounded tys k s s' H Hk). lia.
Qed.
Print Assumptions C124_ends.

(** Two goroutines that both miss the cache: both make a map, and both get the right names. *)
Lemma end_ok tys s : Inv tys s -> forall g t a seen m, cs_calls s !! g = Some (CRange t a seen) -> cs_heap s !! a = Some m ->
  (forall j f, tys t !! j = Some f -> sf_exported f = true -> j ∈ seen.*1) -> forall i n, m !! i = Some n -> i ∈ seen.*1.
Proof.
  intros I g t a seen m H Hm Hall i n Hi. destruct (iB _ _ I _ _ H) as ((m' & Hm' & Hen) & _). simplify_eq. apply Hen in Hi as (f & Hf & Hx & _). eauto.
Qed.
Definition two_fields : N -> list sfield := fun _ => [MkField true "A" ""; MkField false "hidden" ""; MkField true "B" "b"].
Tactic Notation "nxt" uconstr(c) := match goal with R : c_run _ _ _ |- _ => eapply c_more in R; [|(eapply c || refine c); reflexivity]; cbn [app c_at cs_cache cs_heap cs_writer cs_readers cs_calls cs_new] in R end.
Tactic Notation "nxt" uconstr(c) "by" tactic(t) := match goal with R : c_run _ _ _ |- _ => eapply c_more in R; [|(eapply c || refine c); [reflexivity..|t]]; cbn [app c_at cs_cache cs_heap cs_writer cs_readers cs_calls cs_new] in R end.
Example C124_nonvacuous : exists s, c_run two_fields [CNames 1 7 [(2%nat, "b"); (0%nat, "A")]; CNames 2 7 [(0%nat, "A"); (2%nat, "b")]] s /\ cs_calls s <> ∅.
Proof.
  assert (forall j f, two_fields 7 !! j = Some f -> sf_exported f = true -> j = 0%nat \/ j = 2%nat) as Hall.
  { intros [|[|[|j]]] f Hf Hx; simplify_eq/=; auto. }
  assert (forall j f, two_fields 7 !! j = Some f -> sf_exported f = true -> j ∈ [(2%nat, "b"); (0%nat, "A")].*1) as E1 by (intros j f Hf Hx; pose proof (Hall j f Hf Hx); set_solver).
  assert (forall j f, two_fields 7 !! j = Some f -> sf_exported f = true -> j ∈ [(0%nat, "A"); (2%nat, "b")].*1) as E2 by (intros j f Hf Hx; pose proof (Hall j f Hf Hx); set_solver).
  assert (({[2%nat]} ∪ ({[1%nat]} ∪ ∅)) ∖ {[1%nat]} ∖ {[2%nat]} = (∅ : gset nat)) as N5 by set_solver.
  assert (2%nat ∉ ([] : list (nat * string)).*1) as N1 by set_solver.
  assert (0%nat ∉ [(2%nat, "b")].*1) as N2 by set_solver. assert (2%nat ∉ [(0%nat, "A")].*1) as N3 by set_solver. assert (0%nat ∉ ([] : list (nat * string)).*1) as N4 by set_solver.
  assert (c_run two_fields [] cs_new) as R by constructor.
  nxt (cs_call _ _ 1%nat 7). nxt (cs_call _ _ 2%nat 7). nxt (cs_rlock _ _ 1%nat 7). nxt (cs_rlock _ _ 2%nat 7).
  nxt (cs_read _ _ 1%nat 7). nxt (cs_read _ _ 2%nat 7). nxt (cs_runlock _ _ 1%nat 7 None). nxt (cs_runlock _ _ 2%nat 7 None).
  nxt (cs_lock _ _ 1%nat 7) by exact N5. nxt (cs_make _ _ 1%nat 7 0%nat). nxt (cs_fill _ _ 1%nat 7 0%nat 0%nat). nxt (cs_fill _ _ 1%nat 7 0%nat 1%nat).
  nxt (cs_fill _ _ 1%nat 7 0%nat 2%nat). nxt (cs_full _ _ 1%nat 7 0%nat 3%nat). nxt (cs_store _ _ 1%nat 7 0%nat). nxt (cs_unlock _ _ 1%nat 7 0%nat).
  nxt (cs_next _ _ 1%nat 7 0%nat [] _ 2%nat "b") by exact N1.
  nxt (cs_lock _ _ 2%nat 7) by exact N5. nxt (cs_make _ _ 2%nat 7 1%nat). nxt (cs_fill _ _ 2%nat 7 1%nat 0%nat).
  nxt (cs_next _ _ 1%nat 7 0%nat [(2%nat, "b")] _ 0%nat "A") by exact N2.
  nxt (cs_end _ _ 1%nat 7 0%nat [(2%nat, "b"); (0%nat, "A")] _) by (eapply (end_ok _ _ (Inv_run _ _ _ R) 1%nat 7 0%nat); [reflexivity|reflexivity|exact E1]).
  nxt (cs_fill _ _ 2%nat 7 1%nat 1%nat). nxt (cs_fill _ _ 2%nat 7 1%nat 2%nat). nxt (cs_full _ _ 2%nat 7 1%nat 3%nat).
  nxt (cs_store _ _ 2%nat 7 1%nat). nxt (cs_unlock _ _ 2%nat 7 1%nat).
  nxt (cs_next _ _ 2%nat 7 1%nat [] _ 0%nat "A") by exact N4. nxt (cs_next _ _ 2%nat 7 1%nat [(0%nat, "A")] _ 2%nat "b") by exact N3.
  nxt (cs_end _ _ 2%nat 7 1%nat [(0%nat, "A"); (2%nat, "b")] _) by (eapply (end_ok _ _ (Inv_run _ _ _ R) 2%nat 7 1%nat); [reflexivity|reflexivity|exact E2]).
  nxt (cs_call _ _ 1%nat 8). eexists. split; [exact R|]. apply insert_non_empty.
Qed.
