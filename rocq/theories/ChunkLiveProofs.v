From Verif Require Import Base ChunkModel ChunkSpec ChunkProofs ChunkLiveSpec.

Definition stretch (ev : nat -> list event) (n m : nat) : list event := flat_map ev (seq n (m - n)).
Lemma stretch_nil ev n : stretch ev n n = [].
Proof. unfold stretch. by rewrite Nat.sub_diag. Qed.
Lemma stretch_app ev n k m : (n <= k)%nat -> (k <= m)%nat -> stretch ev n m = stretch ev n k ++ stretch ev k m.
Proof.
  intros H1 H2. unfold stretch. assert (m - n = (k - n) + (m - k))%nat as -> by lia.
  rewrite seq_app, flat_map_app. do 2 f_equal. f_equal. lia.
Qed.
Lemma stretch_one ev n : stretch ev n (S n) = ev n.
Proof. unfold stretch. assert (S n - n = 1)%nat as -> by lia. cbn. by rewrite app_nil_r. Qed.
Lemma stretch_step ev n m : (S n <= m)%nat -> stretch ev n m = ev n ++ stretch ev (S n) m.
Proof. intros H. rewrite (stretch_app ev n (S n) m) by lia. by rewrite stretch_one. Qed.
Lemma log_stretch ev n m : (n <= m)%nat -> log_at ev m = log_at ev n ++ stretch ev n m.
Proof. intros H. unfold log_at, stretch. assert (m = n + (m - n))%nat as E by lia. rewrite E at 1. by rewrite seq_app, flat_map_app. Qed.

Lemma exec_run cfg st ev : execution cfg st ev -> forall n, cc_run cfg (log_at ev n) (st n).
Proof.
  intros [H0 Hs] n. induction n as [|n IH]; [rewrite H0; constructor|].
  rewrite (log_stretch ev n (S n)) by lia. rewrite stretch_one. destruct (Hs n) as [H|[E1 E2]].
  - by eapply CR_step.
  - by rewrite E1, app_nil_r, E2.
Qed.

(** A running flush in one step. *)
Definition fl_moves (c : CC) (evs : list event) (c' : CC) (f : nat) (fl : flush) : Prop :=
  (cc_fl c' !! f = Some fl /\ sends f evs = [] /\ given_up f evs = []) \/
  (exists fl', cc_fl c' !! f = Some fl' /\ (length (fl_rest fl') < length (fl_rest fl))%nat /\
     fl_rest fl = sends f evs ++ given_up f evs ++ fl_rest fl') \/
  (fl_rest fl = [] /\ cc_fl c' !! f = None /\ sends f evs = [] /\ given_up f evs = [] /\ exists r, In (EvEnd f r) evs).
Lemma fl_step cfg c evs c' f fl : cc_step cfg c evs c' -> cc_fl c !! f = Some fl -> fl_moves c evs c' f fl.
Proof.
  intros Hs Hfl. unfold fl_moves.
  destruct Hs as [c g id a c' o Hg Hc|c f' q' Hf Hq'|c f' id a rest errs e Hf|c f' id a rest errs e Ht Hf|c f' errs Hf Hb
    |c g f' q' Hg Hf Hq'|c g f' errs Hg Hf|c g e Hg|c g Hg Hch|c Hch|c Hch];
    cbn [set_bg set_flush cc_begin cc_fl]; try (left; split; [done|by split]).
  - destruct (collect_cases _ _ _ _ _ _ _ Hc) as (-> & _). left. by split.
  - assert (f' <> f) as Hne by congruence. left. by rewrite lookup_insert_ne by done.
  - destruct (decide (f' = f)) as [->|Hne].
    + right. left. rewrite Hf in Hfl. injection Hfl as <-. eexists. rewrite lookup_partial_alter. split; [done|].
      cbn. rewrite Nat.eqb_refl. cbn. split; [lia|done].
    + left. rewrite lookup_partial_alter_ne by done. cbn. rewrite (nat_neq_false f' f) by done. done.
  - destruct (decide (f' = f)) as [->|Hne].
    + right. left. rewrite Hf in Hfl. injection Hfl as <-. eexists. rewrite lookup_partial_alter. split; [done|].
      cbn. rewrite Nat.eqb_refl. cbn. split; [lia|by rewrite !app_nil_r].
    + left. rewrite lookup_partial_alter_ne by done. cbn. rewrite (nat_neq_false f' f) by done. done.
  - destruct (decide (f' = f)) as [->|Hne].
    + right. right. rewrite Hf in Hfl. injection Hfl as <-. rewrite lookup_partial_alter. split; [done|]. split; [done|]. split; [done|]. split; [done|].
      eexists. by left.
    + left. rewrite lookup_partial_alter_ne by done. done.
  - assert (f' <> f) as Hne by congruence. left. by rewrite lookup_insert_ne by done.
  - destruct (decide (f' = f)) as [->|Hne].
    + right. right. rewrite Hf in Hfl. injection Hfl as <-. rewrite lookup_partial_alter. split; [done|]. split; [done|]. split; [done|]. split; [done|].
      eexists. by left.
    + left. rewrite lookup_partial_alter_ne by done. done.
Qed.

(** Each background goroutine's flush is running, and is its own. *)
Definition bg_ok (c : CC) : Prop :=
  (forall g f, cc_bg c !! g = Some (BFlush f) -> is_Some (cc_fl c !! f)) /\
  (forall g g' f, cc_bg c !! g = Some (BFlush f) -> cc_bg c !! g' = Some (BFlush f) -> g = g').
Lemma collect_bg cfg g id a c c' o g' f : cc_collect cfg g id a c = (c', o) -> cc_bg c !! g = None ->
  cc_bg c' !! g' = Some (BFlush f) -> cc_bg c !! g' = Some (BFlush f).
Proof.
  unfold cc_collect. intros Hc Hg Hg'.
  assert (cc_bg c' = cc_bg c \/ cc_bg c' = <[g := BWait]> (cc_bg c)) as [E|E].
  { destruct (cc_stopped c); [injection Hc as <- <-; by left|]. destruct (cc_started c);
      match type of Hc with (if ?b then _ else _) = _ => destruct b end; injection Hc as <- <-; auto. }
  - by rewrite E in Hg'.
  - rewrite E in Hg'. apply lookup_insert_Some in Hg' as [[_ H]|[_ H]]; [done|exact H].
Qed.
Lemma bg_ok_run cfg log c : cc_run cfg log c -> bg_ok c.
Proof.
  induction 1 as [|log c evs c' Hr [IH1 IH2] Hs].
  { split; [intros g f H|intros g g' f H]; cbn in H; by apply lookup_empty_Some in H. }
  assert (forall x g (m : gmap nat bgstate) g' f, partial_alter (fun _ : option bgstate => x) g m !! g' = Some (BFlush f) ->
    (g = g' /\ x = Some (BFlush f)) \/ (g <> g' /\ m !! g' = Some (BFlush f))) as Halt.
  { intros x g0 m g' f H. destruct (decide (g0 = g')) as [->|Hne]; [rewrite lookup_partial_alter in H|rewrite lookup_partial_alter_ne in H by done]; tauto. }
  destruct Hs as [c g id a c' o Hg Hc|c f' q' Hf Hq'|c f' id a rest errs e Hf|c f' id a rest errs e Ht Hf|c f' errs Hf Hb
    |c g f' q' Hg Hf Hq'|c g f' errs Hg Hf|c g e Hg|c g Hg Hch|c Hch|c Hch]; unfold bg_ok;
    cbn [set_bg set_flush cc_begin cc_fl cc_bg]; try done.
  - destruct (collect_cases _ _ _ _ _ _ _ Hc) as (-> & _). split.
    + intros g' f H. eapply IH1, collect_bg; done.
    + intros g1 g2 f H1 H2. eapply IH2; eapply collect_bg; done.
  - split; [|exact IH2]. intros g f H. rewrite lookup_insert_is_Some. destruct (decide (f' = f)); [by left|right; split; [done|by eapply IH1]].
  - split; [|exact IH2]. intros g f H. destruct (decide (f' = f)) as [->|Hne]; [rewrite lookup_partial_alter; by eexists|].
    rewrite lookup_partial_alter_ne by done. by eapply IH1.
  - split; [|exact IH2]. intros g f H. destruct (decide (f' = f)) as [->|Hne]; [rewrite lookup_partial_alter; by eexists|].
    rewrite lookup_partial_alter_ne by done. by eapply IH1.
  - split; [|exact IH2]. intros g f H. destruct (decide (f' = f)) as [->|Hne]; [by apply Hb in H|].
    rewrite lookup_partial_alter_ne by done. by eapply IH1.
  - split.
    + intros g' f H. rewrite lookup_insert_is_Some. apply Halt in H as [[_ [= ->]]|[_ H]]; [by left|].
      destruct (decide (f' = f)); [by left|right; split; [done|by eapply IH1]].
    + intros g1 g2 f H1 H2. apply Halt in H1 as [[E1 X1]|[_ H1]]; apply Halt in H2 as [[E2 X2]|[_ H2]].
      * congruence.
      * injection X1 as ->. apply IH1 in H2 as [? ?]. congruence.
      * injection X2 as ->. apply IH1 in H1 as [? ?]. congruence.
      * by eapply IH2.
  - split.
    + intros g' f H. apply Halt in H as [[_ H]|[Hne H]]; [by destruct (flush_result errs)|].
      destruct (decide (f' = f)) as [->|Hne']; [by destruct (Hne (IH2 _ _ _ Hg H))|]. rewrite lookup_partial_alter_ne by done. by eapply IH1.
    + intros g1 g2 f H1 H2. apply Halt in H1 as [[_ H1]|[_ H1]]; [by destruct (flush_result errs)|].
      apply Halt in H2 as [[_ H2]|[_ H2]]; [by destruct (flush_result errs)|]. by eapply IH2.
  - split.
    + intros g' f H. apply Halt in H as [[_ H]|[Hne H]]; [done|]. by eapply IH1.
    + intros g1 g2 f H1 H2. apply Halt in H1 as [[_ H1]|[_ H1]]; [done|]. apply Halt in H2 as [[_ H2]|[_ H2]]; [done|]. by eapply IH2.
  - split.
    + intros g' f H. apply Halt in H as [[_ H]|[Hne H]]; [done|]. by eapply IH1.
    + intros g1 g2 f H1 H2. apply Halt in H1 as [[_ H1]|[_ H1]]; [done|]. apply Halt in H2 as [[_ H2]|[_ H2]]; [done|]. by eapply IH2.
Qed.

(** A background goroutine in one step, its collector not being stopped. *)
Definition bg_moves (c' : CC) (g : nat) (b : bgstate) : Prop :=
  match b with
  | BWait => cc_bg c' !! g = Some BWait \/ (cc_pend c' = ∅ /\ exists b', cc_bg c' !! g = Some b')
  | BErr e => cc_bg c' !! g = Some (BErr e) \/ cc_bg c' !! g = Some BWait
  | BFlush f => cc_bg c' !! g = Some (BFlush f) \/ cc_bg c' !! g = Some BWait \/ exists e, cc_bg c' !! g = Some (BErr e)
  end.
Lemma bg_same c' g b : cc_bg c' !! g = Some b -> bg_moves c' g b.
Proof. intros H. destruct b; cbn; tauto. Qed.
Lemma bg_step cfg c evs c' g b : cc_step cfg c evs c' -> cc_chan c <> Some true -> cc_bg c !! g = Some b -> bg_moves c' g b.
Proof.
  intros Hs Hch Hb.
  assert (forall x g' (m : gmap nat bgstate), partial_alter (fun _ : option bgstate => x) g' m !! g = if decide (g' = g) then x else m !! g) as Halt.
  { intros x g' m. destruct (decide (g' = g)) as [->|Hne]; [by rewrite lookup_partial_alter|by rewrite lookup_partial_alter_ne]. }
  destruct Hs as [c g' id a c' o Hg Hc|c f' q' Hf Hq'|c f' id a rest errs e Hf|c f' id a rest errs e Ht Hf|c f' errs Hf Hbg
    |c g' f' q' Hg Hf Hq'|c g' f' errs Hg Hf|c g' e Hg|c g' Hg Hch'|c Hch'|c Hch'];
    try (apply bg_same; exact Hb); cbn [set_bg set_flush cc_begin cc_fl cc_bg cc_pend].
  - apply bg_same. unfold cc_collect in Hc. assert (g' <> g) as Hne by congruence.
    destruct (cc_stopped c); [by injection Hc as <- <-|].
    destruct (cc_started c); match type of Hc with (if ?x then _ else _) = _ => destruct x end; injection Hc as <- <-; cbn; try done;
      by rewrite lookup_insert_ne.
  - destruct (decide (g' = g)) as [->|Hne].
    + rewrite Hg in Hb. injection Hb as <-. cbn. right. split; [done|]. rewrite Halt, decide_True by done. by eexists.
    + apply bg_same. cbn. rewrite Halt, decide_False by done. exact Hb.
  - destruct (decide (g' = g)) as [->|Hne].
    + rewrite Hg in Hb. injection Hb as <-. cbn. right. rewrite Halt, decide_True by done. destruct (flush_result errs); [right; by eexists|by left].
    + apply bg_same. cbn. rewrite Halt, decide_False by done. exact Hb.
  - destruct (decide (g' = g)) as [->|Hne].
    + rewrite Hg in Hb. injection Hb as <-. cbn. right. by rewrite Halt, decide_True.
    + apply bg_same. cbn. rewrite Halt, decide_False by done. exact Hb.
  - done.
Qed.

(** A collector that has been used and not stopped has a background goroutine. *)
Lemma bg_there cfg log c : cc_run cfg log c -> ~ In (EvStop false) log -> cc_started c = true -> exists g b, cc_bg c !! g = Some b.
Proof.
  induction 1 as [|log c evs c' Hr IH Hs]; intros Hns Hst; [done|].
  rewrite in_app_iff in Hns. assert (cc_chan c <> Some true) as Hch.
  { destruct (stop_inv _ _ _ Hr) as (H1 & -> & _). destruct (cc_started c); [|done]. intros [= E]. apply H1 in E. tauto. }
  destruct (cc_started c) eqn:Est.
  - destruct IH as (g & b & Hb); [tauto|done|]. pose proof (bg_step _ _ _ _ _ _ Hs Hch Hb) as Hm. exists g.
    destruct b; cbn in Hm; [destruct Hm as [?|[_ ?]]|destruct Hm as [?|[?|[? ?]]]|destruct Hm as [?|?]]; eauto.
  - destruct Hs as [c g id a c' o Hg Hc| | | | | | | | | |]; cbn in Hst; try congruence.
    exists g, BWait. unfold cc_collect in Hc. rewrite Est in Hc. destruct (cc_stopped c).
    { injection Hc as <- <-. congruence. }
    match type of Hc with (if ?x then _ else _) = _ => destruct x end; injection Hc as <- <-; cbn; apply lookup_insert.
Qed.

Section live.
Context (cfg : ccfg) (st : nat -> CC) (ev : nat -> list event).
Hypothesis Hex : execution cfg st ev.
Hypothesis Hfair : fair st.

(** Every running flush ends, and by then has sent or given up all it has left. *)
Lemma flush_ends k : forall n f fl, (length (fl_rest fl) < k)%nat -> cc_fl (st n) !! f = Some fl ->
  exists m, (n <= m)%nat /\ fl_rest fl ⊆+ sends f (stretch ev n m) ++ given_up f (stretch ev n m) /\
    cc_fl (st m) !! f = None /\ exists r, In (EvEnd f r) (stretch ev n m).
Proof.
  induction k as [|k IHk]; intros n f fl Hk Hfl; [lia|].
  destruct (proj1 Hfair n f fl Hfl) as (m & Hm & Hchg). remember (m - n)%nat as d eqn:Hd. revert n Hfl Hm Hd.
  induction d as [|d IHd]; intros n Hfl Hm Hd; [assert (m = n) as -> by lia; done|].
  destruct (proj2 Hex n) as [Hs|[E1 E2]].
  2:{ destruct (IHd (S n)) as (m' & Hm' & H1 & H2 & H3); [by rewrite E2|lia|lia|]. exists m'. split; [lia|].
      rewrite (stretch_step ev n m') by lia. rewrite E1. done. }
  assert (forall A (h : event -> list A) l1 l2, flat_map h (l1 ++ l2) = flat_map h l1 ++ flat_map h l2) as Happ by (intros; apply flat_map_app).
  destruct (fl_step _ _ _ _ _ _ Hs Hfl) as [(H & E1 & E2)|[(fl' & H & Hlt & E)|(E & H & E1 & E2 & r & Hr)]].
  - destruct (IHd (S n)) as (m' & Hm' & H1 & H2 & r & H3); [done|lia|lia|]. exists m'. split; [lia|].
    rewrite (stretch_step ev n m') by lia. unfold sends, given_up in *. rewrite !Happ, E1, E2. split; [exact H1|]. split; [exact H2|].
    exists r. apply in_app_iff. by right.
  - destruct (IHk (S n) f fl') as (m' & Hm' & H1 & H2 & r & H3); [lia|done|]. exists m'. split; [lia|].
    rewrite (stretch_step ev n m') by lia. split.
    + unfold sends, given_up in *. rewrite !Happ, E. rewrite !app_assoc.
      etransitivity; [apply submseteq_app; [reflexivity|exact H1]|]. apply Permutation_submseteq. perm.
    + split; [done|]. exists r. apply in_app_iff. by right.
  - exists (S n). rewrite stretch_one. split; [lia|]. rewrite E. split; [apply submseteq_nil_l|]. split; [done|]. by exists r.
Qed.

Hypothesis Hns : never_stopped ev.
Lemma chan_open n : cc_chan (st n) <> Some true.
Proof.
  destruct (stop_inv _ _ _ (exec_run _ _ _ Hex n)) as (H1 & -> & _). destruct (cc_started (st n)); [|done]. intros [= E].
  apply H1 in E. apply in_flat_map in E as (k & _ & Hk). by apply (Hns k).
Qed.
Lemma bg_moves_exec n g b : cc_bg (st n) !! g = Some b -> bg_moves (st (S n)) g b.
Proof.
  intros H. destruct (proj2 Hex n) as [Hs|[_ E]]; [|rewrite E; by apply bg_same].
  eapply bg_step; [exact Hs|apply chan_open|exact H].
Qed.
Lemma bg_waiting n g : cc_bg (st n) !! g = Some BWait -> exists m, (n <= m)%nat /\ cc_pend (st m) = ∅.
Proof.
  intros Hb. destruct (proj1 (proj2 Hfair) n g Hb) as (m & Hm & Hchg). remember (m - n)%nat as d eqn:Hd. revert n Hb Hm Hd.
  induction d as [|d IH]; intros n Hb Hm Hd; [assert (m = n) as -> by lia; done|].
  destruct (bg_moves_exec n g BWait Hb) as [H|[H _]].
  - destruct (IH (S n)) as (m' & ? & ?); [done|lia|lia|]. exists m'. split; [lia|done].
  - exists (S n). split; [lia|done].
Qed.
Lemma bg_failed n g e : cc_bg (st n) !! g = Some (BErr e) -> exists m, (n <= m)%nat /\ cc_pend (st m) = ∅.
Proof.
  intros Hb. destruct (proj2 (proj2 Hfair) n g e Hb) as (m & Hm & Hchg). remember (m - n)%nat as d eqn:Hd. revert n Hb Hm Hd.
  induction d as [|d IH]; intros n Hb Hm Hd; [assert (m = n) as -> by lia; done|].
  destruct (bg_moves_exec n g (BErr e) Hb) as [H|H].
  - destruct (IH (S n)) as (m' & ? & ?); [done|lia|lia|]. exists m'. split; [lia|done].
  - destruct (bg_waiting (S n) g H) as (m' & ? & ?). exists m'. split; [lia|done].
Qed.
Lemma bg_flushing n g f : cc_bg (st n) !! g = Some (BFlush f) -> exists m, (n <= m)%nat /\ cc_pend (st m) = ∅.
Proof.
  intros Hb. destruct (proj1 (bg_ok_run _ _ _ (exec_run _ _ _ Hex n)) _ _ Hb) as [fl Hfl].
  destruct (flush_ends _ n f fl (Nat.lt_succ_diag_r _) Hfl) as (m & Hm & _ & Hnone & _). clear Hfl fl.
  remember (m - n)%nat as d eqn:Hd. revert n Hb Hm Hd. induction d as [|d IH]; intros n Hb Hm Hd.
  { assert (m = n) as -> by lia. destruct (proj1 (bg_ok_run _ _ _ (exec_run _ _ _ Hex n)) _ _ Hb) as [fl Hfl]. congruence. }
  destruct (bg_moves_exec n g (BFlush f) Hb) as [H|[H|[e H]]].
  - destruct (IH (S n)) as (m' & ? & ?); [done|lia|lia|]. exists m'. split; [lia|done].
  - destruct (bg_waiting (S n) g H) as (m' & ? & ?). exists m'. split; [lia|done].
  - destruct (bg_failed (S n) g e H) as (m' & ? & ?). exists m'. split; [lia|done].
Qed.
Lemma queue_taken n : cc_started (st n) = true -> exists m, (n <= m)%nat /\ cc_pend (st m) = ∅.
Proof.
  intros Hst. destruct (bg_there _ _ _ (exec_run _ _ _ Hex n)) as (g & b & Hb); [|exact Hst|].
  { intros E. apply in_flat_map in E as (k & _ & Hk). by apply (Hns k). }
  destruct b; [by eapply bg_waiting|by eapply bg_flushing|by eapply bg_failed].
Qed.
End live.

(** What the flushes fs do in l is part of what is sent and dropped. *)
Lemma parts_sent s l : forall fs : list nat, NoDup fs ->
  flat_map (fun f => entries_of s (sends f l ++ given_up f l)) fs ⊆+ sent s l ++ dropped s l.
Proof.
  induction l as [|e l IH]; intros fs Hnd.
  { cbn. replace (flat_map _ fs) with (@nil Annotation); [done|]. induction fs; [done|]. cbn. apply IHfs. by apply NoDup_cons in Hnd as [_ ?]. }
  (* the part of the first event *)
  set (h := fun f => entries_of s (sends f [e] ++ given_up f [e])).
  assert (flat_map h fs ⊆+ sent1 s e ++ dropped1 s e) as Hh.
  { assert (forall x, flat_map (fun f : nat => if (x =? f)%nat then sent1 s e ++ dropped1 s e else []) fs ⊆+ sent1 s e ++ dropped1 s e) as Hone.
    { intros x. clear h IH. induction fs as [|f fs IHf]; [apply submseteq_nil_l|]. apply NoDup_cons in Hnd as [Hn Hnd]. cbn [flat_map].
      destruct (Nat.eqb_spec x f) as [<-|Hne]; [|cbn; by apply IHf].
      replace (flat_map _ fs) with (@nil Annotation); [by rewrite app_nil_r|]. clear IHf Hnd.
      induction fs as [|y fs IHf]; [done|]. apply not_elem_of_cons in Hn as [Hxy Hn]. cbn [flat_map]. rewrite nat_neq_false by done. cbn. by apply IHf. }
    destruct e as [id a o|f q|f id a r|f q|f r|e|g|b]; cbn [sent1 dropped1] in *;
      try (replace (flat_map h fs) with (@nil Annotation); [apply submseteq_nil_l|]; clear; subst h; induction fs; done).
    - etransitivity; [|apply (Hone f)]. match goal with |- ?x ⊆+ ?y => enough (x = y) as -> by done end. clear. subst h. cbn. induction fs as [|x fs IH]; [done|]. cbn. rewrite <- IH.
      f_equal. destruct (f =? x)%nat; cbn; by rewrite ?app_nil_r.
    - etransitivity; [|apply (Hone f)]. match goal with |- ?x ⊆+ ?y => enough (x = y) as -> by done end. clear. subst h. cbn. induction fs as [|x fs IH]; [done|]. cbn. rewrite <- IH.
      f_equal. destruct (f =? x)%nat; cbn; by rewrite ?app_nil_r. }
  assert (flat_map (fun f => entries_of s (sends f (e :: l) ++ given_up f (e :: l))) fs ≡ₚ flat_map h fs ++ flat_map (fun f => entries_of s (sends f l ++ given_up f l)) fs) as ->.
  { clear. induction fs as [|f fs IH]; [done|]. cbn [flat_map]. rewrite IH. subst h. cbn beta.
    change (sends f (e :: l)) with (sends f ([e] ++ l)). change (given_up f (e :: l)) with (given_up f ([e] ++ l)).
    unfold sends, given_up. rewrite !flat_map_app, !entries_app. 
    perm. }
  change (sent s (e :: l)) with (sent1 s e ++ sent s l). change (dropped s (e :: l)) with (dropped1 s e ++ dropped s l).
  etransitivity; [apply submseteq_app; [exact Hh|exact (IH fs Hnd)]|]. apply Permutation_submseteq. perm.
Qed.

Section out.
Context (cfg : ccfg) (st : nat -> CC) (ev : nat -> list event).
Hypothesis Hex : execution cfg st ev.
Hypothesis Hfair : fair st.

Lemma sends_app f l1 l2 : sends f (l1 ++ l2) = sends f l1 ++ sends f l2.
Proof. apply flat_map_app. Qed.
Lemma given_up_app f l1 l2 : given_up f (l1 ++ l2) = given_up f l1 ++ given_up f l2.
Proof. apply flat_map_app. Qed.

(** All flushes of a list end. *)
Lemma flushes_end n (fs : list (nat * flush)) : (forall f fl, (f, fl) ∈ fs -> cc_fl (st n) !! f = Some fl) ->
  exists m, (n <= m)%nat /\ forall f fl, (f, fl) ∈ fs -> fl_rest fl ⊆+ sends f (stretch ev n m) ++ given_up f (stretch ev n m).
Proof.
  induction fs as [|[f fl] fs IH]; intros H.
  { exists n. split; [lia|]. by intros ? ? ?%elem_of_nil. }
  destruct IH as (m1 & Hm1 & H1). { intros f' fl' Hin. apply H. by right. }
  destruct (flush_ends _ _ _ Hex Hfair _ n f fl (Nat.lt_succ_diag_r _)) as (m2 & Hm2 & H2 & _). { apply H. by left. }
  assert (forall k m f fl, (n <= k)%nat -> (k <= m)%nat -> fl_rest fl ⊆+ sends f (stretch ev n k) ++ given_up f (stretch ev n k) ->
    fl_rest fl ⊆+ sends f (stretch ev n m) ++ given_up f (stretch ev n m)) as Hmono.
  { intros k m f' fl' Hk Hm Hs. rewrite (stretch_app ev n k m), sends_app, given_up_app by lia. etransitivity; [exact Hs|].
    rewrite <- app_assoc. apply submseteq_app; [done|]. etransitivity; [|apply submseteq_inserts_l; reflexivity]. by apply submseteq_inserts_r. }
  exists (m1 + m2)%nat. split; [lia|]. intros f' fl' [[= -> ->]|Hin]%elem_of_cons.
  - apply (Hmono m2); [lia|lia|done].
  - apply (Hmono m1); [lia|lia|by apply H1].
Qed.

Lemma entries_submseteq s a b : a ⊆+ b -> entries_of s a ⊆+ entries_of s b.
Proof.
  intros H. apply submseteq_Permutation in H as [k Hk]. rewrite (entries_perm s _ _ Hk), entries_app. by apply submseteq_inserts_r.
Qed.

Hypothesis Hns : never_stopped ev.
Lemma emptied n : exists m, (n <= m)%nat /\ cc_pend (st m) = ∅.
Proof.
  destruct (cc_started (st n)) eqn:Est; [by eapply queue_taken|].
  exists n. split; [lia|]. pose proof (exec_run _ _ _ Hex n) as Hr. destruct (stop_inv _ _ _ Hr) as (_ & _ & H & _).
  rewrite (queue_inv _ _ _ Hr). assert (forall id a o, ~ In (EvCollect id a o) (log_at ev n)) as Hno.
  { intros id a o Hin. assert (cc_started (st n) = true) by (apply H; eauto). congruence. }
  clear -Hno. induction (log_at ev n) as [|e l IH] using rev_ind; [done|]. rewrite queue_snoc, IH.
  - cbn. destruct e as [id a o| | | | | | |]; try done. destruct (Hno id a o). apply in_app_iff. right. by left.
  - intros id a o Hin. apply (Hno id a o), in_app_iff. by left.
Qed.

Lemma eventually_out n s : exists m, (n <= m)%nat /\
  accepted s (log_at ev n) ⊆+ sent s (log_at ev m) ++ dropped s (log_at ev m) /\
  (was_accepted s (log_at ev n) -> was_sent s (log_at ev m) \/ was_dropped s (log_at ev m)).
Proof.
  destruct (emptied n) as (k & Hk & Hempty). pose proof (exec_run _ _ _ Hex k) as Hr.
  destruct (flushes_end k (map_to_list (cc_fl (st k)))) as (m & Hm & Hout). { intros f fl Hin. by apply elem_of_map_to_list. }
  exists m. split; [lia|]. rewrite (log_stretch ev k m) by lia. split.
  - rewrite sent_snoc, dropped_snoc.
    assert (accepted s (log_at ev n) ⊆+ accepted s (log_at ev k)) as Hacc.
    { rewrite (log_stretch ev n k), accepted_snoc by lia. by apply submseteq_inserts_r. }
    etransitivity; [exact Hacc|]. rewrite (conservation _ _ _ s Hr). rewrite queued_lookup, Hempty, lookup_empty. cbn [default from_option app].
    assert (flying s (st k) ⊆+ sent s (stretch ev k m) ++ dropped s (stretch ev k m)) as Hfly.
    { etransitivity; [|apply (parts_sent s _ (map fst (map_to_list (cc_fl (st k)))))]; [|apply NoDup_fst_map_to_list].
      unfold flying. revert Hout. generalize (map_to_list (cc_fl (st k))). intros l Hl. induction l as [|[f fl] l IH]; [done|].
      cbn [flat_map map fst snd]. apply submseteq_app.
      - apply entries_submseteq, Hl. by left.
      - apply IH. intros f' fl' Hin. apply Hl. by right. }
    etransitivity; [apply submseteq_app; [reflexivity|apply submseteq_app; [exact Hfly|reflexivity]]|]. apply Permutation_submseteq. perm.
  - intros Ha. assert (was_accepted s (log_at ev k)) as Ha'.
    { rewrite (log_stretch ev n k) by lia. destruct Ha as (a & e & Hin). exists a, e. apply in_app_iff. by left. }
    apply (presence _ _ _ s Hr) in Ha' as [(f & a & e & Hin)|[(q & a & Hq & Hin)|[Hp|(f & fl & Hfl & a & Hin)]]].
    + left. exists f, a, e. apply in_app_iff. by left.
    + right. exists q, a. split; [done|]. setoid_rewrite in_app_iff. destruct Hin as [(id & b & Hin)|(f & Hin)]; [left; exists id, b|right; exists f]; by left.
    + rewrite Hempty, lookup_empty in Hp. by destruct Hp.
    + assert ((s, a) ∈ sends f (stretch ev k m) ++ given_up f (stretch ev k m)) as Hin'.
      { eapply elem_of_submseteq; [by apply elem_of_list_In|]. apply (Hout f fl). by apply elem_of_map_to_list. }
      apply elem_of_app in Hin' as [Hin'|Hin']; apply elem_of_list_In, in_flat_map in Hin' as (e & He & Hin').
      * left. destruct e as [| |f' id b r| | | | |]; try done. destruct (f' =? f)%nat; [|done]. destruct Hin' as [[= -> ->]|[]].
        exists f', a, r. apply in_app_iff. by right.
      * right. destruct e as [| | |f' q| | | |]; try done. destruct (f' =? f)%nat; [|done].
        exists q, a. split; [done|]. right. exists f'. apply in_app_iff. by right.
Qed.

(** Nothing is dropped without limits. *)
Lemma never_dropped log c s : cf_max cfg = 0 -> cf_timeout cfg = false -> cc_run cfg log c -> dropped s log = [].
Proof.
  intros Hmax Ht. induction 1 as [|log c evs c' Hr IH Hs]; [done|]. rewrite dropped_snoc, IH. cbn [app].
  pose proof Hs as Hs'. destruct Hs as [c g id a c' o Hg Hc| | | | | | | | | |]; try done; [|congruence].
  destruct o as [|q|e]; try done. by destruct (collect_unlimited _ _ _ _ _ _ _ Hmax Hr Hs' q).
Qed.
End out.
