From Verif Require Import Base ChunkModel ChunkSpec ChunkProofs WireModel WireSpec WireProofs RemoteModel RemoteProofs
  MemModel MemSpec MemProofs MemProofs2 MemProofs3 MemProofs4 EndSpec EndProofs FailSpec FailProofs LossSpec.
Local Open Scope general_if_scope.

(** ** The ChunkedCollector *)
Lemma run_end cfg log c : cc_run cfg log c -> forall l1 f r l2, log = l1 ++ EvEnd f r :: l2 ->
  exists c1 c2, cc_run cfg l1 c1 /\ cc_step cfg c1 [EvEnd f r] c2.
Proof.
  induction 1 as [|log c evs c' Hr IH Hs]; intros l1 f r l2 Heq; [by destruct l1|].
  destruct (app_eq_inv _ _ _ _ Heq) as [(k & -> & Hk)|(k & -> & Hk)].
  - destruct k as [|ev k].
    + exists c, c'. rewrite app_nil_r in Hr. split; [done|]. cbn in Hk. subst evs.
      inversion Hs; subst; done.
    + cbn in Hk. injection Hk as <- ->. by apply (IH l1 f r k).
  - destruct k as [|ev k].
    + exists c, c'. rewrite app_nil_r. split; [done|]. cbn in Hk. subst evs. inversion Hs; subst; done.
    + subst evs. exfalso. inversion Hs; subst; try (destruct k; done). destruct k as [|? [|]]; done.
Qed.
Lemma begin_unique f l1 q l2 l1' q' l2' : l1 ++ EvBegin f q :: l2 = l1' ++ EvBegin f q' :: l2' -> not_about f l2 -> not_about f l2' ->
  l1 = l1' /\ q = q' /\ l2 = l2'.
Proof.
  intros E [H _] [H' _]. destruct (app_eq_inv _ _ _ _ E) as [(k & -> & Hk)|(k & -> & Hk)]; destruct k as [|ev k]; cbn in Hk.
  - rewrite app_nil_r. injection Hk as <- <-. done.
  - injection Hk as <- ->. exfalso. apply (H' q). apply in_or_app. right. by left.
  - rewrite app_nil_r. injection Hk as <- <-. done.
  - injection Hk as <- ->. exfalso. apply (H q'). apply in_or_app. right. by left.
Qed.
Lemma sends_event f l id a : In (id, a) (sends f l) -> exists e, In (EvSend f id a e) l.
Proof.
  unfold sends. intros H. apply in_flat_map in H as (ev & Hev & H). destruct ev as [| |g i b e| | | | |]; try done.
  destruct (Nat.eqb_spec g f) as [->|]; [|done]. destruct H as [[= -> ->]|[]]. by exists e.
Qed.
Lemma sends_in_event log f id a e : In (EvSend f id a e) log -> In ((id, a), e) (sends_in log).
Proof. intros H. apply elem_of_list_In, elem_of_list_omap. exists (EvSend f id a e). split; [by apply elem_of_list_In|done]. Qed.
(** A Flush that returns nil has sent everything that was queued. *)
Lemma nil_flush cfg log c l1 f q l2 l3 : cc_run cfg log c -> log = l1 ++ EvBegin f q :: l2 ++ EvEnd f None :: l3 -> not_about f l2 ->
  forall id a, queue l1 !! id = Some a -> In ((id, a), None) (sends_in log).
Proof.
  intros Hr -> Hna id a Hq.
  destruct (run_end _ _ _ Hr (l1 ++ EvBegin f q :: l2) f None l3) as (c1 & c2 & Hr1 & Hs); [by rewrite <- app_assoc|].
  destruct (flush_ok _ _ _ _ _ Hr1 Hs) as (l1' & q' & l2' & E & Hna' & HP & Hsends & Hnil & _).
  destruct (begin_unique _ _ _ _ _ _ _ E Hna Hna') as (<- & <- & <-).
  assert (In (id, a) (sends f l2)) as Hin.
  { rewrite Hsends. eapply Permutation_in; [symmetry; exact HP|]. by apply elem_of_list_In, elem_of_map_to_list. }
  destruct (sends_event _ _ _ _ Hin) as [e He]. rewrite (Hnil _ _ _ He) in He. apply (sends_in_event _ f).
  apply in_or_app. right. right. apply in_or_app. by left.
Qed.
Lemma queue_app l1 l2 : queue (l1 ++ l2) = fold_left queue_step l2 (queue l1).
Proof. unfold queue. by rewrite fold_left_app. Qed.
Lemma kept_cons ev l : kept (ev :: l) -> kept l.
Proof. intros [H1 H2]. split; intros; intros Hin; [eapply H1|eapply H2]; right; exact Hin. Qed.
Lemma kept_queue l : kept l -> forall (m : gmap SpanID (list Annotation)) id a b, m !! id = Some (b ++ a) ->
  exists c, fold_left queue_step l m !! id = Some (b ++ a ++ c).
Proof.
  induction l as [|ev l IH]; intros Hk m id a b Hm; [exists []; cbn; by rewrite app_nil_r|].
  pose proof (kept_cons _ _ Hk) as Hl. cbn [fold_left].
  destruct ev as [i x [|q|e]|f q| | | | | |]; cbn [queue_step]; try (by apply IH).
  - exfalso. destruct Hk as [_ Hk]. apply (Hk i x q). by left.
  - destruct (decide (i = id)) as [->|Hne].
    + destruct (IH Hl (<[id := default [] (m !! id) ++ x]> m) id (a ++ x) b) as [c Hc].
      * rewrite lookup_insert, Hm. cbn. by rewrite <- app_assoc.
      * exists (x ++ c). rewrite Hc. by rewrite <- app_assoc.
    + apply IH; [done|]. by rewrite lookup_insert_ne.
  - exfalso. destruct Hk as [Hk _]. apply (Hk f q). by left.
Qed.
Lemma recording_queued k1 id a e m1 : kept m1 -> exists b c, queue (k1 ++ EvCollect id a (OQueued e) :: m1) !! id = Some (b ++ a ++ c).
Proof.
  intros Hk. rewrite queue_app. cbn [fold_left queue_step]. exists (default [] (queue k1 !! id)).
  apply kept_queue; [done|]. by rewrite lookup_insert.
Qed.

(** ** The fates of a recording *)
Lemma scan l : kept l \/ (exists l1 id a q l2, l = l1 ++ EvCollect id a (ODropped q) :: l2 /\ kept l1) \/
  exists l1 f q l2, l = l1 ++ EvBegin f q :: l2 /\ kept l1.
Proof.
  assert (kept []) as H0 by (split; intros; intros []).
  assert (forall ev l, (forall f q, ev <> EvBegin f q) -> (forall id a q, ev <> EvCollect id a (ODropped q)) -> kept l -> kept (ev :: l)) as Hc.
  { intros ev k Ha Hb [H1 H2]. split; intros; intros [E|Hin]; [by eapply Ha|by eapply H1|by eapply Hb|by eapply H2]. }
  induction l as [|ev l IH]; [by left|].
  assert ((forall f q, ev <> EvBegin f q) -> (forall id a q, ev <> EvCollect id a (ODropped q)) ->
    kept (ev :: l) \/ (exists l1 id a q l2, ev :: l = l1 ++ EvCollect id a (ODropped q) :: l2 /\ kept l1) \/
    exists l1 f q l2, ev :: l = l1 ++ EvBegin f q :: l2 /\ kept l1) as Hgo.
  { intros Ha Hb. destruct IH as [IH|[(l1 & id & a & q & l2 & -> & IH)|(l1 & f & q & l2 & -> & IH)]].
    - left. by apply Hc.
    - right. left. exists (ev :: l1), id, a, q, l2. split; [done|by apply Hc].
    - right. right. exists (ev :: l1), f, q, l2. split; [done|by apply Hc]. }
  destruct ev as [i x [|q|e]|f q| | | | | |]; try (apply Hgo; intros; discriminate).
  - right. left. by exists [], i, x, q, l.
  - right. right. by exists [], f, q, l.
Qed.
Lemma first_end f l : (forall r, ~ In (EvEnd f r) l) \/ exists l2 r l3, l = l2 ++ EvEnd f r :: l3 /\ forall r', ~ In (EvEnd f r') l2.
Proof.
  induction l as [|ev l IH]; [left; intros r []|].
  assert ((exists r, ev = EvEnd f r) \/ forall r, ev <> EvEnd f r) as [[r ->]|He].
  { destruct ev as [| | | |g r| | |]; try (right; intros; discriminate). destruct (decide (g = f)) as [->|]; [left; by exists r|right; congruence]. }
  - right. exists [], r, l. split; [done|]. intros r' [].
  - destruct IH as [IH|(l2 & r & l3 & -> & IH)].
    + left. intros r [E|Hin]; [by apply (He r)|by apply (IH r)].
    + right. exists (ev :: l2), r, l3. split; [done|]. intros r' [E|Hin]; [by apply (He r')|by apply (IH r')].
Qed.
(** Between its beginning and its end no other Flush has its number. *)
Lemma active cfg log c : cc_run cfg log c -> forall l1 f q l2, log = l1 ++ EvBegin f q :: l2 -> (forall r, ~ In (EvEnd f r) l2) ->
  cc_fl c !! f <> None /\ forall q', ~ In (EvBegin f q') l2.
Proof.
  induction 1 as [|log c evs c' Hr IH Hs]; intros l1 f q l2 Heq Hne; [by destruct l1|].
  assert (cc_fl c !! f <> None -> (forall r, ~ In (EvEnd f r) evs) -> cc_fl c' !! f <> None /\ forall q', ~ In (EvBegin f q') evs) as Hstep.
  { intros Hf He. inversion Hs as [c0 g id0 a0 c0' o0 Hg Hc| | | | | | | | | |]; subst; cbn [cc_fl set_bg set_flush cc_begin].
    - destruct (collect_cases _ _ _ _ _ _ _ Hc) as (-> & _). split; [done|]. intros q' [|[]]; discriminate.
    - split; [destruct (decide (f0 = f)) as [->|]; [by rewrite lookup_insert|by rewrite lookup_insert_ne]|]. intros q' [[= -> ->]|[]]. congruence.
    - split; [destruct (decide (f0 = f)) as [->|]; [by rewrite lookup_partial_alter|by rewrite lookup_partial_alter_ne]|]. intros q' [|[]]; discriminate.
    - split; [destruct (decide (f0 = f)) as [->|]; [by rewrite lookup_partial_alter|by rewrite lookup_partial_alter_ne]|]. intros q' [|[|[]]]; discriminate.
    - assert (f0 <> f) as Hn by (intros ->; eapply He; by left). split; [by rewrite lookup_partial_alter_ne|]. intros q' [|[]]; discriminate.
    - split; [destruct (decide (f0 = f)) as [->|]; [by rewrite lookup_insert|by rewrite lookup_insert_ne]|]. intros q' [[= -> ->]|[]]. congruence.
    - assert (f0 <> f) as Hn by (intros ->; eapply He; by left). split; [by rewrite lookup_partial_alter_ne|]. intros q' [|[]]; discriminate.
    - split; [done|]. intros q' [|[]]; discriminate.
    - split; [done|]. intros q' [|[]]; discriminate.
    - split; [done|]. intros q' [|[]]; discriminate.
    - split; [done|]. intros q' [|[]]; discriminate. }
  destruct (app_eq_inv _ _ _ _ Heq) as [(k & -> & Hk)|(k & -> & Hk)].
  - destruct k as [|ev k].
    + cbn in Hk. subst evs. inversion Hs; subst; cbn [cc_fl set_bg set_flush cc_begin]; rewrite lookup_insert; split; try done; intros q' [].
    + cbn in Hk. injection Hk as <- ->.
      destruct (IH l1 f q k eq_refl) as [H1 H2]; [intros r Hin; apply (Hne r); apply in_or_app; by left|].
      destruct Hstep as [H3 H4]; [done|intros r Hin; apply (Hne r); apply in_or_app; by right|].
      split; [done|]. intros q' [Hin|Hin]%in_app_or; [by eapply H2|by eapply H4].
  - destruct k as [|ev k].
    + cbn in Hk. subst evs. inversion Hs; subst; cbn [cc_fl set_bg set_flush cc_begin]; rewrite lookup_insert; split; try done; intros q' [].
    + subst evs. exfalso. inversion Hs; subst; try (destruct k; done). destruct k as [|? [|]]; done.
Qed.
Lemma run_prefix cfg log c : cc_run cfg log c -> forall l1 f r l2, log = l1 ++ EvEnd f r :: l2 -> exists c1, cc_run cfg l1 c1.
Proof. intros Hr l1 f r l2 E. destruct (run_end _ _ _ Hr _ _ _ _ E) as (c1 & _ & H & _). by exists c1. Qed.
Lemma fates cfg log c k1 ev rest : cc_run cfg log c -> log = k1 ++ ev :: rest ->
  waiting rest \/ dropped_by_collect rest \/ being_flushed rest \/ flush_failed rest \/ flushed rest.
Proof.
  intros Hr ->. destruct (scan rest) as [H|[H|(l1 & f & q & l2 & -> & Hk)]]; [by left|right; by left|]. right. right.
  destruct (first_end f l2) as [H|(m & r & l3 & -> & H)]; [left; by exists l1, f, q, l2|]. right.
  assert (not_about f m) as Hna.
  { split; [|done]. destruct (run_prefix _ _ _ Hr (k1 ++ ev :: l1 ++ EvBegin f q :: m) f r l3) as [c1 Hr1].
    { rewrite <- !app_assoc. cbn [app]. by rewrite <- !app_assoc. }
    apply (active _ _ _ Hr1 (k1 ++ ev :: l1) f q m); [|done]. rewrite <- !app_assoc. done. }
  destruct r as [e|]; [left; by exists l1, f, q, m, e, l3|right; by exists l1, f, q, m, l3].
Qed.

(** ** Processes that have dropped nothing *)
Definition undropped (log : list ChunkModel.event) : Prop :=
  (forall id a q, ~ In (EvCollect id a (ODropped q)) log) /\ (forall f q, ~ In (EvTimeout f q) log).
Definition of_flush (f : nat) (ev : ChunkModel.event) : Prop := (exists id a e, ev = EvSend f id a e) \/ exists q, ev = EvTimeout f q.
Lemma within cfg log c : cc_run cfg log c -> forall l1 f ev l2, log = l1 ++ ev :: l2 -> of_flush f ev ->
  exists k1 q k2, l1 = k1 ++ EvBegin f q :: k2 /\ forall r, ~ In (EvEnd f r) k2.
Proof.
  induction 1 as [|log c evs c' Hr IH Hs]; intros l1 f ev l2 Heq Hof; [by destruct l1|].
  assert (forall fl, cc_fl c !! f = Some fl -> exists k1 q k2, log = k1 ++ EvBegin f q :: k2 /\ forall r, ~ In (EvEnd f r) k2) as Hfl.
  { intros fl Hfl. destruct (finv_all _ _ _ Hr f fl Hfl) as (k1 & q & k2 & -> & (_ & Hn) & _). by exists k1, q, k2. }
  assert (forall k, evs = k ++ ev :: l2 -> exists k1 q k2, log ++ k = k1 ++ EvBegin f q :: k2 /\ forall r, ~ In (EvEnd f r) k2) as Hlast.
  { intros k Ek. assert (exists fl, cc_fl c !! f = Some fl /\ forall r, ~ In (EvEnd f r) k) as (fl & Hf & Hk).
    { destruct Hof as [(id & a & e & ->)|(q & ->)]; subst evs; inversion Hs; try (destruct k as [|? [|]]; discriminate);
      (destruct k as [|x k]; [|destruct k as [|? [|]]]; cbn in *; simplify_eq; eexists; (split; [eassumption|]); intros r Hr'; cbn in Hr'; intuition congruence). }
    destruct (Hfl fl Hf) as (k1 & q & k2 & -> & Hn). exists k1, q, (k2 ++ k). rewrite <- app_assoc. split; [done|].
    intros r [Hin|Hin]%in_app_or; [by apply (Hn r)|by apply (Hk r)]. }
  destruct (app_eq_inv _ _ _ _ Heq) as [(k & -> & Hk)|(k & -> & Hk)].
  - destruct k as [|x k].
    + cbn in Hk. destruct (Hlast [] (eq_sym Hk)) as (k1 & q & k2 & E & Hn). rewrite !app_nil_r in E. by exists k1, q, k2.
    + cbn in Hk. injection Hk as <- ->. by apply (IH l1 f ev k).
  - by apply Hlast.
Qed.
Lemma nil_events cfg log c : cc_run cfg log c -> settled log -> undropped log /\ forall f id a e, In (EvSend f id a e) log -> e = None.
Proof.
  intros Hr (Hd & _ & Hend & Hnil).
  assert (forall f ev, In ev log -> of_flush f ev -> exists m, In ev m /\ (forall id a e, In (EvSend f id a e) m -> e = None) /\ forall q, ~ In (EvTimeout f q) m) as H.
  { intros f ev Hin Hof. apply in_split in Hin as (l1 & l2 & E).
    destruct (within _ _ _ Hr _ _ _ _ E Hof) as (k1 & q & k2 & -> & Hk2).
    assert (log = k1 ++ EvBegin f q :: k2 ++ ev :: l2) as E2 by (rewrite E; by rewrite <- app_assoc).
    destruct (first_end f l2) as [Hno|(m & r & l3 & -> & Hm)].
    { exfalso. destruct (Hend _ _ _ _ E2) as [r Hin]. apply in_app_or in Hin as [Hin|[Hin|Hin]]; [by apply (Hk2 r)| |by apply (Hno r)].
      destruct Hof as [(? & ? & ? & ->)|(? & ->)]; discriminate. }
    assert (forall r', ~ In (EvEnd f r') (k2 ++ ev :: m)) as Hn.
    { intros r' [Hin|[Hin|Hin]]%in_app_or; [by apply (Hk2 r')| |by apply (Hm r')]. destruct Hof as [(? & ? & ? & ->)|(? & ->)]; discriminate. }
    assert (log = (k1 ++ EvBegin f q :: k2 ++ ev :: m) ++ EvEnd f r :: l3) as E3.
    { rewrite E2, <- !app_assoc. cbn [app]. by rewrite <- !app_assoc. }
    assert (r = None) as ->. { apply (Hnil f). rewrite E3. apply in_or_app. right. by left. }
    destruct (run_end _ _ _ Hr _ _ _ _ E3) as (c1 & c2 & Hr1 & Hs).
    destruct (active _ _ _ Hr1 k1 f q (k2 ++ ev :: m) eq_refl Hn) as [_ Hb].
    destruct (flush_ok _ _ _ _ _ Hr1 Hs) as (l1' & q' & l2' & E' & Hna' & _ & _ & Hs1 & Hs2).
    destruct (begin_unique _ _ _ _ _ _ _ E' (conj Hb Hn) Hna') as (_ & _ & <-).
    exists (k2 ++ ev :: m). split; [apply in_or_app; right; by left|done]. }
  split; [split; [done|]|].
  - intros f q Hin. destruct (H f _ Hin) as (m & Hm & _ & Ht); [right; by eexists|]. by apply (Ht q).
  - intros f id a e Hin. destruct (H f _ Hin) as (m & Hm & Ht & _); [left; by eexists _, _, _|]. by apply (Ht id a).
Qed.
Definition linv (log : list ChunkModel.event) (c : CC) : Prop := exists S Q F,
  Forall2 made (map fst (sends_in log)) S /\ Forall2 made (map_to_list (cc_pend c)) Q /\ Forall2 made (fly_list (cc_fl c)) F /\
  concat S ++ concat Q ++ concat F ≡ₚ recordings log.
(** Only the queue, the flushes and the log matter, up to the order in the maps. *)
Lemma linv_intro log c S q Q f F : Forall2 made (map fst (sends_in log)) S -> q ≡ₚ map_to_list (cc_pend c) -> Forall2 made q Q ->
  f ≡ₚ fly_list (cc_fl c) -> Forall2 made f F -> concat S ++ concat Q ++ concat F ≡ₚ recordings log -> linv log c.
Proof.
  intros HS Hq HQ Hf HF Hsub. destruct (made_perm _ _ _ Hq HQ) as (Q' & HQ' & E1). destruct (made_perm _ _ _ Hf HF) as (F' & HF' & E2).
  exists S, Q', F'. split_and!; try done. by rewrite <- E1, <- E2.
Qed.
Lemma linv_quiet log evs c c' : linv log c -> sends_in evs = [] -> recordings evs = [] -> cc_pend c' = cc_pend c ->
  fly_list (cc_fl c') ≡ₚ fly_list (cc_fl c) -> linv (log ++ evs) c'.
Proof.
  intros (S & Q & F & HS & HQ & HF & Hsub) E1 E2 E3 E4.
  apply (linv_intro _ _ S (map_to_list (cc_pend c)) Q (fly_list (cc_fl c)) F); try done.
  - by rewrite sends_app, E1, app_nil_r.
  - by rewrite E3.
  - by rewrite recordings_app, E2, app_nil_r.
Qed.
Lemma linv_step cfg log c evs c' : undropped evs -> linv log c -> cc_step cfg c evs c' -> linv (log ++ evs) c'.
Proof.
  intros Hu Hi Hs.
  destruct Hs as [c g id a c' o Hg Hc|c f q Hf Hq|c f id a rest errs e Hf|c f id a rest errs e Ht Hf|c f errs Hf Hb
    |c g f q Hg Hf Hq|c g f errs Hg Hf|c g e Hg|c g Hg Hch|c Hch|c Hch].
  - destruct (collect_cases _ _ _ _ _ _ _ Hc) as (Hfl & Ho & _). destruct o as [|q|e].
    + destruct Ho as [-> _]. by apply (linv_quiet _ _ _ _ Hi).
    + exfalso. destruct Hu as [Hu _]. apply (Hu id a q). by left.
    + destruct Ho as (_ & _ & _ & Hp & _). destruct Hi as (S & Q & F & HS & HQ & HF & Hsub).
      destruct (cc_pend c !! id) as [p|] eqn:Ep; cbn [default from_option] in Hp.
      * assert (map_to_list (cc_pend c) ≡ₚ (id, p) :: map_to_list (delete id (cc_pend c))) as Hm by (symmetry; by apply map_to_list_delete).
        destruct (made_perm _ _ _ Hm HQ) as (Q' & HQ' & EQ). inversion HQ' as [|? cp ? Q0 Hcp HQ0]; subst.
        apply (linv_intro _ _ S ((id, p ++ a) :: map_to_list (delete id (cc_pend c))) ((cp ++ [(id, a)]) :: Q0) (fly_list (cc_fl c)) F); try done.
        -- by rewrite sends_app, app_nil_r.
        -- rewrite Hp. rewrite <- (insert_delete_insert (cc_pend c)). rewrite map_to_list_insert by apply lookup_delete. done.
        -- constructor; [by apply made_app|done].
        -- by rewrite Hfl.
        -- rewrite recordings_app. transitivity ((concat S ++ concat Q ++ concat F) ++ [(id, a)]); [|by rewrite Hsub]. rewrite EQ. cbn [concat].
           clear. set (x := [(id, a)]). set (s := concat S). set (q := concat Q0). set (f := concat F). perm.
      * apply (linv_intro _ _ S ((id, a) :: map_to_list (cc_pend c)) ([(id, a)] :: Q) (fly_list (cc_fl c)) F); try done.
        -- by rewrite sends_app, app_nil_r.
        -- rewrite Hp. by rewrite map_to_list_insert.
        -- constructor; [apply made_one|done].
        -- by rewrite Hfl.
        -- rewrite recordings_app. transitivity ((concat S ++ concat Q ++ concat F) ++ [(id, a)]); [|by rewrite Hsub]. cbn [concat].
           clear. set (x := [(id, a)]). set (s := concat S). set (q := concat Q). set (f := concat F). perm.
  - destruct Hi as (S & Q & F & HS & HQ & HF & Hsub). destruct (made_perm _ _ _ (symmetry Hq) HQ) as (Q' & HQ' & EQ).
    apply (linv_intro _ _ S [] [] (q ++ fly_list (cc_fl c)) (Q' ++ F)); try done.
    + by rewrite sends_app, app_nil_r.
    + cbn [cc_begin cc_fl]. by rewrite fly_list_insert.
    + by apply Forall2_app.
    + rewrite recordings_app, app_nil_r, concat_app, <- Hsub, EQ. done.
  - destruct Hi as (S & Q & F & HS & HQ & HF & Hsub).
    destruct (made_perm _ _ _ (fly_list_split _ _ _ Hf) HF) as (F' & HF' & EF). cbn [fl_rest app] in HF'. inversion HF' as [|? cp ? F0 Hcp HF0]; subst.
    apply (linv_intro _ _ (S ++ [cp]) (map_to_list (cc_pend c)) Q (rest ++ fly_list (delete f (cc_fl c))) F0); try done.
    + rewrite sends_app, map_app. apply Forall2_app; [done|]. constructor; [done|constructor].
    + cbn [set_flush cc_fl]. by rewrite (fly_list_update _ _ _ _ Hf).
    + rewrite recordings_app, app_nil_r, <- Hsub, EF, concat_app. cbn [concat]. clear.
      set (s := concat S). set (q := concat Q). set (f := concat F0). rewrite app_nil_r. perm.
  - exfalso. destruct Hu as [_ Hu]. apply (Hu f rest). right. by left.
  - apply (linv_quiet _ _ _ _ Hi); try done. cbn [set_flush cc_fl]. by eapply fly_list_remove.
  - destruct Hi as (S & Q & F & HS & HQ & HF & Hsub). destruct (made_perm _ _ _ (symmetry Hq) HQ) as (Q' & HQ' & EQ).
    apply (linv_intro _ _ S [] [] (q ++ fly_list (cc_fl c)) (Q' ++ F)); try done.
    + by rewrite sends_app, app_nil_r.
    + cbn [set_bg cc_begin cc_fl]. by rewrite fly_list_insert.
    + by apply Forall2_app.
    + rewrite recordings_app, app_nil_r, concat_app, <- Hsub, EQ. done.
  - apply (linv_quiet _ _ _ _ Hi); try done. cbn [set_bg set_flush cc_fl]. by eapply fly_list_remove.
  - by apply (linv_quiet _ _ _ _ Hi).
  - by apply (linv_quiet _ _ _ _ Hi).
  - by apply (linv_quiet _ _ _ _ Hi).
  - by apply (linv_quiet _ _ _ _ Hi).
Qed.
Lemma undropped_app l k : undropped (l ++ k) -> undropped l /\ undropped k.
Proof. intros [H1 H2]. split; split; intros; intros Hin; [eapply H1|eapply H2|eapply H1|eapply H2]; apply in_or_app; [left|left|right|right]; exact Hin. Qed.
Lemma no_flush cfg log c : cc_run cfg log c -> (forall l1 f q l2, log = l1 ++ EvBegin f q :: l2 -> exists r, In (EvEnd f r) l2) -> cc_fl c = ∅.
Proof.
  intros Hr H. apply map_empty. intros f. destruct (cc_fl c !! f) as [fl|] eqn:E; [|done]. exfalso.
  destruct (finv_all _ _ _ Hr f fl E) as (l1 & q & l2 & -> & (_ & Hn) & _). destruct (H _ _ _ _ eq_refl) as [r Hin]. by apply (Hn r).
Qed.
Lemma settled_packets cfg log c : cc_run cfg log c -> settled log -> exists S, Forall2 made (map fst (sends_in log)) S /\ concat S ≡ₚ recordings log.
Proof.
  intros Hr Hst. destruct (nil_events _ _ _ Hr Hst) as [Hu _]. destruct Hst as (_ & Hq & He & _). pose proof (no_flush _ _ _ Hr He) as Hf. pose proof (queue_inv _ _ _ Hr) as Hp. rewrite Hq in Hp. clear He Hq.
  assert (linv log c) as (S & Q & F & HS & HQ & HF & Hsub).
  { clear Hf Hp. induction Hr as [|log c evs c' _ IH Hs]; [|apply undropped_app in Hu as [Hu1 Hu2]; eapply linv_step; eauto].
    exists [], [], []. unfold fly_list. cbn [cc_init cc_pend cc_fl sends_in omap list_omap map]. rewrite !map_to_list_empty. split_and!; [constructor..|done]. }
  exists S. split; [done|]. rewrite <- Hsub. rewrite Hp, map_to_list_empty in HQ. rewrite Hf in HF. unfold fly_list in HF. rewrite map_to_list_empty in HF.
  inversion HQ; subst. inversion HF; subst. cbn. by rewrite app_nil_r.
Qed.

(** ** The network and the server *)
Lemma arrives L s id a : executes s -> delivers s -> In ((id, a), None) (sends_in (se_log s)) ->
  exists bs, In bs (se_arrived s) /\ In (id, a) (fst (handle_conn L (fun _ _ => true) bs)).
Proof.
  intros Hex [Harr Hfit] Hin. pose proof (proj1 (packets_ok s Hex)) as Hv. destruct Hex as [(cfg & c & res & Hr & Hrc & Hres) _ _ _].
  pose proof (tried_sends _ _ Hres) as Ht.
  destruct (remote_received L (fun _ _ => true) _ _ _ ltac:(done) Hrc) as (css & Hac & HF).
  { intros d Hd. rewrite Ht in Hd. split; [rewrite List.Forall_forall in Hv; by apply Hv|]. apply in_map_iff in Hd as (x & <- & Hx). by apply Hfit. }
  assert (In (id, a) (acked res)) as Ha.
  { apply elem_of_list_In, elem_of_list_lookup in Hin as [i Hi]. destruct (Forall2_lookup_l _ _ _ _ _ Hres Hi) as ([d b] & Hd & E1 & E2).
    cbn in E1, E2. subst d. unfold acked. apply in_map_iff. exists ((id, a), b). split; [done|]. apply elem_of_list_In, elem_of_list_filter.
    split; [by apply E2|by eapply elem_of_list_lookup_2]. }
  rewrite <- Hac in Ha. apply in_concat in Ha as (cs & Hcs & Ha). apply elem_of_list_In, elem_of_list_lookup in Hcs as [i Hi].
  destruct (Forall2_lookup_r _ _ _ _ _ HF Hi) as (cn & Hcn & Hg). exists (cn_out cn). split.
  - rewrite Harr. apply in_map. apply elem_of_list_In. by eapply elem_of_list_lookup_2.
  - cbn zeta in Hg. destruct Hg as [->|(d & _ & ->)]; [done|]. apply in_or_app. by left.
Qed.
Lemma served L ss calls s c bs : serves L ss calls -> In s ss -> In bs (se_arrived s) -> In c (fst (handle_conn L (fun _ _ => true) bs)) -> In c calls.
Proof.
  intros Hsv Hs Hbs Hc. eapply Permutation_in; [symmetry; by apply interleaved_perm|]. apply in_concat. exists (fst (handle_conn L (fun _ _ => true) bs)).
  split; [|done]. apply in_map_iff. exists bs. split; [done|]. apply in_concat. exists (se_arrived s). split; [by apply in_map|done].
Qed.

(** ** The store *)
Lemma live_keeps t hist acc : (forall ts, In (CDelete ts) hist -> ~ In t ts) ->
  (forall c, In c acc -> In c (live t hist acc)) /\ forall c, In c (collected hist) -> sp_trace (fst c) = t -> In c (live t hist acc).
Proof.
  revert acc. induction hist as [|[id a|ts] hist IH]; intros acc Hd; cbn [live]; [by split|..].
  - destruct (IH (if sp_trace id =? t then acc ++ [(id, a)] else acc)) as [H1 H2]; [intros ts Hin; apply Hd; by right|]. split.
    + intros c Hc. apply H1. destruct (_ =? t); [apply in_or_app; by left|done].
    + intros c [<-|Hc] Ht; [|by apply H2]. apply H1. cbn [fst] in Ht. rewrite Ht, N.eqb_refl. apply in_or_app. right. by left.
  - rewrite bool_decide_eq_false_2.
    + destruct (IH acc) as [H1 H2]; [intros x Hin; apply Hd; by right|]. by split.
    + intros Hin. apply (Hd ts); [by left|by apply elem_of_list_In].
Qed.
Lemma first_ids_all l : forall seen id a, In (id, a) l -> sp_span id ∈ seen \/ exists i, In i (first_ids seen l) /\ sp_span i = sp_span id.
Proof.
  induction l as [|[j b] l IH]; intros seen id a; [done|]. cbn [first_ids]. intros [[= -> ->]|Hin].
  - case_bool_decide; [by left|]. right. exists id. split; [by left|done].
  - case_bool_decide; [by eapply IH|]. destruct (IH (sp_span j :: seen) id a Hin) as [[E|E]%elem_of_cons|(i & Hi & E)].
    + right. exists j. split; [by left|done].
    + by left.
    + right. exists i. split; [by right|done].
Qed.
Lemma acyclic_sub ids ids' : (forall i, In i ids -> In i ids') -> acyclic ids' -> acyclic ids.
Proof. intros H (rank & Hr). exists rank. intros c p Hc Hp. apply Hr; auto. Qed.
Lemma in_part {A} (x : list A) ls : In x ls -> exists b c, concat ls = b ++ x ++ c.
Proof. intros (l1 & l2 & ->)%in_split. exists (concat l1), (concat l2). by rewrite concat_app. Qed.

Section all.
Context (L : lib) (ss : list sender) (calls : list wcall) (hist : list call) (st : MS).
Context (Hex : Forall executes ss) (Hsv : serves L ss calls) (Hcol : collected hist ≡ₚ calls) (Hrun : ms_run hist ms_init = Some st).
Lemma live_recorded t i a : In (i, a) (live t hist []) -> In i (recorded_spans ss t).
Proof.
  intros Hin. pose proof (live_traces t hist [] ltac:(done) _ Hin) as Ht. cbn in Ht.
  assert (In (i, a) calls) as Hc.
  { eapply Permutation_in; [exact Hcol|]. apply elem_of_list_In. eapply elem_of_submseteq; [by apply elem_of_list_In|]. rewrite (live_collected t hist []). cbn. apply sublist_submseteq, sublist_filter'. }
  destruct (calls_made L ss calls Hex Hsv) as (Q & HQ & H1 & _). destruct (expand _ _ HQ) as (_ & _ & H3).
  destruct (H3 _ Hc) as (d & Hd & E). destruct (H1 _ Hd) as (s & Hs & Hrec). cbn in E.
  unfold recorded_spans. apply elem_of_list_In, elem_of_list_filter. split; [done|]. apply elem_of_list_In, in_map_iff. exists d. split; [done|].
  apply in_concat. exists (recordings (se_log s)). split; [|done]. apply in_map_iff. by exists s.
Qed.
Lemma shown_call id a : (forall ts, In (CDelete ts) hist -> ~ In (sp_trace id) ts) -> acyclic (recorded_spans ss (sp_trace id)) -> In (id, a) calls -> shown_in st id a.
Proof.
  intros Hd Hac Hin. set (t := sp_trace id) in *.
  assert (In (id, a) (live t hist [])) as Hl by (apply live_keeps; [done|by eapply Permutation_in|done]).
  destruct (trace_displayed hist st t Hrun) as (tr & Hs & _ & _ & Hp).
  { intros E. by rewrite E in Hl. }
  assert (acyclic (spans_of (live t hist []))) as Hac'.
  { eapply acyclic_sub; [|exact Hac]. intros i [b Hi]%first_ids_in. by eapply live_recorded. }
  destruct (first_ids_all _ [] id a Hl) as [H|(i & Hi & Ei)]; [by apply elem_of_nil in H|].
  assert (In i (map tr_id (nodes tr))) as Hn by (eapply Permutation_in; [symmetry; by apply Hp|done]).
  apply in_map_iff in Hn as (n & <- & Hn). destruct (shown_annotations hist st t tr Hrun Hs) as [Ha _]. destruct (Ha n Hn) as (E & _ & _).
  destruct (in_part a (map snd (filter (fun c => sp_span (fst c) = sp_span (tr_id n)) (live t hist [])))) as (b & c & Ec).
  { apply in_map_iff. exists (id, a). split; [done|]. apply elem_of_list_In, elem_of_list_filter. split; [done|by apply elem_of_list_In]. }
  exists tr, n, b, c. split_and!; try done. rewrite E. exact Ec.
Qed.
Lemma flushed_shown s k1 id a e rest : In s ss -> delivers s -> se_log s = k1 ++ EvCollect id a (OQueued e) :: rest -> flushed rest ->
  (forall ts, In (CDelete ts) hist -> ~ In (sp_trace id) ts) -> acyclic (recorded_spans ss (sp_trace id)) -> shown_in st id a.
Proof.
  intros Hs Hdel Hlog (l1 & f & q & l2 & l3 & -> & Hk & Hna) Hd Hac.
  assert (executes s) as Hes by (rewrite List.Forall_forall in Hex; by apply Hex).
  destruct (ex_run s Hes) as (cfg & c & res & Hr & _).
  destruct (recording_queued k1 id a e l1 Hk) as (b & d & Hq).
  assert (In ((id, b ++ a ++ d), None) (sends_in (se_log s))) as Hin.
  { eapply (nil_flush cfg _ c (k1 ++ EvCollect id a (OQueued e) :: l1) f q l2 l3); [exact Hr| |exact Hna|exact Hq]. rewrite Hlog. by rewrite <- app_assoc. }
  destruct (arrives L s _ _ Hes Hdel Hin) as (bs & Hbs & Hc).
  destruct (shown_call id (b ++ a ++ d) Hd Hac (served _ _ _ _ _ _ Hsv Hs Hbs Hc)) as (tr & n & x & y & H1 & H2 & H3 & H4).
  exists tr, n, (x ++ b), (d ++ y). split_and!; try done. rewrite H4. by rewrite <- !app_assoc.
Qed.
(** *** Everything *)
Lemma got_all s : executes s -> delivers s -> short_writes (se_ops s) -> settled (se_log s) ->
  concat (map (fun bs => fst (handle_conn L (fun _ _ => true) bs)) (se_arrived s)) ≡ₚ map fst (sends_in (se_log s)).
Proof.
  intros Hes [Harr Hfit] Hsh Hst. apply (anti_symm submseteq); [by apply got_once|].
  pose proof (proj1 (packets_ok s Hes)) as Hv. destruct Hes as [(cfg & c & res & Hr & Hrc & Hres) _ _ _].
  pose proof (tried_sends _ _ Hres) as Ht.
  destruct (remote_received L (fun _ _ => true) _ _ _ ltac:(done) Hrc) as (css & Hac & HF).
  { intros d Hd. rewrite Ht in Hd. split; [rewrite List.Forall_forall in Hv; by apply Hv|]. apply in_map_iff in Hd as (x & <- & Hx). by apply Hfit. }
  assert (acked res = map fst (sends_in (se_log s))) as Ha.
  { rewrite <- Ht. unfold acked, tried. f_equal. destruct (nil_events _ _ _ Hr Hst) as [_ Hn].
    assert (forall x, In x (sends_in (se_log s)) -> snd x = None) as Hall.
    { intros x Hx. apply elem_of_list_In, elem_of_list_omap in Hx as (ev & Hev & E). destruct ev; try done. injection E as <-. cbn. eapply Hn. by apply elem_of_list_In. }
    clear -Hres Hall. induction Hres as [|x y l r [_ [H _]] _ IH]; [done|]. rewrite filter_cons. rewrite decide_True by (apply H, Hall; by left).
    f_equal. apply IH. intros z Hz. apply Hall. by right. }
  rewrite <- Ha, <- Hac, Harr. clear -HF. induction HF as [|cn cs cns css Hg _ IH]; [done|]. cbn [map concat]. apply submseteq_app; [|done].
  cbn zeta in Hg. destruct Hg as [->|(d & _ & ->)]; [done|]. by apply submseteq_inserts_r.
Qed.
Lemma made_filter (P : SpanID -> Prop) `{forall i, Decision (P i)} cs Q : Forall2 made cs Q ->
  concat (map snd (filter (fun c => P (fst c)) cs)) = concat (map snd (filter (fun c => P (fst c)) (concat Q))).
Proof.
  induction 1 as [|e q cs Q (_ & H2 & H3) _ IH]; [done|]. cbn [concat]. rewrite filter_cons, filter_app, map_app, concat_app, <- IH.
  destruct (decide (P (fst e))) as [HP|HP].
  - cbn [map concat]. f_equal. rewrite H2. f_equal. f_equal. clear -H3 HP. induction H3 as [|x l E _ IHl]; [done|]. rewrite filter_cons, decide_True by (by rewrite E). by f_equal.
  - replace (filter (fun c : SpanID * list Annotation => P (fst c)) q) with (@nil wcall); [done|]. symmetry. clear -H3 HP. induction H3 as [|x l E _ IHl]; [done|]. rewrite filter_cons, decide_False by (by rewrite E). done.
Qed.
Lemma live_all t acc h : (forall ts, In (CDelete ts) h -> ~ In t ts) -> live t h acc = acc ++ filter (fun c => sp_trace (fst c) = t) (collected h).
Proof.
  revert acc. induction h as [|[id a|ts] h IH]; intros acc Hd; cbn [live collected omap list_omap]; [by rewrite app_nil_r|..].
  - rewrite IH by (intros ts Hin; apply Hd; by right). rewrite filter_cons. cbn [fst]. destruct (N.eqb_spec (sp_trace id) t).
    + rewrite decide_True by done. by rewrite <- app_assoc.
    + by rewrite decide_False by done.
  - rewrite bool_decide_eq_false_2; [apply IH; intros x Hin; apply Hd; by right|]. intros Hin. apply (Hd ts); [by left|by apply elem_of_list_In].
Qed.
Lemma all_made : (forall s, In s ss -> delivers s /\ short_writes (se_ops s) /\ settled (se_log s)) ->
  exists Q, Forall2 made calls Q /\ concat Q ≡ₚ concat (map (fun s => recordings (se_log s)) ss).
Proof.
  intros Hall.
  assert (exists Q, Forall2 made (concat (map (fun s => concat (map (fun bs => fst (handle_conn L (fun _ _ => true) bs)) (se_arrived s))) ss)) Q /\
    concat Q ≡ₚ concat (map (fun s => recordings (se_log s)) ss)) as (Q & HQ & E).
  { clear Hsv. induction ss as [|s l IH]; [exists []; split; [constructor|done]|]. inversion Hex as [|? ? Hes Hex']; subst.
    destruct IH as (Q & HQ & E); [done|intros s' Hs'; apply Hall; by right|]. destruct (Hall s (or_introl eq_refl)) as (Hdel & Hsh & Hst).
    destruct (ex_run s Hes) as (cfg & c & res & Hr & _). destruct (settled_packets _ _ _ Hr Hst) as (S & HS & ES).
    destruct (made_perm _ _ _ (symmetry (got_all s Hes Hdel Hsh Hst)) HS) as (S' & HS' & ES').
    exists (S' ++ Q). cbn [map concat]. split; [by apply Forall2_app|]. by rewrite concat_app, <- ES', ES, E. }
  destruct (made_perm _ _ _ (symmetry (calls_perm L ss calls Hsv)) HQ) as (Q' & HQ' & E'). exists Q'. split; [done|]. by rewrite <- E'.
Qed.
Lemma everything_shown t : (forall s, In s ss -> delivers s /\ short_writes (se_ops s) /\ settled (se_log s)) ->
  (forall ts, In (CDelete ts) hist -> ~ In t ts) -> acyclic (recorded_spans ss t) -> recorded_spans ss t <> [] ->
  exists tr, shows st t tr /\ (forall id, In id (recorded_spans ss t) -> exists n, In n (nodes tr) /\ sp_span (tr_id n) = sp_span id) /\
    List.NoDup (map (fun n => sp_span (tr_id n)) (nodes tr)) /\
    forall n, In n (nodes tr) -> tr_anns n ≡ₚ recorded_anns ss t (sp_span (tr_id n)).
Proof.
  intros Hall Hd Hac Hne. destruct (all_made Hall) as (Q0 & HQ0 & EQ0).
  destruct (made_perm _ _ _ (symmetry Hcol) HQ0) as (Q & HQ & EQ'). assert (concat Q ≡ₚ concat (map (fun s => recordings (se_log s)) ss)) as EQ by (by rewrite <- EQ'). clear Q0 HQ0 EQ0 EQ'.
  pose proof (live_all t [] hist Hd) as Hl. cbn [app] in Hl.
  assert (forall id, In id (recorded_spans ss t) -> exists a, In (id, a) (live t hist [])) as Hrec.
  { intros id Hin. unfold recorded_spans in Hin. apply elem_of_list_In, elem_of_list_filter in Hin as [Ht Hin]. apply elem_of_list_In, in_map_iff in Hin as (d & <- & Hdin).
    destruct (expand _ _ HQ) as (_ & X2 & _). destruct (X2 d) as (e & He & E); [eapply Permutation_in; [symmetry; exact EQ|done]|].
    exists (snd e). rewrite Hl, E. rewrite <- surjective_pairing. apply elem_of_list_In, elem_of_list_filter. rewrite E in Ht. split; [done|by apply elem_of_list_In]. }
  destruct (trace_displayed hist st t Hrun) as (tr & Hs & _ & _ & Hp).
  { intros E. destruct (recorded_spans ss t) as [|id l] eqn:Er; [done|]. destruct (Hrec id) as [a Ha]; [by left|]. by rewrite E in Ha. }
  assert (acyclic (spans_of (live t hist []))) as Hac'.
  { eapply acyclic_sub; [|exact Hac]. intros i [b Hi]%first_ids_in. by eapply live_recorded. }
  destruct (shown_annotations hist st t tr Hrun Hs) as [Ha Hnd].
  exists tr. split; [done|]. split; [|split; [done|]].
  - intros id Hid. destruct (Hrec id Hid) as [a Hin]. destruct (first_ids_all _ [] id a Hin) as [H|(i & Hi & Ei)]; [by apply elem_of_nil in H|].
    assert (In i (map tr_id (nodes tr))) as Hn by (eapply Permutation_in; [symmetry; by apply Hp|done]).
    apply in_map_iff in Hn as (n & <- & Hn). by exists n.
  - intros n Hn. destruct (Ha n Hn) as (E & _ & _). rewrite E. unfold anns_of, recorded_anns. rewrite Hl.
    rewrite list_filter_filter.
    pose proof (made_filter (fun i => sp_trace i = t /\ sp_span i = sp_span (tr_id n)) _ _ HQ) as HM.
    pose proof (concat_perm _ _ (Permutation_map snd (filter_Permutation (fun c : wcall => sp_trace (fst c) = t /\ sp_span (fst c) = sp_span (tr_id n)) _ _ EQ))) as HE.
    etransitivity; [|exact HE]. apply reflexive_eq. etransitivity; [|etransitivity; [exact HM|]]; f_equal; f_equal; apply list_filter_iff; intros x; tauto.
Qed.
End all.
