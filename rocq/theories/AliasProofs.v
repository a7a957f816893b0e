From Verif Require Import Base AliasModel AliasSpec.
Local Open Scope nat_scope.

(** ** Slices *)
Lemma inserts_eq xs : forall n (a : list Annotation), n + length xs <= length a -> list_inserts n xs a = take n a ++ xs ++ drop (n + length xs) a.
Proof.
  induction xs as [|x xs IH]; intros n a H; cbn [length list_inserts] in *.
  - cbn [app]. replace (n + 0) with n by lia. by rewrite take_drop.
  - rewrite (IH (S n)) by lia. rewrite (insert_app_l (take (S n) a)) by (rewrite take_length; lia).
    destruct (lookup_lt_is_Some_2 a n) as [y Hy]; [lia|]. rewrite (take_S_r _ _ y) by done.
    rewrite insert_app_r_alt by (rewrite take_length; lia). rewrite take_length, Nat.min_l, Nat.sub_diag by lia. cbn.
    rewrite <- app_assoc. cbn. replace (n + S (length xs)) with (S (n + length xs)) by lia. done.
Qed.
Definition wf (h : heap) (s : slice) : Prop :=
  match s_base s with Some b => exists a, h !! b = Some a /\ s_len s <= length a | None => s_len s = 0 end.
Lemma wf_len h s : wf h s -> s_len s <= length (array h s).
Proof. unfold wf, array. destruct (s_base s); [intros (a & -> & H); done|intros ->; cbn; lia]. Qed.
Lemma wf_bound h s b : wf h s -> s_base s = Some b -> b < length h.
Proof. unfold wf. intros H E. rewrite E in H. destruct H as (a & H & _). by apply lookup_lt_Some in H. Qed.
Lemma wf_nil h : wf h nil_slice.
Proof. done. Qed.
(** New arrays and writes to other arrays do not matter. *)
Lemma array_ext h h' s : (forall b, s_base s = Some b -> h' !! b = h !! b) -> array h' s = array h s.
Proof. unfold array. destruct (s_base s); [|done]. intros H. by rewrite H. Qed.
Lemma wf_ext h h' s : (forall b, s_base s = Some b -> h' !! b = h !! b) -> wf h s -> wf h' s.
Proof. unfold wf. destruct (s_base s); [|done]. intros H. by rewrite H. Qed.
Lemma read_ext h h' s : (forall b, s_base s = Some b -> h' !! b = h !! b) -> read h' s = read h s.
Proof. intros H. unfold read. by rewrite (array_ext h h'). Qed.

Lemma append_ne grow h s xs : xs <> [] -> append grow h s xs =
  let cap := length (array h s) in let need := s_len s + length xs in
  match s_base s with
  | Some b => if need <=? cap then (alter (list_inserts (s_len s) xs) b h, Slice (Some b) need)
              else (h ++ [read h s ++ xs ++ replicate (grow cap need - need) blank], Slice (Some (length h)) need)
  | None => (h ++ [xs ++ replicate (grow cap need - need) blank], Slice (Some (length h)) need)
  end.
Proof. by destruct xs. Qed.
Lemma append_spec grow h s xs h' s' : wf h s -> append grow h s xs = (h', s') ->
  wf h' s' /\ read h' s' = read h s ++ xs /\ (s_base s' = s_base s \/ s_base s' = Some (length h)) /\ length h <= length h' /\
  (forall b, b < length h -> Some b <> s_base s -> h' !! b = h !! b).
Proof.
  intros Hw. destruct (decide (xs = [])) as [->|Hne].
  { intros [= <- <-]. rewrite app_nil_r. split_and!; [done|done|by left|lia|done]. }
  pose proof (wf_len _ _ Hw) as Hl. rewrite append_ne by done. cbn zeta. destruct (s_base s) as [b|] eqn:Eb.
  - unfold wf in Hw. rewrite Eb in Hw. destruct Hw as (a & Ha & Hlen).
    assert (array h s = a) as Ea by (unfold array; by rewrite Eb, Ha). rewrite Ea. destruct (Nat.leb_spec (s_len s + length xs) (length a)).
    + intros [= <- <-]. set (h' := alter _ b h).
      assert (h' !! b = Some (list_inserts (s_len s) xs a)) as Hb by (unfold h'; rewrite list_lookup_alter, Ha; done).
      split_and!.
      * unfold wf. cbn. exists (list_inserts (s_len s) xs a). split; [done|]. by rewrite inserts_length.
      * unfold read at 1. unfold array. cbn [s_base s_len]. rewrite Hb. cbn [default from_option]. unfold read. rewrite Ea.
        unfold id. rewrite inserts_eq by done. rewrite app_assoc. apply take_app_alt. rewrite app_length, take_length.
        lia.
      * by left.
      * unfold h'. by rewrite alter_length.
      * intros b' _ Hnb. unfold h'. apply list_lookup_alter_ne. congruence.
    + intros [= <- <-]. split_and!.
      * unfold wf. cbn [s_base s_len]. eexists. split; [by apply list_lookup_middle|]. unfold read. rewrite Ea, !app_length, take_length. lia.
      * unfold read at 1. unfold array. cbn [s_base s_len]. rewrite list_lookup_middle by done. cbn [default from_option].
        rewrite app_assoc. apply take_app_alt. unfold read. rewrite Ea, app_length, take_length. lia.
      * by right.
      * rewrite app_length. lia.
      * intros b' Hb' _. by apply lookup_app_l.
  - assert (s_len s = 0) as E0. { unfold wf in Hw. by rewrite Eb in Hw. } intros [= <- <-]. split_and!.
    + unfold wf. cbn [s_base s_len]. eexists. split; [by apply list_lookup_middle|]. rewrite !app_length. lia.
    + unfold read. rewrite E0. unfold array. cbn [s_base s_len]. rewrite list_lookup_middle by done. cbn [default from_option]. rewrite take_0. cbn [app].
      by apply take_app_alt.
    + by right.
    + rewrite app_length. lia.
    + intros b' Hb' _. by apply lookup_app_l.
Qed.

(** ** Who holds what *)
Record J (h : heap) (refs : gmap slot slice) (vh : gmap slot (list Annotation)) (P : slot -> Prop) : Prop := {
  J_wf : forall x sl, refs !! x = Some sl -> wf h sl;
  J_v : forall x, P x -> vh !! x = read h <$> refs !! x;
  J_sep : forall x y sx sy b, P x -> P y -> x <> y -> refs !! x = Some sx -> refs !! y = Some sy -> s_base sx = Some b -> s_base sy <> Some b
}.
Lemma J_weaken h refs vh (P Q : slot -> Prop) : (forall x, Q x -> P x) -> J h refs vh P -> J h refs vh Q.
Proof. intros H [H1 H2 H3]. split; [done|eauto|eauto]. Qed.
Lemma J_delete h refs vh P x : J h refs vh P -> J h (delete x refs) (delete x vh) P.
Proof.
  intros [H1 H2 H3]. split.
  - intros y sl [_ H]%lookup_delete_Some. eauto.
  - intros y Hy. destruct (decide (x = y)) as [<-|Hne]; [by rewrite !lookup_delete|]. rewrite !lookup_delete_ne by done. eauto.
  - intros y z sy sz b Py Pz Hne [_ Hy]%lookup_delete_Some [_ Hz]%lookup_delete_Some. eauto.
Qed.
Lemma J_insert h refs vh P x sl l : J h refs vh P -> wf h sl -> read h sl = l ->
  (forall y sy b, P y -> y <> x -> refs !! y = Some sy -> s_base sl = Some b -> s_base sy <> Some b) ->
  J h (<[x := sl]> refs) (<[x := l]> vh) P.
Proof.
  intros [H1 H2 H3] Hw <- Hs. split.
  - intros y sy [[-> <-]|[_ H]]%lookup_insert_Some; eauto.
  - intros y Hy. destruct (decide (x = y)) as [<-|Hne]; [by rewrite !lookup_insert|]. rewrite !lookup_insert_ne by done. eauto.
  - intros y z sy sz b Py Pz Hne [[-> <-]|[Hy Ey]]%lookup_insert_Some [[-> <-]|[Hz Ez]]%lookup_insert_Some Eb; [done|by apply (Hs z sz b)| |by apply (H3 y z sy sz b)].
    intros Eb'. by apply (Hs y sy b Py).
Qed.
Lemma J_heap h h' refs vh P : J h refs vh P -> (forall b, b < length h -> h' !! b = h !! b) -> J h' refs vh P.
Proof.
  intros [H1 H2 H3] He. assert (forall x sl, refs !! x = Some sl -> forall b, s_base sl = Some b -> h' !! b = h !! b) as He'.
  { intros x sl Hx b Hb. apply He. by eapply wf_bound; [apply (H1 x)|]. }
  split; [|intros x Px; rewrite (H2 x Px)|done].
  - intros x sl Hx. apply (wf_ext h); eauto.
  - destruct (refs !! x) as [sl|] eqn:Ex; [|done]. cbn. f_equal. symmetry. apply read_ext. eauto.
Qed.
Lemma J_append grow h refs vh P x xs h' new : J h refs vh P -> P x -> append grow h (default nil_slice (refs !! x)) xs = (h', new) ->
  J h' (<[x := new]> refs) (<[x := default [] (vh !! x) ++ xs]> vh) P.
Proof.
  intros HJ Px E. destruct HJ as [H1 H2 H3].
  assert (wf h (default nil_slice (refs !! x))) as Hw. { destruct (refs !! x) as [sl|] eqn:Ex; [by apply (H1 x)|done]. }
  destruct (append_spec _ _ _ _ _ _ Hw E) as (A1 & A2 & A3 & A4 & A5).
  assert (read h (default nil_slice (refs !! x)) = default [] (vh !! x)) as Hr. { rewrite (H2 x Px). by destruct (refs !! x). }
  rewrite Hr in A2.
  assert (forall y sy, P y -> y <> x -> refs !! y = Some sy -> forall b, s_base sy = Some b -> h' !! b = h !! b) as Hk.
  { intros y sy Py Hne Ey b Eb. apply A5; [by eapply wf_bound; [apply (H1 y)|]|]. intros Eb'. destruct (refs !! x) as [sl|] eqn:Ex; [|done].
    cbn in Eb'. by apply (H3 x y sl sy b). }
  split.
  - intros y sy [[-> <-]|[Hne Ey]]%lookup_insert_Some; [done|]. pose proof (H1 y sy Ey) as Hwy. unfold wf in Hwy |- *.
    destruct (s_base sy) as [b|] eqn:Eb; [|done]. destruct Hwy as (a & Ha & Hlen).
    destruct (decide (Some b = s_base (default nil_slice (refs !! x)))) as [Es|Es]; [|exists a; rewrite A5; [done|by eapply lookup_lt_Some|done]].
    (* same array: it keeps its length *)
    clear -E Es Ha Hlen. unfold append in E. rewrite <- Es in E. destruct xs as [|z xs]; [injection E as <- _; eauto|].
    destruct (_ <=? _); injection E as <- _.
    + rewrite list_lookup_alter, Ha. eexists. split; [done|]. by rewrite insert_length, inserts_length.
    + exists a. split; [|done]. rewrite lookup_app_l; [done|by eapply lookup_lt_Some].
  - intros y Py. destruct (decide (x = y)) as [<-|Hne]; [by rewrite !lookup_insert, <- A2|]. rewrite !lookup_insert_ne by done.
    rewrite (H2 y Py). destruct (refs !! y) as [sy|] eqn:Ey; [|done]. cbn. f_equal. symmetry. apply read_ext. by apply (Hk y).
  - assert (forall y sy b, P y -> x <> y -> refs !! y = Some sy -> s_base new = Some b -> s_base sy <> Some b) as Hs.
    { intros y sy b Py Hne Ey Eb Eb'. destruct A3 as [A3|A3].
      - rewrite A3 in Eb. destruct (refs !! x) as [sl|] eqn:Ex; [|done]. by apply (H3 x y sl sy b).
      - rewrite A3 in Eb. injection Eb as <-. pose proof (wf_bound _ _ _ (H1 y sy Ey) Eb'). lia. }
    intros y z sy sz b Py Pz Hne [[-> <-]|[Hy Ey]]%lookup_insert_Some [[-> <-]|[Hz Ez]]%lookup_insert_Some Eb Eb'; [done| | |by apply (H3 y z sy sz b)].
    + by apply (Hs z sz b).
    + by apply (Hs y sy b).
Qed.
Lemma J_new h refs vh P x xs spare h' sl : J h refs vh P -> new_slice h xs spare = (h', sl) -> J h' (<[x := sl]> refs) (<[x := xs]> vh) P.
Proof.
  intros HJ [= <- <-]. apply J_insert.
  - apply (J_heap h); [done|]. intros b Hb. by apply lookup_app_l.
  - unfold wf. cbn. eexists. split; [by apply list_lookup_middle|]. rewrite app_length. lia.
  - unfold read, array. cbn. rewrite list_lookup_middle by done. cbn. by apply take_app_alt.
  - intros y sy b Py Hne Ey [= <-] Eb. pose proof (wf_bound _ _ _ (J_wf _ _ _ _ HJ y sy Ey) Eb). lia.
Qed.

(** ** One target each, no late events: the machine with values *)
Definition live (fin : gset nat) (x : slot) : Prop := forall r, x = SRec r -> r ∉ fin.
Record sim (s : ast) (v : vst) : Prop := {
  sim_J : J (a_heap s) (a_refs s) (v_has v) (live (a_finished s));
  sim_fin : v_finished v = a_finished s;
  sim_calls : v_calls v = a_calls s;
  sim_sent : v_sent v = a_sent s;
  sim_one : forall c id ts, a_calls s !! c = Some (id, ts) -> length ts <= 1
}.
Lemma live_call fin c : live fin (SCall c).
Proof. intros r E. done. Qed.
Lemma sim_call s v c id ts sl l : sim s v -> length ts <= 1 -> J (a_heap s) (<[SCall c := sl]> (a_refs s)) (<[SCall c := l]> (v_has v)) (live (a_finished s)) ->
  sim (call c id ts sl s) (v_call c id ts l v).
Proof.
  intros [H1 H2 H3 H4 H5] Hts HJ. split; cbn; [done|done|by rewrite H3|done|].
  intros c' id' ts' [[_ [= <- <-]]|[_ H]]%lookup_insert_Some; [done|]. by eapply H5.
Qed.
Lemma sim_step cfg l s v s' : no_multi cfg -> sim s v -> (forall r xs, l = LEvent r xs -> r ∉ a_finished s) ->
  astep cfg l s = Some s' -> exists v', vstep cfg l v = Some v' /\ sim s' v'.
Proof.
  intros [N1 N2] HS Hlate. pose proof HS as [HJ Hf Hc Hs H1]. destruct l as [r xs|r c log spare|r c xs spare|c|j id c|j id]; cbn [astep vstep].
  - destruct (append _ _ _ _) as [h new] eqn:E. intros [= <-]. eexists. split; [done|]. split; cbn; [|done..].
    apply (J_append (ac_grow cfg) (a_heap s) _ _ _ _ _ _ _ HJ); [|done]. intros r' [= <-]. by apply (Hlate r xs).
  - rewrite Hc, Hf. case_decide; [done|]. case_decide as Ef.
    + destruct (new_slice _ _ _) as [h sl] eqn:E. intros [= <-]. eexists. split; [done|].
      assert (sim (MkASt h (a_refs s) (a_finished s) (a_calls s) (a_sent s)) v) as HS'.
      { injection E as <- <-. split; cbn; [|done..]. apply (J_heap (a_heap s)); [done|]. intros b Hb. by apply lookup_app_l. }
      apply sim_call; [done|done|]. cbn. by apply (J_new (a_heap s) _ _ _ _ log spare).
    + intros [= <-]. eexists. split; [done|].
      assert (J (a_heap s) (a_refs s) (v_has v) (live ({[r]} ∪ a_finished s))) as HJ'.
      { apply (J_weaken _ _ _ (live (a_finished s))); [|done]. intros x Hx r' E. specialize (Hx r' E). set_solver. }
      apply (sim_call (MkASt _ _ _ _ _) (MkVSt _ _ _ _)); [by split; cbn; [|congruence..|]|done|]. cbn. apply J_insert; [done| | |].
      * destruct (a_refs s !! SRec r) as [sl|] eqn:E; [by apply (J_wf _ _ _ _ HJ (SRec r))|done].
      * rewrite (J_v _ _ _ _ HJ (SRec r)); [|intros r' [= <-]; done]. by destruct (a_refs s !! SRec r).
      * intros y sy b Hy Hne Ey Eb. destruct (a_refs s !! SRec r) as [sl|] eqn:E; [|done]. cbn in Eb.
        assert (y <> SRec r) as Hyr. { intros ->. apply (Hy r); [done|]. set_solver. }
        apply (J_sep _ _ _ _ HJ (SRec r) y sl sy b); [intros r' [= <-]; done| |done..]. intros r' E' Hr. apply (Hy r' E'). set_solver.
  - rewrite Hc. case_decide; [done|]. destruct (new_slice _ _ _) as [h sl] eqn:E. intros [= <-]. eexists. split; [done|].
    assert (sim (MkASt h (a_refs s) (a_finished s) (a_calls s) (a_sent s)) v) as HS'.
    { injection E as <- <-. split; cbn; [|done..]. apply (J_heap (a_heap s)); [done|]. intros b Hb. by apply lookup_app_l. }
    apply sim_call; [done|done|]. cbn. by apply (J_new (a_heap s) _ _ _ _ xs spare).
  - rewrite Hc, (J_v _ _ _ _ HJ (SCall c) (live_call _ _)). destruct (a_calls s !! c) as [[id [|t ts]]|] eqn:Ec; [done| |done].
    destruct (a_refs s !! SCall c) as [sl|] eqn:Er; [|done]. cbn [fmap option_fmap option_map].
    specialize (H1 _ _ _ Ec) as H1'. destruct ts as [|]; [|cbn in H1'; lia]. intros [= <-]. eexists. split; [done|].
    assert (forall c' id' ts', delete c (a_calls s) !! c' = Some (id', ts') -> length ts' <= 1) as H1d.
    { intros c' id' ts' [_ H]%lookup_delete_Some. by eapply H1. }
    assert (forall x, x <> SCall c -> live (a_finished s) x -> 
      sim (let s' := put cfg x sl s in MkASt (a_heap s') (delete (SCall c) (a_refs s')) (a_finished s') (delete c (a_calls s')) (a_sent s'))
          (let v' := v_add x (read (a_heap s) sl) v in MkVSt (delete (SCall c) (v_has v')) (v_finished v') (delete c (v_calls v')) (v_sent v'))) as Hput.
    { intros x Hx Lx. unfold put. destruct (a_refs s !! x) as [old|] eqn:Ex.
      - destruct (append _ _ _ _) as [h new] eqn:E. split; cbn; [|done|by rewrite Hc|done|done]. apply J_delete.
        apply (J_append (ac_grow cfg) (a_heap s) _ _ _ _ _ _ _ HJ); [done|]. by rewrite Ex.
      - split; cbn; [|done|by rewrite Hc|done|done]. rewrite !(delete_insert_ne _ (SCall c) x) by congruence.
        rewrite (J_v _ _ _ _ HJ x Lx), Ex. cbn. apply J_insert; [by apply J_delete|by apply (J_wf _ _ _ _ HJ (SCall c))|done|].
        intros y sy b Ly Hne [Hy Ey]%lookup_delete_Some Eb. by apply (J_sep _ _ _ _ HJ (SCall c) y sl sy b). }
    destruct t as [i|j|]; cbn [reach v_reach].
    + by apply Hput.
    + by apply Hput.
    + split; cbn; [by apply J_delete|done|by rewrite Hc|by rewrite Hs|done].
  - rewrite Hc. case_decide; [done|]. rewrite (J_v _ _ _ _ HJ (SPend j id)) by done. destruct (a_refs s !! SPend j id) as [sl|] eqn:E; [|done].
    intros [= <-]. eexists. split; [done|]. apply (sim_call (MkASt _ _ _ _ _) (MkVSt _ _ _ _)).
    + split; cbn; [by apply J_delete|done..].
    + done.
    + cbn. apply J_insert; [by apply J_delete|by apply (J_wf _ _ _ _ HJ (SPend j id))|done|].
      intros y sy b Ly Hne [Hy Ey]%lookup_delete_Some Eb. by apply (J_sep _ _ _ _ HJ (SPend j id) y sl sy b).
  - intros [= <-]. eexists. split; [done|]. split; cbn; [by apply J_delete|done..].
Qed.
Lemma step_finished cfg l s s' r : astep cfg l s = Some s' -> r ∈ a_finished s' -> r ∈ a_finished s \/ exists c log spare, l = LFinish r c log spare.
Proof.
  destruct l as [r' xs|r' c log spare|r' c xs spare|c|j id c|j id]; cbn [astep].
  - destruct (append _ _ _ _). intros [= <-]. by left.
  - case_decide; [done|]. case_decide; [destruct (new_slice _ _ _)|]; intros [= <-]; cbn; [by left|]. rewrite elem_of_union, elem_of_singleton. intros [->|H']; [right; eauto|by left].
  - case_decide; [done|]. destruct (new_slice _ _ _). intros [= <-]. by left.
  - destruct (a_calls s !! c) as [[id [|t ts]]|]; [done| |done]. destruct (a_refs s !! SCall c) as [sl|]; [|done]. intros [= <-].
    assert (a_finished (reach cfg t id sl s) = a_finished s) as E.
    { destruct t; cbn; [| |done]; unfold put; (destruct (a_refs s !! _); [destruct (append _ _ _ _)|]; done). }
    destruct ts; cbn; rewrite E; by left.
  - case_decide; [done|]. destruct (a_refs s !! SPend j id); [|done]. intros [= <-]. by left.
  - intros [= <-]. by left.
Qed.
Lemma no_late_tail l tr : no_late (l :: tr) -> no_late tr.
Proof. destruct l; cbn; [done|by intros [_ H]|done..]. Qed.
Lemma sim_run cfg tr : no_multi cfg -> forall s v s', sim s v -> no_late tr -> (forall r xs, LEvent r xs ∈ tr -> r ∉ a_finished s) ->
  arun cfg tr s = Some s' -> exists v', vrun cfg tr v = Some v' /\ sim s' v'.
Proof.
  intros HN. induction tr as [|l tr IH]; intros s v s' HS Hl Hf; cbn [arun vrun]; [intros [= <-]; eauto|].
  destruct (astep cfg l s) as [s1|] eqn:E; [|done]. intros H.
  destruct (sim_step cfg l s v s1 HN HS) as (v1 & -> & HS1); [|done|].
  { intros r xs ->. apply (Hf r xs). by left. }
  apply (IH s1 v1 s' HS1); [by eapply no_late_tail| |done]. intros r xs Hin Hr. destruct (step_finished _ _ _ _ _ E Hr) as [Hr'|(c & log & spare & ->)].
  - apply (Hf r xs); [by right|done].
  - destruct Hl as [Hl _]. by apply (Hl xs).
Qed.
Lemma sim_init : sim a_init v_init.
Proof.
  split; [|done..]. split.
  - intros x sl H. cbn [a_init a_refs] in H. by rewrite lookup_empty in H.
  - intros x _. cbn [a_init a_refs v_init v_has]. by rewrite !lookup_empty.
  - intros x y sx sy b _ _ _ H. cbn [a_init a_refs] in H. by rewrite lookup_empty in H.
Qed.
Lemma alias_values cfg tr s : no_multi cfg -> no_late tr -> arun cfg tr a_init = Some s ->
  exists v, vrun cfg tr v_init = Some v /\ (forall i k, contents s i k = v_has v !! SStore i k) /\ a_sent s = v_sent v.
Proof.
  intros HN Hl H. destruct (sim_run cfg tr HN a_init v_init s sim_init Hl) as (v & Hv & [HJ _ _ Hs _]); [intros r xs _; cbn; set_solver|done|].
  exists v. split; [done|]. split; [|done]. intros i k. unfold contents. symmetry. by apply (J_v _ _ _ _ HJ).
Qed.
(** Values only grow. *)
Lemma v_grow_step cfg l v v' i k l0 : vstep cfg l v = Some v' -> v_has v !! SStore i k = Some l0 -> exists l1, v_has v' !! SStore i k = Some (l0 ++ l1).
Proof.
  intros H E. assert (forall w, v_has w !! SStore i k = v_has v !! SStore i k -> exists l1, v_has w !! SStore i k = Some (l0 ++ l1)) as Hsame.
  { intros w ->. exists []. by rewrite app_nil_r. }
  destruct l as [r xs|r c log spare|r c xs spare|c|j id c|j id]; cbn [vstep] in H.
  - injection H as <-. apply Hsame. cbn. by rewrite lookup_insert_ne.
  - case_decide; [done|]. case_decide; injection H as <-; apply Hsame; cbn; by rewrite lookup_insert_ne.
  - case_decide; [done|]. injection H as <-; apply Hsame; cbn; by rewrite lookup_insert_ne.
  - destruct (v_calls v !! c) as [[id [|t ts]]|]; [done| |done]. destruct (v_has v !! SCall c) as [l|]; [|done]. injection H as <-.
    assert (exists l1, v_has (v_reach t id l v) !! SStore i k = Some (l0 ++ l1)) as (l1 & Hl1).
    { destruct t as [i'|j|]; cbn [v_reach].
      - cbn. destruct (decide (SStore i' (store_key id) = SStore i k)) as [->|Hne]; [rewrite lookup_insert, E; eauto|].
        rewrite lookup_insert_ne by done. rewrite E. exists []. by rewrite app_nil_r.
      - apply Hsame. cbn. by rewrite lookup_insert_ne.
      - by apply Hsame. }
    exists l1. destruct ts; cbn; [by rewrite lookup_delete_ne|done].
  - case_decide; [done|]. destruct (v_has v !! SPend j id); [|done]. injection H as <-. apply Hsame. cbn. rewrite lookup_insert_ne by done. by rewrite lookup_delete_ne.
  - injection H as <-. apply Hsame. cbn. by rewrite lookup_delete_ne.
Qed.
Lemma v_grow cfg tr : forall v v' i k l0, vrun cfg tr v = Some v' -> v_has v !! SStore i k = Some l0 -> exists l1, v_has v' !! SStore i k = Some (l0 ++ l1).
Proof.
  induction tr as [|l tr IH]; intros v v' i k l0; cbn [vrun]; [intros [= <-] E; exists []; by rewrite app_nil_r|].
  destruct (vstep cfg l v) as [v1|] eqn:E1; [|done]. intros H E. destruct (v_grow_step _ _ _ _ _ _ _ E1 E) as (l1 & E'). destruct (IH _ _ _ _ _ H E') as (l2 & E2).
  exists (l1 ++ l2). by rewrite app_assoc.
Qed.
Lemma vrun_app cfg tr1 tr2 v : vrun cfg (tr1 ++ tr2) v = match vrun cfg tr1 v with Some v => vrun cfg tr2 v | None => None end.
Proof. revert v. induction tr1 as [|l tr1 IH]; intros v; cbn; [done|]. destruct (vstep cfg l v); [apply IH|done]. Qed.
Lemma arun_app cfg tr1 tr2 s : arun cfg (tr1 ++ tr2) s = match arun cfg tr1 s with Some s => arun cfg tr2 s | None => None end.
Proof. revert s. induction tr1 as [|l tr1 IH]; intros s; cbn; [done|]. destruct (astep cfg l s); [apply IH|done]. Qed.
