(** MultiStore over stores that share arrays. *)
From Verif Require Import Base AliasModel AliasSpec AliasProofs.
Local Open Scope nat_scope.

Lemma read_len h s : wf h s -> length (read h s) = s_len s.
Proof. intros H%wf_len. unfold read. rewrite take_length. lia. Qed.
(** Appending in place does not disturb slices of the same array that are not longer, or already have the same at that place. *)
Lemma append_same grow h s t xs h' s' : wf h s -> wf h t -> s_base t = s_base s -> append grow h s xs = (h', s') ->
  s_len t <= s_len s \/ read h t = read h s ++ xs -> wf h' t /\ read h' t = read h t.
Proof.
  intros Hs Ht Eb E Hc. destruct (decide (xs = [])) as [->|Hne]; [cbn in E; injection E as <- <-; done|].
  rewrite append_ne in E by done. cbn zeta in E. unfold wf in Hs, Ht. rewrite Eb in Ht. destruct (s_base s) as [b|] eqn:Esb.
  - destruct Hs as (a & Ha & Hls), Ht as (a' & Ha' & Hlt). assert (a' = a) as -> by congruence. clear Ha'.
    assert (array h s = a) as Eas by (unfold array; by rewrite Esb, Ha). assert (array h t = a) as Eat by (unfold array; by rewrite Eb, Ha).
    rewrite Eas in E. destruct (Nat.leb_spec (s_len s + length xs) (length a)) as [Hfit|Hnot]; injection E as <- <-.
    + set (h' := alter _ b h). assert (h' !! b = Some (list_inserts (s_len s) xs a)) as Hb by (unfold h'; rewrite list_lookup_alter, Ha; done).
      assert (array h' t = list_inserts (s_len s) xs a) as Eat' by (unfold array; by rewrite Eb, Hb).
      split; [unfold wf; rewrite Eb; exists (list_inserts (s_len s) xs a); split; [done|by rewrite inserts_length]|].
      unfold read. rewrite Eat, Eat', inserts_eq by done. destruct Hc as [Hc|Hc].
      * rewrite take_app_le by (rewrite take_length; lia). rewrite take_take. f_equal. lia.
      * unfold read in Hc. rewrite Eas, Eat in Hc. pose proof (f_equal length Hc) as Hl. rewrite app_length, !take_length in Hl.
        rewrite app_assoc, take_app_alt; [done|]. rewrite app_length, take_length. lia.
    + split.
      * apply (wf_ext h); [|unfold wf; rewrite Eb; eauto]. intros b' Eb'. apply lookup_app_l. apply (lookup_lt_Some _ _ a). congruence.
      * apply read_ext. intros b' Eb'. apply lookup_app_l. apply (lookup_lt_Some _ _ a). congruence.
  - split; [unfold wf; by rewrite Eb|]. unfold read. unfold array. rewrite Eb. done.
Qed.

(** Groups of slots that may share an array: the stores' slots of one span; the running call joins them if it is the span's first. *)
Definition grp (k : N * N) (share : bool) (x : slot) : slot :=
  match x with
  | inr (inl (_, k')) => SStore 0 k'
  | inr (inr c) => if share then SStore 0 k else x
  | _ => x
  end.
Record G (h : heap) (refs : gmap slot slice) (vh : gmap slot (list Annotation)) (P : slot -> Prop) (g : slot -> slot) : Prop := {
  G_wf : forall x sl, refs !! x = Some sl -> wf h sl;
  G_v : forall x, P x -> vh !! x = read h <$> refs !! x;
  G_sep : forall x y sx sy b, P x -> P y -> g x <> g y -> refs !! x = Some sx -> refs !! y = Some sy -> s_base sx = Some b -> s_base sy <> Some b
}.
Lemma G_weaken h refs vh (P Q : slot -> Prop) g : (forall x, Q x -> P x) -> G h refs vh P g -> G h refs vh Q g.
Proof. intros H [H1 H2 H3]. split; [done|eauto|eauto]. Qed.
Lemma G_delete h refs vh P g x : G h refs vh P g -> G h (delete x refs) (delete x vh) P g.
Proof.
  intros [H1 H2 H3]. split.
  - intros y sl [_ H]%lookup_delete_Some. eauto.
  - intros y Hy. destruct (decide (x = y)) as [<-|Hne]; [by rewrite !lookup_delete|]. rewrite !lookup_delete_ne by done. eauto.
  - intros y z sy sz b Py Pz Hne [_ Hy]%lookup_delete_Some [_ Hz]%lookup_delete_Some. eauto.
Qed.
Lemma G_insert h refs vh P g x sl l : G h refs vh P g -> wf h sl -> read h sl = l ->
  (forall y sy b, P y -> g y <> g x -> refs !! y = Some sy -> s_base sl = Some b -> s_base sy <> Some b) ->
  G h (<[x := sl]> refs) (<[x := l]> vh) P g.
Proof.
  intros [H1 H2 H3] Hw <- Hs. split.
  - intros y sy [[-> <-]|[_ H]]%lookup_insert_Some; eauto.
  - intros y Hy. destruct (decide (x = y)) as [<-|Hne]; [by rewrite !lookup_insert|]. rewrite !lookup_insert_ne by done. eauto.
  - intros y z sy sz b Py Pz Hne [[-> <-]|[Hy Ey]]%lookup_insert_Some [[-> <-]|[Hz Ez]]%lookup_insert_Some Eb; [done|by apply (Hs z sz b)| |by apply (H3 y z sy sz b)].
    intros Eb'. by apply (Hs y sy b Py).
Qed.
Lemma G_heap h h' refs vh P g : G h refs vh P g -> (forall b, b < length h -> h' !! b = h !! b) -> G h' refs vh P g.
Proof.
  intros [H1 H2 H3] He. assert (forall x sl, refs !! x = Some sl -> forall b, s_base sl = Some b -> h' !! b = h !! b) as He'.
  { intros x sl Hx b Hb. apply He. by eapply wf_bound; [apply (H1 x)|]. }
  split; [|intros x Px; rewrite (H2 x Px)|done].
  - intros x sl Hx. apply (wf_ext h); eauto.
  - destruct (refs !! x) as [sl|] eqn:Ex; [|done]. cbn. f_equal. symmetry. apply read_ext. eauto.
Qed.
Lemma G_append grow h refs vh P g x xs h' new : G h refs vh P g -> P x -> append grow h (default nil_slice (refs !! x)) xs = (h', new) ->
  (forall y sy, P y -> g y = g x -> y <> x -> refs !! y = Some sy ->
     s_len sy <= s_len (default nil_slice (refs !! x)) \/ read h sy = read h (default nil_slice (refs !! x)) ++ xs) ->
  G h' (<[x := new]> refs) (<[x := default [] (vh !! x) ++ xs]> vh) P g.
Proof.
  intros HG Px E Hsame. destruct HG as [H1 H2 H3].
  assert (wf h (default nil_slice (refs !! x))) as Hw. { destruct (refs !! x) as [sl|] eqn:Ex; [by apply (H1 x)|done]. }
  destruct (append_spec _ _ _ _ _ _ Hw E) as (A1 & A2 & A3 & A4 & A5).
  assert (read h (default nil_slice (refs !! x)) = default [] (vh !! x)) as Hr. { rewrite (H2 x Px). by destruct (refs !! x). }
  rewrite Hr in A2.
  assert (forall y sy, P y -> y <> x -> refs !! y = Some sy -> read h' sy = read h sy) as Hk.
  { intros y sy Py Hne Ey. destruct (decide (s_base sy = s_base (default nil_slice (refs !! x)))) as [Eb|Eb].
    - destruct (s_base sy) as [b|] eqn:Esy; [|unfold read, array; by rewrite Esy].
      destruct (decide (g y = g x)) as [Eg|Eg].
      + assert (s_base sy = s_base (default nil_slice (refs !! x))) as Eb' by congruence.
        destruct (append_same grow h _ sy xs h' new Hw (H1 y sy Ey) Eb' E); [by apply (Hsame y sy)|done].
      + exfalso. destruct (refs !! x) as [sl|] eqn:Ex; [|done]. cbn in Eb. symmetry in Eb. by apply (H3 y x sy sl b).
    - apply read_ext. intros b Esy. apply A5; [by eapply wf_bound; [apply (H1 y)|]|]. congruence. }
  split.
  - intros y sy [[-> <-]|[Hne Ey]]%lookup_insert_Some; [done|]. pose proof (H1 y sy Ey) as Hwy. unfold wf in Hwy |- *.
    destruct (s_base sy) as [b|] eqn:Eb; [|done]. destruct Hwy as (a & Ha & Hlen).
    destruct (decide (Some b = s_base (default nil_slice (refs !! x)))) as [Es|Es]; [|exists a; rewrite A5; [done|by eapply lookup_lt_Some|done]].
    clear -E Es Ha Hlen. unfold append in E. rewrite <- Es in E. destruct xs as [|z xs]; [injection E as <- _; eauto|].
    destruct (_ <=? _); injection E as <- _.
    + rewrite list_lookup_alter, Ha. eexists. split; [done|]. by rewrite insert_length, inserts_length.
    + exists a. split; [|done]. rewrite lookup_app_l; [done|by eapply lookup_lt_Some].
  - intros y Py. destruct (decide (x = y)) as [<-|Hne]; [by rewrite !lookup_insert, <- A2|]. rewrite !lookup_insert_ne by done.
    rewrite (H2 y Py). destruct (refs !! y) as [sy|] eqn:Ey; [|done]. cbn. f_equal. symmetry. by apply (Hk y).
  - assert (forall y sy b, P y -> g x <> g y -> refs !! y = Some sy -> s_base new = Some b -> s_base sy <> Some b) as Hs.
    { intros y sy b Py Hne Ey Eb Eb'. destruct A3 as [A3|A3].
      - rewrite A3 in Eb. destruct (refs !! x) as [sl|] eqn:Ex; [|done]. by apply (H3 x y sl sy b).
      - rewrite A3 in Eb. injection Eb as <-. pose proof (wf_bound _ _ _ (H1 y sy Ey) Eb'). lia. }
    intros y z sy sz b Py Pz Hne [[-> <-]|[Hy Ey]]%lookup_insert_Some [[-> <-]|[Hz Ez]]%lookup_insert_Some Eb Eb'; [done| | |by apply (H3 y z sy sz b)].
    + by apply (Hs z sz b).
    + by apply (Hs y sy b).
Qed.

Section multi.
Context (n : nat) (cfg : acfg) (Hn : 0 < n) (Hcfg : multi_store n cfg).

(** Between calls. *)
Record K (s : ast) (v : vst) : Prop := {
  K_G : G (a_heap s) (a_refs s) (v_has v) (live (a_finished s)) (grp (0, 0)%N false);
  K_fin : v_finished v = a_finished s;
  K_calls : a_calls s = ∅;
  K_vcalls : v_calls v = ∅;
  K_sent : v_sent v = a_sent s;
  K_nocall : forall c, a_refs s !! SCall c = None;
  K_n : forall i k, n <= i -> a_refs s !! SStore i k = None;
  K_eq : forall k i j, i < n -> j < n -> v_has v !! SStore i k = v_has v !! SStore j k
}.
(** During a call [c] of span [id] with the annotations [xs], after [m] deliveries; [l] is what the stores had. *)
Record M (c : nat) (id : SpanID) (xs : list Annotation) (l : option (list Annotation)) (m : nat) (s : ast) (v : vst) : Prop := {
  M_G : G (a_heap s) (a_refs s) (v_has v) (live (a_finished s)) (grp (store_key id) (bool_decide (l = None)));
  M_fin : v_finished v = a_finished s;
  M_calls : a_calls s = {[c := (id, map TStore (seq m (n - m)))]};
  M_vcalls : v_calls v = a_calls s;
  M_sent : v_sent v = a_sent s;
  M_call : v_has v !! SCall c = Some xs;
  M_nocall : forall c', c' <> c -> a_refs s !! SCall c' = None;
  M_n : forall i k, n <= i -> a_refs s !! SStore i k = None;
  M_done : forall i, i < m -> v_has v !! SStore i (store_key id) = Some (default [] l ++ xs);
  M_rest : forall i, m <= i < n -> v_has v !! SStore i (store_key id) = l;
  M_eq : forall k i j, k <> store_key id -> i < n -> j < n -> v_has v !! SStore i k = v_has v !! SStore j k
}.
Lemma live_store fin i k : live fin (SStore i k).
Proof. intros r E. done. Qed.

(** One delivery. *)
Lemma deliver_put c id xs l m s v sl : m < n -> M c id xs l m s v -> a_refs s !! SCall c = Some sl ->
  let x := SStore m (store_key id) in
  let s' := put cfg x sl s in let v' := v_add x xs v in
  G (a_heap s') (a_refs s') (v_has v') (live (a_finished s)) (grp (store_key id) (bool_decide (l = None))) /\
  a_finished s' = a_finished s /\ a_calls s' = a_calls s /\ a_sent s' = a_sent s /\ (forall y, y <> x -> a_refs s' !! y = a_refs s !! y).
Proof.
  intros Hm HM Hsl x. cbn zeta. pose proof (M_G _ _ _ _ _ _ _ HM) as HG.
  assert (read (a_heap s) sl = xs) as Hxs. { pose proof (G_v _ _ _ _ _ HG (SCall c) (live_call _ _)) as E. rewrite Hsl, (M_call _ _ _ _ _ _ _ HM) in E. cbn in E. congruence. }
  pose proof (M_rest _ _ _ _ _ _ _ HM m ltac:(lia)) as Hl. fold x in Hl.
  pose proof (G_v _ _ _ _ _ HG x (live_store _ _ _)) as Hv. unfold put. destruct (a_refs s !! x) as [old|] eqn:Ex.
  - destruct (append _ _ _ _) as [h new] eqn:E. cbn. split; [|split_and!; try done; intros y Hy; by rewrite lookup_insert_ne].
    apply (G_append (ac_grow cfg) (a_heap s) _ _ _ _ _ _ _ _ HG); [done|rewrite Ex; cbn; by rewrite <- Hxs|].
    rewrite Hl in Hv. intros y sy Ly Eg Hne Ey. rewrite Ex. cbn [default from_option]. cbn in Hv. rewrite Hv in Eg. unfold Datatypes.id.
    rewrite bool_decide_false in Eg by done. pose proof (G_v _ _ _ _ _ HG y Ly) as Hvy. rewrite Ey in Hvy. cbn in Hvy.
    destruct y as [[r|p]|[[i k]|c']]; cbn in Eg; try done. injection Eg as ->.
    destruct (decide (i < m)) as [Hi|Hi].
    + right. pose proof (M_done _ _ _ _ _ _ _ HM i Hi) as Hd. change (inr (inl (i, store_key id))) with (SStore i (store_key id)) in Hvy.
      rewrite Hvy in Hd. injection Hd as ->. rewrite Hv. done.
    + destruct (decide (i < n)) as [Hin|Hin].
      * left. pose proof (M_rest _ _ _ _ _ _ _ HM i ltac:(lia)) as Hd. change (inr (inl (i, store_key id))) with (SStore i (store_key id)) in Hvy.
        rewrite Hvy, Hv in Hd. injection Hd as Hd. rewrite <- (read_len (a_heap s) sy), <- (read_len (a_heap s) old), Hd; [done| |].
        -- by apply (G_wf _ _ _ _ _ HG x).
        -- by apply (G_wf _ _ _ _ _ HG (SStore i (store_key id))).
      * exfalso. pose proof (M_n _ _ _ _ _ _ _ HM i (store_key id) ltac:(lia)) as Hno. unfold SStore in Hno. congruence.
  - cbn. split; [|split_and!; try done; intros y Hy; by rewrite lookup_insert_ne]. rewrite Hv. cbn.
    rewrite Hl in Hv. cbn in Hv. apply G_insert; [done|by apply (G_wf _ _ _ _ _ HG (SCall c))|done|].
    intros y sy b Ly Hg Ey Eb. apply (G_sep _ _ _ _ _ HG (SCall c) y sl sy b); [apply live_call|done| |done..].
    rewrite Hv in Hg |- *. rewrite bool_decide_true in Hg |- * by done. cbn in Hg |- *. congruence.
Qed.
Lemma deliver_step c id xs l m s v s' : m < n -> M c id xs l m s v -> astep cfg (LDeliver c) s = Some s' ->
  exists v', vstep cfg (LDeliver c) v = Some v' /\ if decide (S m = n) then K s' v' else M c id xs l (S m) s' v'.
Proof.
  intros Hm HM. pose proof HM as [HG Hf Hc Hvc Hs Hcall Hno Hlim Hdone Hrest Heq]. cbn [astep vstep]. rewrite Hvc, Hc, lookup_singleton, Hcall.
  replace (n - m) with (S (n - S m)) by lia. cbn [seq map].
  destruct (a_refs s !! SCall c) as [sl|] eqn:Esl; [|done].
  destruct (deliver_put c id xs l m s v sl Hm HM Esl) as (P1 & P2 & P3 & P4 & P5). cbn [reach v_reach].
  set (s1 := put cfg _ sl s) in *. set (x := SStore m (store_key id)) in *. set (v1 := v_add x xs v) in *.
  assert (forall i k, SStore i k <> x -> v_has v1 !! SStore i k = v_has v !! SStore i k) as Vne. { intros i k Hne. cbn. by rewrite lookup_insert_ne. }
  assert (v_has v1 !! x = Some (default [] l ++ xs)) as Vx. { pose proof (Hrest m ltac:(lia)) as Hx. fold x in Hx. unfold v1, v_add. cbn [v_has]. by rewrite lookup_insert, Hx. }
  assert (forall k i j, k <> store_key id -> i < n -> j < n -> v_has v1 !! SStore i k = v_has v1 !! SStore j k) as Veq.
  { intros k i j Hk Hi Hj. rewrite !Vne by (intros [= _ E]; congruence). by apply Heq. }
  assert (forall i, i < S m -> v_has v1 !! SStore i (store_key id) = Some (default [] l ++ xs)) as Vdone.
  { intros i Hi. destruct (decide (i = m)) as [->|Hne]; [done|]. rewrite Vne by (intros [= E]; congruence). apply Hdone. lia. }
  assert (forall i k, n <= i -> a_refs s1 !! SStore i k = None) as Vn. { intros i k Hi. rewrite P5; [by apply Hlim|]. intros [= E]. lia. }
  case_decide as En.
  - replace (n - S m) with 0 by lia. cbn [seq map]. intros [= <-]. eexists. split; [done|]. split; cbn [a_heap a_refs a_finished a_calls a_sent v_has v_finished v_calls v_sent].
    + rewrite P2. apply (G_delete _ _ _ _ _ (SCall c)) in P1. revert P1. intros [Q1 Q2 Q3]. split; [done|done|].
      intros y z sy sz b Ly Lz Hg Ey Ez. apply (Q3 y z sy sz b Ly Lz); [|done..].
      assert (forall y sy, delete (SCall c) (a_refs s1) !! y = Some sy -> forall c', y <> SCall c') as Hcl.
      { intros y' sy' [Hy1 Hy2]%lookup_delete_Some c' ->. destruct (decide (c' = c)) as [->|Hc']; [done|]. rewrite P5 in Hy2 by done. by rewrite Hno in Hy2. }
      specialize (Hcl _ _ Ey) as Hcy. specialize (Hcl _ _ Ez) as Hcz.
      destruct y as [[?|?]|[[? ?]|c1]]; [| | |by destruct (Hcy c1)]; (destruct z as [[?|?]|[[? ?]|c2]]; [| | |by destruct (Hcz c2)]); exact Hg.
    + by rewrite P2.
    + by rewrite P3, Hc, delete_singleton.
    + cbn. by rewrite Hvc, Hc, delete_singleton.
    + cbn. by rewrite P4.
    + intros c'. destruct (decide (c' = c)) as [->|Hc']; [by rewrite lookup_delete|]. rewrite lookup_delete_ne by (intros [= E]; congruence). rewrite P5 by done. by apply Hno.
    + intros i k Hi. rewrite lookup_delete_ne by done. by apply Vn.
    + intros k i j Hi Hj. rewrite !lookup_delete_ne by done. destruct (decide (k = store_key id)) as [->|Hk]; [|by apply Veq]. rewrite !Vdone by lia. done.
  - intros H. destruct (n - S m) as [|q] eqn:Eq; [lia|]. cbn [seq map] in H |- *. injection H as <-. eexists. split; [done|].
    split; cbn [a_heap a_refs a_finished a_calls a_sent v_has v_finished v_calls v_sent].
    + by rewrite P2.
    + by rewrite P2.
    + rewrite P3, Hc, insert_singleton. rewrite Eq. done.
    + cbn. by rewrite P3, Hvc.
    + cbn. by rewrite P4.
    + cbn. by rewrite lookup_insert_ne.
    + intros c' Hc'. rewrite P5 by done. by apply Hno.
    + done.
    + done.
    + intros i Hi. rewrite Vne by (intros [= E]; lia). apply Hrest. lia.
    + done.
Qed.
Lemma deliver_all c id xs l d : forall m s v s', m + S d = n -> M c id xs l m s v -> arun cfg (replicate (S d) (LDeliver c)) s = Some s' ->
  exists v', vrun cfg (replicate (S d) (LDeliver c)) v = Some v' /\ K s' v'.
Proof.
  induction d as [|d IH]; intros m s v s' Hmd HM.
  - cbn [replicate arun vrun]. destruct (astep cfg (LDeliver c) s) as [s1|] eqn:E; [|done]. intros [= <-].
    destruct (deliver_step c id xs l m s v s1 ltac:(lia) HM E) as (v1 & -> & H). rewrite decide_True in H by lia. eauto.
  - change (replicate (S (S d)) (LDeliver c)) with (LDeliver c :: replicate (S d) (LDeliver c)). cbn [arun vrun].
    destruct (astep cfg (LDeliver c) s) as [s1|] eqn:E; [|done]. intros H.
    destruct (deliver_step c id xs l m s v s1 ltac:(lia) HM E) as (v1 & -> & H1). rewrite decide_False in H1 by lia.
    apply (IH (S m) s1 v1 s'); [lia|done|done].
Qed.
(** A call begins. *)
Lemma call_begins s v c id xs sl : K s v -> wf (a_heap s) sl -> read (a_heap s) sl = xs ->
  (forall y sy b, live (a_finished s) y -> a_refs s !! y = Some sy -> s_base sl = Some b -> s_base sy <> Some b) ->
  M c id xs (v_has v !! SStore 0 (store_key id)) 0 (call c id (map TStore (seq 0 n)) sl s) (v_call c id (map TStore (seq 0 n)) xs v).
Proof.
  intros [HG Hf Hc Hvc Hs Hno Hlim Heq] Hw Hr Hsep. split; cbn [call v_call a_heap a_refs a_finished a_calls a_sent v_has v_finished v_calls v_sent].
  - apply G_insert; [|done|done|].
    + destruct HG as [H1 H2 H3]. split; [done|done|]. intros y z sy sz b Ly Lz Hg Ey Ez. apply (H3 y z sy sz b Ly Lz); [|done..].
      destruct y as [[?|?]|[[? ?]|c1]]; [| | |by change (a_refs s !! SCall c1 = Some sy) in Ey; rewrite (Hno c1) in Ey]; (destruct z as [[?|?]|[[? ?]|c2]]; [| | |by change (a_refs s !! SCall c2 = Some sz) in Ez; rewrite (Hno c2) in Ez]); exact Hg.
    + intros y sy b Ly _. by apply Hsep.
  - done.
  - rewrite Hc. by replace (n - 0) with n by lia.
  - by rewrite Hc, Hvc.
  - done.
  - by rewrite lookup_insert.
  - intros c' Hne. rewrite lookup_insert_ne by (intros [= E]; congruence). apply Hno.
  - intros i k Hi. rewrite lookup_insert_ne by done. by apply Hlim.
  - lia.
  - intros i Hi. rewrite lookup_insert_ne by done. apply Heq; lia.
  - intros k i j _ Hi Hj. rewrite !lookup_insert_ne by done. by apply Heq.
Qed.
Lemma K_heap s v h : K s v -> (forall b, b < length (a_heap s) -> h !! b = a_heap s !! b) -> K (MkASt h (a_refs s) (a_finished s) (a_calls s) (a_sent s)) v.
Proof. intros [HG Hf Hc Hvc Hs Hno Hlim Heq] Hh. split; cbn; try done. by apply (G_heap (a_heap s)). Qed.
Lemma new_call s v c id xs spare h sl : K s v -> new_slice (a_heap s) xs spare = (h, sl) ->
  M c id xs (v_has v !! SStore 0 (store_key id)) 0 (call c id (map TStore (seq 0 n)) sl (MkASt h (a_refs s) (a_finished s) (a_calls s) (a_sent s)))
    (v_call c id (map TStore (seq 0 n)) xs v).
Proof.
  intros HK [= <- <-]. apply call_begins.
  - apply K_heap; [done|]. intros b Hb. by apply lookup_app_l.
  - unfold wf. cbn. eexists. split; [by apply list_lookup_middle|]. rewrite app_length. lia.
  - unfold read, array. cbn. rewrite list_lookup_middle by done. cbn. by apply take_app_alt.
  - cbn. intros y sy b Ly Ey [= <-] Eb. pose proof (wf_bound _ _ _ (G_wf _ _ _ _ _ (K_G _ _ HK) y sy Ey) Eb). lia.
Qed.
Lemma multi_run tr : one_by_one n tr -> forall s v s', K s v -> no_late tr -> (forall r xs, LEvent r xs ∈ tr -> r ∉ a_finished s) ->
  arun cfg tr s = Some s' -> exists v', vrun cfg tr v = Some v' /\ K s' v'.
Proof.
  assert (exists d, n = S d) as [d Hd] by (exists (n - 1); lia).
  assert (forall tr0 r, no_late (replicate n (LDeliver r) ++ tr0) -> no_late tr0) as Hskip.
  { clear. intros tr0 r. induction n as [|m IH]; [done|]. cbn. done. }
  assert (forall l s s1 s2 c, astep cfg l s = Some s1 -> arun cfg (replicate n (LDeliver c)) s1 = Some s2 ->
    forall r, r ∈ a_finished s2 -> r ∈ a_finished s \/ exists c log spare, l = LFinish r c log spare) as Hfin.
  { clear Hd. intros l s s1 s2 c E1 E2 r Hr. apply (step_finished cfg l s s1 r E1). clear E1. clear Hskip Hn Hcfg. revert s1 E2 Hr. induction n as [|m IH]; intros s1; cbn [replicate arun]; [by intros [= <-]|].
    destruct (astep cfg (LDeliver c) s1) as [s3|] eqn:E3; [|done]. intros E2 Hr. destruct (step_finished _ _ _ _ _ E3 (IH s3 E2 Hr)) as [?|(? & ? & ? & ?)]; done. }
  induction 1 as [|r xs tr Hob IH|r c log spare tr Hob IH|r c xs spare tr Hob IH]; intros s v s' HK Hl Hf.
  - intros [= <-]. exists v. done.
  - cbn [arun vrun vstep]. destruct (astep cfg (LEvent r xs) s) as [s1|] eqn:E; [|done].
    apply IH; [|done|].
    + cbn [astep] in E. destruct (append _ _ _ _) as [h new] eqn:Ea. injection E as <-. destruct HK as [HG Hfe Hc Hvc Hs Hno Hlim Heq].
      split; cbn; [|done|done|done|done|intros c'; by rewrite lookup_insert_ne|intros i k Hi; rewrite lookup_insert_ne by done; by apply Hlim|].
      * apply (G_append (ac_grow cfg) (a_heap s) _ _ _ _ _ _ _ _ HG); [|done|].
        -- intros r' [= <-]. apply (Hf r xs). by left.
        -- intros y sy Ly Eg Hne Ey. exfalso. destruct y as [[?|?]|[[? ?]|c1]]; cbn in Eg; try done.
      * intros k i j Hi Hj. rewrite !lookup_insert_ne by done. by apply Heq.
    + cbn [astep] in E. destruct (append _ _ _ _) as [h new] eqn:Ea. injection E as <-. cbn. intros r' xs' Hin. apply (Hf r' xs'). by right.
  - destruct (astep cfg (LFinish r c log spare) s) as [s1|] eqn:E; [|cbn [arun]; by rewrite E].
    cbn [arun vrun]. rewrite E, arun_app. destruct (arun cfg (replicate n (LDeliver c)) s1) as [s2|] eqn:E2; [|done]. intros H.
    assert (exists v1 id xs l, vstep cfg (LFinish r c log spare) v = Some v1 /\ M c id xs l 0 s1 v1) as (v1 & id & xs & l & Hv1 & HM).
    { cbn [astep vstep] in E |- *. rewrite (K_fin _ _ HK), (K_vcalls _ _ HK). rewrite (K_calls _ _ HK) in E. case_decide; [done|]. rewrite Hcfg in E |- *. case_decide as Ef.
      - destruct (new_slice _ _ _) as [h sl] eqn:En. injection E as <-. do 4 eexists. split; [done|].
        pose proof (new_call s v c (ac_span cfg r) log spare h sl HK En) as HM. rewrite (K_calls _ _ HK) in HM. exact HM.
      - injection E as <-. do 4 eexists. split; [done|].
        pose proof (K_G _ _ HK) as HG. pose proof HK as [_ Hfe Hc Hvc Hs Hno Hlim Heq].
        assert (K (MkASt (a_heap s) (a_refs s) ({[r]} ∪ a_finished s) ∅ (a_sent s)) (MkVSt (v_has v) ({[r]} ∪ a_finished s) ∅ (v_sent v))) as HK'.
        { split; cbn; try done. apply (G_weaken _ _ _ (live (a_finished s))); [|done]. intros x Hx r' E. specialize (Hx r' E). set_solver. }
        apply (call_begins _ _ c (ac_span cfg r) _ _ HK').
        + cbn. destruct (a_refs s !! SRec r) as [sl|] eqn:Er; [by apply (G_wf _ _ _ _ _ HG (SRec r))|done].
        + cbn. rewrite (G_v _ _ _ _ _ HG (SRec r)); [|intros r' [= <-]; done]. by destruct (a_refs s !! SRec r).
        + cbn. intros y sy b Ly Ey Eb. destruct (a_refs s !! SRec r) as [sl|] eqn:Er; [|done]. cbn in Eb.
          assert (y <> SRec r) as Hyr. { intros ->. apply (Ly r); [done|]. set_solver. }
          apply (G_sep _ _ _ _ _ HG (SRec r) y sl sy b); [intros r' [= <-]; done| | |done..].
          * intros r' E' Hr'. apply (Ly r' E'). set_solver.
          * destruct y as [[?|?]|[[? ?]|c1]]; cbn; try done. }
    rewrite Hv1, vrun_app. rewrite Hd in E2 |- *. destruct (deliver_all c id xs l d 0 s1 v1 s2 ltac:(lia) HM E2) as (v2 & -> & HK2). rewrite <- Hd in E2.
    apply (IH s2 v2 s' HK2); [by apply no_late_tail, Hskip in Hl| |done].
    intros r' xs' Hin Hr'. destruct (Hfin _ _ _ _ _ E E2 _ Hr') as [Hr2|(? & ? & ? & [= <- _ _ _])].
    + apply (Hf r' xs'); [|done]. right. apply elem_of_app. by right.
    + destruct Hl as [Hl _]. apply (Hl xs'). apply elem_of_app. by right.
  - destruct (astep cfg (LAnnotate r c xs spare) s) as [s1|] eqn:E; [|cbn [arun]; by rewrite E].
    cbn [arun vrun]. rewrite E, arun_app. destruct (arun cfg (replicate n (LDeliver c)) s1) as [s2|] eqn:E2; [|done]. intros H.
    assert (exists v1 id ys l, vstep cfg (LAnnotate r c xs spare) v = Some v1 /\ M c id ys l 0 s1 v1) as (v1 & id & ys & l & Hv1 & HM).
    { cbn [astep vstep] in E |- *. rewrite (K_vcalls _ _ HK). rewrite (K_calls _ _ HK) in E. case_decide; [done|]. rewrite Hcfg in E |- *.
      destruct (new_slice _ _ _) as [h sl] eqn:En. injection E as <-. do 4 eexists. split; [done|].
      pose proof (new_call s v c (ac_span cfg r) xs spare h sl HK En) as HM. rewrite (K_calls _ _ HK) in HM. exact HM. }
    rewrite Hv1, vrun_app. rewrite Hd in E2 |- *. destruct (deliver_all c id ys l d 0 s1 v1 s2 ltac:(lia) HM E2) as (v2 & -> & HK2). rewrite <- Hd in E2.
    apply (IH s2 v2 s' HK2); [by apply no_late_tail, Hskip in Hl| |done].
    intros r' xs' Hin Hr'. destruct (Hfin _ _ _ _ _ E E2 _ Hr') as [Hr2|(? & ? & ? & Hl2)]; [|done].
    apply (Hf r' xs'); [|done]. right. apply elem_of_app. by right.
Qed.
Lemma K_init : K a_init v_init.
Proof. split; done. Qed.
Lemma multi_values tr s : one_by_one n tr -> no_late tr -> arun cfg tr a_init = Some s ->
  exists v, vrun cfg tr v_init = Some v /\ forall i k, contents s i k = v_has v !! SStore i k.
Proof.
  intros Ho Hl H. destruct (multi_run tr Ho a_init v_init s K_init Hl) as (v & Hv & HK); [intros r xs _; cbn; set_solver|done|].
  exists v. split; [done|]. intros i k. unfold contents. symmetry. by apply (G_v _ _ _ _ _ (K_G _ _ HK)).
Qed.
End multi.
