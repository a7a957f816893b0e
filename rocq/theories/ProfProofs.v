(** Proofs about profiles. *)
From Verif Require Import Base FloatModel IdModel TimeModel ReflModel EventModel EventProps TraceModel TraceSpec ProfModel ProfSpec.
From Coq Require Import ssreflect.
Local Open Scope Z_scope.

(** ** int64 *)
Lemma int64_range z : - 2 ^ 63 <= int64 z < 2 ^ 63.
Proof. rewrite /int64. pose proof (Z.mod_pos_bound (z + 2 ^ 63) (2 ^ 64) ltac:(lia)). lia. Qed.
Lemma int64_small z : - 2 ^ 63 <= z < 2 ^ 63 -> int64 z = z.
Proof. intros H. rewrite /int64 Z.mod_small; lia. Qed.
Lemma int64_idem z : int64 (int64 z) = int64 z.
Proof. apply int64_small, int64_range. Qed.
Lemma int64_add_l a b : int64 (int64 a + b) = int64 (a + b).
Proof.
  rewrite /int64. replace ((a + 2 ^ 63) `mod` 2 ^ 64 - 2 ^ 63 + b + 2 ^ 63) with ((a + 2 ^ 63) `mod` 2 ^ 64 + b) by lia.
  rewrite Z.add_mod_idemp_l; last lia. f_equal. f_equal. lia.
Qed.
Lemma int64_add_r a b : int64 (a + int64 b) = int64 (a + b).
Proof. by rewrite Z.add_comm int64_add_l Z.add_comm. Qed.

(** ** The longest timespan *)
Lemma millis_int64 d : int64 (millis d) = millis d.
Proof. rewrite /millis /int_of_f64. destruct (f64_add _ _) as [| | |s m e]; try done. apply int64_idem. Qed.
Definition own (reg : registry) (t : tree) : Z := prof_time (fst (unmarshal_events reg (tr_anns t))).
Definition pick (acc ms : Z) : Z := if acc <? ms then ms else acc.
Lemma pick_spec l acc : let m := fold_left pick l acc in
  (m = acc \/ m ∈ l) /\ acc <= m /\ forall x, x ∈ l -> x <= m.
Proof.
  revert acc. induction l as [|x l IH]=> acc; cbn zeta.
  { cbn. split; first by left. split; first lia. by intros x ?%elem_of_nil. }
  cbn [fold_left]. destruct (IH (pick acc x)) as (H1 & H2 & H3).
  assert ((pick acc x = acc \/ pick acc x = x) /\ acc <= pick acc x /\ x <= pick acc x) as (H4 & H5 & H6).
  { rewrite /pick. destruct (Z.ltb_spec acc x); lia. }
  split.
  - destruct H1 as [->|H1]; last by right; right. destruct H4 as [->|H4]; [by left|]. right. rewrite H4. left.
  - split; first lia. intros y [->|Hy]%elem_of_cons; first lia. by apply H3.
Qed.
Lemma prof_time_pick events :
  prof_time events = fold_left pick (map (fun x => millis (time_sub (snd x) (fst x))) (timespans events)) 0.
Proof.
  rewrite /prof_time /timespans. generalize as_timespan, 0 as acc. intros f acc. revert acc.
  induction events as [|e events IH]=> acc; first done.
  assert (omap f (e :: events) = match f e with Some y => y :: omap f events | None => omap f events end) as -> by done.
  cbn [fold_left]. rewrite IH. destruct (f e) as [[s r]|]; reflexivity.
Qed.
Lemma time_sub_elapsed s e : time_sub e s = elapsed s e.
Proof.
  rewrite /time_sub /elapsed. cbv zeta. change (2 ^ 63) with 9223372036854775808. set (d := instant e - instant s). clearbody d.
  destruct (Z.ltb_spec 9223372036854775807 d); [lia|]. destruct (Z.ltb_spec d (-9223372036854775808)); lia.
Qed.
Lemma own_longest reg t : longest reg t (own reg t).
Proof.
  rewrite /longest /own. cbn zeta. set (events := fst (unmarshal_events reg (tr_anns t))). rewrite prof_time_pick.
  destruct (pick_spec (map (fun x => millis (time_sub (snd x) (fst x))) (timespans events)) 0) as (H1 & H2 & H3). split.
  - destruct H1 as [->|H1]; first by left. right. apply elem_of_list_fmap in H1 as ([s e] & -> & Hin). exists s, e. by rewrite -time_sub_elapsed.
  - split; first done. intros s e Hin. rewrite -time_sub_elapsed. apply H3, elem_of_list_fmap. by exists (s, e).
Qed.
Lemma longest_unique reg t a b : longest reg t a -> longest reg t b -> a = b.
Proof.
  intros (H1 & H2 & H3) (H4 & H5 & H6). apply Z.le_antisymm.
  - destruct H1 as [->|(s & e & Hin & ->)]; first done. by apply H6.
  - destruct H4 as [->|(s & e & Hin & ->)]; first done. by apply H3.
Qed.
Lemma own_int64 reg t : int64 (own reg t) = own reg t.
Proof. destruct (own_longest reg t) as ([->|(s & e & _ & ->)] & _); first done. apply millis_int64. Qed.

(** ** calcProfile *)
Section loop.
  Context (f : tree -> res (list profile)) (mk : list profile -> Z -> Z -> res (list profile)).
  Fixpoint loop (subs : list tree) (buf : list profile) (children cum : Z) : res (list profile) :=
    match subs with
    | [] => mk buf children cum
    | c :: subs =>
        match f c with
        | ROk (p :: ps) => loop subs (buf ++ p :: ps) (int64 (children + pf_time p)) (int64 (cum + pf_cum p))
        | ROk [] => RErr
        | RErr => RErr
        | RPanic => RPanic
        end
    end.
End loop.
Lemma calc_unfold reg us i anns subs : calc_profile reg us (Tree i anns subs) =
  match unmarshal_events reg anns with
  | (_, EsErr) => RErr
  | (_, EsPanic) => RPanic
  | (events, EsOk) =>
      match url_of us i with
      | None => RErr
      | Some u => loop (calc_profile reg us)
          (fun buf children cum => ROk (MkProfile (prof_name (Tree i anns subs)) u (prof_time events) children cum :: buf))
          subs [] (prof_time events) (prof_time events)
      end
  end.
Proof. reflexivity. Qed.

(** The profile of a single span. *)
Definition expected (reg : registry) (us : urls) (t : tree) : profile :=
  MkProfile (prof_name t) (default ""%string (url_of us (tr_id t))) (own reg t)
    (int64 (sum (map (own reg) (t :: tr_subs t)))) (int64 (sum (map (own reg) (subtrees t)))).

Lemma sum_cons x a : sum (x :: a) = x + sum a.
Proof. done. Qed.
Lemma sum_app a b : sum (a ++ b) = sum a + sum b.
Proof. induction a as [|x a IH]; first done. cbn [app]. rewrite !sum_cons IH. lia. Qed.

Lemma loop_spec reg us f mk subs :
  Forall (fun c => forall prof, f c = ROk prof -> prof = map (expected reg us) (subtrees c)) subs ->
  forall buf children cum r, loop f mk subs buf children cum = ROk r -> int64 children = children -> int64 cum = cum ->
  mk (buf ++ map (expected reg us) (concat (map subtrees subs))) (int64 (children + sum (map (own reg) subs)))
     (int64 (cum + sum (map (own reg) (concat (map subtrees subs))))) = ROk r.
Proof.
  induction 1 as [|c subs Hc _ IH]=> buf children cum r; cbn [loop].
  { intros Hr H1 H2. cbn. by rewrite app_nil_r !Z.add_0_r H1 H2. }
  destruct (f c) as [| |prof] eqn:Hf; try done. specialize (Hc prof eq_refl).
  destruct c as [ci ca cs]. cbn [subtrees map] in Hc. subst prof.
  intros Hr _ _. apply IH in Hr; [|apply int64_idem|apply int64_idem].
  rewrite -Hr. cbn [map concat subtrees]. f_equal.
  - rewrite !map_app -!app_assoc. cbn [map app]. by rewrite ?map_app -?app_assoc.
  - cbn [map pf_time expected]. rewrite int64_add_l sum_cons. f_equal. lia.
  - cbn [pf_cum expected subtrees map]. rewrite int64_add_r int64_add_l !map_app. cbn [app map]. rewrite ?map_app !sum_cons ?sum_app ?sum_cons. f_equal. lia.
Qed.

Lemma loop_all f mk subs buf a b r : loop f mk subs buf a b = ROk r -> Forall (fun c => exists p, f c = ROk p) subs.
Proof.
  revert buf a b. induction subs as [|c subs IH]=> buf a b; first by constructor. cbn [loop].
  destruct (f c) as [| |[|p ps]] eqn:Hf; try done. intros H. constructor; [exists (p :: ps); exact Hf|exact (IH _ _ _ H)].
Qed.
Lemma calc_spec reg us t prof : calc_profile reg us t = ROk prof ->
  prof = map (expected reg us) (subtrees t) /\ Forall (fun s => is_Some (url_of us (tr_id s))) (subtrees t) /\
  Forall (fun s => snd (unmarshal_events reg (tr_anns s)) = EsOk) (subtrees t).
Proof.
  revert prof. induction t as [i anns subs IH] using tree_ind'. intros prof. rewrite calc_unfold.
  destruct (unmarshal_events reg anns) as [events [| |]] eqn:Hu; try done.
  destruct (url_of us i) as [u|] eqn:Hurl; last done. intros Hl.
  assert (Forall (fun c => forall prof, calc_profile reg us c = ROk prof -> prof = map (expected reg us) (subtrees c)) subs) as H1.
  { eapply Forall_impl; first exact IH. intros c Hc p Hp. by apply Hc. }
  assert (prof_time events = own reg (Tree i anns subs)) as Ht by by rewrite /own /= Hu.
  pose proof (loop_spec reg us _ _ _ H1 _ _ _ _ Hl) as H2. rewrite Ht in H2.
  specialize (H2 (own_int64 _ _) (own_int64 _ _)). cbn beta in H2. injection H2 as <-. split.
  - cbn [subtrees map]. f_equal. rewrite /expected. cbn [tr_id tr_subs]. by rewrite Hurl.
  - assert (Forall (fun c => is_Some (url_of us (tr_id c)) /\ snd (unmarshal_events reg (tr_anns c)) = EsOk) (concat (map subtrees subs))) as H3.
    { apply loop_all in Hl. clear -IH Hl. induction IH as [|c subs Hc _ IHs]; first by constructor.
      inversion Hl as [|? ? [p Hp] Hl']; subst. cbn [map concat]. apply Forall_app. split; last by apply IHs.
      destruct (Hc _ Hp) as (_ & F1 & F2). apply Forall_forall. intros s Hs. rewrite !Forall_forall in F1, F2. auto. }
    cbn [subtrees]. split.
    + constructor; [cbn; rewrite Hurl; by eexists|]. eapply Forall_impl; [exact H3|]. by intros ? [? _].
    + constructor; [cbn [tr_anns]; by rewrite Hu|]. eapply Forall_impl; [exact H3|]. by intros ? [_ ?].
Qed.

Lemma own_all reg l times : Forall2 (longest reg) l times -> times = map (own reg) l.
Proof.
  induction 1 as [|t x l times H _ IH]; first done. cbn [map]. rewrite -IH. f_equal.
  exact (longest_unique _ _ _ _ H (own_longest reg t)).
Qed.
Lemma all_own reg l : Forall2 (longest reg) l (map (own reg) l).
Proof. induction l; constructor; [apply own_longest|done]. Qed.
Lemma own_nonneg reg t : 0 <= own reg t.
Proof. by destruct (own_longest reg t) as (_ & ? & _). Qed.
Lemma sum_own_nonneg reg l : 0 <= sum (map (own reg) l).
Proof. induction l as [|t l IH]; first done. cbn [map]. rewrite sum_cons. pose proof (own_nonneg reg t). lia. Qed.

(** calcProfile fails only because of events or URLs. *)
Lemma calc_total reg us t :
  (forall anns, snd (unmarshal_events reg anns) = EsOk) -> (forall i, is_Some (url_of us i)) -> exists p ps, calc_profile reg us t = ROk (p :: ps).
Proof.
  intros Hr Hu. induction t as [i anns subs IH] using tree_ind'. rewrite calc_unfold.
  pose proof (Hr anns) as Ha. destruct (unmarshal_events reg anns) as [events st]. cbn [snd] in Ha. subst st.
  destruct (Hu i) as [u ->]. generalize (prof_time events) at 3 as cum. generalize (prof_time events) at 2 as children. generalize (@nil profile) as buf.
  induction IH as [|c subs (p & ps & Hc) _ IHs]=> buf children cum; cbn [loop]; [eauto|]. rewrite Hc. apply IHs.
Qed.

(** ** aggregate *)
Lemma amounts_app label a b : amounts label (a ++ b) = amounts label a ++ amounts label b.
Proof. by rewrite /amounts filter_app map_app. Qed.
Definition bump (acc x : Z) : Z := let v := int64 (acc + x) in if v =? 0 then 1 else v.
Lemma ups_lookup l (m : gmap string Z) label :
  fold_left up l m !! label =
  match amounts label l with [] => m !! label | a => Some (fold_left bump a (default 0 (m !! label))) end.
Proof.
  revert m. induction l as [|[k x] l IH]=> m; first done. cbn [fold_left]. rewrite IH /amounts filter_cons. cbn [fst].
  destruct (decide (k = label)) as [->|Hne]; cbn [map snd fold_left].
  - rewrite {1 2}/up. cbn [fst snd]. rewrite !lookup_insert. cbn [default]. by destruct (map snd _).
  - rewrite /up. cbn [fst snd]. rewrite !lookup_insert_ne //.
Qed.
Lemma sum_nonneg l : Forall (fun x => 0 <= x) l -> 0 <= sum l.
Proof. induction 1; rewrite ?sum_cons; [done|lia]. Qed.
Lemma bump_pos l acc : 0 < acc -> Forall (fun x => 0 <= x) l -> acc + sum l < 2 ^ 63 -> fold_left bump l acc = acc + sum l.
Proof.
  intros Ha Hl. revert acc Ha. induction Hl as [|x l Hx Hl IH]=> acc Ha Hs; [cbn; lia|]. rewrite sum_cons in Hs |- *.
  pose proof (sum_nonneg l Hl).
  cbn [fold_left]. assert (bump acc x = acc + x) as ->; [|rewrite IH; lia].
  rewrite /bump (int64_small (acc + x) ltac:(lia)). destruct (Z.eqb_spec (acc + x) 0); lia.
Qed.
Lemma bump_zero a l : Forall (fun x => 0 <= x) (a :: l) -> sum (a :: l) + 1 < 2 ^ 63 ->
  fold_left bump (a :: l) 0 = a + sum l + (if a =? 0 then 1 else 0).
Proof.
  intros [Ha Hl]%Forall_cons. rewrite sum_cons=> Hs.
  pose proof (sum_nonneg l Hl).
  cbn [fold_left]. assert (bump 0 a = if a =? 0 then 1 else a) as ->.
  { rewrite /bump (int64_small (0 + a) ltac:(lia)). by cbn [Z.add]. }
  destruct (Z.eqb_spec a 0); rewrite bump_pos //; lia.
Qed.

Lemma ups_counted mode p ps : ups mode p ps = counted mode (p :: ps).
Proof. by destruct mode. Qed.
Lemma aggregate_loop_spec reg us mode traces m0 m : aggregate_loop reg us mode traces m0 = ROk m ->
  exists profs, Forall2 (fun t prof => calc_profile reg us t = ROk prof) traces profs /\ m = fold_left up (concat (map (counted mode) profs)) m0.
Proof.
  revert m0. induction traces as [|t traces IH]=> m0; cbn [aggregate_loop].
  { intros [= <-]. exists []. by split; [constructor|]. }
  destruct (calc_profile reg us t) as [| |[|p ps]] eqn:Hc; try done. intros (profs & H1 & ->)%IH.
  exists ((p :: ps) :: profs). split; [by constructor|]. rewrite ups_counted. cbn [map concat]. by rewrite fold_left_app.
Qed.

(** The amounts are not negative and are small enough. *)
Lemma counted_bound reg us mode t prof : calc_profile reg us t = ROk prof ->
  sum (map (own reg) (subtrees t)) < 2 ^ 63 ->
  Forall (fun x => 0 <= snd x) (counted mode prof) /\ sum (map snd (counted mode prof)) <= sum (map (own reg) (subtrees t)).
Proof.
  intros (-> & _ & _)%calc_spec Hs. destruct t as [i anns subs]. cbn [subtrees map] in Hs |- *. rewrite sum_cons in Hs.
  set (sp := concat (map subtrees subs)) in *. set (r := Tree i anns subs) in *. pose proof (own_nonneg reg r). pose proof (sum_own_nonneg reg sp).
  rewrite sum_cons. destruct mode; cbn [counted].
  - cbn [map snd]. rewrite sum_cons. cbn [sum foldr]. split.
    + apply Forall_singleton. cbn [snd expected pf_cum]. cbn [subtrees r]. fold sp. cbn [map]. rewrite sum_cons. fold r. rewrite int64_small; lia.
    + cbn [expected pf_cum subtrees r]. fold sp. cbn [map]. rewrite sum_cons. fold r. rewrite int64_small; lia.
  - rewrite !map_map. cbn [snd expected pf_time]. rewrite Forall_map. split.
    + apply Forall_true. intros x. apply own_nonneg.
    + change (map (fun x => own reg x) sp) with (map (own reg) sp). lia.
  - rewrite !map_map. cbn [snd expected pf_time]. rewrite Forall_map. split.
    + apply Forall_true. intros x. apply own_nonneg.
    + change (map (fun x => own reg x) sp) with (map (own reg) sp). lia.
Qed.
Lemma all_counted_bound reg us mode traces profs : Forall2 (fun t prof => calc_profile reg us t = ROk prof) traces profs ->
  sum (map (own reg) (concat (map subtrees traces))) < 2 ^ 63 ->
  Forall (fun x => 0 <= snd x) (concat (map (counted mode) profs)) /\
  sum (map snd (concat (map (counted mode) profs))) <= sum (map (own reg) (concat (map subtrees traces))).
Proof.
  induction 1 as [|t prof traces profs Hc _ IH]; first by cbn; split; [constructor|lia].
  cbn [map concat]. rewrite !map_app !sum_app=> Hs. pose proof (sum_own_nonneg reg (subtrees t)). pose proof (sum_own_nonneg reg (concat (map subtrees traces))).
  destruct (counted_bound reg us mode t prof Hc ltac:(lia)) as [H1 H2]. destruct (IH ltac:(lia)) as [H3 H4].
  split; [by apply Forall_app|lia].
Qed.
Lemma amounts_bound label l : Forall (fun x => 0 <= snd x) l ->
  Forall (fun x => 0 <= x) (amounts label l) /\ 0 <= sum (amounts label l) <= sum (map snd l).
Proof.
  induction 1 as [|[k x] l Hx _ IH]; first by cbn; split; [constructor|lia]. destruct IH as [H1 H2]. cbn [snd] in Hx.
  rewrite /amounts filter_cons. cbn [fst map snd]. rewrite sum_cons. destruct (decide (k = label)); cbn [map snd].
  - rewrite sum_cons. split; [by constructor|]. rewrite -/(amounts label l). lia.
  - rewrite -/(amounts label l). split; [done|lia].
Qed.
