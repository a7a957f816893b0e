From Verif Require Import Base LockModel LockSpec.
From Coq Require Import Sorted.
Open Scope nat_scope.

Fixpoint asz (a : act) : nat := match a with Go s => S (list_sum (map asz s)) | _ => 1 end.
Definition ssz (s : list act) : nat := list_sum (map asz s).
Definition msr (st : list thread) : nat := list_sum (map (fun x => ssz (snd x)) st).

Lemma msr_app a b : msr (a ++ b) = msr a + msr b.
Proof. unfold msr. by rewrite map_app, list_sum_app. Qed.
Lemma step_msr st st' : step st st' -> msr st = S (msr st').
Proof.
  assert (forall h s b, msr ((h, s) :: b) = ssz s + msr b) as E by done. assert (forall a s, ssz (a :: s) = asz a + ssz s) as E' by done.
  assert (forall s, asz (Go s) = S (ssz s)) as E'' by done. assert (msr [] = 0) as E0 by done.
  destruct 1; repeat (rewrite ?msr_app, ?E, ?E', ?E'', ?E0); cbn [asz]; unfold thread in *; lia.
Qed.
Lemma steps_msr n st st' : steps n st st' -> msr st = n + msr st'.
Proof. induction 1 as [|n a b c _ IH H]; [done|]. apply step_msr in H. lia. Qed.

Section rank.
Context (rk : N -> nat) (slow : N -> bool).
Inductive ok : list N -> list act -> Prop :=
| ok_nil : ok [] []
| ok_acq h l s : (forall x, In x h -> rk l < rk x) -> (slow l = true -> forall x, In x h -> slow x = true) -> ok (l :: h) s -> ok h (Acq l :: s)
| ok_rel h l s : ok h s -> ok (l :: h) (Rel l :: s)
| ok_act h s : ok h s -> ok h (Act :: s)
| ok_go h s' s : ok [] s' -> ok h s -> ok h (Go s' :: s)
| ok_forever h s : (forall x, In x h -> slow x = true) -> ok h s -> ok h (Forever :: s).
Definition oks (st : list thread) : Prop := forall h s, In (h, s) st -> ok h s.

(** Held mutexes are different, as their ranks are. *)
Definition descends (h : list N) : Prop := StronglySorted (fun a b => rk a < rk b) h.
Definition inv (st : list thread) : Prop := oks st /\ forall h s, In (h, s) st -> descends h.

Lemma inv_mid a h s b h' s' : inv (a ++ (h, s) :: b) -> ok h' s' -> descends h' -> inv (a ++ (h', s') :: b).
Proof.
  intros [H1 H2] Ho Hd. split; intros x y Hin; apply in_app_iff in Hin as [Hin|[[= <- <-]|Hin]]; try done; try (apply H1 || eapply H2); apply in_app_iff; cbn; eauto.
Qed.
Lemma inv_at a h s b : inv (a ++ (h, s) :: b) -> ok h s /\ descends h.
Proof. intros [H1 H2]. split; [apply H1|apply (H2 _ s)]; apply in_app_iff; right; by left. Qed.
Lemma sorted_mid h1 l h2 y h' : l :: h' = h1 ++ y :: h2 -> descends (l :: h') -> y = l -> h1 = [] /\ h2 = h'.
Proof.
  destruct h1 as [|z h1]; cbn; intros E Hd ->; [by injection E as ->|]. exfalso. injection E as -> ->. inversion Hd as [|? ? _ Hf]; subst.
  rewrite Forall_forall in Hf. specialize (Hf z). assert (z ∈ h1 ++ z :: h2) as Hz by (apply elem_of_app; right; by left). specialize (Hf Hz). lia.
Qed.
Lemma step_inv st st' : inv st -> step st st' -> inv st'.
Proof.
  intros Hi Hs. destruct Hs as [a h l s b _|a h1 l h2 s b|a h s b|a h s' s b]; destruct (inv_at _ _ _ _ Hi) as [Ho Hd].
  - inversion Ho as [|? ? ? Hr _ Ho'| | | |]; subst. apply (inv_mid _ _ _ _ _ _ Hi); [done|]. constructor; [done|]. apply Forall_forall. intros x Hx%elem_of_list_In. by apply Hr.
  - remember (h1 ++ l :: h2) as h eqn:Eh. inversion Ho as [| |h' l' s'' Ho'| | |]; subst. rewrite <- H in Hd. destruct (sorted_mid h1 l h2 l h' H Hd eq_refl) as [-> ->]. apply (inv_mid _ _ _ _ _ _ Hi); [done|]. by inversion Hd.
  - inversion Ho; subst. by apply (inv_mid _ _ _ _ _ _ Hi).
  - inversion Ho; subst. assert (inv (a ++ (h, s) :: b)) as [K1 K2] by (by apply (inv_mid _ _ _ _ _ _ Hi)).
    rewrite app_comm_cons, app_assoc. split; intros x y Hin; apply in_app_iff in Hin as [Hin|[[= <- <-]|[]]]; try done; [by apply K1|by apply (K2 _ y)|constructor].
Qed.
Lemma steps_inv n st st' : inv st -> steps n st st' -> inv st'.
Proof. intros Hi. induction 1 as [|n a b c _ IH H]; [done|]. eapply step_inv; [|done]. by apply IH. Qed.

Lemma held_dec l (st : list thread) : (exists h s, In (h, s) st /\ In l h) \/ (forall h s, In (h, s) st -> ~ In l h).
Proof.
  induction st as [|[h s] st [(h' & s' & H1 & H2)|IH]]; [by right|left; exists h', s'; split; [by right|done]|].
  destruct (decide (l ∈ h)) as [E|E]; [left; exists h, s; split; [by left|by apply elem_of_list_In]|].
  right. intros h' s' [[= <- <-]|Hin] Hl; [by apply E, elem_of_list_In|by apply (IH h' s')].
Qed.
Lemma quick_free st : inv st -> forall n l h k, rk l <= n -> In (h, Acq l :: k) st -> slow l = false -> exists st', step st st'.
Proof.
  intros [Ho _]. induction n as [n IH] using lt_wf_ind. intros l h k Hn Hin Hq.
  destruct (held_dec l st) as [(h' & s' & Hin' & Hl)|Hfree].
  - pose proof (Ho _ _ Hin') as Ho'. destruct (in_split _ _ Hin') as (a & b & ->). inversion Ho' as [|? l' ? Hr Hsl|h0 l0 s0|? ?| |? ? Hf]; subst.
    + done.
    + specialize (Hr l Hl). assert (slow l' = false) as Hq'. { destruct (slow l') eqn:E; [|done]. specialize (Hsl eq_refl l Hl). congruence. }
      apply (IH (rk l') ltac:(lia) l' h' s ltac:(lia)); [|done]. apply in_app_iff. right. by left.
    + eexists. apply (St_rel a [] l0 h0 s0 b).
    + eexists. apply St_act.
    + eexists. apply St_go.
    + specialize (Hf l Hl). congruence.
  - destruct (in_split _ _ Hin) as (a & b & ->). eexists. apply St_acq. exact Hfree.
Qed.
Definition resting (h : list N) (s : list act) : Prop :=
  s = [] \/ (exists k, s = Forever :: k /\ forall x, In x h -> slow x = true) \/ (exists l k, s = Acq l :: k /\ slow l = true).
Lemma progress st : inv st -> (exists st', step st st') \/ forall h s, In (h, s) st -> resting h s.
Proof.
  intros Hi. assert (forall h s, In (h, s) st -> (exists st', step st st') \/ resting h s) as H.
  { intros h s Hin. pose proof (proj1 Hi _ _ Hin) as Ho. destruct (in_split _ _ Hin) as (a & b & E). inversion Ho as [|? l k _ _ _|h0 l0 s0|? ?| |? ? Hf]; subst.
    - right. by left.
    - destruct (slow l) eqn:Es; [right; right; right; by exists l, k|]. left. by apply (quick_free _ Hi (rk l) l h k).
    - left. eexists. apply (St_rel a [] l0 h0 s0 b).
    - left. eexists. apply St_act.
    - left. eexists. apply St_go.
    - right. right. left. by eexists. }
  clear Hi. revert H. generalize (exists st', step st st') as P. intros P. induction st as [|[h0 s0] st IH]; intros H; [by right|].
  destruct (H h0 s0) as [?|H0]; [by left|by left|]. destruct IH as [?|IH]; [intros h s ?; apply H; by right|by left|].
  right. intros h s [[= <- <-]|Hin]; [done|by apply IH].
Qed.
End rank.

(** The ranks. *)
Fixpoint height (c : coll) : nat :=
  match c with
  | CMem _ | CRemote _ _ => 1
  | CLimit _ c | CRecent _ c | CChunked _ c => S (height c)
  | CMulti cs => fold_right (fun c n => height c `max` n) 0 cs
  end.
Fixpoint waits (wmem wnet : bool) (c : coll) : bool :=
  match c with
  | CMem _ => wmem
  | CRemote _ _ => wnet
  | CLimit _ c | CRecent _ c => waits wmem wnet c
  | CChunked _ _ => false
  | CMulti cs => existsb (waits wmem wnet) cs
  end.
Definition waits_in (wmem wnet : bool) (c : coll) (me : meth) : bool :=
  match c, me with CChunked _ c, MFlush => waits wmem wnet c | _, _ => waits wmem wnet c end.
Definition slow_of (wmem wnet : bool) (c : coll) : bool :=
  match c with CMem _ => wmem | CRemote _ _ => wnet | CLimit _ c => waits wmem wnet c | _ => false end.

Section objs.
Context (wmem wnet : bool) (U : list coll).
Context (Hm : forall a b, In a U -> In b U -> mutex a = mutex b -> a = b).
Context (Hlog : forall m lm b, In (CRemote m lm) U -> In b U -> mutex b <> Some lm).
Definition holder (l : N) : option coll := find (fun c => bool_decide (mutex c = Some l)) U.
Definition rk (l : N) : nat := match holder l with Some c => height c | None => 0 end.
Definition slow (l : N) : bool := match holder l with Some c => slow_of wmem wnet c | None => false end.

Lemma holder_of c m : In c U -> mutex c = Some m -> holder m = Some c.
Proof.
  intros Hc Em. unfold holder. destruct (find _ U) as [c'|] eqn:E.
  - apply find_some in E as [H1 H2%bool_decide_eq_true]. f_equal. apply Hm; congruence.
  - apply (find_none _ _ E) in Hc. by apply bool_decide_eq_false in Hc.
Qed.
Lemma rk_of c m : In c U -> mutex c = Some m -> rk m = height c.
Proof. intros H1 H2. unfold rk. by rewrite (holder_of c). Qed.
Lemma slow_mutex c m : In c U -> mutex c = Some m -> slow m = slow_of wmem wnet c.
Proof. intros H1 H2. unfold slow. by rewrite (holder_of c). Qed.
Lemma holder_none l : (forall c, In c U -> mutex c <> Some l) -> holder l = None.
Proof.
  intros H. unfold holder. destruct (find _ U) as [c'|] eqn:E; [|done]. apply find_some in E as [H1 H2%bool_decide_eq_true]. by destruct (H c').
Qed.
Notation okay := (ok rk slow).

Lemma ok_section m h k : (forall x, In x h -> rk m < rk x) -> (slow m = true -> forall x, In x h -> slow x = true) -> okay h k -> okay h (section m ++ k).
Proof. intros H1 H2 H3. cbn. by repeat constructor. Qed.
Lemma ok_logs lm n h k : (forall x, In x h -> 0 < rk x) -> holder lm = None -> okay h k -> okay h (sections (repeat lm n) ++ k).
Proof.
  intros H1 H2 H3. induction n as [|n IH]; [done|]. cbn [repeat sections]. rewrite <- app_assoc. apply ok_section; [|by unfold slow; rewrite H2|done].
  intros x Hx. unfold rk at 1. rewrite H2. by apply H1.
Qed.

Scheme runs_mut := Minimality for runs Sort Prop
with loops_mut := Minimality for loops Sort Prop
with sends_mut := Minimality for sends Sort Prop
with on_flush_mut := Minimality for on_flush Sort Prop.
Combined Scheme runs_all from runs_mut, loops_mut, sends_mut, on_flush_mut.

Definition above (c : coll) (h : list N) : Prop := forall x, In x h -> height c < rk x.
Definition slowly (w : bool) (h : list N) : Prop := w = true -> forall x, In x h -> slow x = true.
Lemma runs_ok :
  (forall c me s, runs wmem wnet c me s -> incl (parts c) U -> forall h k, above c h -> slowly (waits_in wmem wnet c me) h -> okay h k -> okay h (s ++ k)) /\
  (forall m c b, loops wmem wnet m c b -> incl (parts (CChunked m c)) U -> forall k, okay [] k -> okay [] (b ++ k)) /\
  (forall m c s, sends wmem wnet m c s -> incl (parts (CChunked m c)) U -> forall h k, above (CChunked m c) h -> slowly (waits wmem wnet c) h -> okay h k -> okay h (s ++ k)) /\
  (forall m c o, on_flush wmem wnet m c o -> incl (parts (CChunked m c)) U -> forall h k, above (CChunked m c) h -> okay h k -> okay h (o ++ k)).
Proof.
  assert (forall m c, incl (parts (CChunked m c)) U -> rk m = S (height c) /\ slow m = false) as Hch.
  { intros m c Hi. assert (In (CChunked m c) U) as Hin by (apply Hi; by left). by rewrite (rk_of _ m Hin eq_refl), (slow_mutex _ m Hin eq_refl). }
  assert (forall m c, incl (parts (CLimit m c)) U -> rk m = S (height c) /\ slow m = waits wmem wnet c) as Hli.
  { intros m c Hi. assert (In (CLimit m c) U) as Hin by (apply Hi; by left). by rewrite (rk_of _ m Hin eq_refl), (slow_mutex _ m Hin eq_refl). }
  assert (forall m c, incl (parts (CRecent m c)) U -> rk m = S (height c) /\ slow m = false) as Hre.
  { intros m c Hi. assert (In (CRecent m c) U) as Hin by (apply Hi; by left). by rewrite (rk_of _ m Hin eq_refl), (slow_mutex _ m Hin eq_refl). }
  assert (forall m c h s k, rk m = S (height c) -> slow m = waits wmem wnet c -> above (CLimit m c) h -> slowly (waits wmem wnet c) h -> okay h k ->
    (okay (m :: h) (Rel m :: k) -> okay (m :: h) (s ++ Rel m :: k)) -> okay h (Acq m :: s ++ Rel m :: k)) as Hlock.
  { intros m c h s k E1 E2 Ha Hw Ho Hs. constructor; [rewrite E1; exact Ha|rewrite E2; exact Hw|]. apply Hs. by constructor. }
  assert (forall m c h, rk m = S (height c) -> above (CLimit m c) h -> above c (m :: h)) as Hup.
  { intros m c h E Ha x [<-|Hx]; [rewrite E; lia|]. specialize (Ha x Hx). cbn in Ha. lia. }
  assert (forall m w h, slow m = w -> slowly w h -> slowly w (m :: h)) as Hsl.
  { intros m w h E Hw Ew x [<-|Hx]; [congruence|by apply Hw]. }
  apply runs_all.
  - (* mem *) intros m me _ Hi h k Ha Hw Ho. assert (In (CMem m) U) as Hin by (apply Hi; by left). apply ok_section; [|rewrite (slow_mutex _ m Hin eq_refl); destruct me; exact Hw|done].
    rewrite (rk_of _ m Hin eq_refl). exact Ha.
  - (* endless *) intros m Ew Hi h k Ha Hw Ho. assert (In (CMem m) U) as Hin by (apply Hi; by left). assert (slow m = true) as Es by (rewrite (slow_mutex _ m Hin eq_refl); done).
    cbn. assert (forall x, In x h -> slow x = true) as Hs by (apply Hw; done). constructor; [rewrite (rk_of _ m Hin eq_refl); exact Ha|done|].
    constructor; [|by constructor]. intros x [<-|Hx]; [done|by apply Hs].
  - (* off *) intros m c Hi h k Ha Hw Ho. by constructor.
  - intros m c s _ IH Hi h k Ha Hw Ho. destruct (Hli m c Hi) as [E1 E2]. cbn. rewrite <- app_assoc. apply (Hlock m c); [done..|]. intros Ho'. apply IH; [intros x Hx; apply Hi; by right|by apply Hup|by destruct c; apply Hsl|done].
  - intros m c s _ IH Hi h k Ha Hw Ho. destruct (Hli m c Hi) as [E1 E2]. cbn. rewrite <- app_assoc. apply (Hlock m c); [done..|]. intros Ho'. apply IH; [intros x Hx; apply Hi; by right|by apply Hup|by destruct c; apply Hsl|done].
  - intros m c s1 s2 _ IH1 _ IH2 Hi h k Ha Hw Ho. destruct (Hli m c Hi) as [E1 E2]. cbn. rewrite <- !app_assoc. rewrite (app_assoc s1). apply (Hlock m c); [done..|]. intros Ho'. rewrite <- app_assoc.
    apply IH1; [intros x Hx; apply Hi; by right|by apply Hup|by destruct c; apply Hsl|].
    apply IH2; [intros x Hx; apply Hi; by right|by apply Hup|by destruct c; apply Hsl|done].
  - intros m c me s Hme _ IH Hi h k Ha Hw Ho. apply IH; [intros x Hx; apply Hi; by right|intros x Hx; specialize (Ha x Hx); cbn in Ha; lia| |done].
    destruct Hme as [<-|[<-|[]]]; cbn in Hw; destruct c; exact Hw.
  - intros m c s _ IH Hi h k Ha Hw Ho. destruct (Hre m c Hi) as [E1 E2]. rewrite <- app_assoc. apply ok_section; [rewrite E1; exact Ha|by rewrite E2|].
    apply IH; [intros x Hx; apply Hi; by right|intros x Hx; specialize (Ha x Hx); cbn in Ha; lia|destruct c; exact Hw|done].
  - intros m c s d _ IH _ IHd Hi h k Ha Hw Ho. destruct (Hre m c Hi) as [E1 E2]. cbn. constructor; [rewrite E1; exact Ha|by rewrite E2|]. constructor. constructor.
    + rewrite <- (app_nil_r d). apply IHd; [intros x Hx; apply Hi; by right|intros x []|intros _ x []|constructor].
    + constructor. apply IH; [intros x Hx; apply Hi; by right|intros x Hx; specialize (Ha x Hx); cbn in Ha; lia|destruct c; exact Hw|done].
  - intros m c me s Hme _ IH Hi h k Ha Hw Ho. apply IH; [intros x Hx; apply Hi; by right|intros x Hx; specialize (Ha x Hx); cbn in Ha; lia| |done].
    destruct Hme as [<-|[<-|[]]]; cbn in Hw; destruct c; exact Hw.
  - (* multi *) done.
  - intros c cs me s Hme _ IH Hi h k Ha Hw Ho. apply IH; [intros x Hx; apply Hi; cbn; apply in_app_iff; by left|intros x Hx; specialize (Ha x Hx); cbn in Ha; lia| |done].
    intros E. apply Hw. assert (waits wmem wnet c = true) as Ec by (destruct Hme as [<-|[<-|[<-|[]]]]; destruct c; done). cbn. by rewrite Ec.
  - intros c cs me s1 s2 Hme _ IH1 _ IH2 Hi h k Ha Hw Ho. rewrite <- app_assoc.
    apply IH1; [intros x Hx; apply Hi; cbn; apply in_app_iff; by left|intros x Hx; specialize (Ha x Hx); cbn in Ha; lia| |].
    + intros E. apply Hw. assert (waits wmem wnet c = true) as Ec by (destruct Hme as [<-|[<-|[<-|[]]]]; destruct c; done). cbn. by rewrite Ec.
    + apply IH2; [intros x Hx; apply Hi; cbn; apply in_app_iff; by right|intros x Hx; specialize (Ha x Hx); cbn in Ha |- *; lia| |done].
      intros E. apply Hw. cbn in E |- *. rewrite E. by rewrite orb_true_r.
  - (* chunked *) intros m c Hi h k Ha Hw Ho. destruct (Hch m c Hi) as [E1 E2]. apply ok_section; [rewrite E1; exact Ha|by rewrite E2|done].
  - intros m c b _ IH Hi h k Ha Hw Ho. destruct (Hch m c Hi) as [E1 E2]. cbn. constructor; [rewrite E1; exact Ha|by rewrite E2|].
    constructor; [|by repeat constructor]. rewrite <- (app_nil_r b). apply IH; [done|constructor].
  - (* flush *) intros m c o s _ IHo _ IHs Hi h k Ha Hw Ho. destruct (Hch m c Hi) as [E1 E2]. rewrite <- !app_assoc. apply ok_section; [rewrite E1; exact Ha|by rewrite E2|].
    apply IHo; [done|done|]. by apply IHs.
  - intros m c Hi h k Ha Hw Ho. destruct (Hch m c Hi) as [E1 E2]. apply ok_section; [rewrite E1; exact Ha|by rewrite E2|done].
  - (* remote *) intros m lm n Hi h k Ha Hw Ho. assert (In (CRemote m lm) U) as Hin by (apply Hi; by left). cbn. rewrite <- app_assoc.
    constructor; [rewrite (rk_of _ m Hin eq_refl); exact Ha|rewrite (slow_mutex _ m Hin eq_refl); exact Hw|].
    apply ok_logs; [|apply holder_none; intros b Hb; by apply (Hlog m lm b)|by repeat constructor].
    intros x [<-|Hx]; [rewrite (rk_of _ m Hin eq_refl); cbn; lia|specialize (Ha x Hx); lia].
  - intros m lm n Ew Hi h k Ha Hw Ho. assert (In (CRemote m lm) U) as Hin by (apply Hi; by left). cbn. rewrite <- app_assoc.
    constructor; [rewrite (rk_of _ m Hin eq_refl); exact Ha|rewrite (slow_mutex _ m Hin eq_refl); exact Hw|].
    apply ok_logs; [|apply holder_none; intros b Hb; by apply (Hlog m lm b)|].
    + intros x [<-|Hx]; [rewrite (rk_of _ m Hin eq_refl); cbn; lia|specialize (Ha x Hx); lia].
    + cbn. constructor; [|by constructor]. intros x [<-|Hx]; [by rewrite (slow_mutex _ m Hin eq_refl)|]. apply Hw; [done|done].
  - intros m lm Hi h k Ha Hw Ho. assert (In (CRemote m lm) U) as Hin by (apply Hi; by left). apply ok_section; [rewrite (rk_of _ m Hin eq_refl); exact Ha|rewrite (slow_mutex _ m Hin eq_refl); exact Hw|done].
  - done.
  - intros m c f b _ IHf _ IHb Hi k Ho. rewrite <- app_assoc. apply IHf; [done|intros x []|intros _ x []|]. by apply IHb.
  - intros m c f b _ IHf _ IHb Hi k Ho. destruct (Hch m c Hi) as [E1 E2]. rewrite <- !app_assoc. apply IHf; [done|intros x []|intros _ x []|]. apply ok_section; [intros x []|intros _ x []|]. by apply IHb.
  - done.
  - intros m c s r _ IHs _ IHr Hi h k Ha Hw Ho. rewrite <- app_assoc. apply IHs; [intros x Hx; apply Hi; by right|intros x Hx; specialize (Ha x Hx); cbn in Ha; lia|destruct c; exact Hw|by apply IHr].
  - intros m c s _ IHs Hi h k Ha Hw Ho. destruct (Hch m c Hi) as [E1 E2]. rewrite <- app_assoc. apply IHs; [intros x Hx; apply Hi; by right|intros x Hx; specialize (Ha x Hx); cbn in Ha; lia|destruct c; exact Hw|].
    apply ok_section; [rewrite E1; exact Ha|by rewrite E2|done].
  - done.
  - intros m c o _ IH Hi h k Ha Ho. constructor. by apply IH.
  - intros m c me s o Hme _ IHs _ IHo Hi h k Ha Ho. rewrite <- app_assoc. apply IHs; [done|done| |by apply IHo]. destruct Hme as [<-|[<-|[]]]; by intros [=].
Qed.
End objs.

Lemma parts_in objs c : In c objs -> incl (parts c) (flat_map parts objs).
Proof. intros Hc x Hx. apply in_flat_map. by exists c. Qed.
Lemma prog_ok wmem wnet objs s : own_mutexes objs -> prog wmem wnet objs s -> ok (rk (flat_map parts objs)) (slow wmem wnet (flat_map parts objs)) [] s.
Proof.
  intros [Hm Hlog]. induction 1 as [|c me s k Hc Hr _ IH|m k _ IH|k _ IH|s k _ IHs _ IH|k _ IH].
  - constructor.
  - apply (proj1 (runs_ok wmem wnet _ Hm Hlog) c me s Hr (parts_in _ _ Hc)); [intros x []|intros _ x []|done].
  - apply ok_section; [intros x []|intros _ x []|done].
  - by constructor.
  - by constructor.
  - by constructor.
Qed.
Lemma start_inv wmem wnet objs scripts : own_mutexes objs -> program wmem wnet objs scripts ->
  inv (rk (flat_map parts objs)) (slow wmem wnet (flat_map parts objs)) (start scripts).
Proof.
  intros Ho Hp. unfold program in Hp. rewrite Forall_forall in Hp. split; intros h s Hin; apply in_map_iff in Hin as (s' & [= <- <-] & Hs).
  - apply prog_ok; [done|]. apply Hp. by apply elem_of_list_In.
  - constructor.
Qed.
Lemma waits_none : forall c, waits false false c = false.
Proof.
  fix IH 1. intros [m|m c|m c|cs|m c|m lm]; cbn; [done|apply IH|apply IH| |done|done]. induction cs as [|c cs IHc]; [done|]. cbn. by rewrite IH, IHc.
Qed.
Lemma slow_none U l : slow false false U l = false.
Proof. unfold slow. destruct (holder U l) as [[]|]; try done. apply waits_none. Qed.

(** A goroutine keeps its place, and its script only shrinks. *)
Lemma step_at st st' i h s : step st st' -> st !! i = Some (h, s) -> exists h' s', st' !! i = Some (h', s') /\ (s' = s \/ exists a, s = a :: s').
Proof.
  assert (forall (a b : list thread) x y t, (a ++ x :: b) !! i = Some t -> (t = x /\ (a ++ y :: b) !! i = Some y) \/ (a ++ y :: b) !! i = Some t) as Hmid.
  { intros a b x y t Hi. destruct (decide (i < length a)) as [E|E].
    - right. by rewrite lookup_app_l in Hi |- *.
    - rewrite lookup_app_r in Hi |- * by lia. destruct (i - length a) as [|n]; cbn in *; [left; by injection Hi as ->|by right]. }
  intros Hs Hi. destruct Hs as [a h0 l s0 b _|a h1 l h2 s0 b|a h0 s0 b|a h0 s1 s0 b].
  - destruct (Hmid a b _ (l :: h0, s0) _ Hi) as [[[= -> ->] H]|H]; eexists _, _; (split; [exact H|eauto]).
  - destruct (Hmid a b _ (h1 ++ h2, s0) _ Hi) as [[[= -> ->] H]|H]; eexists _, _; (split; [exact H|eauto]).
  - destruct (Hmid a b _ (h0, s0) _ Hi) as [[[= -> ->] H]|H]; eexists _, _; (split; [exact H|eauto]).
  - rewrite app_comm_cons, app_assoc. destruct (Hmid a b _ (h0, s0) _ Hi) as [[[= -> ->] H]|H]; eexists _, _; (split; [apply lookup_app_l_Some; exact H|eauto]).
Qed.
Definition calm (sl : N -> bool) (a : act) : Prop := match a with Acq l => sl l = false | Forever => False | _ => True end.
Lemma steps_at (sl : N -> bool) n st st' i h s : steps n st st' -> st !! i = Some (h, s) -> Forall (calm sl) s -> exists h' s', st' !! i = Some (h', s') /\ Forall (calm sl) s'.
Proof.
  intros Hs Hi Hc. induction Hs as [|n st1 st2 st3 _ IH H]; [eauto|]. destruct (IH Hi) as (h1 & s1 & Hi1 & Hc1).
  destruct (step_at _ _ _ _ _ H Hi1) as (h2 & s2 & Hi2 & [->|[a ->]]); exists h2; eauto. inversion Hc1; subst. eauto.
Qed.
Lemma records_calm wmem wnet objs s : own_mutexes objs -> records wmem wnet objs s -> Forall (calm (slow wmem wnet (flat_map parts objs))) s.
Proof.
  intros [Hm Hlog]. induction 1 as [|m c me s k Hc Hme Hr _ IH|m k Hfree _ IH|k _ IH]; [constructor| | |].
  - assert (slow wmem wnet (flat_map parts objs) m = false) as E by (by rewrite (slow_mutex _ _ _ Hm _ m Hc)).
    apply Forall_app. split; [|done]. inversion Hr; subst; cbn in *; try (destruct Hme as [|[|[]]]; discriminate); repeat constructor; done.
  - cbn. assert (slow wmem wnet (flat_map parts objs) m = false) as E by (unfold slow; by rewrite holder_none). repeat constructor; done.
  - by constructor.
Qed.
