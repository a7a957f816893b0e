(** Proofs about WalkModel.v. *)
From Verif Require Import Base MemModel MemSpec MemProofs MemProofs2 MemProofs3 MemProofs4 WalkModel WalkSpec.

(** ** w_collect and ms_collect agree *)
Lemma now_app h a b : now h (a ++ b) = now (now h a) b.
Proof. unfold now. destruct b as [|x b _] using rev_ind; [by rewrite app_nil_r|]. by rewrite (assoc_L (++)), !last_snoc. Qed.
Lemma now_cons h x b : now h (x :: b) = now x b.
Proof. exact (now_app h [x] b). Qed.
Lemma upd_sub_comp f g l h : (h1 ← upd_sub f l h; upd_sub g l h1) = upd_sub (fun s => g (f s)) l h.
Proof. unfold upd_sub. destruct (h !! l) as [n|]; [|done]. cbn. rewrite lookup_insert. cbn. by rewrite insert_insert. Qed.
Lemma upd_sub_ext f g l h : (forall n, h !! l = Some n -> f (nd_sub n) = g (nd_sub n)) -> upd_sub f l h = upd_sub g l h.
Proof. unfold upd_sub. destruct (h !! l) as [n|]; [|done]. cbn. intros H. by rewrite (H n). Qed.
Lemma w_append_last dst cs h : is_Some (h !! dst) -> exists hs, w_append dst cs h = Some hs /\ upd_sub (fun sub => sub ++ cs) dst h = Some (now h hs).
Proof.
  revert h. induction cs as [|c cs IH]; intros h [n Hn]; cbn [w_append].
  - exists []. split; [done|]. unfold upd_sub. rewrite Hn. cbn. rewrite app_nil_r. f_equal. by rewrite insert_id; [|destruct n].
  - unfold upd_sub at 1. rewrite Hn. cbn [mbind option_bind]. set (h1 := <[dst := _]> h).
    destruct (IH h1) as (hs & E & U). { unfold h1. rewrite lookup_insert. by eexists. }
    rewrite E. cbn [mbind option_bind]. eexists. split; [reflexivity|]. rewrite now_cons, <-U.
    assert (upd_sub (fun sub => sub ++ [c]) dst h = Some h1) as E1 by (unfold upd_sub; by rewrite Hn).
    transitivity (h1 ← upd_sub (fun sub => sub ++ [c]) dst h; upd_sub (fun sub => sub ++ cs) dst h1); [|by rewrite E1].
    rewrite upd_sub_comp. apply upd_sub_ext. intros. by rewrite <-(assoc_L (++)).
Qed.
Lemma w_reattach_last dst src h h' : reattach_children dst src h = Some h' -> exists hs, w_reattach dst src h = Some hs /\ now h hs = h'.
Proof.
  unfold reattach_children, w_reattach. destruct (dst =? src); [done|]. destruct (h !! dst) as [d|] eqn:Ed; [|done]. destruct (h !! src) as [s|]; [|done]. cbn [mbind option_bind].
  destruct (split_children _ _ _) as [[moved kept]|]; [|done]. cbn [mbind option_bind].
  destruct (w_append_last dst moved h) as (hs & E & U); [by eexists|]. rewrite E, U. cbn [mbind option_bind]. intros ->. cbn. eexists. split; [reflexivity|]. rewrite now_app. done.
Qed.
Lemma w_insert_last spans root t h h' : ms_insert spans root t h = Some h' -> exists hs, w_insert spans root t h = Some hs /\ now h hs = h'.
Proof. unfold w_insert. intros ->. cbn. by eexists. Qed.
Lemma w_move_last root old h h' : is_Some (h !! root) -> move_temp_children root old h = Some h' -> exists hs, w_move root old h = Some hs /\ now h hs = h'.
Proof.
  intros Hr. unfold move_temp_children, w_move. destruct (h !! old) as [o|]; [|done]. cbn [mbind option_bind].
  destruct (split_children _ _ _) as [[moved kept]|]; [|done]. cbn [mbind option_bind].
  destruct (w_append_last root moved h) as (hs & E & U); [done|]. rewrite E, U. cbn [mbind option_bind]. intros ->. cbn. eexists. split; [reflexivity|]. rewrite now_app. done.
Qed.
Lemma upd_sub_dom f l h h' x : upd_sub f l h = Some h' -> is_Some (h !! x) -> is_Some (h' !! x).
Proof.
  unfold upd_sub. destruct (h !! l) as [n|]; [|done]. cbn. intros [= <-] H. destruct (decide (x = l)) as [->|]; [rewrite lookup_insert; by eexists|by rewrite lookup_insert_ne].
Qed.
Lemma reattach_dom dst src h h' x : reattach_children dst src h = Some h' -> is_Some (h !! x) -> is_Some (h' !! x).
Proof.
  unfold reattach_children. destruct (dst =? src); [done|]. destruct (h !! dst) as [d|]; [|done]. destruct (h !! src) as [s|]; [|done]. cbn [mbind option_bind].
  destruct (split_children _ _ _) as [[moved kept]|]; [|done]. cbn [mbind option_bind]. destruct (upd_sub _ dst h) as [h1|] eqn:E1; [|done]. cbn [mbind option_bind].
  intros E2 H. eapply upd_sub_dom; [exact E2|]. by eapply upd_sub_dom.
Qed.
Lemma insert_dom spans root t h h' x : ms_insert spans root t h = Some h' -> is_Some (h !! x) -> is_Some (h' !! x).
Proof. unfold ms_insert. destruct (h !! t) as [n|]; [|done]. cbn [mbind option_bind]. destruct (_ ≫= _); apply upd_sub_dom. Qed.
Lemma w_collect_last id anns st st' : ms_collect id anns st = Some st' -> exists hs, w_collect id anns st = Some hs /\ now (ms_heap st) hs = ms_heap st'.
Proof.
  unfold ms_collect, w_collect.
  set (spans0 := match ms_span st !! sp_trace id with Some _ => _ | None => _ end). destruct (spans0 !! sp_trace id) as [S0|]; [|done]. cbn [mbind option_bind].
  destruct (S0 !! sp_span id) as [s|].
  - destruct (ms_heap st !! s) as [n|]; [|done]. cbn [mbind option_bind]. intros [= <-]. by eexists.
  - set (s := ms_next st). set (h0 := <[s := _]> (ms_heap st)). set (root := match ms_trace st !! sp_trace id with Some r => r | None => s end).
    set (spans := <[sp_trace id := _]> spans0). destruct (h0 !! root) as [rn|] eqn:Er; [|done]. cbn [mbind option_bind].
    assert (is_Some (h0 !! s)) as Hs by (unfold h0; rewrite lookup_insert; by eexists).
    destruct (negb (s =? root) && _) eqn:Eb.
    + destruct (reattach_children s root h0) as [h1|] eqn:E1; [|done]. cbn [mbind option_bind]. destruct (ms_insert spans s root h1) as [h2|] eqn:E2; [|done]. cbn [mbind option_bind].
      destruct (move_temp_children s root h2) as [h3|] eqn:E3; [|done]. cbn [mbind option_bind].
      destruct (w_reattach_last _ _ _ _ E1) as (w1 & -> & N1). cbn [mbind option_bind]. rewrite N1.
      destruct (w_insert_last _ _ _ _ _ E2) as (w2 & -> & N2). cbn [mbind option_bind]. rewrite N2.
      destruct (w_move_last s root h2 h3) as (w3 & -> & N3); [|done|]. { eapply insert_dom; [exact E2|]. by eapply reattach_dom. } cbn [mbind option_bind].
      rewrite (N.eqb_refl s). cbn [negb]. rewrite andb_false_r. cbn [mbind option_bind]. intros [= <-]. cbn [ms_heap]. eexists. split; [reflexivity|].
      rewrite !app_nil_r, now_cons, !now_app, N1, N2, N3. done.
    + cbn [mbind option_bind]. replace (now h0 []) with h0 by done.
      destruct (negb (sp_parent id =? 0) && negb (s =? root)).
      * destruct (ms_insert spans root s h0) as [h1|] eqn:E1; [|done]. cbn [mbind option_bind]. destruct (w_insert_last _ _ _ _ _ E1) as (w1 & -> & N1). cbn [mbind option_bind]. rewrite N1.
        destruct (negb (s =? root)).
        -- destruct (reattach_children s root h1) as [h2|] eqn:E2; [|done]. cbn [mbind option_bind]. destruct (w_reattach_last _ _ _ _ E2) as (w2 & -> & N2). cbn [mbind option_bind].
           intros [= <-]. cbn [ms_heap]. eexists. split; [reflexivity|]. rewrite now_cons, !now_app. change (now h0 []) with h0. by rewrite N1, N2.
        -- cbn [mbind option_bind]. intros [= <-]. cbn [ms_heap]. eexists. split; [reflexivity|]. rewrite now_cons, !now_app. change (now h0 []) with h0. by rewrite N1.
      * cbn [mbind option_bind]. replace (now h0 []) with h0 by done. destruct (negb (s =? root)).
        -- destruct (reattach_children s root h0) as [h2|] eqn:E2; [|done]. cbn [mbind option_bind]. destruct (w_reattach_last _ _ _ _ E2) as (w2 & -> & N2). cbn [mbind option_bind].
           intros [= <-]. cbn [ms_heap]. eexists. split; [reflexivity|]. rewrite now_cons, !now_app. change (now h0 []) with h0. change (now h0 []) with h0. by rewrite N2.
        -- cbn [mbind option_bind]. intros [= <-]. cbn [ms_heap]. by eexists.
Qed.
Lemma w_run_last ops st st' : ms_run ops st = Some st' -> exists hs, w_run ops st = Some hs /\ now (ms_heap st) hs = ms_heap st'.
Proof.
  revert st. induction ops as [|o ops IH]; intros st; cbn [ms_run w_run]; [intros [= <-]; by exists []|].
  destruct (ms_step o st) as [st1|] eqn:E; [|done]. cbn [mbind option_bind]. intros Hr. destruct (IH _ Hr) as (hs' & -> & N').
  assert (exists hs, (match o with CCollect id anns => w_collect id anns st | CDelete _ => Some [] end) = Some hs /\ now (ms_heap st) hs = ms_heap st1) as (hs & -> & N).
  { destruct o as [id a|ts]; cbn in E; [by apply w_collect_last|]. injection E as <-. exists []. split; [done|]. destruct (delete_lookup ts st 0) as (-> & _). done. }
  cbn [mbind option_bind]. eexists. split; [reflexivity|]. by rewrite now_app, N, N'.
Qed.

(** ** The writes *)
Inductive write (Q : loc -> Prop) (T : N) : heap -> heap -> Prop :=
| Wr_new h s id a : h !! s = None -> sp_trace id = T -> write Q T h (<[s := MkNode id a []]> h)
| Wr_ann h l n a : h !! l = Some n -> sp_trace (nd_id n) = T -> Q l -> write Q T h (<[l := MkNode (nd_id n) (nd_ann n ++ a) (nd_sub n)]> h)
| Wr_sub h l n sub : h !! l = Some n -> sp_trace (nd_id n) = T -> (forall c, c ∈ sub -> Q c) -> Q l -> write Q T h (<[l := MkNode (nd_id n) (nd_ann n) sub]> h).
Fixpoint path (R : heap -> heap -> Prop) (h : heap) (hs : list heap) : Prop := match hs with [] => True | x :: hs => R h x /\ path R x hs end.
Lemma path_app R h a b : path R h (a ++ b) <-> path R h a /\ path R (now h a) b.
Proof.
  revert h. induction a as [|x a IH]; intros h; cbn [app path]; [change (now h []) with h; tauto|]. rewrite IH, now_cons. tauto.
Qed.
Definition J (Q : loc -> Prop) (T : N) (h : heap) : Prop := forall l, Q l -> exists n, h !! l = Some n /\ sp_trace (nd_id n) = T /\ forall c, c ∈ nd_sub n -> Q c.
Lemma write_J Q T h h' : write Q T h h' -> J Q T h -> J Q T h'.
Proof.
  intros [h0 s id a Hs HT|h0 l0 n0 a H HT|h0 l0 n0 sub H HT Hsub] HJ l Hl; destruct (HJ l Hl) as (n & Hn & Ht & Hc).
  - destruct (decide (l = s)) as [->|Hne]; [congruence|]. rewrite lookup_insert_ne by done. by exists n.
  - destruct (decide (l = l0)) as [->|Hne]; [|rewrite lookup_insert_ne by done; by exists n]. rewrite lookup_insert. eexists. split; [reflexivity|]. cbn. split; [done|].
    assert (n0 = n) as -> by congruence. done.
  - destruct (decide (l = l0)) as [->|Hne]; [|rewrite lookup_insert_ne by done; by exists n]. rewrite lookup_insert. eexists. split; [reflexivity|]. done.
Qed.
Lemma path_J Q T h hs : path (write Q T) h hs -> J Q T h -> J Q T (now h hs).
Proof. revert h. induction hs as [|x hs IH]; intros h; [done|]. cbn [path]. intros [H1 H2] HJ. rewrite now_cons. apply IH; [done|]. by eapply write_J. Qed.
Lemma upd_write Q T f l h h' : J Q T h -> Q l -> (forall sub, (forall c, c ∈ sub -> Q c) -> forall c, c ∈ f sub -> Q c) -> upd_sub f l h = Some h' -> write Q T h h'.
Proof.
  intros HJ Hl Hf. destruct (HJ l Hl) as (n & Hn & Ht & Hc). unfold upd_sub. rewrite Hn. cbn. intros [= <-]. apply Wr_sub; [done..| |done]. by apply Hf.
Qed.
Lemma w_append_path Q T dst cs h hs : J Q T h -> Q dst -> (forall c, c ∈ cs -> Q c) -> w_append dst cs h = Some hs -> path (write Q T) h hs.
Proof.
  revert h hs. induction cs as [|c cs IH]; intros h hs HJ Hd Hc; cbn [w_append]; [by intros [= <-]|].
  destruct (upd_sub _ dst h) as [h1|] eqn:E; [|done]. cbn [mbind option_bind]. destruct (w_append dst cs h1) as [hs'|] eqn:E'; [|done]. intros [= <-].
  assert (write Q T h h1) as Hw. { eapply upd_write; [done|exact Hd| |exact E]. intros sub Hs x. rewrite elem_of_app, elem_of_list_singleton. intros [H| ->]; [by apply Hs|]. apply Hc. by left. }
  cbn [path]. split; [done|]. apply IH; [by eapply write_J|done| |done]. intros x Hx. apply Hc. by right.
Qed.
Lemma split_subset h test cs yes no : split_children h test cs = Some (yes, no) -> forall c, c ∈ yes \/ c ∈ no -> c ∈ cs.
Proof.
  revert yes no. induction cs as [|c cs IH]; intros yes no; cbn [split_children]; [intros [= <- <-]; set_solver|].
  destruct (h !! c) as [n|]; [|done]. cbn [mbind option_bind]. destruct (split_children h test cs) as [[y o]|]; [|done]. cbn [mbind option_bind].
  specialize (IH y o eq_refl). destruct (test _); intros [= <- <-] x; rewrite ?elem_of_cons; intros; destruct_or!; auto.
Qed.
Lemma w_reattach_path Q T dst src h hs : J Q T h -> Q dst -> Q src -> w_reattach dst src h = Some hs -> path (write Q T) h hs.
Proof.
  intros HJ Hd Hs. unfold w_reattach. destruct (dst =? src); [done|]. destruct (h !! dst) as [d|]; [|done]. destruct (HJ src Hs) as (s & -> & Ht & Hc). cbn [mbind option_bind].
  destruct (split_children _ _ _) as [[moved kept]|] eqn:Es; [|done]. cbn [mbind option_bind]. pose proof (split_subset _ _ _ _ _ Es) as Hsp.
  destruct (w_append dst moved h) as [w|] eqn:Ew; [|done]. cbn [mbind option_bind]. destruct (upd_sub _ src _) as [h'|] eqn:Eu; [|done]. intros [= <-].
  assert (path (write Q T) h w) as Hp by (eapply w_append_path; [done|exact Hd| |exact Ew]; intros c H; apply Hc, Hsp; by left).
  apply path_app. split; [done|]. cbn [path]. split; [|done]. eapply upd_write; [by apply path_J|exact Hs| |exact Eu]. intros sub _ c H. apply Hc, Hsp. by right.
Qed.
Lemma w_move_path Q T root old h hs : J Q T h -> Q root -> Q old -> w_move root old h = Some hs -> path (write Q T) h hs.
Proof.
  intros HJ Hd Hs. unfold w_move. destruct (HJ old Hs) as (s & -> & Ht & Hc). cbn [mbind option_bind].
  destruct (split_children _ _ _) as [[moved kept]|] eqn:Es; [|done]. cbn [mbind option_bind]. pose proof (split_subset _ _ _ _ _ Es) as Hsp.
  destruct (w_append root moved h) as [w|] eqn:Ew; [|done]. cbn [mbind option_bind]. destruct (upd_sub _ old _) as [h'|] eqn:Eu; [|done]. intros [= <-].
  assert (path (write Q T) h w) as Hp by (eapply w_append_path; [done|exact Hd| |exact Ew]; intros c H; apply Hc, Hsp; by left).
  apply path_app. split; [done|]. cbn [path]. split; [|done]. eapply upd_write; [by apply path_J|exact Hs| |exact Eu]. intros sub _ c H. apply Hc, Hsp. by right.
Qed.
Lemma w_insert_path M T spans root t h hs : spans !! T = Some M -> J (inM M) T h -> inM M root -> inM M t -> w_insert spans root t h = Some hs -> path (write (inM M) T) h hs.
Proof.
  intros HM HJ Hr Ht. unfold w_insert, ms_insert. destruct (HJ t Ht) as (n & -> & HT & _). cbn [mbind option_bind]. rewrite HT, HM. cbn [mbind option_bind].
  assert (forall p h', inM M p -> upd_sub (fun sub => sub ++ [t]) p h = Some h' -> write (inM M) T h h') as Hw.
  { intros p h' Hp. apply upd_write; [done..|]. intros sub Hs x. rewrite elem_of_app, elem_of_list_singleton. intros [H| ->]; [by apply Hs|done]. }
  destruct (M !! sp_parent (nd_id n)) as [p|] eqn:Ep; cbn [mbind option_bind].
  - destruct (upd_sub _ p h) as [h'|] eqn:Eu; [|done]. intros [= <-]. cbn. split; [|done]. apply (Hw p); [by eexists|done].
  - destruct (upd_sub _ root h) as [h'|] eqn:Eu; [|done]. intros [= <-]. cbn. split; [|done]. by apply (Hw root).
Qed.
Lemma collect_span id anns st st' : ms_ok st -> ms_collect id anns st = Some st' -> exists S0, default ∅ (ms_span st !! sp_trace id) = S0 /\
  ms_span st' !! sp_trace id = Some (match S0 !! sp_span id with Some _ => S0 | None => <[sp_span id := ms_next st]> S0 end).
Proof.
  intros Hok. unfold ms_collect. set (spans0 := match ms_span st !! sp_trace id with Some _ => _ | None => _ end).
  assert (spans0 !! sp_trace id = Some (default ∅ (ms_span st !! sp_trace id))) as Hsp.
  { unfold spans0. destruct (ms_span st !! sp_trace id) eqn:E; [done|]. by rewrite lookup_insert. }
  rewrite Hsp. cbn [mbind option_bind]. intros H. eexists. split; [reflexivity|]. revert H. set (S0 := default ∅ _) in *.
  destruct (S0 !! sp_span id) as [s|] eqn:Es.
  - destruct (ms_heap st !! s); [|done]. cbn [mbind option_bind]. intros [= <-]. done.
  - repeat (match goal with |- context [mbind _ ?x] => destruct x as [[[]]|] || destruct x as [] || destruct x end; cbn [mbind option_bind]; try done); intros [= <-]; cbn [ms_span]; by rewrite lookup_insert.
Qed.
Lemma write_mono (Q Q' : loc -> Prop) T h h' : (forall l, Q l -> Q' l) -> write Q T h h' -> write Q' T h h'.
Proof. intros H [ | | ]; constructor; auto. Qed.
Lemma path_mono (R R' : heap -> heap -> Prop) h hs : (forall x y, R x y -> R' x y) -> path R h hs -> path R' h hs.
Proof. intros H. revert h. induction hs as [|x hs IH]; intros h; [done|]. cbn. intros [H1 H2]. split; auto. Qed.
Lemma w_collect_path id anns st st' hs M : ms_ok st -> ms_collect id anns st = Some st' -> ms_span st' !! sp_trace id = Some M -> w_collect id anns st = Some hs ->
  path (write (inM M) (sp_trace id)) (ms_heap st) hs.
Proof.
  intros Hok Hcol HM. destruct (collect_span _ _ _ _ Hok Hcol) as (S0 & ES0 & HM'). assert (Some M = Some (match S0 !! sp_span id with Some _ => S0 | None => <[sp_span id := ms_next st]> S0 end)) as [= EM] by congruence. clear HM HM' Hcol.
  assert (forall l, inM S0 l -> exists n, ms_heap st !! l = Some n /\ sp_trace (nd_id n) = sp_trace id /\ forall c, c ∈ nd_sub n -> inM S0 c) as HJ0.
  { intros l [k Hk]. destruct (ms_span st !! sp_trace id) as [S1|] eqn:E; cbn in ES0; subst S0; [|by rewrite lookup_empty in Hk].
    destruct (inv_trace st Hok _ _ E) as (r & Hr & Htok). destruct (ok_ids _ _ _ _ Htok _ _ Hk) as (i & Hi & HT & _). unfold ids in Hi. destruct (ms_heap st !! l) as [n|] eqn:En; [|done].
    exists n. split; [done|]. injection Hi as <-. split; [done|]. intros c Hc. destruct (inM_sub _ _ _ _ Htok l c) as [H _]; [by exists k| |done]. unfold sub_of, subs. by rewrite En. }
  assert (forall r, ms_trace st !! sp_trace id = Some r -> inM S0 r) as Hroot.
  { intros r Hr. destruct (ms_span st !! sp_trace id) as [S1|] eqn:E; cbn in ES0; subst S0; [|by rewrite (inv_none st Hok _ E) in Hr].
    destruct (inv_trace st Hok _ _ E) as (r' & Hr' & Htok). assert (r' = r) as -> by congruence. exact (ok_root _ _ _ _ Htok). }
  unfold w_collect. set (spans0 := match ms_span st !! sp_trace id with Some _ => _ | None => _ end).
  assert (spans0 !! sp_trace id = Some S0) as Hsp.
  { unfold spans0. destruct (ms_span st !! sp_trace id) eqn:E; [cbn in ES0; congruence|]. rewrite lookup_insert. cbn in ES0. congruence. }
  rewrite Hsp. cbn [mbind option_bind]. destruct (S0 !! sp_span id) as [s|] eqn:Es; subst M.
  - destruct (HJ0 s) as (n & Hn & HT & _); [by eexists|]. rewrite Hn. cbn [mbind option_bind]. intros [= <-]. cbn [path]. split; [|done]. apply Wr_ann; [done|done|]. by eexists.
  - set (s := ms_next st). set (h0 := <[s := _]> (ms_heap st)). set (M := <[sp_span id := s]> S0). set (root := match ms_trace st !! sp_trace id with Some r => r | None => s end).
    set (spans := <[sp_trace id := M]> spans0).
    assert (ms_heap st !! s = None) as Hfr. { destruct (ms_heap st !! s) eqn:E; [|done]. assert (s < ms_next st) by (apply (inv_fresh st Hok); by eexists). unfold s in *. lia. }
    assert (write (inM M) (sp_trace id) (ms_heap st) h0) as Hw0 by (by apply Wr_new).
    assert (forall l, inM S0 l -> inM M l) as Hsub. { intros l [k Hk]. exists k. unfold M. rewrite lookup_insert_ne; [done|]. intros <-. congruence. }
    assert (inM M s) as Hs. { exists (sp_span id). unfold M. by rewrite lookup_insert. }
    assert (inM M root) as Hr. { unfold root. destruct (ms_trace st !! sp_trace id) as [r|]; [|done]. by apply Hsub, Hroot. }
    assert (J (inM M) (sp_trace id) h0) as HJ.
    { intros l [k Hk]. unfold M in Hk. unfold h0. destruct (decide (l = s)) as [->|Hne]; [rewrite lookup_insert; eexists; split; [reflexivity|]; split; [done|]; cbn; set_solver|].
      rewrite lookup_insert_ne by done. destruct (decide (k = sp_span id)) as [->|Hk']; [rewrite lookup_insert in Hk; congruence|]. rewrite lookup_insert_ne in Hk by done.
      destruct (HJ0 l) as (n & Hn & HT & Hc); [by eexists|]. exists n. split; [done|]. split; [done|]. intros c H. by apply Hsub, Hc. }
    assert (spans !! sp_trace id = Some M) as HspM by (unfold spans; by rewrite lookup_insert).
    destruct (h0 !! root) as [rn|]; [|done]. cbn [mbind option_bind].
    destruct (negb (s =? root) && _).
    + destruct (w_reattach s root h0) as [w1|] eqn:E1; [|done]. cbn [mbind option_bind]. pose proof (w_reattach_path _ _ _ _ _ _ HJ Hs Hr E1) as P1. pose proof (path_J _ _ _ _ P1 HJ) as J1.
      destruct (w_insert spans s root (now h0 w1)) as [w2|] eqn:E2; [|done]. cbn [mbind option_bind]. pose proof (w_insert_path _ _ _ _ _ _ _ HspM J1 Hs Hr E2) as P2. pose proof (path_J _ _ _ _ P2 J1) as J2.
      destruct (w_move s root (now (now h0 w1) w2)) as [w3|] eqn:E3; [|done]. cbn [mbind option_bind]. pose proof (w_move_path _ _ _ _ _ _ J2 Hs Hr E3) as P3.
      rewrite (N.eqb_refl s). cbn [negb]. rewrite andb_false_r. cbn [mbind option_bind]. intros [= <-]. rewrite !app_nil_r. cbn [path]. split; [done|]. rewrite !path_app. done.
    + cbn [mbind option_bind]. change (now h0 []) with h0. cbn [app].
      assert (forall w, (if negb (sp_parent id =? 0) && negb (s =? root) then w_insert spans root s h0 else Some []) = Some w -> path (write (inM M) (sp_trace id)) h0 w) as HP1.
      { intros w. destruct (_ && _); [by apply w_insert_path|by intros [= <-]]. }
      destruct (if negb (sp_parent id =? 0) && negb (s =? root) then _ else _) as [w1|]; [|done]. specialize (HP1 w1 eq_refl). pose proof (path_J _ _ _ _ HP1 HJ) as J1. cbn [mbind option_bind].
      assert (forall w, (if negb (s =? root) then w_reattach s root (now h0 w1) else Some []) = Some w -> path (write (inM M) (sp_trace id)) (now h0 w1) w) as HP2.
      { intros w. destruct (negb _); [by apply w_reattach_path|by intros [= <-]]. }
      destruct (if negb (s =? root) then _ else _) as [w2|]; [|done]. specialize (HP2 w2 eq_refl). cbn [mbind option_bind]. intros [= <-]. cbn [path]. split; [done|]. rewrite path_app. done.
Qed.

(** ** All writes of a history *)
Lemma collect_next id anns st st' : ms_collect id anns st = Some st' -> ms_next st <= ms_next st'.
Proof.
  unfold ms_collect. set (spans0 := match ms_span st !! sp_trace id with Some _ => _ | None => _ end). destruct (spans0 !! sp_trace id) as [S0|]; [|done]. cbn [mbind option_bind].
  destruct (S0 !! sp_span id) as [s|].
  - destruct (ms_heap st !! s); [|done]. cbn [mbind option_bind]. intros [= <-]. done.
  - repeat (match goal with |- context [mbind _ ?x] => destruct x as [[[]]|] || destruct x as [] || destruct x end; cbn [mbind option_bind]; try done); intros [= <-]; cbn [ms_next]; lia.
Qed.
Lemma span_stays c st st' t M : ms_ok st -> ms_step c st = Some st' -> (forall ts, c = CDelete ts -> ~ In t ts) -> ms_span st !! t = Some M ->
  exists M', ms_span st' !! t = Some M' /\ (forall l, inM M l -> inM M' l) /\ (forall l, inM M' l -> inM M l \/ ms_next st <= l) /\ ms_next st <= ms_next st'.
Proof.
  intros Hok Hst Hd HM. destruct c as [id a|ts]; cbn in Hst.
  - pose proof (collect_next _ _ _ _ Hst) as Hnx. destruct (decide (t = sp_trace id)) as [->|Hne].
    + destruct (collect_span _ _ _ _ Hok Hst) as (S0 & ES & HM'). rewrite HM in ES. cbn in ES. subst S0. eexists. split; [exact HM'|]. destruct (M !! sp_span id) eqn:E.
      * split_and!; [done|by left|done].
      * split_and!; [| |done].
        -- intros l [k Hk]. exists k. rewrite lookup_insert_ne; [done|]. intros <-. congruence.
        -- intros l [k Hk]. destruct (decide (k = sp_span id)) as [->|Hk']; [rewrite lookup_insert in Hk; injection Hk as <-; right; lia|]. rewrite lookup_insert_ne in Hk by done. left. by exists k.
    + destruct (collect_ok st id a Hok) as (st2 & H2 & _ & Heff). assert (st2 = st') as -> by congruence. exists M. rewrite (ce_other_span _ _ _ _ Heff) by done. split_and!; [done..|by left|done].
  - injection Hst as <-. destruct (delete_lookup ts st t) as (_ & Hnx & _ & H). exists M. split; [|split_and!; [done|by left|lia]]. specialize (Hd ts eq_refl). rewrite H, bool_decide_eq_false_2; [done|]. by rewrite elem_of_list_In.
Qed.
Lemma run_span_stays ops st st' t M : ms_ok st -> ms_run ops st = Some st' -> (forall ts, In (CDelete ts) ops -> ~ In t ts) -> ms_span st !! t = Some M ->
  exists M', ms_span st' !! t = Some M' /\ (forall l, inM M l -> inM M' l) /\ (forall l, inM M' l -> inM M l \/ ms_next st <= l).
Proof.
  revert st M. induction ops as [|c ops IH]; intros st M Hok Hr Hd HM; cbn in Hr; [injection Hr as <-; exists M; split_and!; [done..|by left]|].
  destruct (ms_step c st) as [st1|] eqn:E; [|done]. cbn in Hr. destruct (span_stays c st st1 t M Hok E) as (M1 & HM1 & H1 & F1 & L1); [|done|].
  { intros ts ->. apply Hd. by left. }
  destruct (IH st1 M1) as (M2 & HM2 & H2 & F2); [|done| |done|].
  - eapply (run_preserves [c]); [exact Hok|]. cbn. by rewrite E.
  - intros ts Hin. apply Hd. by right.
  - exists M2. split_and!; [done|auto|]. intros l Hl. destruct (F2 l Hl) as [H|H]; [by apply F1|right; lia].
Qed.
Definition wt (P : loc -> Prop) (t : N) (h h' : heap) : Prop := write P t h h' \/ exists T Q, T <> t /\ write Q T h h'.
Lemma run_path ops st st' t M hs : ms_ok st -> ms_run ops st = Some st' -> (forall ts, In (CDelete ts) ops -> ~ In t ts) -> ms_span st' !! t = Some M -> w_run ops st = Some hs ->
  path (wt (inM M) t) (ms_heap st) hs.
Proof.
  revert st hs. induction ops as [|c ops IH]; intros st hs Hok Hr Hd HM; cbn [ms_run w_run] in *; [by intros [= <-]|].
  destruct (ms_step c st) as [st1|] eqn:E; [|done]. cbn [mbind option_bind] in Hr.
  assert (ms_ok st1) as Hok1 by (eapply (run_preserves [c]); [exact Hok|]; cbn; by rewrite E).
  assert (forall ts, In (CDelete ts) ops -> ~ In t ts) as Hd' by (intros ts Hin; apply Hd; by right).
  destruct c as [id a|ts]; cbn [ms_step] in E.
  - destruct (w_collect_last id a st st1 E) as (w & Ew & Nw). rewrite Ew. cbn [mbind option_bind]. destruct (w_run ops st1) as [hs'|] eqn:Er; [|done]. cbn [mbind option_bind]. intros [= <-].
    apply path_app. rewrite Nw. split; [|by apply IH]. destruct (collect_span _ _ _ _ Hok E) as (S0 & _ & HM1). pose proof (w_collect_path _ _ _ _ _ _ Hok E HM1 Ew) as Hp.
    eapply path_mono; [|exact Hp]. intros x y Hxy. destruct (decide (sp_trace id = t)) as [<-|Hne]; [left|right; by eauto]. eapply write_mono; [|exact Hxy].
    destruct (run_span_stays ops st1 st' _ _ Hok1 Hr Hd' HM1) as (M' & HM' & H' & _). assert (M' = M) as -> by congruence. done.
  - cbn [mbind option_bind]. destruct (w_run ops st1) as [hs'|] eqn:Er; [|done]. cbn [mbind option_bind]. intros [= <-]. cbn [app].
    replace (ms_heap st) with (ms_heap st1); [by apply IH|]. injection E as <-. by destruct (delete_lookup ts st 0) as (-> & _).
Qed.

(** ** What stays *)
Definition ext1 (h h' : heap) : Prop := forall l n, h !! l = Some n -> exists n', h' !! l = Some n' /\ nd_id n' = nd_id n /\ nd_ann n `prefix_of` nd_ann n'.
Lemma ext1_refl h : ext1 h h.
Proof. intros l n H. by exists n. Qed.
Lemma ext1_trans a b c : ext1 a b -> ext1 b c -> ext1 a c.
Proof. intros H1 H2 l n Hn. destruct (H1 l n Hn) as (n1 & E1 & I1 & A1). destruct (H2 l n1 E1) as (n2 & E2 & I2 & A2). exists n2. split_and!; [done|congruence|by etrans]. Qed.
Lemma write_ext1 Q T h h' : write Q T h h' -> ext1 h h'.
Proof.
  intros [h0 s id a Hs HT|h0 l0 n0 a H HT|h0 l0 n0 sub H HT Hsub] l n Hn.
  - destruct (decide (l = s)) as [->|Hne]; [congruence|]. rewrite lookup_insert_ne by done. by exists n.
  - destruct (decide (l = l0)) as [->|Hne]; [|rewrite lookup_insert_ne by done; by exists n]. rewrite lookup_insert. assert (n0 = n) as -> by congruence. eexists. split; [reflexivity|]. cbn. split; [done|]. by eexists.
  - destruct (decide (l = l0)) as [->|Hne]; [|rewrite lookup_insert_ne by done; by exists n]. rewrite lookup_insert. assert (n0 = n) as -> by congruence. eexists. split; [reflexivity|]. done.
Qed.
Lemma path_le (R : heap -> heap -> Prop) h hs : (forall x, R x x) -> (forall x y z, R x y -> R y z -> R x z) -> path R h hs ->
  forall a b x y, (a <= b)%nat -> (h :: hs) !! a = Some x -> (h :: hs) !! b = Some y -> R x y.
Proof.
  intros Hr Ht. revert h. induction hs as [|z hs IH]; intros h Hp a b x y Hab Ha Hb.
  - destruct a as [|[|a]]; [|done..]. destruct b as [|[|b]]; [|done..]. cbn in *. assert (x = y) as -> by congruence. done.
  - cbn [path] in Hp. destruct Hp as [H1 H2]. destruct a as [|a].
    + cbn in Ha. injection Ha as <-. destruct b as [|b]; [cbn in Hb; injection Hb as <-; done|]. apply (Ht _ z); [done|]. by apply (IH z H2 0%nat b z y); [lia| |].
    + destruct b as [|b]; [lia|]. apply (IH z H2 a b); [lia|done|done].
Qed.
Lemma last_now h hs : (h :: hs) !! length hs = Some (now h hs).
Proof.
  unfold now. destruct hs as [|x hs _] using rev_ind; [done|]. rewrite last_snoc, app_length. cbn [length]. replace (length hs + 1)%nat with (S (length hs)) by lia. cbn.
  change ((hs ++ [x]) !! length hs = Some x). rewrite lookup_app_r by lia. by rewrite Nat.sub_diag.
Qed.
Definition closed (P : loc -> Prop) (h : heap) : Prop := forall l n, P l -> h !! l = Some n -> forall c, c ∈ nd_sub n -> P c.
Lemma wt_closed P t h h' : wt P t h h' -> (forall l n, P l -> h' !! l = Some n -> sp_trace (nd_id n) = t) -> closed P h -> closed P h'.
Proof.
  intros [Hw|(T & Q & Hne & Hw)] Htr Hc l n Hl Hn c Hin.
  - destruct Hw as [h0 s id a Hs HT|h0 l0 n0 a H HT|h0 l0 n0 sub H HT Hsub].
    + destruct (decide (l = s)) as [->|Hls]; [rewrite lookup_insert in Hn; injection Hn as <-; cbn in Hin; set_solver|]. rewrite lookup_insert_ne in Hn by done. by eapply Hc.
    + destruct (decide (l = l0)) as [->|Hls]; [rewrite lookup_insert in Hn; injection Hn as <-; cbn in Hin; by eapply (Hc l0 n0)|]. rewrite lookup_insert_ne in Hn by done. by eapply Hc.
    + destruct (decide (l = l0)) as [->|Hls]; [rewrite lookup_insert in Hn; injection Hn as <-; cbn in Hin; by apply Hsub|]. rewrite lookup_insert_ne in Hn by done. by eapply Hc.
  - destruct Hw as [h0 s id a Hs HT|h0 l0 n0 a H HT|h0 l0 n0 sub H HT Hsub].
    + destruct (decide (l = s)) as [->|Hls]; [|rewrite lookup_insert_ne in Hn by done; by eapply Hc]. specialize (Htr s n Hl Hn). rewrite lookup_insert in Hn. injection Hn as <-. cbn in Htr. congruence.
    + destruct (decide (l = l0)) as [->|Hls]; [|rewrite lookup_insert_ne in Hn by done; by eapply Hc]. specialize (Htr l0 n Hl Hn). rewrite lookup_insert in Hn. injection Hn as <-. cbn in Htr. congruence.
    + destruct (decide (l = l0)) as [->|Hls]; [|rewrite lookup_insert_ne in Hn by done; by eapply Hc]. specialize (Htr l0 n Hl Hn). rewrite lookup_insert in Hn. injection Hn as <-. cbn in Htr. congruence.
Qed.
Lemma path_closed P t h hs : path (wt P t) h hs -> (forall x l n, In x hs -> P l -> x !! l = Some n -> sp_trace (nd_id n) = t) -> closed P h -> forall x, In x (h :: hs) -> closed P x.
Proof.
  revert h. induction hs as [|y hs IH]; intros h Hp Htr Hc x Hx; [by destruct Hx as [<-|[]]|]. destruct Hx as [<-|Hx]; [done|]. cbn [path] in Hp. destruct Hp as [H1 H2].
  apply (IH y H2); [|eapply wt_closed; [exact H1| |exact Hc]|exact Hx].
  - intros z l n Hz. apply Htr. by right.
  - intros l n. apply Htr. by left.
Qed.
(** Everything about the heaps of a history at once: M are the spans of the trace in the end. *)
Record heaps_ok (t : N) (M0 M : gmap N loc) (st st' : MS) (hs : list heap) : Prop := {
  ho_last : now (ms_heap st) hs = ms_heap st';
  ho_ext : forall a b x y, (a <= b)%nat -> (ms_heap st :: hs) !! a = Some x -> (ms_heap st :: hs) !! b = Some y -> ext1 x y;
  ho_closed : forall x, In x (ms_heap st :: hs) -> closed (inM M) x;
  ho_sub : forall l, inM M0 l -> inM M l
}.
Lemma heaps_run ops st st' t M0 hs : ms_ok st -> ms_run ops st = Some st' -> (forall ts, In (CDelete ts) ops -> ~ In t ts) -> ms_span st !! t = Some M0 -> w_run ops st = Some hs ->
  exists M, ms_span st' !! t = Some M /\ heaps_ok t M0 M st st' hs.
Proof.
  intros Hok Hr Hd HM0 Hw. destruct (run_span_stays _ _ _ _ _ Hok Hr Hd HM0) as (M & HM & Hsub & Hnew). exists M. split; [done|].
  pose proof (run_path _ _ _ _ _ _ Hok Hr Hd HM Hw) as Hp. destruct (w_run_last _ _ _ Hr) as (hs' & Hw' & Hn). assert (hs' = hs) as -> by congruence. clear Hw'.
  assert (forall a b x y, (a <= b)%nat -> (ms_heap st :: hs) !! a = Some x -> (ms_heap st :: hs) !! b = Some y -> ext1 x y) as Hext.
  { apply path_le; [exact ext1_refl|exact ext1_trans|]. eapply path_mono; [|exact Hp]. intros x y [H|(T & Q & _ & H)]; by eapply write_ext1. }
  pose proof (run_preserves _ _ _ Hok Hr) as Hok'. destruct (inv_trace st' Hok' t M HM) as (r & Hr' & Htok).
  split; [done|done| |done]. apply (path_closed (inM M) t); [done| |].
  - intros x l n Hx [k Hk] Hl. apply elem_of_list_In, elem_of_list_lookup in Hx as [a Ha]. destruct (ok_ids _ _ _ _ Htok _ _ Hk) as (i & Hi & HT & _).
    destruct (Hext (S a) (length hs) x (now (ms_heap st) hs)) with (l := l) (n := n) as (n' & Hn' & Hid & _); [apply lookup_lt_Some in Ha; lia|done|apply last_now|done|].
    rewrite Hn in Hn'. unfold ids in Hi. rewrite Hn' in Hi. injection Hi as <-. congruence.
  - destruct (inv_trace st Hok t M0 HM0) as (r0 & Hr0 & Htok0). intros l n Hl Hn0 c Hc. apply Hsub.
    destruct (Hnew l Hl) as [Hl0|Hge]; [|assert (l < ms_next st) by (apply (inv_fresh st Hok); by eexists); lia].
    destruct (inM_sub _ _ _ _ Htok0 l c) as [H _]; [done| |done]. unfold sub_of, subs. by rewrite Hn0.
Qed.

(** ** The reader *)
Scheme walk_ind2 := Minimality for walk Sort Prop with walks_ind2 := Minimality for walks Sort Prop.
Combined Scheme walk_both from walk_ind2, walks_ind2.
Lemma walk_nodes (P : loc -> Prop) (H : list heap) : (forall x, In x H -> closed P x) ->
  (forall k l k' tr, walk H k l k' tr -> P l -> forall m, In m (nodes tr) -> exists l' a x nd, P l' /\ H !! a = Some x /\ x !! l' = Some nd /\ tr_id m = nd_id nd /\ tr_anns m = nd_ann nd) /\
  (forall k ls k' trs, walks H k ls k' trs -> (forall l, l ∈ ls -> P l) -> forall tr m, In tr trs -> In m (nodes tr) ->
     exists l' a x nd, P l' /\ H !! a = Some x /\ x !! l' = Some nd /\ tr_id m = nd_id nd /\ tr_anns m = nd_ann nd).
Proof.
  intros Hc. apply walk_both.
  - intros k k' k1 a b l n n' ts Hka Hak Ha Hkb Hb _ IH Hk1 Hl m Hm. rewrite nodes_unfold in Hm. destruct (H !! a) as [x|] eqn:Ex; [|done]. destruct (H !! b) as [y|] eqn:Ey; [|done]. cbn in Ha, Hb.
    destruct Hm as [<-|Hm]; [by exists l, a, x, n|]. apply in_concat in Hm as (ns & Hns & Hm). apply in_map_iff in Hns as (tr & <- & Htr). apply (IH) with (tr := tr); [|done|done].
    intros c Hcs. eapply (Hc y); [by apply elem_of_list_In, (elem_of_list_lookup_2 _ b)|exact Hl|exact Hb|exact Hcs].
  - done.
  - intros k k1 k2 l ls t ts _ IH1 _ IH2 Hl tr m [->|Htr] Hm.
    + apply IH1; [apply Hl; by left|done].
    + apply (IH2) with (tr := tr); [|done|done]. intros c Hcs. apply Hl. by right.
Qed.
Lemma shown_any calls ops st st' t l hs k tr : ms_run calls ms_init = Some st -> ms_trace_of st t = Some l -> ms_run ops st = Some st' -> (forall ts, In (CDelete ts) ops -> ~ In t ts) ->
  w_run ops st = Some hs -> walk (ms_heap st :: hs) 0 l k tr -> forall n, In n (nodes tr) ->
  In (tr_id n) (spans_of (live t (calls ++ ops) [])) /\ anns_of (sp_span (tr_id n)) (live t calls []) `prefix_of` tr_anns n /\
  tr_anns n `prefix_of` anns_of (sp_span (tr_id n)) (live t (calls ++ ops) []).
Proof.
  intros Hrun Hl Hops Hd Hw Hwalk n Hn. destruct (run_state _ _ Hrun) as [Hok Habs]. assert (ms_run (calls ++ ops) ms_init = Some st') as Hrun' by (rewrite ms_run_app, Hrun; exact Hops).
  destruct (run_state _ _ Hrun') as [Hok' Habs']. specialize (Habs t). specialize (Habs' t). unfold abs_trace in Habs, Habs'. unfold ms_trace_of in Hl.
  destruct (ms_span st !! t) as [M0|] eqn:HM0; [|rewrite (inv_none st Hok t HM0) in Hl; done].
  destruct (heaps_run _ _ _ _ _ _ Hok Hops Hd HM0 Hw) as (M & HM & [Hlast Hext Hcl Hsub]). rewrite HM in Habs'.
  destruct (inv_trace st Hok t M0 HM0) as (r & Hr & Htok). assert (r = l) as -> by congruence. destruct (inv_trace st' Hok' t M HM) as (r' & Hr' & Htok').
  destruct (proj1 (walk_nodes (inM M) _ Hcl) _ _ _ _ Hwalk) with (m := n) as (l' & a & x & nd & HP & Hx & Hnd & Hid & Han); [|done|].
  { apply Hsub. exact (ok_root _ _ _ _ Htok). }
  destruct (Hext a (length hs) x (now (ms_heap st) hs)) with (l := l') (n := nd) as (n' & Hn' & Hid' & Han'); [apply lookup_lt_Some in Hx; cbn in Hx; lia|done|apply last_now|done|].
  rewrite Hlast in Hn'. destruct HP as [key Hkey]. destruct (ok_ids _ _ _ _ Htok' _ _ Hkey) as (i & Hi & HT & Hik). pose proof Hi as Hi'. unfold ids in Hi'. rewrite Hn' in Hi'. injection Hi' as Hi'.
  assert (tr_id n = i) as Hni by congruence. destruct Habs' as (_ & A2 & A3 & _). destruct Habs as (_ & B2 & B3 & _). split_and!.
  - rewrite Hni. apply A2. exists l'. by rewrite Hik.
  - rewrite Hni, Hik. destruct (decide (key ∈ map sp_span (spans_of (live t calls [])))) as [Hin|Hout]; [|rewrite anns_of_absent by done; apply prefix_nil].
    apply elem_of_list_In, in_map_iff in Hin as (i0 & Ei0 & Hin). apply B2 in Hin as (l0 & Hl0 & Hi0). rewrite Ei0 in Hl0. pose proof Hi0 as Hi0'. unfold ids in Hi0'.
    destruct (ms_heap st !! l0) as [n0|] eqn:En0; [|done]. cbn in Hi0'. injection Hi0' as Hi0'.
    assert (l0 = l') as ->.
    { destruct (Hsub l0) as [k0 Hk0]; [by eexists|]. destruct (ok_ids _ _ _ _ Htok' _ _ Hk0) as (j & Hj & _ & Hjk).
      destruct (Hext 0%nat (length hs) (ms_heap st) (now (ms_heap st) hs)) with (l := l0) (n := n0) as (n1 & Hn1 & Hid1 & _); [lia|done|apply last_now|done|].
      rewrite Hlast in Hn1. unfold ids in Hj. rewrite Hn1 in Hj. injection Hj as Hj. assert (k0 = key) as -> by congruence. congruence. }
    pose proof (B3 _ _ Hl0) as HA. unfold anns in HA. rewrite En0 in HA. injection HA as HA.
    destruct (Hext 0%nat a (ms_heap st) x) with (l := l') (n := n0) as (n1 & Hn1 & _ & Hp1); [lia|done|done|done|]. rewrite Han, <-HA. by replace nd with n1 by congruence.
  - rewrite Hni, Hik, Han. pose proof (A3 _ _ Hkey) as HA. unfold anns in HA. rewrite Hn' in HA. injection HA as <-. done.
Qed.

(** ** Parents first *)
Definition ext2 (P : loc -> Prop) (h h' : heap) : Prop := forall l n, P l -> h !! l = Some n ->
  exists n', h' !! l = Some n' /\ nd_id n' = nd_id n /\ nd_ann n `prefix_of` nd_ann n' /\ nd_sub n `prefix_of` nd_sub n'.
Lemma ext2_refl P h : ext2 P h h.
Proof. intros l n _ H. by exists n. Qed.
Lemma ext2_trans P a b c : ext2 P a b -> ext2 P b c -> ext2 P a c.
Proof. intros H1 H2 l n HP Hn. destruct (H1 l n HP Hn) as (n1 & E1 & I1 & A1 & U1). destruct (H2 l n1 HP E1) as (n2 & E2 & I2 & A2 & U2). exists n2. split_and!; [done|congruence|by etrans|by etrans]. Qed.
Lemma upd_ext2 P f l h h' : (forall n, h !! l = Some n -> nd_sub n `prefix_of` f (nd_sub n)) -> upd_sub f l h = Some h' -> ext2 P h h'.
Proof.
  unfold upd_sub. intros Hf. destruct (h !! l) as [n|] eqn:E; [|done]. cbn. intros [= <-] x m _ Hx. destruct (decide (x = l)) as [->|Hne]; [|rewrite lookup_insert_ne by done; by exists m].
  rewrite lookup_insert. assert (m = n) as -> by congruence. eexists. split; [reflexivity|]. cbn. split_and!; [done|done|by apply Hf].
Qed.
Lemma split_none h p cs : (forall c, c ∈ cs -> exists i, ids h c = Some i /\ sp_parent i <> p) -> split_children h (fun q => q =? p) cs = Some ([], cs).
Proof.
  induction cs as [|c cs IH]; intros H; [done|]. cbn [split_children]. destruct (H c) as (i & Hi & Hp); [by left|]. unfold ids in Hi. destruct (h !! c) as [n|]; [|done]. cbn [mbind option_bind].
  injection Hi as Hi. rewrite IH by (intros x Hx; apply H; by right). cbn [mbind option_bind]. rewrite Hi. apply N.eqb_neq in Hp. by rewrite Hp.
Qed.
Lemma pf_prefix a b : parents_first (a ++ b) -> a <> [] -> parents_first a.
Proof.
  intros (root & rest & E & H0 & H) Ha. destruct a as [|x a]; [done|]. injection E as -> E. exists root, a. split_and!; [done..|]. intros before s after ->. apply (H before s (after ++ b)).
  by rewrite <-E, <-(assoc_L (++)).
Qed.
Lemma pf_root root rest : parents_first (root :: rest) -> root_from root rest = root.
Proof.
  intros (r & rs & [= <- <-] & H0 & H). assert (forall s, In s rest -> sp_span s <> 0 /\ sp_parent s <> 0) as Hs.
  { intros s (b & a & E)%in_split. by destruct (H b s a E) as (? & ? & _). }
  clear H. induction rest as [|s rest IH]; [done|]. cbn [root_from]. destruct (Hs s) as [H1 H2]; [by left|]. rewrite H0. apply N.eqb_neq in H1, H2. rewrite H1, H2. cbn. apply IH. intros x Hx. apply Hs. by right.
Qed.
Lemma pf_parents ids0 root : parents_first ids0 -> root_of ids0 = Some root -> sp_parent root = 0 /\ forall i, In i ids0 -> i = root \/ exists p, In p ids0 /\ sp_span p = sp_parent i.
Proof.
  intros Hpf. pose proof Hpf as (r & rest & -> & H0 & H). cbn [root_of]. rewrite (pf_root _ _ Hpf). intros [= <-]. split; [done|]. intros i [<-|(b & a & ->)%in_split]; [by left|]. right.
  destruct (H b i a eq_refl) as (_ & _ & p & Hp & E). exists p. split; [|done]. destruct Hp as [<-|Hp]; [by left|]. right. apply in_or_app. by left.
Qed.
Lemma pf_new ids0 id : ids0 <> [] -> parents_first (ids0 ++ [id]) -> sp_span id <> 0 /\ sp_parent id <> 0 /\ exists p, In p ids0 /\ sp_span p = sp_parent id.
Proof. intros Hne (r & rest & E & H0 & H). destruct ids0 as [|x ids0]; [done|]. injection E as -> E. exact (H ids0 id [] (eq_sym E)). Qed.
Lemma pf_collect id a st hs L : ms_ok st -> abs_trace st (sp_trace id) L -> L <> [] -> parents_first (spans_of (L ++ [(id, a)])) -> w_collect id a st = Some hs ->
  path (ext2 (fun _ => True)) (ms_heap st) hs.
Proof.
  intros Hok Habs HL Hpf. unfold abs_trace in Habs. destruct (ms_span st !! sp_trace id) as [S0|] eqn:HS; [|done]. destruct Habs as (_ & A2 & _ & (r & Hr & Hroot)).
  destruct (inv_trace st Hok _ _ HS) as (r' & Hr' & Htok). assert (r' = r) as -> by congruence. clear Hr'.
  unfold w_collect. rewrite HS. cbn [mbind option_bind]. rewrite HS. cbn [mbind option_bind]. destruct (S0 !! sp_span id) as [s|] eqn:Es.
  - destruct (ms_heap st !! s) as [n|] eqn:En; [|done]. cbn [mbind option_bind]. intros [= <-]. cbn [path]. split; [|done]. intros l m _ Hm. destruct (decide (l = s)) as [->|Hne]; [|rewrite lookup_insert_ne by done; by exists m].
    rewrite lookup_insert. assert (m = n) as -> by congruence. eexists. split; [reflexivity|]. cbn. split_and!; [done|by eexists|done].
  - assert (bool_decide (sp_span id ∈ map sp_span (spans_of L)) = false) as Hb.
    { apply bool_decide_eq_false_2. intros Hin. apply elem_of_list_In, in_map_iff in Hin as (i & Ei & Hin). apply A2 in Hin as (l & Hl & _). congruence. }
    rewrite spans_of_snoc, Hb in Hpf. assert (spans_of L <> []) as HsL by (by rewrite spans_of_nil).
    destruct (pf_new _ _ HsL Hpf) as (Hz & Hp0 & p & Hp & Ep). apply pf_prefix in Hpf; [|done]. destruct (ok_root _ _ _ _ Htok) as [kr Hkr]. destruct (ok_ids _ _ _ _ Htok _ _ Hkr) as (ir & Hir & _ & Hirk).
    destruct (pf_parents _ ir Hpf) as [Hr0 Hpar]; [congruence|]. apply A2 in Hp as (lp & Hlp & Hip). rewrite Ep in Hlp.
    set (s := ms_next st). set (h0 := <[s := _]> (ms_heap st)). rewrite Hr.
    assert (forall l, is_Some (ms_heap st !! l) -> l <> s) as Hfr. { intros l Hl ->. pose proof (inv_fresh st Hok _ Hl). unfold s in *. lia. }
    assert (is_Some (ms_heap st !! r)) as Hrs. { unfold ids in Hir. destruct (ms_heap st !! r); [by eexists|done]. }
    assert (is_Some (ms_heap st !! lp)) as Hlps. { unfold ids in Hip. destruct (ms_heap st !! lp); [by eexists|done]. }
    assert (h0 !! r = ms_heap st !! r) as Er by (unfold h0; rewrite lookup_insert_ne; [done|]; intros E; by apply (Hfr r)).
    rewrite Er. destruct Hrs as [rn Hrn]. rewrite Hrn. cbn [mbind option_bind]. assert (nd_id rn = ir) as -> by (unfold ids in Hir; rewrite Hrn in Hir; by injection Hir).
    rewrite Hr0. assert ((0 =? sp_span id) = false) as -> by (apply N.eqb_neq; congruence). assert ((sp_parent id =? 0) = false) as -> by (by apply N.eqb_neq). cbn [orb]. rewrite andb_false_r. cbn [mbind option_bind negb andb].
    assert ((s =? r) = false) as -> by (apply N.eqb_neq; intros E; apply (Hfr r); [by eexists|done]). cbn [negb]. change (now h0 []) with h0.
    unfold w_insert, ms_insert. assert (h0 !! s = Some (MkNode id a [])) as -> by (unfold h0; by rewrite lookup_insert). cbn [mbind option_bind nd_id]. rewrite lookup_insert. cbn [mbind option_bind].
    assert (sp_parent id <> sp_span id) as Hps by (intros E; rewrite E in Hlp; congruence). rewrite lookup_insert_ne by done. rewrite Hlp.
    destruct (upd_sub _ lp h0) as [h1|] eqn:E1; [|done]. cbn [mbind option_bind]. change (now h0 [h1]) with h1.
    destruct (w_reattach s r h1) as [w2|] eqn:E2; [|done]. cbn [mbind option_bind app]. intros [= <-]. cbn [path].
    assert (ext2 (fun _ => True) (ms_heap st) h0) as X0. { intros l n _ Hl. unfold h0. rewrite lookup_insert_ne; [by exists n|]. intros <-. apply (Hfr s); [by eexists|done]. }
    assert (ext2 (fun _ => True) h0 h1) as X1. { eapply upd_ext2; [|exact E1]. intros. by eexists. }
    split; [done|]. split; [done|]. revert E2. unfold w_reattach. destruct (N.eqb_spec s r) as [|_]; [done|].
    destruct (X1 s (MkNode id a [])) as (ns & Hns & Hids & _); [done|unfold h0; by rewrite lookup_insert|]. rewrite Hns. destruct (X1 r rn) as (nr & Hnr & _ & _ & Hnrs); [done|by rewrite Er|]. rewrite Hnr.
    cbn [mbind option_bind]. rewrite Hids. cbn [nd_id].
    assert (forall c, c ∈ nd_sub nr -> c ∈ nd_sub rn \/ c = s) as Hsubs.
    { revert E1. unfold upd_sub. destruct (h0 !! lp) as [np|] eqn:Enp; [|done]. cbn. intros [= <-]. intros c. destruct (decide (r = lp)) as [->|Hne].
      - rewrite lookup_insert in Hnr. injection Hnr as <-. cbn. assert (np = rn) as -> by congruence. rewrite elem_of_app, elem_of_list_singleton. tauto.
      - rewrite lookup_insert_ne in Hnr by done. assert (nr = rn) as -> by congruence. tauto. }
    rewrite split_none.
    + cbn [mbind option_bind w_append]. change (now h1 []) with h1. destruct (upd_sub _ r h1) as [h2|] eqn:E3; [|done]. cbn [mbind option_bind app]. intros [= <-]. cbn [path]. split; [|done].
      eapply upd_ext2; [|exact E3]. intros n Hn. assert (n = nr) as -> by congruence. done.
    + assert (forall x i, ids (ms_heap st) x = Some i -> ids h1 x = Some i) as Hids1.
      { intros x i Hx. unfold ids in Hx. destruct (ms_heap st !! x) as [m|] eqn:Em; [|done]. destruct (ext2_trans _ _ _ _ X0 X1 x m I Em) as (m' & Hm' & Hid & _). unfold ids. rewrite Hm'. cbn. cbn in Hx. congruence. }
      intros c Hc. destruct (Hsubs c Hc) as [Hin|Ec].
      * assert (c ∈ subs (ms_heap st) r) as Hin' by (unfold subs; by rewrite Hrn). apply (ok_subs _ _ _ _ Htok _ _ Hkr) in Hin' as (Hcr & i & Hi & HSi & Hdef). exists i. split; [by apply Hids1|].
        intros E. destruct (Hpar i) as [->|(q & Hq & Eq)]; [apply A2; by exists c| |]; [congruence|]. apply A2 in Hq as (lq & Hlq & _). rewrite Eq, E in Hlq. congruence.
      * subst c. exists id. split; [unfold ids; rewrite Hns; cbn; by rewrite Hids|done].
Qed.
Lemma spans_of_app a b : exists m, spans_of (a ++ b) = spans_of a ++ m.
Proof.
  induction b as [|[id x] b [m IH]] using rev_ind; [exists []; by rewrite !app_nil_r|]. rewrite (assoc_L (++)), spans_of_snoc, IH, <-(assoc_L (++)). by eexists.
Qed.
Lemma live_more t ops acc : (forall ts, In (CDelete ts) ops -> ~ In t ts) -> exists m, live t ops acc = acc ++ m.
Proof.
  revert acc. induction ops as [|[id a|ts] ops IH]; intros acc Hd; cbn [live]; [exists []; by rewrite app_nil_r| |].
  - assert (forall ts, In (CDelete ts) ops -> ~ In t ts) as Hd' by (intros ts H; apply Hd; by right). destruct (sp_trace id =? t); [|by apply IH]. destruct (IH (acc ++ [(id, a)]) Hd') as [m ->]. rewrite <-(assoc_L (++)). by eexists.
  - rewrite bool_decide_eq_false_2 by (rewrite elem_of_list_In; apply Hd; by left). apply IH. intros ts' H. apply Hd. by right.
Qed.
Lemma live_app2 t a b acc : live t (a ++ b) acc = live t b (live t a acc).
Proof. revert acc. induction a as [|[id x|ts] a IH]; intros acc; cbn [app live]; [done|apply IH|apply IH]. Qed.
Lemma run_path2 ops calls st st' t hs : ms_run calls ms_init = Some st -> ms_run ops st = Some st' -> (forall ts, In (CDelete ts) ops -> ~ In t ts) -> live t calls [] <> [] ->
  parents_first (spans_of (live t (calls ++ ops) [])) -> w_run ops st = Some hs -> path (fun h h' => ext2 (fun _ => True) h h' \/ exists T Q, T <> t /\ write Q T h h') (ms_heap st) hs.
Proof.
  revert calls st hs. induction ops as [|c ops IH]; intros calls st hs Hrun Hr Hd HL Hpf; cbn [ms_run w_run] in *; [by intros [= <-]|].
  destruct (ms_step c st) as [st1|] eqn:E; [|done]. cbn [mbind option_bind] in Hr. destruct (run_state _ _ Hrun) as [Hok Habs].
  assert (ms_run (calls ++ [c]) ms_init = Some st1) as Hrun1 by (rewrite ms_run_app, Hrun; cbn; by rewrite E).
  assert (forall ts, In (CDelete ts) ops -> ~ In t ts) as Hd' by (intros ts Hin; apply Hd; by right).
  assert (exists m, live t (calls ++ [c]) [] = live t calls [] ++ m) as [m Hm]. { rewrite live_app2. apply live_more. intros ts [->|[]]. apply Hd. by left. }
  assert (live t (calls ++ [c]) [] <> []) as HL1 by (rewrite Hm; intros ?%app_eq_nil; tauto).
  assert (parents_first (spans_of (live t ((calls ++ [c]) ++ ops) []))) as Hpf1 by (by rewrite <-(assoc_L (++))).
  specialize (fun hs => IH (calls ++ [c]) st1 hs Hrun1 Hr Hd' HL1 Hpf1) as IH'. clear IH. rename IH' into IH.
  destruct c as [id a|ts]; cbn [ms_step] in E.
  - destruct (w_collect_last id a st st1 E) as (w & Ew & Nw). rewrite Ew. cbn [mbind option_bind]. destruct (w_run ops st1) as [hs'|] eqn:Er; [|done]. cbn [mbind option_bind]. intros [= <-].
    apply path_app. rewrite Nw. split; [|by apply IH]. destruct (decide (sp_trace id = t)) as [<-|Hne].
    + eapply path_mono; [intros x y Hxy; left; exact Hxy|]. eapply (pf_collect id a st w (live (sp_trace id) calls [])); [done|apply Habs|done| |done].
      destruct (live_more (sp_trace id) ops (live (sp_trace id) (calls ++ [CCollect id a]) []) Hd') as [m' Hm']. rewrite <-live_app2 in Hm'. rewrite Hm' in Hpf1.
      destruct (spans_of_app (live (sp_trace id) (calls ++ [CCollect id a]) []) m') as [m2 Hm2]. rewrite Hm2 in Hpf1. apply pf_prefix in Hpf1; [|by rewrite spans_of_nil].
      rewrite live_app2 in Hpf1. cbn [live] in Hpf1. by rewrite N.eqb_refl in Hpf1.
    + destruct (collect_span _ _ _ _ Hok E) as (S0 & _ & HM1). eapply path_mono; [|exact (w_collect_path _ _ _ _ _ _ Hok E HM1 Ew)]. intros x y Hxy. right. eauto.
  - cbn [mbind option_bind]. destruct (w_run ops st1) as [hs'|] eqn:Er; [|done]. cbn [mbind option_bind]. intros [= <-]. cbn [app].
    replace (ms_heap st) with (ms_heap st1); [by apply IH|]. injection E as <-. by destruct (delete_lookup ts st 0) as (-> & _).
Qed.
Lemma reads_grows P h h' : closed P h -> ext2 P h h' -> forall l T, reads h l T -> P l -> forall T', reads h' l T' -> grows T T'.
Proof.
  intros Hc He. apply (reads_ind' h (fun l T => P l -> forall T', reads h' l T' -> grows T T')). intros l n ts Hl Hs IH HP T' HT'. inversion HT' as [l' n' ts' Hl' Hs']; subst.
  destruct (He l n HP Hl) as (n2 & Hn2 & Hid & [a' Ha] & [more Hm]). assert (n2 = n') as -> by congruence. rewrite Hid, Ha. rewrite Hm in Hs'. apply Forall2_app_inv_l in Hs' as (t1 & t2 & H1 & _ & ->). constructor.
  assert (forall c, c ∈ nd_sub n -> P c) as Hsub by (intros c; by apply (Hc l n)). clear -IH H1 Hsub. revert t1 H1. induction IH as [|c t cs ts H0 IH2 IHl]; intros t1 H1; inversion H1; subst; [constructor|]. constructor.
  - apply H0; [apply Hsub; by left|done].
  - apply IHl; [intros x Hx; apply Hsub; by right|done].
Qed.
Lemma walk_le H : (forall k l k' tr, walk H k l k' tr -> (k <= k')%nat) /\ (forall k ls k' trs, walks H k ls k' trs -> (k <= k')%nat).
Proof. apply walk_both; intros; lia. Qed.
Lemma walk_grows P (H : list heap) : (forall x, In x H -> closed P x) -> (forall a b x y, (a <= b)%nat -> H !! a = Some x -> H !! b = Some y -> ext2 P x y) ->
  (forall k l k' tr, walk H k l k' tr -> P l ->
     (forall k0 x T, (k0 <= k)%nat -> H !! k0 = Some x -> reads x l T -> grows T tr) /\ (forall k0 x T, (k' <= k0)%nat -> H !! k0 = Some x -> reads x l T -> grows tr T)) /\
  (forall k ls k' trs, walks H k ls k' trs -> (forall l, l ∈ ls -> P l) ->
     (forall k0 x Ts, (k0 <= k)%nat -> H !! k0 = Some x -> forall pre, pre `prefix_of` ls -> Forall2 (reads x) pre Ts -> exists trs1 trs2, trs = trs1 ++ trs2 /\ Forall2 grows Ts trs1) /\
     (forall k0 x Ts, (k' <= k0)%nat -> H !! k0 = Some x -> forall post, ls `prefix_of` post -> Forall2 (reads x) post Ts -> exists Ts1 Ts2, Ts = Ts1 ++ Ts2 /\ Forall2 grows trs Ts1)).
Proof.
  intros Hc He. apply walk_both.
  - intros k k' k1 a b l n n' ts Hka Hak Ha Hkb Hb Hw IH Hk1 Hl. destruct (H !! a) as [xa|] eqn:Exa; [|done]. destruct (H !! b) as [xb|] eqn:Exb; [|done]. cbn in Ha, Hb.
    assert (forall c, c ∈ nd_sub n' -> P c) as Hsub. { intros c Hcs. eapply (Hc xb); [by apply elem_of_list_In, (elem_of_list_lookup_2 _ b)|exact Hl|exact Hb|exact Hcs]. }
    destruct (IH Hsub) as [IH1 IH2]. clear IH. pose proof (proj2 (walk_le H) _ _ _ _ Hw) as Hle. split.
    + intros k0 x T Hk0 Hx HT. inversion HT as [l0 n0 ts0 Hn0 Hs0]; subst. destruct (He k0 a x xa) with (l := l) (n := n0) as (na & Hna & Hid & [aa Haa] & _); [lia|done..|]. assert (na = n) as -> by congruence.
      destruct (He k0 b x xb) with (l := l) (n := n0) as (nb & Hnb & _ & _ & Hpre); [lia|done..|]. assert (nb = n') as -> by congruence.
      destruct (IH1 k0 x ts0) with (pre := nd_sub n0) as (t1 & t2 & -> & HF); [lia|done..|]. rewrite Hid, Haa. by constructor.
    + intros k0 x T Hk0 Hx HT. inversion HT as [l0 n0 ts0 Hn0 Hs0]; subst. destruct (He a k0 xa x) with (l := l) (n := n) as (na & Hna & Hid & [aa Haa] & _); [lia|done..|]. assert (na = n0) as -> by congruence.
      destruct (He b k0 xb x) with (l := l) (n := n') as (nb & Hnb & _ & _ & Hpre); [lia|done..|]. assert (nb = n0) as -> by congruence.
      destruct (IH2 k0 x ts0) with (post := nd_sub n0) as (t1 & t2 & -> & HF); [lia|done..|]. rewrite Hid, Haa. by constructor.
  - intros k _. split.
    + intros k0 x Ts _ _ pre Hpre HF. apply prefix_nil_inv in Hpre as ->. inversion HF; subst. exists [], []. by split; [|constructor].
    + intros k0 x Ts _ _ post _ _. exists [], Ts. by split; [|constructor].
  - intros k k1 k2 l ls t ts Hw1 IH1 Hw2 IH2 Hl. pose proof (proj1 (walk_le H) _ _ _ _ Hw1) as Hle1. pose proof (proj2 (walk_le H) _ _ _ _ Hw2) as Hle2.
    destruct IH1 as [A1 A2]; [apply Hl; by left|]. destruct IH2 as [B1 B2]; [intros c Hcs; apply Hl; by right|]. split.
    + intros k0 x Ts Hk0 Hx pre Hpre HF. destruct pre as [|p pre]; [inversion HF; subst; exists [], (t :: ts); by split; [|constructor]|].
      pose proof (prefix_cons_inv_1 _ _ _ _ Hpre) as ->. apply prefix_cons_inv_2 in Hpre. inversion HF as [|? T ? Ts' H1 H2]; subst.
      destruct (B1 k0 x Ts') with (pre := pre) as (t1 & t2 & -> & HF2); [lia|done..|]. exists (t :: t1), t2. split; [done|]. constructor; [|done]. by apply (A1 k0 x).
    + intros k0 x Ts Hk0 Hx post Hpost HF. destruct post as [|p post]; [by apply prefix_nil_inv in Hpost|].
      pose proof (prefix_cons_inv_1 _ _ _ _ Hpost) as ->. apply prefix_cons_inv_2 in Hpost. inversion HF as [|? T ? Ts' H1 H2]; subst.
      destruct (B2 k0 x Ts') with (post := post) as (t1 & t2 & -> & HF2); [lia|done..|]. exists (T :: t1), t2. split; [done|]. constructor; [|done]. apply (A2 k0 x); [lia|done|done].
Qed.
Lemma shown_parents_first calls ops st st' t l hs k tr : ms_run calls ms_init = Some st -> ms_trace_of st t = Some l -> ms_run ops st = Some st' -> (forall ts, In (CDelete ts) ops -> ~ In t ts) ->
  parents_first (spans_of (live t (calls ++ ops) [])) -> w_run ops st = Some hs -> walk (ms_heap st :: hs) 0 l k tr -> (k <= length hs)%nat ->
  exists T T', shows st t T /\ shows st' t T' /\ grows T tr /\ grows tr T'.
Proof.
  intros Hrun Hl Hops Hd Hpf Hw Hwalk Hk. destruct (run_state _ _ Hrun) as [Hok Habs]. assert (ms_run (calls ++ ops) ms_init = Some st') as Hrun' by (rewrite ms_run_app, Hrun; exact Hops).
  destruct (run_state _ _ Hrun') as [Hok' Habs']. assert (live t calls [] <> []) as HL. { intros E. apply (found_iff _ _ _ Hrun) in E. congruence. }
  assert (live t (calls ++ ops) [] <> []) as HL'. { rewrite live_app2. destruct (live_more t ops (live t calls []) Hd) as [m ->]. intros ?%app_eq_nil. tauto. }
  pose proof (run_path2 _ _ _ _ _ _ Hrun Hops Hd HL Hpf Hw) as Hp2. unfold ms_trace_of in Hl.
  destruct (ms_span st !! t) as [M0|] eqn:HM0; [|rewrite (inv_none st Hok t HM0) in Hl; done].
  destruct (heaps_run _ _ _ _ _ _ Hok Hops Hd HM0 Hw) as (M & HM & [Hlast Hext Hcl Hsub]).
  destruct (inv_trace st Hok t M0 HM0) as (r & Hr & Htok). assert (r = l) as -> by congruence. destruct (inv_trace st' Hok' t M HM) as (r' & Hr' & Htok').
  destruct (trace_displayed _ _ _ Hrun HL) as (T & HT & _). destruct (trace_displayed _ _ _ Hrun' HL') as (T' & HT' & _).
  (* the root has not changed *)
  assert (r' = l) as ->.
  { specialize (Habs t). specialize (Habs' t). unfold abs_trace in Habs, Habs'. rewrite HM0 in Habs. rewrite HM in Habs'. destruct Habs as (_ & B2 & _ & (q & Hq & Hqr)). destruct Habs' as (_ & A2 & _ & (q' & Hq' & Hqr')).
    assert (q = l) as -> by congruence. assert (q' = r') as -> by congruence.
    destruct (live_more t ops (live t calls []) Hd) as [m Hm]. rewrite <-live_app2 in Hm. destruct (spans_of_app (live t calls []) m) as [m2 Hm2]. rewrite Hm, Hm2 in Hpf, Hqr'.
    destruct (spans_of (live t calls [])) as [|root rest] eqn:Esp; [by apply spans_of_nil in Esp|]. cbn [root_of app] in Hqr, Hqr'.
    pose proof (pf_root root (rest ++ m2) Hpf) as E1. apply pf_prefix in Hpf; [|done]. pose proof (pf_root _ _ Hpf) as E2. rewrite E1 in Hqr'. rewrite E2 in Hqr.
    destruct (ok_root _ _ _ _ Htok) as [k0 Hk0]. destruct (ok_root _ _ _ _ Htok') as [k1 Hk1]. destruct (Hsub l) as [k2 Hk2]; [by exists k0|].
    destruct (ok_ids _ _ _ _ Htok' _ _ Hk1) as (i1 & Hi1 & _ & E3). destruct (ok_ids _ _ _ _ Htok' _ _ Hk2) as (i2 & Hi2 & _ & E4).
    unfold ids in Hqr at 1. destruct (ms_heap st !! l) as [nl|] eqn:Enl; [|done]. cbn in Hqr.
    destruct (Hext 0%nat (length hs) (ms_heap st) (now (ms_heap st) hs)) with (l := l) (n := nl) as (n1 & Hn1 & Hid1 & _); [lia|done|apply last_now|done|]. rewrite Hlast in Hn1.
    unfold ids in Hi2. rewrite Hn1 in Hi2. cbn in Hi2. assert (i1 = i2) as -> by congruence. congruence. }
  assert (forall a b x y, (a <= b)%nat -> (ms_heap st :: hs) !! a = Some x -> (ms_heap st :: hs) !! b = Some y -> ext2 (inM M) x y) as Hext2.
  { apply path_le; [apply ext2_refl|apply ext2_trans|].
    assert (forall x y, In y hs -> (ext2 (fun _ => True) x y \/ exists T Q, T <> t /\ write Q T x y) -> ext2 (inM M) x y) as Hstep.
    { intros x y Hy [H|(T0 & Q & Hne & H)]; [intros z n _ Hz; by apply H|]. intros z n Hz Hn. destruct (write_ext1 _ _ _ _ H z n Hn) as (n' & Hn' & Hid & Han).
      apply elem_of_list_In, elem_of_list_lookup in Hy as [b Hb]. destruct (Hext (S b) (length hs) y (now (ms_heap st) hs)) with (l := z) (n := n') as (n2 & Hn2 & Hid2 & _); [apply lookup_lt_Some in Hb; lia|done|apply last_now|done|].
      rewrite Hlast in Hn2. destruct Hz as [kz Hkz]. destruct (ok_ids _ _ _ _ Htok' _ _ Hkz) as (i & Hi & HT0 & _). unfold ids in Hi. rewrite Hn2 in Hi. cbn in Hi.
      assert (sp_trace (nd_id n) = t) as Htn by congruence. exists n'. split_and!; [done..|].
      destruct H as [h0 s id a Hs HT1|h0 l0 n0 a H HT1|h0 l0 n0 sub H HT1 _].
      - rewrite lookup_insert_ne in Hn' by congruence. by replace n' with n by congruence.
      - rewrite lookup_insert_ne in Hn' by congruence. by replace n' with n by congruence.
      - rewrite lookup_insert_ne in Hn' by congruence. by replace n' with n by congruence. }
    clear -Hp2 Hstep. revert Hp2. generalize (ms_heap st). induction hs as [|y hs IH]; intros h; [done|]. cbn [path]. intros [H1 H2]. split; [apply Hstep; [by left|done]|].
    apply IH; [|done]. intros x z Hz. apply Hstep. by right. }
  exists T, T'. split_and!; [done|done| |].
  - destruct HT as (l1 & Hl1 & HT). unfold ms_trace_of in Hl1. assert (l1 = l) as -> by congruence.
    apply (proj1 (proj1 (walk_grows _ _ Hcl Hext2) _ _ _ _ Hwalk ltac:(apply Hsub; exact (ok_root _ _ _ _ Htok))) 0%nat (ms_heap st)); [lia|done|done].
  - destruct HT' as (l1 & Hl1 & HT'). unfold ms_trace_of in Hl1. assert (l1 = l) as -> by congruence.
    apply (proj2 (proj1 (walk_grows _ _ Hcl Hext2) _ _ _ _ Hwalk ltac:(apply Hsub; exact (ok_root _ _ _ _ Htok))) (length hs) (ms_heap st')); [done|rewrite <-Hlast; apply last_now|done].
Qed.

(** ** After a deletion *)
Definition same (P : loc -> Prop) (h h' : heap) : Prop := forall l, P l -> h' !! l = h !! l.
(** The nodes P are in no map of the store, and have been allocated. *)
Definition gone (P : loc -> Prop) (st : MS) : Prop :=
  (forall T M l, ms_span st !! T = Some M -> inM M l -> ~ P l) /\ (forall l, P l -> is_Some (ms_heap st !! l)).
Lemma write_same P (Q : loc -> Prop) T h h' : (forall l, Q l -> ~ P l) -> (forall l, P l -> is_Some (h !! l)) -> write Q T h h' -> same P h h'.
Proof.
  intros HQ HP Hw. revert HP. destruct Hw as [h0 s id a Hs HT|h0 l0 n0 a H HT Hl0|h0 l0 n0 sub H HT Hsub Hl0]; intros HP l Hl; apply lookup_insert_ne; intros ->.
  - destruct (HP _ Hl) as [? Hx]. by rewrite Hs in Hx.
  - exact (HQ _ Hl0 Hl).
  - exact (HQ _ Hl0 Hl).
Qed.
Lemma path_same P (Q : loc -> Prop) T h hs : (forall l, Q l -> ~ P l) -> (forall l, P l -> is_Some (h !! l)) -> path (write Q T) h hs -> path (same P) h hs /\ same P h (now h hs).
Proof.
  intros HQ. revert h. induction hs as [|x hs IH]; intros h HP; [done|]. cbn [path]. intros [H1 H2]. pose proof (write_same _ _ _ _ _ HQ HP H1) as H1'.
  destruct (IH x) as [H3 H4]; [|done|]; [intros l Hl; rewrite (H1' l Hl); by apply HP|]. split; [done|]. rewrite now_cons. intros l Hl. by rewrite (H4 l Hl), (H1' l Hl).
Qed.
Lemma run_gone P ops st st' hs : ms_ok st -> gone P st -> ms_run ops st = Some st' -> w_run ops st = Some hs -> path (same P) (ms_heap st) hs.
Proof.
  revert st hs. induction ops as [|c ops IH]; intros st hs Hok Hg Hr; cbn [ms_run w_run] in *; [by intros [= <-]|]. destruct (ms_step c st) as [st1|] eqn:E; [|done]. cbn [mbind option_bind] in Hr.
  assert (ms_ok st1) as Hok1 by (eapply (run_preserves [c]); [exact Hok|]; cbn; by rewrite E). destruct Hg as [G1 G2].
  destruct c as [id a|ts]; cbn [ms_step] in E.
  - destruct (w_collect_last id a st st1 E) as (w & Ew & Nw). rewrite Ew. cbn [mbind option_bind]. destruct (w_run ops st1) as [hs'|] eqn:Er; [|done]. cbn [mbind option_bind]. intros [= <-].
    destruct (collect_span _ _ _ _ Hok E) as (S0 & ES & HM1). pose proof (w_collect_path _ _ _ _ _ _ Hok E HM1 Ew) as Hp.
    assert (forall l, P l -> l < ms_next st) as Hlt by (intros l Hl; by apply (inv_fresh st Hok), G2).
    assert (forall l, inM (match S0 !! sp_span id with Some _ => S0 | None => <[sp_span id := ms_next st]> S0 end) l -> ~ P l) as HQ.
    { assert (forall l, inM S0 l -> ~ P l) as H0. { intros l Hl. destruct (ms_span st !! sp_trace id) as [S1|] eqn:E1; cbn in ES; subst S0; [by eapply G1|]. destruct Hl as [k Hk]. by rewrite lookup_empty in Hk. }
      intros l. destruct (S0 !! sp_span id); [apply H0|]. intros [k Hk]. destruct (decide (k = sp_span id)) as [->|Hne].
      - rewrite lookup_insert in Hk. injection Hk as <-. intros HP. specialize (Hlt _ HP). lia.
      - rewrite lookup_insert_ne in Hk by done. apply H0. by exists k. }
    destruct (path_same P _ _ _ _ HQ G2 Hp) as [H1 H2]. rewrite Nw in H2. apply path_app. rewrite Nw. split; [done|]. apply IH; [done| |done|done]. split.
    + intros T M l HM Hl. destruct (decide (T = sp_trace id)) as [->|Hne].
      * apply HQ. by replace M with (match S0 !! sp_span id with Some _ => S0 | None => <[sp_span id := ms_next st]> S0 end) in Hl by congruence.
      * destruct (collect_ok st id a Hok) as (st2 & H2' & _ & Heff). assert (st2 = st1) as -> by congruence. rewrite (ce_other_span _ _ _ _ Heff) in HM by done. by eapply G1.
    + intros l Hl. rewrite (H2 l Hl). by apply G2.
  - cbn [mbind option_bind]. destruct (w_run ops st1) as [hs'|] eqn:Er; [|done]. cbn [mbind option_bind]. intros [= <-]. cbn [app]. injection E as <-.
    assert (ms_heap (ms_delete ts st) = ms_heap st) as Eh by apply (delete_lookup ts st 0).
    rewrite <-Eh. apply IH; [done| |done|done]. split.
    + intros T M l HM. destruct (delete_lookup ts st T) as (_ & _ & _ & H). rewrite H in HM. destruct (bool_decide _); [done|]. by eapply G1.
    + intros l Hl. rewrite Eh. by apply G2.
Qed.
Lemma w_run_app a b st : w_run (a ++ b) st = (h1 ← w_run a st; st1 ← ms_run a st; h2 ← w_run b st1; Some (h1 ++ h2)).
Proof.
  revert st. induction a as [|c a IH]; intros st; cbn [app w_run ms_run].
  - cbn. by destruct (w_run b st).
  - destruct c as [id x|ts]; cbn [ms_step].
    + destruct (w_collect id x st) as [w|]; [|done]. cbn [mbind option_bind]. destruct (ms_collect id x st) as [st1|]; [|done]. cbn [mbind option_bind]. rewrite IH.
      destruct (w_run a st1) as [h1|]; [|done]. cbn [mbind option_bind]. destruct (ms_run a st1) as [st2|]; [|done]. cbn [mbind option_bind]. destruct (w_run b st2); [|done]. cbn. by rewrite app_assoc.
    + cbn [mbind option_bind]. rewrite IH. destruct (w_run a _) as [h1|]; [|done]. cbn [mbind option_bind]. destruct (ms_run a _) as [st2|]; [|done]. cbn [mbind option_bind]. by destruct (w_run b st2).
Qed.
Lemma walk_map (P : loc -> Prop) (H H' : list heap) (f : nat -> nat) : (forall x, In x H -> closed P x) -> (forall a b, (a <= b)%nat -> (f a <= f b)%nat) ->
  (forall a l n, P l -> H !! a ≫= (.!! l) = Some n -> H' !! f a ≫= (.!! l) = Some n) ->
  (forall k l k' tr, walk H k l k' tr -> P l -> walk H' (f k) l (f k') tr) /\
  (forall k ls k' trs, walks H k ls k' trs -> (forall l, l ∈ ls -> P l) -> walks H' (f k) ls (f k') trs).
Proof.
  intros Hc Hf Hm. apply walk_both.
  - intros k k' k1 a b l n n' ts Hka Hak Ha Hkb Hb _ IH Hk1 Hl. eapply (Walk _ _ _ (f k1) (f a) (f b)); [by apply Hf|by apply Hf|by apply Hm|by apply Hf|apply Hm; [done|exact Hb]| |by apply Hf].
    apply IH. intros c Hcs. destruct (H !! b) as [y|] eqn:Ey; [|done]. cbn in Hb. eapply (Hc y); [by apply elem_of_list_In, (elem_of_list_lookup_2 _ b)|exact Hl|exact Hb|exact Hcs].
  - intros k _. constructor.
  - intros k k1 k2 l ls t ts _ IH1 _ IH2 Hl. econstructor; [apply IH1, Hl; by left|apply IH2; intros c Hcs; apply Hl; by right].
Qed.
Lemma until_split t ops : (until t ops = ops /\ forall ts, In (CDelete ts) ops -> ~ In t ts) \/
  exists ts rest, ops = until t ops ++ CDelete ts :: rest /\ In t ts /\ forall ts, In (CDelete ts) (until t ops) -> ~ In t ts.
Proof.
  induction ops as [|c ops IH]; [by left|]. destruct c as [id a|ts]; cbn [until].
  - destruct IH as [[E H]|(ts & rest & E & Ht & H)].
    + left. split; [by rewrite E|]. intros ts [|]; [done|]. by apply H.
    + right. exists ts, rest. split_and!; [cbn; by rewrite <-E|done|]. intros ts' [|]; [done|]. by apply H.
  - destruct (in_dec N.eq_dec t ts) as [Hin|Hout].
    + right. exists ts, ops. split_and!; [done|done|]. by intros ts' [].
    + destruct IH as [[E H]|(ts1 & rest & E & Ht & H)].
      * left. split; [by rewrite E|]. intros ts' [[= <-]|]; [done|]. by apply H.
      * right. exists ts1, rest. split_and!; [cbn; by rewrite <-E|done|]. intros ts' [[= <-]|]; [done|]. by apply H.
Qed.
Lemma until_no t ops ts : In (CDelete ts) (until t ops) -> ~ In t ts.
Proof. destruct (until_split t ops) as [[E H]|(ts1 & rest & E & Ht & H)]; [rewrite E; apply H|apply H]. Qed.
(** A reader is shown nothing of what comes after the deletion of the trace. *)
Lemma walk_until calls ops st st' t l hs k tr : ms_run calls ms_init = Some st -> ms_trace_of st t = Some l -> ms_run ops st = Some st' ->
  w_run ops st = Some hs -> walk (ms_heap st :: hs) 0 l k tr -> (k <= length hs)%nat ->
  exists st1 hs1 k1, ms_run (until t ops) st = Some st1 /\ w_run (until t ops) st = Some hs1 /\ walk (ms_heap st :: hs1) 0 l k1 tr /\ (k1 <= length hs1)%nat.
Proof.
  intros Hrun Hl Hr Hw Hwalk Hk. destruct (until_split t ops) as [[E _]|(ts & rest & E & Ht & Hd)]; [rewrite E; by exists st', hs, k|].
  set (o1 := until t ops) in *. clearbody o1. subst ops. destruct (run_state _ _ Hrun) as [Hok _]. rewrite ms_run_app in Hr. destruct (ms_run o1 st) as [st1|] eqn:E1; [|done]. cbn in Hr.
  rewrite w_run_app, E1 in Hw. destruct (w_run o1 st) as [hs1|] eqn:W1; [|done]. cbn [mbind option_bind w_run ms_step] in Hw.
  destruct (w_run rest (ms_delete ts st1)) as [hs2|] eqn:W2; [|done]. cbn [mbind option_bind app] in Hw. injection Hw as <-.
  pose proof (run_preserves _ _ _ Hok E1) as Hok1. unfold ms_trace_of in Hl. destruct (ms_span st !! t) as [M0|] eqn:HM0; [|rewrite (inv_none st Hok t HM0) in Hl; done].
  destruct (heaps_run _ _ _ _ _ _ Hok E1 Hd HM0 W1) as (M & HM & [Hlast Hext Hcl Hsub]). destruct (inv_trace st Hok t M0 HM0) as (r & Hr0 & Htok). assert (r = l) as -> by congruence.
  destruct (inv_trace st1 Hok1 t M HM) as (r1 & Hr1 & Htok1). assert (ms_ok (ms_delete ts st1)) as Hok2 by (eapply (run_preserves [CDelete ts]); [exact Hok1|done]).
  assert (gone (inM M) (ms_delete ts st1)) as Hg.
  { split.
    - intros T M' x HM' [key Hkey] [key0 Hkey0]. destruct (delete_lookup ts st1 T) as (_ & _ & _ & H). rewrite H in HM'. destruct (decide (T ∈ ts)) as [Hin|Hout]; [by rewrite bool_decide_eq_true_2 in HM'|].
      rewrite bool_decide_eq_false_2 in HM' by done. destruct (inv_trace st1 Hok1 T M' HM') as (r' & _ & Htok'). destruct (ok_ids _ _ _ _ Htok' _ _ Hkey) as (i & Hi & HT & _).
      destruct (ok_ids _ _ _ _ Htok1 _ _ Hkey0) as (j & Hj & HT' & _). apply Hout. assert (T = t) as -> by congruence. by apply elem_of_list_In.
    - intros x [key Hkey]. destruct (delete_lookup ts st1 0) as (-> & _). destruct (ok_ids _ _ _ _ Htok1 _ _ Hkey) as (i & Hi & _). unfold ids in Hi. by destruct (ms_heap st1 !! x). }
  pose proof (run_gone _ _ _ _ _ Hok2 Hg Hr W2) as Hp. assert (ms_heap (ms_delete ts st1) = now (ms_heap st) hs1) as Eh by (rewrite Hlast; apply (delete_lookup ts st1 0)). rewrite Eh in Hp.
  assert (forall a x, (now (ms_heap st) hs1 :: hs2) !! a = Some x -> same (inM M) (now (ms_heap st) hs1) x) as Hsame.
  { intros a x Hx. apply (path_le (same (inM M)) (now (ms_heap st) hs1) hs2) with (a := 0%nat) (b := a); [by intros ? ?|by intros x0 y0 z0 H1 H2 l0 Hl0; rewrite (H2 l0 Hl0), (H1 l0 Hl0)|done|lia|done|done]. }
  assert (forall a x, (ms_heap st :: hs1 ++ hs2) !! a = Some x -> exists y, (ms_heap st :: hs1) !! Nat.min a (length hs1) = Some y /\ same (inM M) y x) as Hmin.
  { intros a x Hx. destruct (decide (a <= length hs1)%nat) as [Hle|Hgt].
    - rewrite Nat.min_l by done. exists x. split; [|by intros ? ?]. change (ms_heap st :: hs1 ++ hs2) with ((ms_heap st :: hs1) ++ hs2) in Hx. rewrite lookup_app_l in Hx; [done|]. cbn. lia.
    - rewrite Nat.min_r by lia. exists (now (ms_heap st) hs1). split; [apply last_now|]. apply (Hsame (a - length hs1)%nat).
      change (ms_heap st :: hs1 ++ hs2) with ((ms_heap st :: hs1) ++ hs2) in Hx. rewrite lookup_app_r in Hx by (cbn; lia). replace (a - length hs1)%nat with (S (a - length (ms_heap st :: hs1))) by (cbn [length]; lia). exact Hx. }
  exists st1, hs1, (Nat.min k (length hs1)). split_and!; [done|done| |lia].
  destruct (walk_map (inM M) (ms_heap st :: hs1 ++ hs2) (ms_heap st :: hs1) (fun a => Nat.min a (length hs1))) as [Hmap _].
  - intros x Hx. apply elem_of_list_In, elem_of_list_lookup in Hx as [a Ha]. destruct (Hmin a x Ha) as (y & Hy & Hyx). intros l0 n Hl0 Hn c Hcs. rewrite (Hyx l0 Hl0) in Hn.
    eapply (Hcl y); [by apply elem_of_list_In, (elem_of_list_lookup_2 _ _ _ Hy)|exact Hl0|exact Hn|exact Hcs].
  - intros a b Hab. lia.
  - intros a l0 n Hl0 Hn. destruct ((ms_heap st :: hs1 ++ hs2) !! a) as [x|] eqn:Ex; [|done]. cbn in Hn. destruct (Hmin a x Ex) as (y & Hy & Hyx). rewrite Hy. cbn. by rewrite <-(Hyx l0 Hl0).
  - specialize (Hmap 0%nat _ _ _ Hwalk). cbn [Nat.min] in Hmap. apply Hmap. apply Hsub. exact (ok_root _ _ _ _ Htok).
Qed.
Lemma shown_until calls ops st st' t l hs k tr : ms_run calls ms_init = Some st -> ms_trace_of st t = Some l -> ms_run ops st = Some st' ->
  w_run ops st = Some hs -> walk (ms_heap st :: hs) 0 l k tr -> (k <= length hs)%nat -> forall n, In n (nodes tr) ->
  In (tr_id n) (spans_of (live t (calls ++ until t ops) [])) /\ anns_of (sp_span (tr_id n)) (live t calls []) `prefix_of` tr_anns n /\
  tr_anns n `prefix_of` anns_of (sp_span (tr_id n)) (live t (calls ++ until t ops) []).
Proof.
  intros Hrun Hl Hops Hw Hwalk Hk. destruct (walk_until _ _ _ _ _ _ _ _ _ Hrun Hl Hops Hw Hwalk Hk) as (st1 & hs1 & k1 & E1 & W1 & Hwalk1 & _).
  apply (shown_any calls (until t ops) st st1 t l hs1 k1); [done|done|done|apply until_no|done|done].
Qed.
Lemma parents_first_until calls ops st st' t l hs k tr : ms_run calls ms_init = Some st -> ms_trace_of st t = Some l -> ms_run ops st = Some st' ->
  parents_first (spans_of (live t (calls ++ until t ops) [])) -> w_run ops st = Some hs -> walk (ms_heap st :: hs) 0 l k tr -> (k <= length hs)%nat ->
  exists st1 T T', ms_run (until t ops) st = Some st1 /\ shows st t T /\ shows st1 t T' /\ grows T tr /\ grows tr T'.
Proof.
  intros Hrun Hl Hops Hpf Hw Hwalk Hk. destruct (walk_until _ _ _ _ _ _ _ _ _ Hrun Hl Hops Hw Hwalk Hk) as (st1 & hs1 & k1 & E1 & W1 & Hwalk1 & Hk1).
  destruct (shown_parents_first calls (until t ops) st st1 t l hs1 k1 tr) as (T & T' & H); [done|done|done|apply until_no|done|done|done|done|]. by exists st1, T, T'.
Qed.
