From Verif Require Import Base PersistEveryModel.

Section PE.
Context {A : Type} (file : string) (tmpname : string -> Prop) (snap : nat -> A) (enc : A -> string).
Context (Hname : ~ tmpname file) (fs0 : gmap string string).
Local Notation step := (pe_step file tmpname snap enc).

Definition pc_ok (st : PE) : Prop :=
  match pe_pc st with
  | PSleep | PReturned => True
  | PTemp t => t <> file /\ pe_fs st !! t = Some ""
  | PWrite t k rest => t <> file /\ pe_snap st = Some k /\ exists w, pe_fs st !! t = Some w /\ enc (snap k) = (w ++ rest)%string
  | PWrote t | PClosed t => t <> file /\ exists k, pe_snap st = Some k /\ pe_fs st !! t = Some (enc (snap k))
  end.
Definition pe_ok (st : PE) : Prop :=
  pc_ok st /\
  match pe_last st with None => pe_fs st !! file = fs0 !! file | Some k => pe_fs st !! file = Some (enc (snap k)) end /\
  match pe_snap st with Some k => (k <= pe_now st)%nat | None => True end /\
  match pe_last st with Some k => match pe_snap st with Some j => (k <= j)%nat | None => False end | None => True end.

Lemma str_app_nil s : (s ++ "")%string = s.
Proof. by induction s as [|c s IH]; [|cbn; rewrite IH]. Qed.
Lemma str_app_assoc a b c : ((a ++ b) ++ c = a ++ (b ++ c))%string.
Proof. induction a as [|x a IH]; [done|cbn; by rewrite IH]. Qed.

Lemma pe_step_ok st st' : step st st' -> pe_ok st -> pe_ok st'.
Proof.
  intros Hs. destruct Hs as [st Hw|st p c Hp Ht|fs now o l|fs now o l tmp Htmp Hnew|fs now o l tmp|fs now o l tmp k w piece rest Hw
    |fs now o l tmp k rest|fs now o l tmp k|fs now o l tmp|fs now o l tmp|fs now o l tmp|fs now o l tmp c Hc];
    intros (Hpc & Hfile & Hsnap & Hlast); unfold pe_ok, pc_ok in *; cbn [pe_fs pe_now pe_pc pe_snap pe_last] in *.
  - split_and!; [done|done| |done]. destruct (pe_snap st); [lia|done].
  - assert (forall q, (q = file \/ tmp_of (pe_pc st) = Some q) -> partial_alter (fun _ => c) p (pe_fs st) !! q = pe_fs st !! q) as Hq.
    { intros q Hq. rewrite lookup_partial_alter_ne; [done|]. intros ->. destruct Hq; [done|done]. }
    rewrite (Hq file) by auto. split_and!; [|done|done|done].
    destruct (pe_pc st); try done; cbn in Hq; rewrite (Hq tmp) by auto; done.
  - done.
  - assert (tmp <> file) as Hne by (intros ->; done). rewrite lookup_insert, lookup_insert_ne by done. done.
  - destruct Hpc as [Hne He]. split_and!; [done|done|exists ""; done|done|cbn; lia|].
    + destruct l; [|done]. destruct o; [cbn in *; lia|done].
  - destruct Hpc as (Hne & Ho & w' & Hw' & He). rewrite Hw in Hw'. injection Hw' as <-.
    rewrite lookup_insert, lookup_insert_ne by done. split_and!; try done. exists (w ++ piece)%string.
    split; [done|]. by rewrite str_app_assoc.
  - done.
  - destruct Hpc as (Hne & Ho & w & Hw & He). rewrite str_app_nil in He. split_and!; try done. exists k. by rewrite He.
  - done.
  - done.
  - done.
  - destruct Hpc as (Hne & k & -> & Hk). rewrite lookup_insert. split_and!; [done| |done|done]. congruence.
Qed.

Lemma pe_reach_ok st : rtc step (pe_init fs0) st -> pe_ok st.
Proof.
  assert (pe_ok (pe_init fs0)) as H0 by (done).
  intros H. revert H0. induction H as [|x y z Hxy _ IH]; [done|]. intros Hx. apply IH. by eapply pe_step_ok.
Qed.

Lemma persist_atomic st : rtc step (pe_init fs0) st ->
  match pe_last st with
  | None => pe_fs st !! file = fs0 !! file
  | Some k => (k <= pe_now st)%nat /\ pe_fs st !! file = Some (enc (snap k))
  end.
Proof.
  intros H. destruct (pe_reach_ok st H) as (_ & Hf & Hs & Hl). destruct (pe_last st) as [k|]; [|done].
  split; [|done]. destruct (pe_snap st); [lia|done].
Qed.

Lemma persist_monotone st st' k : rtc step (pe_init fs0) st -> rtc step st st' -> pe_last st = Some k ->
  exists k', pe_last st' = Some k' /\ (k <= k')%nat.
Proof.
  intros H H'. assert (pe_ok st) as Hok by (by apply pe_reach_ok). clear H. revert k Hok.
  induction H' as [x|x y z Hxy _ IH]; intros k Hok Hk; [by exists k|].
  assert (exists k1, pe_last y = Some k1 /\ (k <= k1)%nat) as (k1 & Hk1 & Hle).
  { destruct Hok as (_ & _ & _ & Hl). destruct Hxy; cbn [pe_last pe_snap] in *; try (by exists k).
    rewrite Hk in Hl. destruct o as [j|]; [|done]. by exists j. }
  destruct (IH k1) as (k2 & Hk2 & Hle2); [by eapply pe_step_ok|done|]. exists k2. split; [done|lia].
Qed.
End PE.
