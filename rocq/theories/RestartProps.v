(** Property C157: restarts of a server with a store file. *)
From Verif Require Import Base MemModel MemSpec MemProofs MemProofs2 MemProofs3 MemProofs4 MemWeak PersistModel PersistProofs PersistEveryModel PersistEveryProofs ServeModel ServeProps GobSpec GobProofs RestartModel RestartSpec RestartProofs.
From Coq Require Import ssreflect.
Local Open Scope general_if_scope.

Section restart.
Context (file : string) (tmpname : string -> Prop) (enc : MS -> string) (dec : string -> option gob_data).
(** The temporary files are not the store file. *)
Context (Htmp : ~ tmpname file).
Notation start_store := (start_store file dec).
Notation life := (life file tmpname enc dec).
Notation runs_to := (runs_to file tmpname enc dec).

Lemma moment_run st calls k : weak_ok st -> ms_run (take k calls) st = Some (moment st calls k).
Proof. intros Hw. destruct (run_weak (take k calls) st Hw) as (st' & E & _). by rewrite /moment E. Qed.
(** What a server finds when it starts after a run: what the run found, or one of its moments. *)
Lemma next_start fs r fs' st : runs_to fs r fs' -> start_store fs = Some st ->
  match pe_last (rn_end r) with
  | None => start_store fs' = Some st
  | Some k => (k <= length (rn_calls r))%nat /\ exists d, ms_writes (moment st (rn_calls r) k) d /\ start_store fs' = Some (serve_store (Some d))
  end.
Proof.
  intros (st0 & E0 & Hp & Hnow & Hwr & Hfs) E. assert (st0 = st) as -> by congruence.
  pose proof (persist_atomic file tmpname _ enc Htmp fs (rn_end r) Hp) as Ha. rewrite Hnow in Ha.
  destruct (pe_last (rn_end r)) as [k|].
  - destruct Ha as [Hk Hc]. split; [done|]. destruct (Hwr k eq_refl) as (d & Hd & Hdec). exists d. split; [done|].
    rewrite /RestartModel.start_store Hfs Hc Hdec. done.
  - rewrite -E0 /RestartModel.start_store Hfs Ha. done.
Qed.
Lemma start_same fs fs' : fs' !! file = fs !! file -> start_store fs' = start_store fs.
Proof. intros E. by rewrite /RestartModel.start_store E. Qed.
Lemma collects_app a b : collects (a ++ b) = collects a ++ collects b.
Proof. apply flat_map_app. Qed.
Lemma sublist_in {A} (l l' : list A) x : sublist l l' -> In x l -> In x l'.
Proof. induction 1 as [|y l l' Hs IH|y l l' Hs IH]; [done|..]; cbn [In]; intuition. Qed.
Lemma recorded_sub H H' id a : sublist H H' -> recorded H id a -> recorded H' id a.
Proof.
  intros Hs (H1 & sub & H2 & H3). split.
  - apply in_map_iff in H1 as (x & <- & Hx). apply in_map. by apply (sublist_in _ _ _ Hs).
  - exists sub. split; [|exact H3]. etrans; [exact H2|]. clear -Hs. induction Hs as [|x l l' Hs IH|x l l' Hs IH]; [done|..].
    + rewrite !filter_cons. case_decide; [by apply sublist_skip|done].
    + rewrite filter_cons. case_decide; [by apply sublist_cons|done].
Qed.
Lemma holds_sub H H' st : sublist H H' -> holds H st -> holds H' st.
Proof. intros Hs [H1 H2 H3 H4]. split; [done..|]. intros l n Hl. apply (recorded_sub H); [done|by apply (H4 l)]. Qed.

Lemma life_holds fs0 rs fs : fs0 !! file = None -> life fs0 rs fs -> exists st, start_store fs = Some st /\ holds (collects (all_calls rs)) st.
Proof.
  intros H0 Hl. induction Hl as [fs' E|rs fs1 r fs2 Hl IH Hr].
  - exists ms_init. split; [by rewrite /RestartModel.start_store E H0|]. exact holds_init.
  - destruct IH as (st & E & Hh). pose proof (next_start _ _ _ _ Hr E) as Hn. rewrite /all_calls flat_map_app collects_app. cbn [flat_map]. rewrite app_nil_r.
    destruct (pe_last (rn_end r)) as [k|].
    + destruct Hn as (Hk & d & Hd & ->). eexists. split; [reflexivity|].
      pose proof (holds_run _ _ _ _ Hh (moment_run st (rn_calls r) k (ho_weak _ _ Hh))) as Hm.
      apply (holds_restored _ _ _) with (2:=Hd). refine (holds_sub _ _ _ _ Hm). apply sublist_app; [done|].
      rewrite -{2}(take_drop k (rn_calls r)) collects_app. by apply sublist_inserts_r.
    + exists st. split; [done|]. refine (holds_sub _ _ _ _ Hh). by apply sublist_inserts_r.
Qed.

(** C157, the server can be started again: however often it ran and at whatever points it was killed. *)
Theorem C157_starts : forall fs0 rs fs, fs0 !! file = None -> life fs0 rs fs -> exists st, start_store fs = Some st.
Proof. intros fs0 rs fs H0 Hl. destruct (life_holds _ _ _ H0 Hl) as (st & E & _). by exists st. Qed.

(** C157, nothing is invented: what it shows after any number of restarts and any further calls are spans that were
    collected in one of the runs, under their trace, with annotations of calls for this span, whole and in order. *)
Theorem C157_recorded : forall fs0 rs fs st calls st' t tr n, fs0 !! file = None -> life fs0 rs fs -> start_store fs = Some st ->
  ms_run calls st = Some st' -> shows st' t tr -> In n (nodes tr) ->
  sp_trace (tr_id n) = t /\ recorded (collects (all_calls rs ++ calls)) (tr_id n) (tr_anns n).
Proof.
  intros fs0 rs fs st calls st' t tr n H0 Hl Es Hrun (l & Hlt & Hr) Hn. destruct (life_holds _ _ _ H0 Hl) as (st0 & E & Hh).
  assert (st0 = st) as -> by congruence. pose proof (holds_run _ _ _ _ Hh Hrun) as Hh'. rewrite -collects_app in Hh'.
  destruct (w_root _ (ho_weak _ _ Hh') t l Hlt) as (i & Hi & <-).
  exact (reads_nodes _ _ (conj (ho_edges _ _ Hh') (ho_nodes _ _ Hh')) tr l i Hr Hi n Hn).
Qed.

Lemma life_later fs0 rs1 rs2 fs : life fs0 (rs1 ++ rs2) fs -> exists fs1, life fs0 rs1 fs1 /\ life fs1 rs2 fs.
Proof.
  revert fs. induction rs2 as [|r rs2 IH] using rev_ind=> fs.
  - rewrite app_nil_r. intros Hl. exists fs. split; [done|]. by constructor.
  - rewrite app_assoc. intros Hl. inversion Hl as [fs' E Ef|rs fsa r' fs2 Hla Hra Ef]; [by destruct (rs1 ++ rs2)|].
    apply app_inj_tail in Ef as [-> ->]. destruct (IH _ Hla) as (fs1 & H1 & H2). exists fs1. split; [done|]. by apply (Life_run _ _ _ _ _ _ fsa).
Qed.
Lemma kept_on H fs1 rs fs st t tr : life fs1 rs fs -> start_store fs1 = Some st -> holds H st -> shows st t tr -> gob_tree tr = tr ->
  Forall (leaves t) (all_calls rs) -> exists st', start_store fs = Some st' /\ (exists H', holds H' st') /\ shows st' t tr.
Proof.
  intros Hl E Hh Hs Hg. induction Hl as [fs' E'|rs fsa r fs2 Hl IH Hr]; [intros _; exists st; rewrite (start_same _ _ E'); eauto|].
  intros Hun. rewrite /all_calls flat_map_app in Hun. apply Forall_app in Hun as [Hun1 Hun2]. cbn [flat_map] in Hun2. rewrite app_nil_r in Hun2.
  destruct (IH Hun1) as (sta & Ea & [Ha Hha] & Hsa). pose proof (next_start _ _ _ _ Hr Ea) as Hn.
  destruct (pe_last (rn_end r)) as [k|]; [|exists sta; eauto]. destruct Hn as (Hk & d & Hd & En). exists (serve_store (Some d)). split; [done|].
  pose proof (moment_run sta (rn_calls r) k (ho_weak _ _ Hha)) as Hm. split.
  - exact (ex_intro _ _ (holds_restored _ _ _ (holds_run _ _ _ _ Hha Hm) Hd)).
  - rewrite -Hg. apply (restored_shows _ _ _ _ Hd). apply (untouched_shows _ _ _ _ _ _ Hha Hsa Hm).
    rewrite -(take_drop k (rn_calls r)) in Hun2. by apply Forall_app in Hun2 as [? _].
Qed.
(** C157, what was persisted is kept: if a run shows a trace at some moment (after [calls1] of its calls), persists the store
    at that moment or later, and no later call of this or a later run adds to the trace or deletes it, then
    every later start shows exactly this trace (but for values that are present and empty). *)
Theorem C157_kept : forall fs0 rs1 calls1 calls2 p rs2 fs fs1 st1 stm t tr k,
  fs0 !! file = None -> life fs0 rs1 fs1 -> start_store fs1 = Some st1 -> ms_run calls1 st1 = Some stm -> shows stm t tr ->
  forall fs2, runs_to fs1 (MkRun (calls1 ++ calls2) p) fs2 -> life fs2 rs2 fs -> pe_last p = Some k -> (length calls1 <= k)%nat ->
  Forall (leaves t) (calls2 ++ all_calls rs2) ->
  exists st tr', start_store fs = Some st /\ shows st t tr' /\ like_tree tr tr'.
Proof.
  intros fs0 rs1 calls1 calls2 p rs2 fs fs1 st1 stm t tr k H0 Hl1 E1 Hm Hs fs2 Hr Hl2 Hp Hk Hun. apply Forall_app in Hun as [Hun1 Hun2].
  destruct (life_holds _ _ _ H0 Hl1) as (st0 & E & Hh). assert (st0 = st1) as -> by congruence.
  pose proof (next_start _ _ _ _ Hr E1) as Hn. cbn [rn_end rn_calls] in Hn. rewrite Hp in Hn. destruct Hn as (Hk2 & d & Hd & E2).
  pose proof (moment_run st1 (calls1 ++ calls2) k (ho_weak _ _ Hh)) as Hmk. rewrite take_app_ge // ms_run_app Hm in Hmk. cbn [mbind option_bind] in Hmk.
  pose proof (holds_run _ _ _ _ Hh Hm) as Hhm.
  assert (shows (moment st1 (calls1 ++ calls2) k) t tr) as Hsk.
  { apply (untouched_shows _ _ _ _ _ _ Hhm Hs Hmk). rewrite -(take_drop (k - length calls1) calls2) in Hun1. by apply Forall_app in Hun1 as [? _]. }
  destruct (kept_on _ fs2 rs2 fs _ t (gob_tree tr) Hl2 E2 (holds_restored _ _ _ (holds_run _ _ _ _ Hhm Hmk) Hd)) as (st & Est & _ & Hsh);
    [exact (restored_shows _ _ _ _ Hd Hsk)|apply gob_gob|done|].
  exists st, (gob_tree tr). split; [done|]. split; [done|apply gob_like].
Qed.
End restart.
Print Assumptions C157_starts.
Print Assumptions C157_recorded.
Print Assumptions C157_kept.

(** A restored store can be written again, with the same content. *)
Definition gob_again (d : gob_data) : gob_data := GD (fmap (M:=gmap N) gob_tree (gd_trace d)) (fmap (M:=gmap N) (fmap (M:=gmap N) gob_tree) (gd_span d)).
Lemma restored_writes d : ms_writes (serve_store (Some d)) (gob_again d).
Proof.
  rewrite /serve_store. destruct (ms_read_from d ms_init) as [st' n] eqn:Er. cbn [fst].
  destruct (read_from_ok d ms_init st' n (w_fresh _ weak_init) Er) as (_ & R1 & R2 & _). split; cbn [gob_again gd_trace gd_span].
  - intros t. rewrite lookup_fmap. specialize (R1 t). inversion R1 as [tr l HR E1 E2|E1 E2]; constructor. exact HR.
  - intros t. rewrite lookup_fmap. specialize (R2 t). inversion R2 as [D M HR E1 E2|E1 E2]; constructor. intros k. rewrite lookup_fmap. specialize (HR k).
    inversion HR as [tr l HR' E3 E4|E3 E4]; constructor. exact HR'.
Qed.
(** Two runs: the first collects a span, persists it and is killed while it writes the file again; the second writes it once more. *)
Definition wit_enc (st : MS) : string := if ms_next st =? 1 then "A" else "B".
Definition wit_d : gob_data := write_fuel 3 (final wit20).
Definition wit_dec (s : string) : option gob_data := if String.eqb s "A" then Some wit_d else Some (gob_again wit_d).
Definition wit_tmp (s : string) : Prop := s <> "f"%string.
Example C157_nonvacuous : exists r1 r2 fs1 fs2,
  life "f" wit_tmp wit_enc wit_dec ∅ [] ∅ /\
  runs_to "f" wit_tmp wit_enc wit_dec ∅ (MkRun (wit20 ++ []) r1) fs1 /\ pe_pc r1 = PWrite "t" 1 "A" /\
  life "f" wit_tmp wit_enc wit_dec fs1 [MkRun [] r2] fs2 /\ pe_last r1 = Some 1%nat /\ pe_last r2 = Some 0%nat /\ fs2 !! "f"%string = Some "B"%string /\
  shows (final wit20) 1 (Tree (MkSpanID 1 1 0) [] []) /\ Forall (leaves 1) ([] ++ all_calls [MkRun [] r2]).
Proof.
  assert (forall (snap : nat -> MS) fs now o l c, wit_enc (snap now) = c ->
    rtc (pe_step "f" wit_tmp snap wit_enc) (MkPE fs now (PTemp "t") o l) (MkPE fs now (PWrite "t" now c) (Some now) l)) as Hbegin.
  { intros snap fs now o l c <-. eapply rtc_l; [apply PE_write_begin|]. apply rtc_refl. }
  assert (forall (snap : nat -> MS) fs now o l c, fs !! "t"%string = None -> wit_enc (snap now) = c ->
    rtc (pe_step "f" wit_tmp snap wit_enc) (MkPE fs now PSleep o l) (MkPE (<["f"%string := c]> (delete "t"%string (<["t"%string := c]> (<["t"%string := ""%string]> fs)))) now PSleep (Some now) (Some now))) as Hround.
  { intros snap fs now o l c Hfs Hc. eapply rtc_l; [apply (PE_temp _ _ _ _ _ _ _ _ "t"); [done|exact Hfs]|].
    etrans; [apply Hbegin; exact Hc|].
    pose proof (PE_write_some "f" wit_tmp snap wit_enc (<["t"%string := ""%string]> fs) now (Some now) l "t" now "" c "" (lookup_insert _ _ _)) as K.
    replace (c ++ "")%string with c in K by (clear; induction c as [|x c IH]; [done|]; cbn; by rewrite -IH). eapply rtc_l; [exact K|]. cbn [String.append].
    eapply rtc_l; [apply PE_write_done|]. eapply rtc_l; [apply PE_close|]. eapply rtc_l; [apply (PE_rename _ _ _ _ _ _ _ _ _ c); by rewrite lookup_insert|]. apply rtc_refl. }
  set (m1 := moment ms_init (wit20 ++ [])). set (fsA := <["f"%string := "A"%string]> (delete "t"%string (<["t"%string := "A"%string]> (<["t"%string := ""%string]> (∅ : gmap string string))))).
  set (r1 := MkPE (<["t"%string := ""%string]> fsA) 1 (PWrite "t" 1 "A") (Some 1%nat) (Some 1%nat)).
  assert (fsA !! "t"%string = None) as Ht by (rewrite /fsA lookup_insert_ne // lookup_delete //).
  assert (fsA !! "f"%string = Some "A"%string) as Hf by (rewrite /fsA lookup_insert //).
  set (fsB := <["f"%string := "B"%string]> (delete "t"%string (<["t"%string := "B"%string]> (<["t"%string := ""%string]> fsA)))).
  set (r2 := MkPE fsB 0 PSleep (Some 0%nat) (Some 0%nat)).
  assert (fsB !! "f"%string = Some "B"%string) as HfB by (rewrite /fsB lookup_insert //).
  exists r1, r2, fsA, fsB. split_and!; try done.
  - by constructor.
  - exists ms_init. split_and!; [done| |done| |].
    + cbn [rn_calls rn_end]. change (moment ms_init (wit20 ++ [])) with m1. rewrite /pe_init. eapply rtc_l; [by apply PE_store|]. cbn [pe_fs pe_now pe_pc pe_snap pe_last].
      etrans; [apply (Hround m1 ∅ 1%nat None None "A"%string); [by rewrite lookup_empty|vm_compute; reflexivity]|].
      eapply rtc_l; [apply (PE_temp _ _ _ _ _ _ _ _ "t"); [done|exact Ht]|]. apply Hbegin; vm_compute; reflexivity.
    + cbn [rn_calls rn_end pe_last r1]. intros k [= <-]. exists wit_d. split; [exact wit20_writes|vm_compute; reflexivity].
    + cbn [rn_end r1 pe_fs]. rewrite lookup_insert_ne //.
  - apply (Life_run _ _ _ _ _ [] fsA (MkRun [] r2) fsB); [by constructor|]. exists (serve_store (Some wit_d)). split_and!; [rewrite /start_store Hf //| |done| |done].
    + cbn [rn_calls rn_end]. apply (Hround _ fsA 0%nat None None "B"%string Ht). vm_compute. reflexivity.
    + cbn [rn_calls rn_end pe_last r2]. intros k [= <-]. exists (gob_again wit_d). split; [exact (restored_writes wit_d)|vm_compute; reflexivity].
  - apply (shown_by 5). vm_compute. reflexivity.
  - constructor.
Qed.
