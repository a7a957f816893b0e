(** Link between span ID creation (IdModel.v) and the store (MemModel.v): spans made through
    the API satisfy the acyclicity hypothesis of the store theorems. *)
From Verif Require Import Base IdModel MemModel MemSpec MemProofs MemProofs2 MemProofs3 MemProofs4.

Section Made.
Variable gen : nat -> N.
Hypothesis gen_inj : forall i j, gen i = gen j -> i = j.
Hypothesis gen_nz : forall i, gen i <> 0.

Record made_ok (k : nat) (made : list SpanID) : Prop := {
  mo_span : forall n s, made !! n = Some s -> exists j, (j < k)%nat /\ sp_span s = gen j;
  mo_inj : forall n m s s', made !! n = Some s -> made !! m = Some s' -> sp_span s = sp_span s' -> n = m;
  mo_parent : forall n s, made !! n = Some s -> sp_parent s = 0 \/
    exists i p, (i < n)%nat /\ made !! i = Some p /\ sp_parent s = sp_span p
}.

Lemma made_snoc k k' made s j : made_ok k made -> (k <= j < k')%nat -> sp_span s = gen j ->
  (sp_parent s = 0 \/ exists i p, made !! i = Some p /\ sp_parent s = sp_span p) -> made_ok k' (made ++ [s]).
Proof.
  intros [M1 M2 M3] Hj Hs Hp.
  assert (forall n x, (made ++ [s]) !! n = Some x -> (made !! n = Some x /\ (n < length made)%nat) \/ (n = length made /\ x = s)) as Hl.
  { intros n x Hn. apply lookup_app_Some in Hn as [Hn|[Hge Hn]].
    - left. split; [done|]. by eapply lookup_lt_Some.
    - right. apply list_lookup_singleton_Some in Hn as [? <-]. split; [lia|done]. }
  split.
  - intros n x Hn. destruct (Hl n x Hn) as [[Hx _]|[-> ->]].
    + destruct (M1 n x Hx) as (i & Hi & E). exists i. split; [lia|done].
    + exists j. split; [lia|done].
  - intros n m x y Hn Hm E. destruct (Hl n x Hn) as [[Hx ?]|[-> ->]]; destruct (Hl m y Hm) as [[Hy ?]|[-> ->]].
    + by eapply M2.
    + destruct (M1 n x Hx) as (i & Hi & E'). exfalso. rewrite E', Hs in E. apply gen_inj in E. lia.
    + destruct (M1 m y Hy) as (i & Hi & E'). exfalso. rewrite E', Hs in E. apply gen_inj in E. lia.
    + done.
  - intros n x Hn. destruct (Hl n x Hn) as [[Hx Hlt]|[-> ->]].
    + destruct (M3 n x Hx) as [?|(i & p & Hi & Hip & E)]; [by left|]. right. exists i, p.
      split_and!; [done| |done]. by apply lookup_app_l_Some.
    + destruct Hp as [?|(i & p & Hip & E)]; [by left|]. right. exists i, p.
      split_and!; [by eapply lookup_lt_Some| |done]. by apply lookup_app_l_Some.
Qed.

Lemma mk_run_ok ops : exists k, made_ok k (mk_run gen ops).
Proof.
  unfold mk_run. enough (forall k made, made_ok k made ->
    made_ok (fst (fold_left (mk_step gen) ops (k, made))) (snd (fold_left (mk_step gen) ops (k, made)))) as H.
  { eexists. apply H. split; by intros []. }
  induction ops as [|o ops IH]; intros k made Hm; [done|]. cbn [fold_left]. destruct o as [i|]; cbn [mk_step].
  - destruct (made !! i) as [p|] eqn:Hp; [|by apply IH]. apply IH.
    eapply (made_snoc k _ made _ k); [done|lia|done|]. right. exists i, p. done.
  - apply IH. eapply (made_snoc k _ made _ (S k)); [done|lia|done|]. by left.
Qed.

Lemma made_acyclic ops ids : (forall i, In i ids -> In i (mk_run gen ops)) -> acyclic ids.
Proof.
  intros Hsub. destruct (mk_run_ok ops) as (k & [M1 M2 M3]). set (made := mk_run gen ops) in *.
  set (idx := fun sp => fst <$> list_find (fun s => sp_span s = sp) made).
  assert (forall n s, made !! n = Some s -> idx (sp_span s) = Some n) as Hidx.
  { intros n s Hn. unfold idx. destruct (list_find _ made) as [[m x]|] eqn:E.
    - apply list_find_Some in E as (Hm & Hx & _). cbn. f_equal. by eapply M2.
    - exfalso. rewrite list_find_None in E. rewrite Forall_forall in E.
      apply (E s); [by eapply elem_of_list_lookup_2|done]. }
  exists (fun sp => default O (idx sp)). intros c p Hc Hp E.
  apply Hsub, elem_of_list_In, elem_of_list_lookup in Hc as [n Hn].
  apply Hsub, elem_of_list_In, elem_of_list_lookup in Hp as [m Hm].
  rewrite (Hidx n c Hn), (Hidx m p Hm). cbn.
  destruct (M3 n c Hn) as [E0|(i & q & Hi & Hq & E')].
  - exfalso. destruct (M1 m p Hm) as (j & _ & Ej). apply (gen_nz j). congruence.
  - assert (m = i) as ->; [|done]. eapply M2; [exact Hm|exact Hq|congruence].
Qed.

Lemma api_spans_all_shown ops calls st t :
  ms_run calls ms_init = Some st ->
  (forall id a, In (CCollect id a) calls -> In id (mk_run gen ops)) ->
  live t calls [] <> [] ->
  exists tr, shows st t tr /\ displays (live t calls []) tr /\
    Permutation (map tr_id (nodes tr)) (spans_of (live t calls [])).
Proof.
  intros Hrun Hcalls HL. destruct (trace_displayed calls st t Hrun HL) as (tr & Hs & Hd & _ & Hp).
  exists tr. split_and!; [done|done|]. apply Hp, (made_acyclic ops).
  intros i Hi. apply first_ids_in in Hi as [a Ha]. apply (Hcalls i a).
  clear -Ha. assert (forall acc, In (i, a) (live t calls acc) -> In (i, a) acc \/ In (CCollect i a) calls) as H.
  { clear Ha. induction calls as [|c calls IH]; intros acc Hin; [by left|]. destruct c as [j b|ts]; cbn [live] in Hin.
    - apply IH in Hin as [Hin|Hin]; [|by right; right]. destruct (_ =? _); [|by left].
      apply in_app_iff in Hin as [Hin|[[= -> ->]|[]]]; [by left|right; by left].
    - apply IH in Hin as [Hin|Hin]; [|by right; right]. destruct (bool_decide _); [done|by left]. }
  by destruct (H [] Ha).
Qed.
End Made.
