(** Property C116 (ChunkedCollector: what is accepted gets out), for every execution that goes on forever. *)
From Verif Require Import Base ChunkModel ChunkSpec ChunkProofs ChunkProps ChunkLiveSpec ChunkLiveProofs.

(** A collector used without Stop, and with no call of Flush, empties itself: whatever has been accepted by the time n has, by some
    time m, been passed to the underlying collector or discarded; spans without annotations too. *)
Theorem C116_out : forall cfg st ev, execution cfg st ev -> fair st -> never_stopped ev ->
  forall n s, exists m, (n <= m)%nat /\
    submseteq (accepted s (log_at ev n)) (sent s (log_at ev m) ++ dropped s (log_at ev m)) /\
    (was_accepted s (log_at ev n) -> was_sent s (log_at ev m) \/ was_dropped s (log_at ev m)).
Proof. intros cfg st ev Hex Hfair Hns n s. exact (eventually_out cfg st ev Hex Hfair Hns n s). Qed.
Print Assumptions C116_out.

(** Without MaxQueueSize and FlushTimeout nothing is discarded; and if Flush calls do not overlap either, all arrives in order. *)
Theorem C116_sent : forall cfg st ev, execution cfg st ev -> fair st -> never_stopped ev -> cf_max cfg = 0 -> cf_timeout cfg = false ->
  forall n s, exists m, (n <= m)%nat /\ submseteq (accepted s (log_at ev n)) (sent s (log_at ev m)) /\
    (was_accepted s (log_at ev n) -> was_sent s (log_at ev m)) /\
    (no_overlap false (log_at ev m) -> exists rest, sent s (log_at ev m) = accepted s (log_at ev n) ++ rest).
Proof.
  intros cfg st ev Hex Hfair Hns Hmax Ht n s. destruct (eventually_out cfg st ev Hex Hfair Hns n s) as (m & Hm & H1 & H2).
  pose proof (exec_run _ _ _ Hex m) as Hr. pose proof (never_dropped cfg _ _ s Hmax Ht Hr) as Hd. rewrite Hd, app_nil_r in H1.
  exists m. split; [exact Hm|]. split; [exact H1|]. split.
  - intros Ha. destruct (H2 Ha) as [Hs|Hdr]; [exact Hs|]. exfalso. destruct Hdr as (q & a & Hq & Hin).
    clear -Hmax Ht Hr Hin. induction Hr as [|log c evs c' Hr IH Hs].
    { by destruct Hin as [(? & ? & [])|(? & [])]. }
    assert ((exists id b, In (EvCollect id b (ODropped q)) evs) \/ (exists f, In (EvTimeout f q) evs)) as Hin'.
    { destruct Hin as [(id & b & H)|(f & H)]; apply in_app_iff in H as [H|H]; eauto; exfalso; apply IH; eauto. }
    pose proof Hs as Hs'. destruct Hs; destruct Hin' as [(? & ? & Hi)|(? & Hi)]; cbn in Hi; repeat destruct Hi as [Hi|Hi]; try done; try congruence.
    injection Hi as -> -> ->. by destruct (collect_unlimited _ _ _ _ _ _ _ Hmax Hr Hs' q).
  - intros Hno. destruct (order_kept _ _ _ s Hr Hno) as [_ Hord]. specialize (Hord Hd).
    rewrite (log_stretch ev n m), accepted_snoc in Hord by exact Hm. 
    apply app_eq_inv in Hord as [(k & E1 & E2)|(k & E1 & E2)]; rewrite <- (log_stretch ev n m) in E1 by exact Hm.
    + exists []. rewrite app_nil_r. apply submseteq_length in H1. rewrite E1, app_length in H1.
      assert (k = []) as -> by (apply nil_length_inv; lia). by rewrite app_nil_r in E1.
    + exists k. exact E1.
Qed.
Print Assumptions C116_sent.

(** Every Flush that has begun returns, also after Stop. *)
Theorem C116_flush_returns : forall cfg st ev, execution cfg st ev -> fair st ->
  forall n f q, In (EvBegin f q) (ev n) -> exists m r, (n < m)%nat /\ In (EvEnd f r) (ev m).
Proof.
  intros cfg st ev Hex Hfair n f q Hin. destruct (proj2 Hex n) as [Hs|[E _]]; [|by rewrite E in Hin].
  assert (exists fl, cc_fl (st (S n)) !! f = Some fl) as [fl Hfl].
  { inversion Hs as [| c f' q' Hf Hq' E1 E2 E3| | | | c g f' q' Hg Hf Hq' E1 E2 E3| | | | |]; subst; match goal with H : _ = ev n |- _ => rewrite <- H in Hin end;
      cbn in Hin; repeat destruct Hin as [Hin|Hin]; try done; injection Hin as -> ->; eexists; apply lookup_insert. }
  destruct (flush_ends _ _ _ Hex Hfair _ (S n) f fl (Nat.lt_succ_diag_r _) Hfl) as (m & Hm & _ & _ & r & Hr).
  apply in_flat_map in Hr as (k & Hk & Hr). apply in_seq in Hk. exists k, r. split; [lia|exact Hr].
Qed.
Print Assumptions C116_flush_returns.

(** One annotation is accepted, flushed in the background, and then there are empty flushes forever. *)
Definition calm : ccfg := MkCfg 0 false.
Definition x1 : CC := MkCC None true false (Some false) (collection_size [a 1]) {[ s1 := [a 1] ]} ∅ {[ 0%nat := BWait ]}.
Definition x2 : CC := MkCC None true false (Some false) 0 ∅ {[ 0%nat := MkFlush [(s1, [a 1])] [] ]} {[ 0%nat := BFlush 0 ]}.
Definition x3 : CC := MkCC None true false (Some false) 0 ∅ {[ 0%nat := MkFlush [] [] ]} {[ 0%nat := BFlush 0 ]}.
Definition x4 : CC := MkCC None true false (Some false) 0 ∅ ∅ {[ 0%nat := BWait ]}.
Definition calm_st (n : nat) : CC :=
  match n with 0 => cc_init | 1 => x1 | 2 => x2 | S (S (S k)) => if Nat.even k then x3 else x4 end%nat.
Definition calm_ev (n : nat) : list event :=
  match n with
  | 0 => [EvCollect s1 [a 1] (OQueued None)] | 1 => [EvBegin 0 [(s1, [a 1])]] | 2 => [EvSend 0 s1 [a 1] None]
  | S (S (S k)) => if Nat.even k then [EvEnd 0 None] else [EvBegin 0 []]
  end%nat.
Ltac same := unfold x1, x2, x3, x4, set_bg, set_flush, cc_begin; cbn [cc_fl cc_bg cc_lasterr cc_started cc_stopped cc_chan cc_bytes cc_pend]; f_equal;
  try (apply map_eq; intros i; destruct (decide (i = 0%nat)) as [->|Hne]; [reflexivity|];
    rewrite ?lookup_partial_alter_ne, ?lookup_insert_ne, ?lookup_singleton_ne, ?lookup_empty by done; reflexivity).
Lemma calm_runs : execution calm calm_st calm_ev.
Proof.
  split; [done|]. intros n. left. destruct n as [|[|[|k]]].
  - change (cc_step calm cc_init [EvCollect s1 [a 1] (OQueued None)] x1). apply (CS_collect _ _ 0); [done|]. reflexivity.
  - cbn [calm_st calm_ev]. assert (x2 = set_bg 0 (Some (BFlush 0)) (cc_begin 0 [(s1, [a 1])] x1)) as -> by same.
    apply CS_timer; [reflexivity|done|reflexivity].
  - cbn [calm_st calm_ev Nat.even]. assert (x3 = set_flush 0 (Some (MkFlush [] (add_err [] None))) x2) as -> by same.
    by eapply CS_send.
  - cbn [calm_st calm_ev]. rewrite (Nat.even_succ k), <- Nat.negb_even. destruct (Nat.even k); cbn [negb].
    + assert (x4 = set_bg 0 (Some BWait) (set_flush 0 None x3)) as -> by same. apply (CS_bg_end calm x3 0 0 []); reflexivity.
    + assert (x3 = set_bg 0 (Some (BFlush 0)) (cc_begin 0 [] x4)) as -> by same. apply CS_timer; reflexivity.
Qed.
Example C116_nonvacuous : execution calm calm_st calm_ev /\ fair calm_st /\ never_stopped calm_ev /\
  accepted s1 (log_at calm_ev 1) = [a 1] /\ sent s1 (log_at calm_ev 1) = [].
Proof.
  split; [exact calm_runs|]. split.
  { assert (forall n, exists m, (n <= m)%nat /\ calm_st m = x4) as H4.
    { intros n. exists (3 + (1 + 2 * n))%nat. split; [lia|]. cbn [calm_st Nat.add]. by rewrite Nat.even_succ, <- Nat.negb_even, Nat.even_mul. }
    assert (forall n, exists m, (n <= m)%nat /\ calm_st m = x3) as H3.
    { intros n. exists (3 + 2 * n)%nat. split; [lia|]. cbn [calm_st Nat.add]. by rewrite Nat.even_mul. }
    split; [|split].
    - intros n f fl _. destruct (H4 n) as (m & Hm & E). exists m. rewrite E. split; [done|]. cbn. by rewrite lookup_empty.
    - intros n g _. destruct (H3 n) as (m & Hm & E). exists m. rewrite E. split; [done|]. cbn. intros E'. apply lookup_singleton_Some in E' as [_ E']. done.
    - intros n g e _. destruct (H3 n) as (m & Hm & E). exists m. rewrite E. split; [done|]. cbn. intros E'. apply lookup_singleton_Some in E' as [_ E']. done. }
  split; [|done]. intros [|[|[|k]]]; cbn; try (intros [?|[]]; done). destruct (Nat.even k); cbn; intros [?|[]]; done.
Qed.
