(** Proofs about IdGenModel.v and about span derivation. *)
From Verif Require Import Base IdModel IdSpec IdGenModel IdGenSpec.
From Coq Require Import ZifyBool ZifyNat ZifyN.
Ltac Zify.zify_post_hook ::= Z.div_mod_to_equations.

(** ** Big-endian bytes *)

Lemma be_value_snoc l x : be_value (l ++ [x]) = 256 * be_value l + x.
Proof. unfold be_value. by rewrite fold_left_app. Qed.

Lemma be_bytes_length k v : length (be_bytes k v) = k.
Proof. revert v; induction k as [|k IH]; intros v; [done|]. cbn. rewrite app_length, IH. cbn. lia. Qed.

Lemma be_value_bytes k v : be_value (be_bytes k v) = v mod 256 ^ N.of_nat k.
Proof.
  revert v; induction k as [|k IH]; intros v.
  - cbn. change (256 ^ 0) with 1. by rewrite N.mod_1_r.
  - cbn [be_bytes]. rewrite be_value_snoc, IH.
    replace (N.of_nat (S k)) with (N.succ (N.of_nat k)) by lia. rewrite N.pow_succ_r'.
    assert (256 ^ N.of_nat k <> 0) by (apply N.pow_nonzero; lia).
    rewrite (N.mod_mul_r v 256) by lia. lia.
Qed.

Lemma be_bytes_value l : Forall (fun x => x < 256) l -> be_bytes (length l) (be_value l) = l.
Proof.
  induction l as [|x l IH] using rev_ind; intros H; [done|].
  apply Forall_app in H as [Hl Hx]. apply Forall_cons in Hx as [Hx _].
  rewrite app_length. cbn [length]. rewrite Nat.add_1_r. cbn [be_bytes].
  rewrite be_value_snoc. f_equal.
  - replace ((256 * be_value l + x) / 256) with (be_value l) by lia. auto.
  - f_equal. lia.
Qed.

Lemma be_bytes_range k v : Forall (fun x => x < 256) (be_bytes k v).
Proof. revert v; induction k as [|k IH]; intros v; [constructor|]. cbn. apply Forall_app; split; [auto|]. constructor; [lia|done]. Qed.

Lemma be_bytes_mod k v : be_bytes k (v mod 256 ^ N.of_nat k) = be_bytes k v.
Proof.
  rewrite <- be_value_bytes.
  rewrite <- (be_bytes_length k v) at 1. apply be_bytes_value, be_bytes_range.
Qed.

Lemma inc_be_bytes k v : inc_lsb_first (rev (be_bytes k v)) = rev (be_bytes k (v + 1)).
Proof.
  revert v; induction k as [|k IH]; intros v; [done|].
  cbn [be_bytes]. rewrite !rev_app_distr. cbn [rev app inc_lsb_first].
  destruct ((v mod 256 + 1) mod 256 =? 0) eqn:E.
  - rewrite IH. replace ((v + 1) / 256) with (v / 256 + 1) by lia. f_equal. lia.
  - replace ((v + 1) / 256) with (v / 256) by lia. f_equal. lia.
Qed.

Lemma ctr_inc_be v : ctr_inc (be_bytes 16 v) = be_bytes 16 (v + 1).
Proof. unfold ctr_inc. by rewrite inc_be_bytes, rev_involutive. Qed.

Lemma le_word_value l : le_word l = le_value l.
Proof.
  unfold le_value. induction l as [|x l IH]; [done|].
  cbn [rev le_word]. rewrite be_value_snoc, IH. lia.
Qed.

(** ** The generator follows the key stream *)

Section Gen.
Variable E : list N -> list N.

(** State of the generator after k calls, and the ID of call k. *)
Definition gen_inv (c0 : N) (k : nat) (st : gen_state) : Prop :=
  g_ctr st = be_bytes 16 (c0 + N.of_nat ((k + 1) / 2)) /\
  (if Nat.odd k
   then g_n st = 8%nat /\ g_b st = E (be_bytes 16 (c0 + N.of_nat (k / 2)))
   else g_n st = 16%nat).

Lemma nat_odd_mod k : Nat.odd k = Nat.eqb (k mod 2) 1.
Proof.
  destruct (Nat.odd k) eqn:H.
  - apply Nat.odd_spec in H as [m ->]. symmetry. apply Nat.eqb_eq. lia.
  - assert (Nat.even k = true) as H' by (rewrite <- Nat.negb_odd, H; done).
    apply Nat.even_spec in H' as [m ->]. symmetry. apply Nat.eqb_neq. lia.
Qed.

Lemma gen_inv_init ctr0 : is_block ctr0 -> gen_inv (be_value ctr0) 0 (gen_init ctr0).
Proof.
  intros [Hl Hb]. split; [|done]. cbn [gen_init g_ctr].
  change (N.of_nat ((0 + 1) / 2)) with 0. rewrite N.add_0_r, <- Hl. symmetry. by apply be_bytes_value.
Qed.

Lemma gen_step c0 k st :
  (forall c, length (E c) = 16%nat) ->
  gen_inv c0 k st ->
  (generate_id E st).2 = keystream_id E c0 k /\ gen_inv c0 (S k) (generate_id E st).1.
Proof.
  intros HE [Hc Hb]. unfold gen_inv, keystream_id, generate_id.
  assert (forall v, be_bytes 16 (v mod 2 ^ 128) = be_bytes 16 v) as Hmod.
  { intros v. change (2 ^ 128) with (256 ^ N.of_nat 16). apply be_bytes_mod. }
  rewrite Hmod. rewrite nat_odd_mod in *.
  rewrite (nat_odd_mod (S k)).
  destruct (Nat.eqb_spec (k mod 2) 1) as [Ho|Ho].
  - destruct Hb as [Hn Hb]. rewrite Hn. cbn [Nat.eqb]. cbn [fst snd g_ctr g_n g_b].
    rewrite le_word_value, Hn, Hb. split.
    + cbn [half]. f_equal. rewrite firstn_all2; [done|]. rewrite drop_length, HE. lia.
    + split.
      * rewrite Hc. replace ((S k + 1) / 2)%nat with ((k + 1) / 2)%nat by lia. done.
      * destruct (Nat.eqb_spec (S k mod 2) 1); [exfalso; lia|]. done.
  - rewrite Hb. cbn [Nat.eqb]. cbn [fst snd g_ctr g_n g_b].
    replace ((k + 1) / 2)%nat with (k / 2)%nat in Hc by lia.
    rewrite le_word_value, Hc, drop_0. split.
    + done.
    + split.
      * rewrite ctr_inc_be. f_equal. lia.
      * destruct (Nat.eqb_spec (S k mod 2) 1); [|exfalso; lia]. split; [done|].
        replace (S k / 2)%nat with (k / 2)%nat by lia. done.
Qed.

Lemma gen_run_stream c0 sched : (forall c, length (E c) = 16%nat) -> forall k st, gen_inv c0 k st ->
  gen_run E st sched = zip sched (map (keystream_id E c0) (seq k (length sched))).
Proof.
  intros HE. induction sched as [|g sched IH]; intros k st Hi; [done|].
  cbn [gen_run]. destruct (gen_step c0 k st HE Hi) as [Ho Hi'].
  destruct (generate_id E st) as [st' i]. cbn in Ho, Hi'. subst i.
  cbn [length seq map zip zip_with]. f_equal. by apply IH.
Qed.
End Gen.

Lemma gen_run_keystream E ctr0 sched :
  is_block ctr0 -> (forall c, length (E c) = 16%nat) ->
  gen_run E (gen_init ctr0) sched =
  zip sched (map (keystream_id E (be_value ctr0)) (seq 0 (length sched))).
Proof. intros Hb HE. apply gen_run_stream; [done|]. by apply gen_inv_init. Qed.

Lemma be_bytes_inj k u v : be_bytes k u = be_bytes k v -> u mod 256 ^ N.of_nat k = v mod 256 ^ N.of_nat k.
Proof. intros H. by rewrite <- !be_value_bytes, H. Qed.

Lemma le_value_inj a b : length a = length b -> Forall (fun x => x < 256) a -> Forall (fun x => x < 256) b ->
  le_value a = le_value b -> a = b.
Proof.
  intros Hl Ha Hb H. unfold le_value in H.
  apply List.Forall_rev in Ha, Hb. rewrite <- (rev_involutive a), <- (rev_involutive b).
  f_equal. rewrite <- (be_bytes_value (rev a)), <- (be_bytes_value (rev b)); [|done..].
  rewrite !rev_length, Hl. f_equal. done.
Qed.

Lemma keystream_pairs_distinct E c0 i j :
  (forall c, is_block c -> is_block (E c)) ->
  (forall c d, is_block c -> is_block d -> E c = E d -> c = d) ->
  N.of_nat i < 2 ^ 128 -> N.of_nat j < 2 ^ 128 ->
  keystream_id E c0 (2 * i) = keystream_id E c0 (2 * j) ->
  keystream_id E c0 (2 * i + 1) = keystream_id E c0 (2 * j + 1) -> i = j.
Proof.
  intros HE Hinj Hi Hj. unfold keystream_id.
  replace (Nat.odd (2 * i)) with false by (rewrite nat_odd_mod; symmetry; apply Nat.eqb_neq; lia).
  replace (Nat.odd (2 * j)) with false by (rewrite nat_odd_mod; symmetry; apply Nat.eqb_neq; lia).
  replace (Nat.odd (2 * i + 1)) with true by (rewrite nat_odd_mod; symmetry; apply Nat.eqb_eq; lia).
  replace (Nat.odd (2 * j + 1)) with true by (rewrite nat_odd_mod; symmetry; apply Nat.eqb_eq; lia).
  replace (2 * i / 2)%nat with i by lia. replace (2 * j / 2)%nat with j by lia.
  replace ((2 * i + 1) / 2)%nat with i by lia. replace ((2 * j + 1) / 2)%nat with j by lia.
  set (bi := be_bytes 16 _). set (bj := be_bytes 16 _).
  assert (is_block bi) as Bi by (split; [apply be_bytes_length|apply be_bytes_range]).
  assert (is_block bj) as Bj by (split; [apply be_bytes_length|apply be_bytes_range]).
  destruct (HE _ Bi) as [Li Fi], (HE _ Bj) as [Lj Fj].
  intros H1 H2. cbn [half] in *.
  apply le_value_inj in H1; [|by rewrite !take_length, Li, Lj|by apply Forall_take..].
  apply le_value_inj in H2; [|by rewrite !drop_length, Li, Lj|by apply Forall_drop..].
  assert (bi = bj) as Hb.
  { apply Hinj; [done..|]. rewrite <- (take_drop 8 (E bi)), H1, H2. apply take_drop. }
  unfold bi, bj in Hb. apply be_bytes_inj in Hb. change (256 ^ N.of_nat 16) with (2 ^ 128) in Hb.
  rewrite !N.mod_mod in Hb by (apply N.pow_nonzero; lia).
  clear - Hi Hj Hb. set (M := 2 ^ 128) in *. clearbody M.
  assert (M <> 0) as Hnz by lia.
  assert (c0 mod M < M) by (apply N.mod_lt; done).
  assert (forall x, x < M -> (c0 + x) mod M = if c0 mod M + x <? M then c0 mod M + x else c0 mod M + x - M) as R.
  { intros x Hx. rewrite <- N.add_mod_idemp_l by done. destruct (N.ltb_spec (c0 mod M + x) M).
    - by apply N.mod_small.
    - symmetry. apply (N.mod_unique _ _ 1); lia. }
  rewrite !R in Hb by done.
  destruct (N.ltb_spec (c0 mod M + N.of_nat i) M), (N.ltb_spec (c0 mod M + N.of_nat j) M); lia.
Qed.

(** ** Span derivation (C06) *)

Lemma mk_run_snoc gen ops o :
  fold_left (mk_step gen) (ops ++ [o]) (O, []) = mk_step gen (fold_left (mk_step gen) ops (O, [])) o.
Proof. by rewrite fold_left_app. Qed.

Lemma valid_kinds_init ops o : valid_kinds (ops ++ [o]) -> valid_kinds ops.
Proof. intros H n i Hn. apply H. by apply lookup_app_l_Some. Qed.

(** Each span was made from some generated IDs: root from two, child from one. *)
Definition made_ok (gen : nat -> N) (ops : list (option nat)) (made : list SpanID) : Prop :=
  length made = length ops /\
  forall n s, made !! n = Some s ->
    match ops !! n with
    | Some None => sp_parent s = 0
    | Some (Some i) => exists p, made !! i = Some p /\ sp_trace s = sp_trace p /\ sp_parent s = sp_span p
    | None => False
    end.

Lemma mk_run_ok gen ops : valid_kinds ops -> made_ok gen ops (mk_run gen ops).
Proof.
  unfold mk_run. induction ops as [|o ops IH] using rev_ind; intros Hv.
  - split; [done|]. intros n s Hn. done.
  - specialize (IH (valid_kinds_init _ _ Hv)). destruct IH as [Hl Hs].
    rewrite mk_run_snoc. destruct (fold_left (mk_step gen) ops (O, [])) as [k made]. cbn [snd] in *.
    assert (forall x, (match o with None => sp_parent x = 0 | Some i => exists p, made !! i = Some p /\
      sp_trace x = sp_trace p /\ sp_parent x = sp_span p end) -> made_ok gen (ops ++ [o]) (made ++ [x])) as Hx.
    { intros x Hx. split; [rewrite !app_length; cbn; lia|]. intros n s Hn.
      apply lookup_app_Some in Hn as [Hn|[Hge Hn]].
      - assert (n < length ops)%nat as Hlt by (rewrite <- Hl; by eapply lookup_lt_Some).
        specialize (Hs n s Hn). rewrite lookup_app_l by done.
        destruct (ops !! n) as [[i|]|]; try done.
        destruct Hs as (p & Hp & ? & ?). exists p. split; [|done]. by apply lookup_app_l_Some.
      - apply list_lookup_singleton_Some in Hn as [Hz ->].
        rewrite lookup_app_r by lia. replace (n - length ops)%nat with 0%nat by lia. cbn.
        destruct o as [i|]; [|done]. destruct Hx as (p & Hp & ? & ?). exists p. split; [|done].
        by apply lookup_app_l_Some. }
    destruct o as [i|]; cbn [mk_step].
    + assert (i < length ops)%nat as Hi.
      { apply (Hv (length ops) i). rewrite lookup_app_r by lia. by rewrite Nat.sub_diag. }
      destruct (made !! i) as [p|] eqn:Hp.
      * cbn [snd]. apply Hx. exists p. by split.
      * apply lookup_ge_None in Hp. lia.
    + cbn [snd]. by apply Hx.
Qed.

Lemma mk_run_trace gen ops n r s t : valid_kinds ops -> descends ops n r ->
  mk_run gen ops !! n = Some s -> mk_run gen ops !! r = Some t -> sp_trace s = sp_trace t.
Proof.
  intros Hv Hd Hs Ht. pose proof (mk_run_ok gen ops Hv) as [Hl Hok].
  revert s Hs. induction Hd as [n Hn|n i r Hn Hd IH]; intros s Hs; [congruence|].
  specialize (Hok n s Hs). rewrite Hn in Hok. destruct Hok as (p & Hp & -> & _). auto.
Qed.

Lemma mk_run_root gen ops n s : valid_kinds ops -> mk_run gen ops !! n = Some s ->
  is_root s = true <->
  (ops !! n = Some None \/ exists i p, ops !! n = Some (Some i) /\ mk_run gen ops !! i = Some p /\ sp_span p = 0).
Proof.
  intros Hv Hs. pose proof (mk_run_ok gen ops Hv) as [Hl Hok]. specialize (Hok n s Hs).
  unfold is_root. rewrite N.eqb_eq. destruct (ops !! n) as [[i|]|]; [| |done].
  - destruct Hok as (p & Hp & _ & ->). split.
    + intros H0. right. by exists i, p.
    + intros [H|(i' & p' & [= <-] & Hp' & H)]; [done|]. congruence.
  - split; auto.
Qed.

(** Every span's Span ID is the result of its own generateID call. *)
Lemma mk_run_fresh gen ops : (forall a b, gen a = gen b -> a = b) -> valid_kinds ops ->
  NoDup (map sp_span (mk_run gen ops)).
Proof.
  intros Hinj. unfold mk_run.
  enough (valid_kinds ops -> NoDup (map sp_span (fold_left (mk_step gen) ops (O, [])).2) /\
    Forall (fun s => exists a, (a < (fold_left (mk_step gen) ops (O, [])).1)%nat /\ sp_span s = gen a)
      (fold_left (mk_step gen) ops (O, [])).2) as H by (intros; by apply H).
  induction ops as [|o ops IH] using rev_ind; intros Hv.
  - split; constructor.
  - specialize (IH (valid_kinds_init _ _ Hv)). rewrite mk_run_snoc.
    destruct (fold_left (mk_step gen) ops (O, [])) as [k made]. cbn [fst snd] in *.
    destruct IH as [Hn Hf].
    assert (forall k' x a, (a < k' /\ k <= a)%nat -> sp_span x = gen a ->
       NoDup (map sp_span (made ++ [x])) /\
       Forall (fun s => exists a, (a < k')%nat /\ sp_span s = gen a) (made ++ [x])) as Hx.
    { intros k' x a [Ha Hk] Hxa. split.
      - rewrite map_app. apply NoDup_app. split_and!; [done| |repeat constructor; set_solver].
        intros y Hy Hy'. apply elem_of_list_singleton in Hy'. cbn in Hy'. subst y.
        apply elem_of_list_fmap in Hy as (s & Hs & Hin). rewrite Forall_forall in Hf.
        destruct (Hf s Hin) as (b & Hb & Hsb). assert (a = b) by (apply Hinj; congruence). lia.
      - apply Forall_app; split.
        + eapply Forall_impl; [exact Hf|]. cbn. intros s (b & Hb & ?). exists b. split; [lia|done].
        + constructor; [|done]. exists a. done. }
    destruct o as [i|]; cbn [mk_step].
    + destruct (made !! i); cbn [fst snd]; [|done]. apply (Hx (S k) _ k); [lia|done].
    + cbn [fst snd]. apply (Hx (S (S k)) _ (S k)); [lia|done].
Qed.

Lemma mk_run_props gen kinds : valid_kinds kinds ->
  let made := mk_run gen kinds in
  length made = length kinds /\
  (forall n i s, kinds !! n = Some (Some i) -> made !! n = Some s ->
     exists p, made !! i = Some p /\ sp_trace s = sp_trace p /\ sp_parent s = sp_span p) /\
  (forall n r s t, descends kinds n r -> made !! n = Some s -> made !! r = Some t ->
     sp_trace s = sp_trace t) /\
  (forall n s, made !! n = Some s ->
     is_root s = true <->
     (kinds !! n = Some None \/
      exists i p, kinds !! n = Some (Some i) /\ made !! i = Some p /\ sp_span p = 0)) /\
  ((forall a b, gen a = gen b -> a = b) -> NoDup (map sp_span made)).
Proof.
  intros Hv made. destruct (mk_run_ok gen kinds Hv) as [Hl Hok]. split_and!.
  - done.
  - intros n i s Hn Hs. specialize (Hok n s Hs). rewrite Hn in Hok. done.
  - intros n r s t. by apply mk_run_trace.
  - intros n s. by apply mk_run_root.
  - intros H. by apply mk_run_fresh.
Qed.

Lemma mk_run_example :
  let kinds := [None; Some 0%nat; Some 1%nat; None; Some 3%nat] in
  valid_kinds kinds /\ descends kinds 2 0 /\
  mk_run (fun k => N.of_nat k + 100) kinds =
    [MkSpanID 100 101 0; MkSpanID 100 102 101; MkSpanID 100 103 102; MkSpanID 104 105 0; MkSpanID 104 106 105].
Proof.
  split_and!.
  - intros n i. do 5 (destruct n as [|n]; cbn; [intros H; try discriminate H; injection H as <-; lia|]). done.
  - eapply Desc_child; [done|]. eapply Desc_child; [done|]. by apply Desc_root.
  - vm_compute. reflexivity.
Qed.
