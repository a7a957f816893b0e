From Verif Require Import Base WireModel WireSpec WireProofs RemoteModel.
From Coq Require Import ZifyBool ZifyNat ZifyN.

(** The calls that returned nil. *)
Definition acked (log : list (wcall * bool)) : list wcall := map fst (filter (fun x => snd x = true) log).
Definition tried (log : list (wcall * bool)) : list wcall := map fst log.

(** What a connection carries: the frames of the calls cs, then part of the frame of a call of [log]. *)
Definition carries (log : list (wcall * bool)) (cn : conn) (cs : list wcall) : Prop :=
  exists k c, (c ∈ tried log \/ k = 0%nat) /\ cn_out cn = stream cs ++ take k (call_frame c) /\ (cn_dead cn = false -> k = 0%nat).

Lemma carries_mono log log' cn cs : (forall c, c ∈ tried log -> c ∈ tried log') -> carries log cn cs -> carries log' cn cs.
Proof. intros H (k & c & Hc & H2). exists k, c. split; [destruct Hc; auto|done]. Qed.

Lemma stream_snoc cs c : stream (cs ++ [c]) = stream cs ++ call_frame c.
Proof. unfold stream. rewrite flat_map_app. cbn. by rewrite app_nil_r. Qed.

Lemma write_msg_carries log cn cs c o cn' ok : c ∈ tried log -> carries log cn cs ->
  write_msg cn (new_packet (fst c) (snd c)) o = (cn', ok) ->
  if ok then carries log cn' (cs ++ [c]) /\ cn_dead cn' = false else carries log cn' cs.
Proof.
  intros Hin (k & c0 & Hc0 & Hout & Hd). unfold write_msg, conn_write. destruct (cn_dead cn) eqn:Ed.
  { intros [= <- <-]. exists k, c0. rewrite Ed. done. }
  rewrite (Hd eq_refl), take_0, app_nil_r in Hout. 
  set (h := varint (N.of_nat (length (enc_packet (new_packet (fst c) (snd c)))))). set (b := enc_packet (new_packet (fst c) (snd c))).
  assert (call_frame c = h ++ b) as Hfr by done.
  destruct o as [[|k1] o2]; cbn [fst snd cn_dead].
  - destruct o2 as [|k2]; intros [= <- <-]; cbn [cn_out cn_dead].
    + split; [|done]. exists 0%nat, c. rewrite take_0, app_nil_r, stream_snoc, Hfr, Hout. rewrite <- app_assoc. split_and!; [by right|done|done].
    + exists (length h + k2)%nat, c. split; [by left|]. cbn [cn_out cn_dead]. split; [|done]. rewrite Hfr, take_app_ge by lia. rewrite Hout, <- app_assoc.
      repeat f_equal. lia.
  - intros [= <- <-]. exists (min k1 (length h)), c. cbn [cn_out cn_dead]. split; [by left|]. split; [|done]. rewrite Hfr, take_app_le by lia.
    rewrite Hout. f_equal. destruct (decide (k1 <= length h)%nat); [by rewrite Nat.min_l by lia|]. rewrite Nat.min_r by lia. by rewrite !take_ge by lia.
Qed.

Definition rinv (log : list (wcall * bool)) (r : RC) : Prop :=
  exists css, Forall2 (carries log) (rc_conns r) css /\ concat css = acked log.

Lemma acked_snoc log c ok : acked (log ++ [(c, ok)]) = acked log ++ (if ok then [c] else []).
Proof. unfold acked. rewrite filter_app, map_app. f_equal. by destruct ok. Qed.
Lemma tried_snoc log c ok : tried (log ++ [(c, ok)]) = tried log ++ [c].
Proof. unfold tried. by rewrite map_app. Qed.

Lemma rinv_close log r : rinv log r -> rinv log (rc_close r).
Proof. intros (css & H & Hc). exists css. split; [|done]. unfold rc_close, rc_conns in *. destruct r as [[c|] old]; cbn in *; [by rewrite app_nil_r|done]. Qed.
Lemma close_none r : rc_conn (rc_close r) = None.
Proof. by destruct r as [[c|] old]. Qed.

Lemma rinv_retry log r c o r' ok : rinv log r -> rc_retry r (new_packet (fst c) (snd c)) o = (r', ok) -> rinv (log ++ [(c, ok)]) r'.
Proof.
  intros Hi. unfold rc_retry, rc_connect. apply rinv_close in Hi. pose proof (close_none r) as Hn. set (r0 := rc_close r) in *.
  destruct Hi as (css & H & Hc).
  assert (Forall2 (carries (log ++ [(c, ok)])) (rc_conns r0) css) as H'.
  { eapply Forall2_impl; [exact H|]. intros cn cs. apply carries_mono. intros x Hx. rewrite tried_snoc. set_solver. }
  destruct (out_dial o).
  - cbn [rc_conn rc_old]. destruct (write_msg (MkConn [] false) (new_packet (fst c) (snd c)) (out_second o)) as [cn ok'] eqn:E. intros [= <- <-].
    assert (c ∈ tried (log ++ [(c, ok')])) as Hin by (rewrite tried_snoc; set_solver).
    assert (carries (log ++ [(c, ok')]) (MkConn [] false) []) as H0.
    { exists 0%nat, c. cbn. split_and!; auto. }
    pose proof (write_msg_carries _ _ _ _ _ _ _ Hin H0 E) as Hw. unfold rinv, rc_conns in *. cbn [rc_conn rc_old]. rewrite Hn, app_nil_r in H'.
    exists (css ++ [if ok' then [c] else []]). split.
    + apply Forall2_app; [done|]. constructor; [|constructor]. destruct ok'; [apply Hw|done].
    + rewrite acked_snoc, concat_app, Hc. cbn. by rewrite app_nil_r.
  - intros [= <- <-]. exists css. split; [done|]. rewrite acked_snoc, Hc. by rewrite app_nil_r.
Qed.

Lemma rinv_collect log r c o r' ok : rinv log r -> rc_collect r (new_packet (fst c) (snd c)) o = (r', ok) -> rinv (log ++ [(c, ok)]) r'.
Proof.
  intros Hi. unfold rc_collect. destruct r as [[cn|] old]; cbn [rc_conn rc_old]; [|by apply rinv_retry].
  destruct (write_msg cn (new_packet (fst c) (snd c)) (out_first o)) as [cn' ok'] eqn:E.
  destruct Hi as (css & H & Hc). unfold rc_conns in H. cbn [rc_conn rc_old] in H.
  apply Forall2_app_inv_l in H as (css1 & css2 & H1 & H2 & ->). inversion H2 as [|? cs ? ? Hcn Hnil]; subst. inversion Hnil; subst.
  destruct ok'.
  - intros [= <- <-]. assert (c ∈ tried (log ++ [(c, true)])) as Hin by (rewrite tried_snoc; set_solver).
    assert (carries (log ++ [(c, true)]) cn cs) as Hcn' by (eapply carries_mono; [|exact Hcn]; intros x Hx; rewrite tried_snoc; set_solver).
    destruct (write_msg_carries _ _ _ _ _ _ _ Hin Hcn' E) as [Hw _].
    exists (css1 ++ [cs ++ [c]]). unfold rc_conns. cbn [rc_conn rc_old]. split.
    + apply Forall2_app; [|by constructor]. eapply Forall2_impl; [exact H1|]. intros cn0 cs0. apply carries_mono. intros x Hx. rewrite tried_snoc. set_solver.
    + rewrite acked_snoc, <- Hc, !concat_app. cbn. by rewrite !app_nil_r, app_assoc.
  - intros Hr.
    assert (c ∈ tried (log ++ [(c, ok)])) as Hin by (rewrite tried_snoc; set_solver).
    assert (carries (log ++ [(c, ok)]) cn cs) as Hcn' by (eapply carries_mono; [|exact Hcn]; intros x Hx; rewrite tried_snoc; set_solver).
    pose proof (write_msg_carries _ _ _ _ _ _ _ Hin Hcn' E) as Hw.
    (* the retry is analysed with the call already in the log as a failed one *)
    unfold rc_retry, rc_connect, rc_close in Hr. cbn [rc_conn rc_old] in Hr.
    assert (Forall2 (carries (log ++ [(c, ok)])) (old ++ [cn']) (css1 ++ [cs])) as Hall.
    { apply Forall2_app; [|by constructor]. eapply Forall2_impl; [exact H1|]. intros cn0 cs0. apply carries_mono. intros x Hx. rewrite tried_snoc. set_solver. }
    destruct (out_dial o); cbn [rc_conn rc_old] in Hr.
    + destruct (write_msg (MkConn [] false) (new_packet (fst c) (snd c)) (out_second o)) as [cn2 ok2] eqn:E2. injection Hr as <- <-.
      assert (carries (log ++ [(c, ok2)]) (MkConn [] false) []) as H0.
      { exists 0%nat, c. cbn. split_and!; auto. }
      pose proof (write_msg_carries _ _ _ _ _ _ _ Hin H0 E2) as Hw2.
      exists ((css1 ++ [cs]) ++ [if ok2 then [c] else []]). unfold rc_conns. cbn [rc_conn rc_old]. split.
      * apply Forall2_app; [done|]. constructor; [|constructor]. destruct ok2; [apply Hw2|done].
      * rewrite acked_snoc, <- Hc, concat_app. cbn. by rewrite app_nil_r.
    + injection Hr as <- <-. exists (css1 ++ [cs]). unfold rc_conns. cbn [rc_conn rc_old]. rewrite app_nil_r. split; [done|].
      by rewrite acked_snoc, app_nil_r.
Qed.

Lemma rinv_run ops : forall log r r' log', rinv log r -> rc_run ops r = (r', log') -> rinv (log ++ log') r'.
Proof.
  induction ops as [|[c o|] ops IH]; intros log r r' log' Hi.
  - intros [= <- <-]. by rewrite app_nil_r.
  - cbn [rc_run]. destruct (rc_collect r (new_packet (fst c) (snd c)) o) as [r1 ok] eqn:E.
    destruct (rc_run ops r1) as [r2 log2] eqn:E2. intros [= <- <-].
    change ((c, ok) :: log2) with ([(c, ok)] ++ log2). rewrite app_assoc. eapply IH; [|exact E2]. by eapply rinv_collect.
  - cbn [rc_run]. intros E. eapply IH; [|exact E]. by apply rinv_close.
Qed.

Lemma remote_streams ops r log : rc_run ops rc_init = (r, log) ->
  exists css, Forall2 (carries log) (rc_conns r) css /\ concat css = acked log.
Proof. intros H. change log with ([] ++ log). eapply rinv_run; [|exact H]. exists []. split; [constructor|done]. Qed.

(** ** The server at the other end *)
Lemma complete_app cs1 cs2 n : complete (length (stream cs1) + n) (cs1 ++ cs2) = cs1 ++ complete n cs2.
Proof.
  induction cs1 as [|c cs1 IH]; [done|]. cbn [stream flat_map complete app]. fold (stream cs1). rewrite app_length.
  replace (length (call_frame c) <=? length (call_frame c) + length (stream cs1) + n)%nat with true by lia. f_equal. rewrite <- IH. f_equal. lia.
Qed.
Lemma carries_received L coll log cn cs : (forall h c, coll h c = true) -> (forall c, In c (tried log) -> valid_call c /\ fits c) ->
  Forall (fun c => c ∈ tried log) cs -> carries log cn cs ->
  fst (handle_conn L coll (cn_out cn)) = cs \/ exists c, c ∈ tried log /\ fst (handle_conn L coll (cn_out cn)) = cs ++ [c].
Proof.
  intros Hcoll Hv Hcs (k & c & Hc & -> & _). rewrite Forall_forall in Hcs.
  destruct Hc as [Hc| ->].
  - assert (stream cs ++ take k (call_frame c) = take (length (stream cs) + k) (stream (cs ++ [c]))) as ->.
    { rewrite stream_snoc, take_app_ge by lia. repeat f_equal. lia. }
    destruct (conn_stream L coll (cs ++ [c]) (length (stream cs) + k)) as [-> _].
    + apply Forall_app. split; [apply Forall_forall; intros x Hx; apply Hv, elem_of_list_In; by apply Hcs|]. constructor; [|constructor]. apply Hv. by apply elem_of_list_In.
    + apply Forall_app. split; [apply Forall_forall; intros x Hx; apply Hv, elem_of_list_In; by apply Hcs|]. constructor; [|constructor]. apply Hv. by apply elem_of_list_In.
    + rewrite until_fail_ok, complete_app by done. cbn [complete]. destruct (length (call_frame c) <=? k)%nat; [right; by exists c|left; by rewrite app_nil_r].
  - left. rewrite take_0, app_nil_r. rewrite <- (firstn_all (stream cs)) at 1.
    destruct (conn_stream L coll cs (length (stream cs))) as [-> _].
    + apply Forall_forall; intros x Hx; apply Hv, elem_of_list_In; by apply Hcs.
    + apply Forall_forall; intros x Hx; apply Hv, elem_of_list_In; by apply Hcs.
    + rewrite until_fail_ok by done. pose proof (complete_app cs [] 0) as H. rewrite Nat.add_0_r, !app_nil_r in H. done.
Qed.

Lemma remote_received L coll ops r log : (forall h c, coll h c = true) -> rc_run ops rc_init = (r, log) ->
  (forall c, In c (tried log) -> valid_call c /\ fits c) ->
  exists css, concat css = acked log /\
    Forall2 (fun cn cs => let got := fst (handle_conn L coll (cn_out cn)) in got = cs \/ exists c, In c (tried log) /\ got = cs ++ [c]) (rc_conns r) css.
Proof.
  intros Hcoll Hr Hv. destruct (remote_streams _ _ _ Hr) as (css & H & Hc). exists css. split; [done|].
  assert (forall cs, cs ∈ css -> Forall (fun c => c ∈ tried log) cs) as Hall.
  { intros cs Hcs. apply Forall_forall. intros c Hin. assert (c ∈ acked log) as Ha by (rewrite <- Hc; apply elem_of_list_In, in_concat; exists cs; split; by apply elem_of_list_In).
    unfold acked, tried in *. apply elem_of_list_In, in_map_iff in Ha as (x & <- & Hx). apply elem_of_list_In, elem_of_list_filter in Hx as [_ Hx].
    apply elem_of_list_In, in_map. by apply elem_of_list_In. }
  clear Hc. induction H as [|cn cs cns css Hcn H IH]; [constructor|]. constructor.
  - destruct (carries_received L coll log cn cs Hcoll Hv) as [?|(c & Hin & ?)]; [apply Hall; left|done|by left|].
    right. exists c. split; [by apply elem_of_list_In|done].
  - apply IH. intros cs' Hcs'. apply Hall. by right.
Qed.

(** ** One call *)
Lemma write_msg_grows cn p o cn' ok : write_msg cn p o = (cn', ok) ->
  cn_out cn `prefix_of` cn_out cn' /\ (length (cn_out cn') <= length (cn_out cn) + length (frame p))%nat.
Proof.
  unfold write_msg, conn_write, frame. rewrite app_length. destruct (cn_dead cn) eqn:Ed; [intros [= <- <-]; split; [done|lia]|].
  destruct o as [[|k1] [|k2]]; cbn [fst snd cn_dead cn_out]; intros [= <- <-]; cbn [cn_out]; rewrite ?app_length, ?take_length;
    (split; [rewrite <- ?app_assoc; by eexists|lia]).
Qed.
Lemma collect_attempts r p o r' ok : rc_collect r p o = (r', ok) ->
  (rc_conns r' = rc_conns r) \/
  (exists cn cn', rc_conn r = Some cn /\ rc_conns r = rc_old r ++ [cn] /\ rc_conns r' = rc_old r ++ [cn'] /\
     cn_out cn `prefix_of` cn_out cn' /\ (length (cn_out cn') <= length (cn_out cn) + length (frame p))%nat) \/
  (exists before cn2, rc_conns r' = before ++ [cn2] /\ (length (cn_out cn2) <= length (frame p))%nat /\
     (before = rc_conns r \/
      exists cn cn', rc_conn r = Some cn /\ before = rc_old r ++ [cn'] /\ cn_out cn `prefix_of` cn_out cn' /\
        (length (cn_out cn') <= length (cn_out cn) + length (frame p))%nat)).
Proof.
  unfold rc_collect, rc_retry, rc_connect, rc_close, rc_conns. destruct r as [[cn|] old]; cbn [rc_conn rc_old].
  - destruct (write_msg cn p (out_first o)) as [cn' ok'] eqn:E. apply write_msg_grows in E as [E1 E2]. destruct ok'.
    { intros [= <- <-]. right. left. exists cn, cn'. cbn [rc_conn rc_old]. done. }
    cbn [rc_conn rc_old]. destruct (out_dial o); cbn [rc_conn rc_old].
    + destruct (write_msg _ p (out_second o)) as [cn2 ok2] eqn:E'. apply write_msg_grows in E' as [_ E2']. intros [= <- <-]. right. right.
      exists (old ++ [cn']), cn2. cbn [rc_conn rc_old]. split; [done|]. split; [cbn [cn_out length] in E2'; lia|]. right. by exists cn, cn'.
    + intros [= <- <-]. right. left. exists cn, cn'. cbn [rc_conn rc_old]. by rewrite app_nil_r.
  - destruct (out_dial o); cbn [rc_conn rc_old].
    + destruct (write_msg _ p (out_second o)) as [cn2 ok2] eqn:E'. apply write_msg_grows in E' as [_ E2']. intros [= <- <-]. right. right.
      exists old, cn2. cbn [rc_conn rc_old]. split; [done|]. split; [cbn [cn_out length] in E2'; lia|]. left. by rewrite app_nil_r.
    + intros [= <- <-]. by left.
Qed.
