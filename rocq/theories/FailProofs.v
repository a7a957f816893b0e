From Verif Require Import Base ChunkModel ChunkSpec ChunkProofs WireModel WireSpec WireProofs RemoteModel RemoteProofs
  MemModel MemSpec MemProofs MemProofs2 MemProofs3 MemProofs4 EndSpec EndProofs FailSpec.
From Coq Require Import ZifyBool ZifyNat ZifyN.
Local Open Scope general_if_scope.

(** ** Connections whose failed writes are short *)
Definition scarries (log : list (wcall * bool)) (cn : conn) (cs : list wcall) : Prop :=
  exists k c, (c ∈ tried log \/ k = 0%nat) /\ cn_out cn = stream cs ++ take k (call_frame c) /\ (cn_dead cn = false -> k = 0%nat) /\
    (k < length (call_frame c))%nat.
Lemma scarries_mono log log' cn cs : (forall c, c ∈ tried log -> c ∈ tried log') -> scarries log cn cs -> scarries log' cn cs.
Proof. intros H (k & c & Hc & H2). exists k, c. split; [destruct Hc; auto|done]. Qed.
Lemma swrite log cn cs c o cn' ok : short c o -> c ∈ tried log -> scarries log cn cs ->
  write_msg cn (new_packet (fst c) (snd c)) o = (cn', ok) ->
  if ok then scarries log cn' (cs ++ [c]) /\ cn_dead cn' = false else scarries log cn' cs.
Proof.
  intros [Hs1 Hs2] Hin (k & c0 & Hc0 & Hout & Hd & Hk). unfold write_msg, conn_write. destruct (cn_dead cn) eqn:Ed.
  { intros [= <- <-]. exists k, c0. rewrite Ed. done. }
  rewrite (Hd eq_refl), take_0, app_nil_r in Hout.
  set (h := varint (N.of_nat (length (enc_packet (new_packet (fst c) (snd c)))))). set (b := enc_packet (new_packet (fst c) (snd c))).
  assert (call_frame c = h ++ b) as Hfr by done. fold b in Hs2. change (varint (N.of_nat (length (call_body c)))) with h in Hs1. change (call_body c) with b in Hs2.
  pose proof (frame_nonempty c) as Hne. assert (length (call_frame c) = length h + length b)%nat as Hlen by (rewrite Hfr; apply app_length).
  destruct o as [[|k1] o2]; cbn [fst snd cn_dead] in *.
  - destruct o2 as [|k2]; intros [= <- <-]; cbn [cn_out cn_dead].
    + split; [|done]. exists 0%nat, c. rewrite take_0, app_nil_r, stream_snoc, Hfr, Hout. rewrite <- app_assoc. split_and!; [by right|done|done|]. by rewrite <- Hfr.
    + exists (length h + k2)%nat, c. split; [by left|]. cbn [cn_out cn_dead]. split; [|split; [done|]].
      * rewrite Hfr, take_app_ge by lia. rewrite Hout, <- app_assoc. repeat f_equal. lia.
      * specialize (Hs2 _ eq_refl). lia.
  - intros [= <- <-]. specialize (Hs1 _ eq_refl). exists k1, c. cbn [cn_out cn_dead]. split; [by left|]. split; [|split; [done|lia]].
    rewrite Hfr, take_app_le by lia. by rewrite Hout.
Qed.
Definition sinv (log : list (wcall * bool)) (r : RC) : Prop :=
  exists css, Forall2 (scarries log) (rc_conns r) css /\ concat css = acked log.
Lemma sinv_close log r : sinv log r -> sinv log (rc_close r).
Proof. intros (css & H & Hc). exists css. split; [|done]. unfold rc_close, rc_conns in *. destruct r as [[c|] old]; cbn in *; [by rewrite app_nil_r|done]. Qed.
Lemma snew log (c : wcall) : scarries log (MkConn [] false) [].
Proof. exists 0%nat, c. cbn. split_and!; auto. apply frame_nonempty. Qed.
Lemma sinv_retry log r c o r' ok : short c (out_second o) -> sinv log r -> rc_retry r (new_packet (fst c) (snd c)) o = (r', ok) -> sinv (log ++ [(c, ok)]) r'.
Proof.
  intros Hsh Hi. unfold rc_retry, rc_connect. apply sinv_close in Hi. pose proof (close_none r) as Hn. set (r0 := rc_close r) in *.
  destruct Hi as (css & H & Hc).
  assert (Forall2 (scarries (log ++ [(c, ok)])) (rc_conns r0) css) as H'.
  { eapply Forall2_impl; [exact H|]. intros cn cs. apply scarries_mono. intros x Hx. rewrite tried_snoc. set_solver. }
  destruct (out_dial o).
  - cbn [rc_conn rc_old]. destruct (write_msg (MkConn [] false) (new_packet (fst c) (snd c)) (out_second o)) as [cn ok'] eqn:E. intros [= <- <-].
    assert (c ∈ tried (log ++ [(c, ok')])) as Hin by (rewrite tried_snoc; set_solver).
    pose proof (swrite _ _ _ _ _ _ _ Hsh Hin (snew _ c) E) as Hw. unfold sinv, rc_conns in *. cbn [rc_conn rc_old]. rewrite Hn, app_nil_r in H'.
    exists (css ++ [if ok' then [c] else []]). split.
    + apply Forall2_app; [done|]. constructor; [|constructor]. destruct ok'; [apply Hw|done].
    + rewrite acked_snoc, concat_app, Hc. cbn. by rewrite app_nil_r.
  - intros [= <- <-]. exists css. split; [done|]. rewrite acked_snoc, Hc. by rewrite app_nil_r.
Qed.
Lemma sinv_collect log r c o r' ok : short c (out_first o) -> short c (out_second o) -> sinv log r ->
  rc_collect r (new_packet (fst c) (snd c)) o = (r', ok) -> sinv (log ++ [(c, ok)]) r'.
Proof.
  intros Hsh1 Hsh2 Hi. unfold rc_collect. destruct r as [[cn|] old]; cbn [rc_conn rc_old]; [|by apply sinv_retry].
  destruct (write_msg cn (new_packet (fst c) (snd c)) (out_first o)) as [cn' ok'] eqn:E.
  destruct Hi as (css & H & Hc). unfold rc_conns in H. cbn [rc_conn rc_old] in H.
  apply Forall2_app_inv_l in H as (css1 & css2 & H1 & H2 & ->). inversion H2 as [|? cs ? ? Hcn Hnil]; subst. inversion Hnil; subst.
  destruct ok'.
  - intros [= <- <-]. assert (c ∈ tried (log ++ [(c, true)])) as Hin by (rewrite tried_snoc; set_solver).
    assert (scarries (log ++ [(c, true)]) cn cs) as Hcn' by (eapply scarries_mono; [|exact Hcn]; intros x Hx; rewrite tried_snoc; set_solver).
    destruct (swrite _ _ _ _ _ _ _ Hsh1 Hin Hcn' E) as [Hw _].
    exists (css1 ++ [cs ++ [c]]). unfold rc_conns. cbn [rc_conn rc_old]. split.
    + apply Forall2_app; [|by constructor]. eapply Forall2_impl; [exact H1|]. intros cn0 cs0. apply scarries_mono. intros x Hx. rewrite tried_snoc. set_solver.
    + rewrite acked_snoc, <- Hc, !concat_app. cbn. by rewrite !app_nil_r, app_assoc.
  - intros Hr.
    assert (c ∈ tried (log ++ [(c, ok)])) as Hin by (rewrite tried_snoc; set_solver).
    assert (scarries (log ++ [(c, ok)]) cn cs) as Hcn' by (eapply scarries_mono; [|exact Hcn]; intros x Hx; rewrite tried_snoc; set_solver).
    pose proof (swrite _ _ _ _ _ _ _ Hsh1 Hin Hcn' E) as Hw.
    unfold rc_retry, rc_connect, rc_close in Hr. cbn [rc_conn rc_old] in Hr.
    assert (Forall2 (scarries (log ++ [(c, ok)])) (old ++ [cn']) (css1 ++ [cs])) as Hall.
    { apply Forall2_app; [|by constructor]. eapply Forall2_impl; [exact H1|]. intros cn0 cs0. apply scarries_mono. intros x Hx. rewrite tried_snoc. set_solver. }
    destruct (out_dial o); cbn [rc_conn rc_old] in Hr.
    + destruct (write_msg (MkConn [] false) (new_packet (fst c) (snd c)) (out_second o)) as [cn2 ok2] eqn:E2. injection Hr as <- <-.
      pose proof (swrite _ _ _ _ _ _ _ Hsh2 Hin (snew _ c) E2) as Hw2.
      exists ((css1 ++ [cs]) ++ [if ok2 then [c] else []]). unfold rc_conns. cbn [rc_conn rc_old]. split.
      * apply Forall2_app; [done|]. constructor; [|constructor]. destruct ok2; [apply Hw2|done].
      * rewrite acked_snoc, <- Hc, concat_app. cbn. by rewrite app_nil_r.
    + injection Hr as <- <-. exists (css1 ++ [cs]). unfold rc_conns. cbn [rc_conn rc_old]. rewrite app_nil_r. split; [done|].
      by rewrite acked_snoc, app_nil_r.
Qed.
Lemma sinv_run ops : short_writes ops -> forall log r r' log', sinv log r -> rc_run ops r = (r', log') -> sinv (log ++ log') r'.
Proof.
  induction ops as [|[c o|] ops IH]; intros Hs log r r' log' Hi.
  - intros [= <- <-]. by rewrite app_nil_r.
  - cbn [rc_run]. destruct (rc_collect r (new_packet (fst c) (snd c)) o) as [r1 ok] eqn:E.
    destruct (rc_run ops r1) as [r2 log2] eqn:E2. intros [= <- <-]. destruct (Hs c o (or_introl eq_refl)) as [S1 S2].
    change ((c, ok) :: log2) with ([(c, ok)] ++ log2). rewrite app_assoc. eapply IH; [|by eapply sinv_collect|exact E2].
    intros c' o' H. apply Hs. by right.
  - cbn [rc_run]. intros E. eapply IH; [|by apply sinv_close|exact E]. intros c' o' H. apply Hs. by right.
Qed.
Lemma short_streams ops r log : short_writes ops -> rc_run ops rc_init = (r, log) ->
  exists css, Forall2 (scarries log) (rc_conns r) css /\ concat css = acked log.
Proof. intros Hs H. change log with ([] ++ log). eapply sinv_run; [done| |exact H]. exists []. split; [constructor|done]. Qed.

(** ** What the server collects from the first bytes of a stream, packets of any size *)
Lemma read_oversized L c rest : max_message < N.of_nat (length (call_body c)) -> N.of_nat (length (call_body c)) < two64 ->
  read_msg L (call_frame c ++ rest) = RErr.
Proof.
  intros H H2.
  unfold read_msg. assert (get_varint 10 (call_frame c ++ rest) = Some (N.of_nat (length (call_body c)), call_body c ++ rest)) as Hg.
  { unfold call_frame, frame. rewrite <- app_assoc. by apply get_varint_enc. }
  destruct (call_frame c ++ rest) as [|b l] eqn:E; [exfalso; apply app_eq_nil in E as [E _]; pose proof (frame_nonempty c) as Hn; rewrite E in Hn; cbn in Hn; lia|].
  rewrite Hg. replace (two64 <=? _) with false by lia. by replace (max_message <? _) with true by lia.
Qed.
Lemma handle_any L cs : Forall valid_call cs -> Forall (fun c => N.of_nat (length (call_body c)) < two64) cs -> forall fuel done n,
  (length (take n (stream cs)) < fuel)%nat ->
  exists got, fst (handle L (fun _ _ => true) fuel done (take n (stream cs))) = done ++ got /\ got `prefix_of` WireSpec.complete n cs.
Proof.
  intros Hv Hb. induction cs as [|c cs IH]; intros fuel done n Hfuel.
  { cbn. rewrite take_nil. destruct fuel as [|fuel]; [cbn in Hfuel; lia|]. cbn. exists []. by rewrite app_nil_r. }
  inversion Hv as [|? ? Hvc Hvcs]; subst. inversion Hb as [|? ? Hbc Hbcs]; subst.
  destruct fuel as [|fuel]; [lia|]. cbn [stream flat_map WireSpec.complete] in *. fold (stream cs) in *.
  destruct (length (call_frame c) <=? n)%nat eqn:E.
  - rewrite take_app_ge in Hfuel |- * by lia. cbn [handle].
    destruct (decide (fits c)) as [Hf|Hf].
    + rewrite read_frame by done.
      destruct (from_wire_new (fst c) (snd c)) as [-> ->]. rewrite <- surjective_pairing.
      rewrite app_length in Hfuel. pose proof (frame_nonempty c).
      destruct (IH Hvcs Hbcs fuel (done ++ [c]) (n - length (call_frame c))%nat) as (got & -> & Hg); [lia|].
      exists (c :: got). split; [by rewrite <- app_assoc|]. by apply prefix_cons.
    + rewrite read_oversized; [|unfold fits in Hf; destruct two64_max as [-> _]; lia|done]. exists []. split; [by rewrite app_nil_r|apply prefix_nil].
  - rewrite take_app_le in Hfuel |- * by lia. cbn [handle].
    exists []. split; [|apply prefix_nil]. rewrite app_nil_r.
    destruct (read_msg L (take n (call_frame c))) as [p r| |] eqn:Er; [|done|done].
    exfalso. eapply read_short; [exact Hbc| |exact Er]; lia.
Qed.
Lemma conn_any L cs n : Forall valid_call cs -> Forall (fun c => N.of_nat (length (call_body c)) < two64) cs ->
  fst (handle_conn L (fun _ _ => true) (take n (stream cs))) `prefix_of` WireSpec.complete n cs.
Proof.
  intros Hv Hb. destruct (handle_any L cs Hv Hb (S (length (take n (stream cs)))) [] n (Nat.lt_succ_diag_r _)) as (got & H & Hg).
  unfold handle_conn. by rewrite H.
Qed.
Lemma complete_pre n cs : WireSpec.complete n cs `prefix_of` cs.
Proof. destruct (complete_split n cs) as (cs2 & H & _). by exists cs2. Qed.
Lemma prefix_take {A} (l k : list A) : l `prefix_of` k -> l = take (length l) k.
Proof. intros [x ->]. by rewrite take_app. Qed.

(** ** Recordings in packets *)
Definition made (e : wcall) (cs : list wcall) : Prop :=
  cs <> [] /\ snd e = concat (map snd cs) /\ Forall (fun c => fst c = fst e) cs.
Lemma made_one c : made c [c].
Proof. split; [done|]. split; [cbn; by rewrite app_nil_r|by constructor]. Qed.
Lemma made_app id a b cs : made (id, a) cs -> made (id, a ++ b) (cs ++ [(id, b)]).
Proof.
  intros (H1 & H2 & H3). split; [by destruct cs|]. cbn [fst snd] in *. split.
  - rewrite map_app, concat_app. cbn. by rewrite app_nil_r, <- H2.
  - apply Forall_app. split; [done|]. by repeat constructor.
Qed.
Lemma concat_perm {A} (x y : list (list A)) : x ≡ₚ y -> concat x ≡ₚ concat y.
Proof.
  induction 1 as [|a x y _ IH|a b x|x y z _ IH1 _ IH2]; cbn; [done|by rewrite IH| |by rewrite IH1].
  rewrite !app_assoc. by rewrite (Permutation_app_comm b a).
Qed.
Lemma made_perm q q' Q : q ≡ₚ q' -> Forall2 made q Q -> exists Q', Forall2 made q' Q' /\ concat Q ≡ₚ concat Q'.
Proof.
  intros HP. revert Q. induction HP as [|a x y _ IH|a b x|x y z _ IH1 _ IH2]; intros Q H.
  - by exists Q.
  - inversion H as [|? ca ? Q0 Ha H0]; subst. destruct (IH _ H0) as (Q' & H' & E). exists (ca :: Q'). split; [by constructor|]. cbn. by rewrite E.
  - inversion H as [|? ca ? Q0 Ha H0]; subst. inversion H0 as [|? cb ? Q1 Hb H1]; subst. exists (cb :: ca :: Q1). split; [constructor; [done|by constructor]|].
    cbn. rewrite !app_assoc. by rewrite (Permutation_app_comm ca cb).
  - destruct (IH1 _ H) as (Q1 & H1 & E1). destruct (IH2 _ H1) as (Q2 & H2 & E2). exists Q2. split; [done|]. by rewrite E1.
Qed.
Lemma made_sub q q' Q : q' ⊆+ q -> Forall2 made q Q -> exists Q', Forall2 made q' Q' /\ concat Q' ⊆+ concat Q.
Proof.
  intros [k HP]%submseteq_Permutation H. destruct (made_perm _ _ _ HP H) as (Q1 & H1 & E).
  apply Forall2_app_inv_l in H1 as (Q2 & Q3 & H2 & H3 & ->). exists Q2. split; [done|]. rewrite E, concat_app. apply submseteq_inserts_r. done.
Qed.

(** ** The queue and the flushes *)
Definition fly_list (m : gmap nat flush) : list entry := concat (map (fun x => fl_rest (snd x)) (map_to_list m)).
Lemma fly_list_insert m f x : m !! f = None -> fly_list (<[f := x]> m) ≡ₚ fl_rest x ++ fly_list m.
Proof. intros H. unfold fly_list. rewrite map_to_list_insert by done. done. Qed.
Lemma fly_list_split m f x : m !! f = Some x -> fly_list m ≡ₚ fl_rest x ++ fly_list (delete f m).
Proof. intros H. rewrite <- (insert_delete m f x H) at 1. apply fly_list_insert. apply lookup_delete. Qed.
Lemma fly_list_update m f x y : m !! f = Some x -> fly_list (partial_alter (fun _ => Some y) f m) ≡ₚ fl_rest y ++ fly_list (delete f m).
Proof.
  intros H. change (partial_alter (fun _ => Some y) f m) with (<[f := y]> m). rewrite <- insert_delete_insert. apply fly_list_insert. apply lookup_delete.
Qed.
Lemma fly_list_remove m f x : m !! f = Some x -> fl_rest x = [] -> fly_list (partial_alter (fun _ => None) f m) ≡ₚ fly_list m.
Proof. intros H E. rewrite (fly_list_split m f x H), E. done. Qed.

Definition inv (log : list ChunkModel.event) (c : CC) : Prop := exists S Q F,
  Forall2 made (map fst (sends_in log)) S /\ Forall2 made (map_to_list (cc_pend c)) Q /\ Forall2 made (fly_list (cc_fl c)) F /\
  concat S ++ concat Q ++ concat F ⊆+ recordings log.
Lemma recordings_app l k : recordings (l ++ k) = recordings l ++ recordings k.
Proof. apply omap_app. Qed.
Lemma sends_app l k : sends_in (l ++ k) = sends_in l ++ sends_in k.
Proof. apply omap_app. Qed.
(** Only the queue, the flushes and the log matter, up to the order in the maps. *)
Lemma inv_intro log c S q Q f F : Forall2 made (map fst (sends_in log)) S -> q ≡ₚ map_to_list (cc_pend c) -> Forall2 made q Q ->
  f ≡ₚ fly_list (cc_fl c) -> Forall2 made f F -> concat S ++ concat Q ++ concat F ⊆+ recordings log -> inv log c.
Proof.
  intros HS Hq HQ Hf HF Hsub. destruct (made_perm _ _ _ Hq HQ) as (Q' & HQ' & E1). destruct (made_perm _ _ _ Hf HF) as (F' & HF' & E2).
  exists S, Q', F'. split_and!; try done. by rewrite <- E1, <- E2.
Qed.
Lemma inv_quiet log evs c c' : inv log c -> sends_in evs = [] -> recordings evs = [] -> cc_pend c' = cc_pend c ->
  fly_list (cc_fl c') ≡ₚ fly_list (cc_fl c) -> inv (log ++ evs) c'.
Proof.
  intros (S & Q & F & HS & HQ & HF & Hsub) E1 E2 E3 E4.
  apply (inv_intro _ _ S (map_to_list (cc_pend c)) Q (fly_list (cc_fl c)) F); try done.
  - by rewrite sends_app, E1, app_nil_r.
  - by rewrite E3.
  - by rewrite recordings_app, E2, app_nil_r.
Qed.
Lemma inv_step cfg log c evs c' : inv log c -> cc_step cfg c evs c' -> inv (log ++ evs) c'.
Proof.
  intros Hi Hs.
  destruct Hs as [c g id a c' o Hg Hc|c f q Hf Hq|c f id a rest errs e Hf|c f id a rest errs e Ht Hf|c f errs Hf Hb
    |c g f q Hg Hf Hq|c g f errs Hg Hf|c g e Hg|c g Hg Hch|c Hch|c Hch].
  - destruct (collect_cases _ _ _ _ _ _ _ Hc) as (Hfl & Ho & _). destruct o as [|q|e].
    + destruct Ho as [-> _]. by apply (inv_quiet _ _ _ _ Hi).
    + destruct Ho as (_ & _ & Hp & _). destruct Hi as (S & Q & F & HS & HQ & HF & Hsub).
      apply (inv_intro _ _ S [] [] (fly_list (cc_fl c)) F); try done.
      * by rewrite sends_app, app_nil_r.
      * by rewrite Hp, map_to_list_empty.
      * by rewrite Hfl.
      * rewrite recordings_app, app_nil_r. cbn [concat app]. rewrite <- Hsub. apply submseteq_app; [done|]. by apply submseteq_inserts_l.
    + destruct Ho as (_ & _ & _ & Hp & _). destruct Hi as (S & Q & F & HS & HQ & HF & Hsub).
      destruct (cc_pend c !! id) as [p|] eqn:Ep; cbn [default from_option] in Hp.
      * assert (map_to_list (cc_pend c) ≡ₚ (id, p) :: map_to_list (delete id (cc_pend c))) as Hm by (symmetry; by apply map_to_list_delete).
        destruct (made_perm _ _ _ Hm HQ) as (Q' & HQ' & EQ). inversion HQ' as [|? cp ? Q0 Hcp HQ0]; subst.
        apply (inv_intro _ _ S ((id, p ++ a) :: map_to_list (delete id (cc_pend c))) ((cp ++ [(id, a)]) :: Q0) (fly_list (cc_fl c)) F); try done.
        -- by rewrite sends_app, app_nil_r.
        -- rewrite Hp. rewrite <- (insert_delete_insert (cc_pend c)). rewrite map_to_list_insert by apply lookup_delete. done.
        -- constructor; [by apply made_app|done].
        -- by rewrite Hfl.
        -- rewrite recordings_app. transitivity ((concat S ++ concat Q ++ concat F) ++ [(id, a)]); [|by apply submseteq_app]. rewrite EQ. cbn [concat].
           apply Permutation_submseteq. clear. set (x := [(id, a)]). set (s := concat S). set (q := concat Q0). set (f := concat F). perm.
      * apply (inv_intro _ _ S ((id, a) :: map_to_list (cc_pend c)) ([(id, a)] :: Q) (fly_list (cc_fl c)) F); try done.
        -- by rewrite sends_app, app_nil_r.
        -- rewrite Hp. by rewrite map_to_list_insert.
        -- constructor; [apply made_one|done].
        -- by rewrite Hfl.
        -- rewrite recordings_app. transitivity ((concat S ++ concat Q ++ concat F) ++ [(id, a)]); [|by apply submseteq_app]. cbn [concat].
           apply Permutation_submseteq. clear. set (x := [(id, a)]). set (s := concat S). set (q := concat Q). set (f := concat F). perm.
  - destruct Hi as (S & Q & F & HS & HQ & HF & Hsub). destruct (made_perm _ _ _ (symmetry Hq) HQ) as (Q' & HQ' & EQ).
    apply (inv_intro _ _ S [] [] (q ++ fly_list (cc_fl c)) (Q' ++ F)); try done.
    + by rewrite sends_app, app_nil_r.
    + cbn [cc_begin cc_fl]. by rewrite fly_list_insert.
    + by apply Forall2_app.
    + rewrite recordings_app, app_nil_r, concat_app, <- Hsub, EQ. done.
  - destruct Hi as (S & Q & F & HS & HQ & HF & Hsub).
    destruct (made_perm _ _ _ (fly_list_split _ _ _ Hf) HF) as (F' & HF' & EF). cbn [fl_rest app] in HF'. inversion HF' as [|? cp ? F0 Hcp HF0]; subst.
    apply (inv_intro _ _ (S ++ [cp]) (map_to_list (cc_pend c)) Q (rest ++ fly_list (delete f (cc_fl c))) F0); try done.
    + rewrite sends_app, map_app. apply Forall2_app; [done|]. constructor; [done|constructor].
    + cbn [set_flush cc_fl]. by rewrite (fly_list_update _ _ _ _ Hf).
    + rewrite recordings_app, app_nil_r, <- Hsub, EF, concat_app. cbn [concat]. apply Permutation_submseteq. clear.
      set (s := concat S). set (q := concat Q). set (f := concat F0). rewrite app_nil_r. perm.
  - destruct Hi as (S & Q & F & HS & HQ & HF & Hsub).
    destruct (made_perm _ _ _ (fly_list_split _ _ _ Hf) HF) as (F' & HF' & EF). cbn [fl_rest app] in HF'. inversion HF' as [|? cp ? F0 Hcp HF0]; subst.
    apply Forall2_app_inv_l in HF0 as (F1 & F2 & HF1 & HF2 & ->).
    apply (inv_intro _ _ (S ++ [cp]) (map_to_list (cc_pend c)) Q (fly_list (delete f (cc_fl c))) F2); try done.
    + rewrite sends_app, map_app. apply Forall2_app; [done|]. constructor; [done|constructor].
    + cbn [set_flush cc_fl]. by rewrite (fly_list_update _ _ _ _ Hf).
    + rewrite recordings_app, app_nil_r, <- Hsub, EF, concat_app. cbn [concat]. rewrite concat_app, app_nil_r.
      transitivity ((concat S ++ concat Q ++ cp ++ concat F2) ++ concat F1); [apply submseteq_inserts_r|]; apply Permutation_submseteq; clear;
      set (s := concat S); set (q := concat Q); try set (f := concat F1); set (g := concat F2); perm.
  - apply (inv_quiet _ _ _ _ Hi); try done. cbn [set_flush cc_fl]. by eapply fly_list_remove.
  - destruct Hi as (S & Q & F & HS & HQ & HF & Hsub). destruct (made_perm _ _ _ (symmetry Hq) HQ) as (Q' & HQ' & EQ).
    apply (inv_intro _ _ S [] [] (q ++ fly_list (cc_fl c)) (Q' ++ F)); try done.
    + by rewrite sends_app, app_nil_r.
    + cbn [set_bg cc_begin cc_fl]. by rewrite fly_list_insert.
    + by apply Forall2_app.
    + rewrite recordings_app, app_nil_r, concat_app, <- Hsub, EQ. done.
  - apply (inv_quiet _ _ _ _ Hi); try done. cbn [set_bg set_flush cc_fl]. by eapply fly_list_remove.
  - by apply (inv_quiet _ _ _ _ Hi).
  - by apply (inv_quiet _ _ _ _ Hi).
  - by apply (inv_quiet _ _ _ _ Hi).
  - by apply (inv_quiet _ _ _ _ Hi).
Qed.
Lemma packets cfg log c : cc_run cfg log c -> exists S, Forall2 made (map fst (sends_in log)) S /\ concat S ⊆+ recordings log.
Proof.
  intros Hr. assert (inv log c) as (S & Q & F & HS & _ & _ & Hsub).
  { induction Hr as [|log c evs c' _ IH Hs]; [|by eapply inv_step]. exists [], [], []. unfold fly_list. cbn [cc_init cc_pend cc_fl sends_in omap list_omap map]. rewrite !map_to_list_empty. split_and!; [constructor..|done]. }
  exists S. split; [done|]. rewrite <- Hsub. by apply submseteq_inserts_r.
Qed.

(** ** One process *)
Lemma tried_sends l res : Forall2 (fun (x : wcall * option cerr) (y : wcall * bool) => fst x = fst y /\ (snd x = None <-> snd y = true)) l res -> tried res = map fst l.
Proof. induction 1 as [|x y l res [H _] _ IH]; [done|]. cbn. by rewrite H, <- IH. Qed.
Lemma sublist_filter' {A} (P : A -> Prop) `{forall x, Decision (P x)} l : sublist (filter P l) l.
Proof. induction l as [|x l IH]; [constructor|]. rewrite filter_cons. destruct (decide (P x)); by constructor. Qed.
Lemma acked_sub res : acked res ⊆+ tried res.
Proof. unfold acked, tried. apply sublist_submseteq. change (sublist (fst <$> filter (fun x : wcall * bool => snd x = true) res) (fst <$> res)). apply fmap_sublist, sublist_filter'. Qed.
Lemma made_valid e cs : made e cs -> (forall c, In c cs -> valid_call c) -> valid_call e.
Proof.
  intros (Hne & Ha & Hid) Hv. destruct cs as [|c cs]; [done|]. rewrite Forall_forall in Hid.
  assert (fst c = fst e) as Hc by (apply Hid; left).
  destruct (Hv c (or_introl eq_refl)) as (V1 & V2 & V3 & _). rewrite Hc in V1, V2, V3. split_and!; try done.
  intros a Hin. rewrite Ha in Hin. apply in_concat in Hin as (l & Hl & Hin). apply in_map_iff in Hl as (d & <- & Hd). by apply (Hv d Hd).
Qed.
Section process.
Context (L : lib) (s : sender) (Hex : executes s).
Notation got := (map (fun bs => fst (handle_conn L (fun _ _ => true) bs)) (se_arrived s)).
Notation packets_of := (map fst (sends_in (se_log s))).
Lemma packets_ok : Forall valid_call packets_of /\ Forall (fun c => N.of_nat (length (call_body c)) < two64) packets_of.
Proof.
  destruct Hex as [(cfg & c & res & Hr & _) _ Hv Hsz]. split.
  - destruct (packets _ _ _ Hr) as (S & HS & Hsub). apply Forall_forall. intros e He.
    destruct (elem_of_list_lookup_1 _ _ He) as [i Hi]. destruct (Forall2_lookup_l _ _ _ _ _ HS Hi) as (cs & Hcs & Hm).
    apply (made_valid _ _ Hm). intros d Hd. apply Hv. apply elem_of_list_In. eapply elem_of_submseteq; [|exact Hsub].
    apply elem_of_list_In, in_concat. exists cs. split; [|done]. apply elem_of_list_In. by eapply elem_of_list_lookup_2.
  - apply List.Forall_forall. intros e He. apply in_map_iff in He as (x & <- & Hx). by apply Hsz.
Qed.
Lemma got_tried cs c k bs cn : Forall (fun c => c ∈ packets_of) cs -> (c ∈ packets_of \/ k = 0%nat) ->
  cn_out cn = stream cs ++ take k (call_frame c) -> bs `prefix_of` cn_out cn ->
  let g := fst (handle_conn L (fun _ _ => true) bs) in
  g `prefix_of` cs ++ [c] /\ (k = 0%nat \/ (k < length (call_frame c))%nat -> g `prefix_of` cs) /\ (k = 0%nat -> g `prefix_of` cs).
Proof.
  intros Hcs Hc Hout Hpre. destruct packets_ok as [Hv Hsz]. rewrite Forall_forall in Hv, Hsz, Hcs.
  rewrite (prefix_take _ _ Hpre), Hout. set (n := length bs).
  assert (k = 0%nat -> fst (handle_conn L (fun _ _ => true) (take n (stream cs ++ take k (call_frame c)))) `prefix_of` cs) as H0.
  { intros ->. rewrite take_0, app_nil_r. etransitivity; [apply conn_any|apply complete_pre]; apply Forall_forall; intros x Hx; [apply Hv|apply Hsz]; by apply Hcs. }
  destruct Hc as [Hc|Hk]; [|split_and!; auto; etransitivity; [by apply H0|by eexists]].
  assert (take n (stream cs ++ take k (call_frame c)) = take (n `min` (length (stream cs) + k)) (stream (cs ++ [c]))) as ->.
  { rewrite <- take_take. f_equal. rewrite stream_snoc, take_app_ge by lia. f_equal. f_equal. lia. }
  assert (Forall valid_call (cs ++ [c]) /\ Forall (fun c => N.of_nat (length (call_body c)) < two64) (cs ++ [c])) as [V Z].
  { split; apply Forall_forall; intros x [Hx|Hx%elem_of_list_singleton]%elem_of_app; [apply Hv; by apply Hcs|subst; by apply Hv|apply Hsz; by apply Hcs|subst; by apply Hsz]. }
  pose proof (conn_any L (cs ++ [c]) (n `min` (length (stream cs) + k)) V Z) as Hp. cbn zeta. split; [etransitivity; [exact Hp|apply complete_pre]|].
  assert ((k < length (call_frame c))%nat -> fst (handle_conn L (fun _ _ => true) (take (n `min` (length (stream cs) + k)) (stream (cs ++ [c])))) `prefix_of` cs) as H1.
  { intros Hk. etransitivity; [exact Hp|].
    destruct (complete_split (n `min` (length (stream cs) + k)) (cs ++ [c])) as (cs2 & E & Hl & _).
    destruct (decide (cs2 = [])) as [->|Hne].
    - rewrite app_nil_r in E. rewrite <- E in Hl. rewrite stream_snoc, app_length in Hl. lia.
    - destruct (exists_last Hne) as (x & y & ->). rewrite app_assoc in E. apply app_inj_tail in E as [E _]. by exists x. }
  split; [|intros ->; apply H1; apply frame_nonempty]. intros [->|Hk]; apply H1; [apply frame_nonempty|done].
Qed.
(** Each call that the server gets is one of the packets... *)
Lemma got_packets g c : In g got -> In c g -> In c packets_of.
Proof.
  intros Hg Hc. destruct Hex as [(cfg & cc & res & Hr & Hrc & Hres) Harr _ _].
  destruct (remote_streams _ _ _ Hrc) as (css & HF & Hac). pose proof (tried_sends _ _ Hres) as Ht.
  apply in_map_iff in Hg as (bs & <- & Hbs). apply elem_of_list_In, elem_of_list_lookup in Hbs as [i Hi].
  destruct (Forall2_lookup_l _ _ _ _ _ Harr Hi) as (cn & Hcn & Hpre). destruct (Forall2_lookup_l _ _ _ _ _ HF Hcn) as (cs & Hcs & (k & d & Hd & Hout & _)).
  rewrite Ht in Hd.
  assert (Forall (fun c => c ∈ packets_of) cs) as Hall.
  { apply Forall_forall. intros x Hx. rewrite <- Ht. eapply elem_of_submseteq; [|apply acked_sub]. rewrite <- Hac. apply elem_of_list_In, in_concat.
    exists cs. split; [apply elem_of_list_In; by eapply elem_of_list_lookup_2|by apply elem_of_list_In]. }
  destruct (got_tried cs d k bs cn Hall Hd Hout Hpre) as (Hp & _ & Hp0). rewrite Forall_forall in Hall.
  destruct Hd as [Hd| ->].
  - destruct Hp as [x E]. assert (In c (cs ++ [d])) as Hin by (rewrite E; apply in_or_app; by left).
    apply in_app_or in Hin as [Hin|[<-|[]]]; apply elem_of_list_In; [apply Hall; by apply elem_of_list_In|done].
  - destruct (Hp0 eq_refl) as [x E]. apply elem_of_list_In, Hall. rewrite E. apply elem_of_app. left. by apply elem_of_list_In.
Qed.
(** ... and, if failed writes are short, it gets none of them twice. *)
Lemma got_once : short_writes (se_ops s) -> concat got ⊆+ packets_of.
Proof.
  intros Hsh. destruct Hex as [(cfg & cc & res & Hr & Hrc & Hres) Harr _ _].
  destruct (short_streams _ _ _ Hsh Hrc) as (css & HF & Hac). pose proof (tried_sends _ _ Hres) as Ht.
  rewrite <- Ht, <- (acked_sub res), <- Hac.
  assert (Forall (fun cs => Forall (fun c => c ∈ packets_of) cs) css) as Hall.
  { apply Forall_forall. intros cs Hcs. apply Forall_forall. intros x Hx. rewrite <- Ht. eapply elem_of_submseteq; [|apply acked_sub]. rewrite <- Hac.
    apply elem_of_list_In, in_concat. exists cs. split; by apply elem_of_list_In. }
  clear Hac Hrc. revert css HF Hall. induction Harr as [|bs cn bss cns Hpre _ IH]; intros css HF Hall; inversion HF as [|? cs ? css' Hcn HF']; subst; [done|].
  inversion Hall as [|? ? Hcs Hall']; subst. cbn [map concat]. apply submseteq_app; [|by apply IH].
  destruct Hcn as (k & d & Hd & Hout & _ & Hk). rewrite Ht in Hd. destruct (got_tried cs d k bs cn Hcs Hd Hout Hpre) as (_ & [x E] & _); [by right|].
  rewrite E. by apply submseteq_inserts_r.
Qed.
End process.

(** ** The server and its store *)
Lemma interleaved_perm {A} (ls : list (list A)) l : interleaved ls l -> l ≡ₚ concat ls.
Proof.
  induction 1 as [ls H|ls1 x l ls2 r _ IH].
  - induction H as [|? ? <- _ IH]; [done|]. done.
  - rewrite IH, !concat_app. cbn [concat]. cbn [app]. by rewrite Permutation_middle.
Qed.
Lemma live_collected t hist acc : live t hist acc ⊆+ acc ++ filter (fun c => sp_trace (fst c) = t) (collected hist).
Proof.
  revert acc. induction hist as [|[id a|ts] hist IH]; intros acc; cbn [live]; [cbn; by rewrite app_nil_r| |].
  - cbn [collected omap list_omap]. rewrite filter_cons. cbn [fst]. destruct (N.eqb_spec (sp_trace id) t) as [E|E].
    + rewrite decide_True by done. rewrite IH. by rewrite <- app_assoc.
    + rewrite decide_False by done. apply IH.
  - cbn [collected omap list_omap]. rewrite IH. case_bool_decide; [|done]. cbn. by apply submseteq_inserts_l.
Qed.
Lemma shown_calls hist st t tr n : ms_run hist ms_init = Some st -> shows st t tr -> In n (nodes tr) ->
  exists cs, tr_anns n = concat (map snd cs) /\ cs ⊆+ collected hist /\
    (forall c, In c cs -> sp_trace (fst c) = t /\ sp_span (fst c) = sp_span (tr_id n)) /\ exists c, In c cs /\ fst c = tr_id n.
Proof.
  intros Hrun Hs Hn. destruct (shown_annotations hist st t tr Hrun Hs) as [H _]. destruct (H n Hn) as (Ha & Hi & Ht).
  exists (filter (fun c => sp_span (fst c) = sp_span (tr_id n)) (live t hist [])). split; [exact Ha|]. split; [|split].
  - transitivity (live t hist []); [apply sublist_submseteq, sublist_filter'|]. rewrite (live_collected t hist []). apply sublist_submseteq, sublist_filter'.
  - intros c Hc. apply elem_of_list_In, elem_of_list_filter in Hc as [Hc1 Hc2]. split; [|done]. apply (live_traces t hist [] ltac:(done)). by apply elem_of_list_In.
  - apply first_ids_in in Hi as [a Hin]. exists (tr_id n, a). split; [|done]. apply elem_of_list_In, elem_of_list_filter. split; [done|]. by apply elem_of_list_In.
Qed.
Lemma expand (cs : list wcall) Q : Forall2 made cs Q -> concat (map snd cs) = concat (map snd (concat Q)) /\
  (forall c, In c (concat Q) -> exists e, In e cs /\ fst c = fst e) /\ (forall e, In e cs -> exists c, In c (concat Q) /\ fst c = fst e).
Proof.
  induction 1 as [|e q cs Q (H1 & H2 & H3) _ (IH1 & IH2 & IH3)]; [done|]. cbn [map concat]. rewrite map_app, concat_app, IH1, H2. split; [done|].
  rewrite Forall_forall in H3. split.
  - intros c [Hc|Hc]%in_app_or; [exists e; split; [by left|]; apply H3; by apply elem_of_list_In|].
    destruct (IH2 c Hc) as (e' & ? & ?). exists e'. split; [by right|done].
  - intros e' [<-|He].
    + destruct q as [|c q]; [done|]. exists c. split; [by left|]. apply H3. left.
    + destruct (IH3 e' He) as (c & ? & ?). exists c. split; [apply in_or_app; by right|done].
Qed.
Section all.
Context (L : lib) (ss : list sender) (calls : list wcall) (Hex : Forall executes ss) (Hsv : serves L ss calls).
Notation got s := (map (fun bs => fst (handle_conn L (fun _ _ => true) bs)) (se_arrived s)).
Lemma calls_perm : calls ≡ₚ concat (map (fun s => concat (got s)) ss).
Proof.
  rewrite (interleaved_perm _ _ Hsv). clear. induction ss as [|s l IH]; [done|]. cbn [map concat]. rewrite map_app, concat_app. by rewrite IH.
Qed.
Lemma calls_made : exists Q, Forall2 made calls Q /\
  (forall c, In c (concat Q) -> exists s, In s ss /\ In c (recordings (se_log s))) /\
  (Forall (fun s => short_writes (se_ops s)) ss -> concat Q ⊆+ concat (map (fun s => recordings (se_log s)) ss)).
Proof.
  assert (forall s, In s ss -> exists Q, Forall2 made (concat (got s)) Q /\
    (forall c, In c (concat Q) -> In c (recordings (se_log s))) /\ (short_writes (se_ops s) -> concat Q ⊆+ recordings (se_log s))) as Hone.
  { intros s Hs. rewrite List.Forall_forall in Hex. specialize (Hex s Hs). destruct (ex_run s Hex) as (cfg & c & res & Hr & _).
    destruct (packets _ _ _ Hr) as (S & HS & Hsub).
    destruct (decide (concat (got s) ⊆+ map fst (sends_in (se_log s)))) as [Hd|Hd].
    - destruct (made_sub _ _ _ Hd HS) as (Q & HQ & HQs). exists Q. split; [done|]. assert (concat Q ⊆+ recordings (se_log s)) as Hx by (etransitivity; done). split; [|done].
      intros d Hin. apply elem_of_list_In. eapply elem_of_submseteq; [|exact Hx]. by apply elem_of_list_In.
    - assert (forall l, (forall c, In c l -> In c (map fst (sends_in (se_log s)))) -> exists Q, Forall2 made l Q /\ forall c, In c (concat Q) -> In c (recordings (se_log s))) as Hl.
      { induction l as [|e l IH]; intros Hin; [exists []; split; [constructor|done]|].
        destruct IH as (Q & HQ & HQs); [intros d Hd'; apply Hin; by right|].
        pose proof (Hin e (or_introl eq_refl)) as He. apply elem_of_list_In, elem_of_list_lookup in He as [i Hi].
        destruct (Forall2_lookup_l _ _ _ _ _ HS Hi) as (cs & Hcs & Hm). exists (cs :: Q). split; [by constructor|]. cbn [concat].
        intros d [Hd'|Hd']%in_app_or; [|by apply HQs]. apply elem_of_list_In. eapply elem_of_submseteq; [|exact Hsub].
        apply elem_of_list_In, in_concat. exists cs. split; [apply elem_of_list_In; by eapply elem_of_list_lookup_2|done]. }
      destruct (Hl (concat (got s))) as (Q & HQ & HQs).
      { intros d (g & Hg & Hin)%in_concat. by apply (got_packets L s Hex g d). }
      exists Q. split_and!; try done. intros Hsh. destruct Hd. by apply got_once. }
  assert (exists Q, Forall2 made (concat (map (fun s => concat (got s)) ss)) Q /\
    (forall c, In c (concat Q) -> exists s, In s ss /\ In c (recordings (se_log s))) /\
    (Forall (fun s => short_writes (se_ops s)) ss -> concat Q ⊆+ concat (map (fun s => recordings (se_log s)) ss))) as (Q & H1 & H2 & H3).
  { clear Hex Hsv. induction ss as [|s l IH]; [exists []; split_and!; [constructor|done|done]|].
    destruct IH as (Q & H1 & H2 & H3); [intros s' Hs; apply Hone; by right|].
    destruct (Hone s (or_introl eq_refl)) as (Q0 & G1 & G2 & G3). exists (Q0 ++ Q). cbn [map concat]. rewrite concat_app. split_and!.
    - by apply Forall2_app.
    - intros c [Hc|Hc]%in_app_or; [exists s; split; [by left|auto]|]. destruct (H2 c Hc) as (s' & ? & ?). exists s'. split; [by right|done].
    - intros Hf. inversion Hf; subst. apply submseteq_app; auto. }
  destruct (made_perm _ _ _ (symmetry calls_perm) H1) as (Q' & HQ' & E). exists Q'. split_and!; [done| |].
  - intros c Hc. apply H2. eapply Permutation_in; [symmetry; exact E|done].
  - intros Hf. rewrite <- E. auto.
Qed.
Lemma nothing_invented hist st t tr n : collected hist = calls -> ms_run hist ms_init = Some st -> shows st t tr -> In n (nodes tr) ->
  exists cs, tr_anns n = concat (map snd cs) /\
    (forall c, In c cs -> (exists s, In s ss /\ In c (recordings (se_log s))) /\ sp_trace (fst c) = t /\ sp_span (fst c) = sp_span (tr_id n)) /\
    (exists c, In c cs /\ fst c = tr_id n) /\
    (Forall (fun s => short_writes (se_ops s)) ss -> cs ⊆+ concat (map (fun s => recordings (se_log s)) ss)).
Proof.
  intros Hcol Hrun Hs Hn. destruct (shown_calls hist st t tr n Hrun Hs Hn) as (es & E1 & E2 & E3 & (e & E4 & E5)). rewrite Hcol in E2.
  destruct calls_made as (Q & HQ & H1 & H2). destruct (made_sub _ _ _ E2 HQ) as (Q' & HQ' & Hsub).
  destruct (expand es Q' HQ') as (X1 & X2 & X3). exists (concat Q'). split; [by rewrite E1|]. split; [|split].
  - intros c Hc. split.
    + apply H1. apply elem_of_list_In. eapply elem_of_submseteq; [|exact Hsub]. by apply elem_of_list_In.
    + destruct (X2 c Hc) as (e' & He & ->). by apply E3.
  - destruct (X3 e E4) as (c & Hc & Ec). exists c. split; [done|]. by rewrite Ec.
  - intros Hf. rewrite Hsub. auto.
Qed.
End all.
