(** Property C162, the shape of the tree, and C163: services that call each other and record over a network. *)
From Verif Require Import Base ChunkModel ChunkSpec ChunkProofs WireModel WireSpec WireProofs RemoteModel
  MemModel MemSpec MemProofs2 MemProofs3 MemProofs4 EndSpec FailSpec FailProofs FailProps LossSpec LossProofs LossProps.
From Verif Require MemProps WireProps HttpModel HttpProps EndProofs ChainModel ChainSpec ChainProps.
Local Open Scope general_if_scope.
Local Open Scope N_scope.

(** Everyone's Flushes have returned nil, nothing is left, and the network delivered. *)
Definition all_done (ss : list sender) : Prop := forall s, In s ss -> delivers s /\ short_writes (se_ops s) /\ settled (se_log s).
(** All that was recorded in trace t. *)
Definition recorded_in (ss : list sender) (t : N) : list wcall :=
  filter (fun c => sp_trace (fst c) = t) (concat (map (fun s => recordings (se_log s)) ss)).

Lemma made_restrict (P : SpanID -> Prop) `{forall i, Decision (P i)} (cs : list wcall) Q : Forall2 made cs Q ->
  exists Q', Forall2 made (filter (fun c => P (fst c)) cs) Q' /\ concat Q' = filter (fun c => P (fst c)) (concat Q).
Proof.
  induction 1 as [|e q cs Q (H1 & H2 & H3) _ (Q' & IH1 & IH2)]; [exists []; split; [constructor|done]|]. rewrite filter_cons. cbn [concat].
  rewrite filter_app. destruct (decide (P (fst e))) as [HP|HP].
  - exists (q :: Q'). split; [constructor; [by split|done]|]. cbn [concat]. rewrite IH2. f_equal. clear -H3 HP.
    induction H3 as [|x l E _ IHl]; [done|]. rewrite filter_cons, decide_True by (by rewrite E). by f_equal.
  - exists Q'. split; [done|]. rewrite IH2. replace (filter (fun c : wcall => P (fst c)) q) with (@nil wcall); [done|].
    clear -H3 HP. induction H3 as [|x l E _ IHl]; [done|]. rewrite filter_cons, decide_False by (by rewrite E). done.
Qed.
Lemma made_single (cs : list wcall) Q : Forall2 made cs Q -> NoDup (map fst (concat Q)) -> concat Q = cs.
Proof.
  induction 1 as [|e q cs Q (H1 & H2 & H3) _ IH]; [done|]. cbn [concat]. rewrite map_app. intros (Hq & _ & HQ)%NoDup_app.
  rewrite IH by done. destruct q as [|x [|y q]]; [done|..].
  - cbn in *. rewrite app_nil_r in H2. apply Forall_cons in H3 as [E _]. destruct x, e. cbn in *. by subst.
  - exfalso. apply Forall_cons in H3 as [E1 H3]. apply Forall_cons in H3 as [E2 _]. cbn [map] in Hq. rewrite E1, E2 in Hq. apply NoDup_cons in Hq as [Hq _].
    apply Hq. by left.
Qed.

Section tree.
Context (L : lib) (ss : list sender) (calls : list wcall) (hist : list call) (st : MS).
Context (Hex : Forall executes ss) (Hsv : serves L ss calls) (Hcol : collected hist ≡ₚ calls) (Hrun : ms_run hist ms_init = Some st) (Hall : all_done ss).
Lemma collected_made t : (forall ts, In (CDelete ts) hist -> ~ In t ts) ->
  exists Q, Forall2 made (live t hist []) Q /\ concat Q ≡ₚ recorded_in ss t.
Proof.
  intros Hd. destruct (all_made L ss calls Hex Hsv Hall) as (Q0 & HQ0 & EQ0).
  destruct (made_perm _ _ _ (symmetry Hcol) HQ0) as (Q1 & HQ1 & EQ1). destruct (made_restrict (fun i => sp_trace i = t) _ _ HQ1) as (Q & HQ & EQ).
  exists Q. rewrite (live_all t [] hist Hd). cbn [app]. split; [done|]. rewrite EQ. unfold recorded_in. apply filter_Permutation. by rewrite <- EQ1.
Qed.
Lemma recorded_ids t : map fst (recorded_in ss t) = recorded_spans ss t.
Proof.
  unfold recorded_in, recorded_spans. generalize (concat (map (fun s => recordings (se_log s)) ss)). intros l. induction l as [|c l IH]; [done|].
  rewrite filter_cons. cbn [map]. rewrite filter_cons. destruct (decide (sp_trace (fst c) = t)); [|done]. cbn [map]. by f_equal.
Qed.
Lemma tree_shown t root : (forall ts, In (CDelete ts) hist -> ~ In t ts) -> complete (recorded_spans ss t) root ->
  (forall i j, In i (recorded_spans ss t) -> In j (recorded_spans ss t) -> sp_span i = sp_span j -> i = j) ->
  exists tr, shows st t tr /\ tr_id tr = root /\ (forall id, In id (map tr_id (nodes tr)) <-> In id (recorded_spans ss t)) /\ NoDup (map tr_id (nodes tr)) /\
    (forall n, In n (nodes tr) -> tr_anns n ≡ₚ recorded_anns ss t (sp_span (tr_id n))) /\
    (forall p c, In p (nodes tr) -> In c (nodes tr) -> edge tr p c <-> sp_parent (tr_id c) = sp_span (tr_id p)).
Proof.
  intros Hd Hc Hu. destruct (collected_made t Hd) as (Q & HQ & EQ). destruct (expand _ _ HQ) as (_ & X2 & X3).
  assert (forall i, In i (map fst (live t hist [])) <-> In i (recorded_spans ss t)) as Hids.
  { intros i. rewrite <- recorded_ids, <- (Permutation_map fst EQ). split; intros (d & <- & Hin)%in_map_iff.
    - destruct (X3 d Hin) as (c & Hc' & E). rewrite <- E. by apply in_map.
    - destruct (X2 d Hin) as (e & He & E). rewrite E. by apply in_map. }
  assert (forall i, In i (spans_of (live t hist [])) <-> In i (recorded_spans ss t)) as Hsp.
  { intros i. rewrite <- Hids. split.
    - intros [a Hi]%first_ids_in. by apply (in_map fst) in Hi.
    - intros Hi. apply EndProofs.first_ids_all; [done|by intros ?%elem_of_nil|]. intros j Hj E. apply Hu; [by apply Hids|by apply Hids|done]. }
  destruct (order_independent hist st t root Hrun) as (tr & H1 & H2 & H3 & H4 & H5).
  { destruct Hc as [[R1 R2] R3 R4 R5 R6]. split.
    - split; [by apply Hsp|done].
    - intros s Hs%Hsp. by apply R3.
    - intros s Hs%Hsp. by apply R4.
    - intros s Hs%Hsp Hne. destruct (R5 s Hs Hne) as (p & Hp & E). exists p. split; [by apply Hsp|done].
    - eapply acyclic_sub; [|exact R6]. intros i. apply Hsp. }
  destruct (everything_shown L ss calls hist st Hex Hsv Hcol Hrun t Hall Hd) as (tr' & S1 & _ & S3 & S4).
  { by apply Hc. }
  { intros E. pose proof (proj1 (co_root _ _ Hc)) as HR. by rewrite E in HR. }
  assert (tr' = tr) as ->.
  { by eapply shows_det. }
  exists tr. split; [done|]. split; [done|]. split; [intros id; rewrite H3; apply Hsp|]. split; [|split; [exact S4|exact H5]].
  apply NoDup_ListNoDup. eapply (NoDup_map_inv sp_span). rewrite map_map. exact S3.
Qed.
End tree.

(** Once everything has been delivered, a trace whose recorded spans make up one tree is shown as that tree. *)
Theorem C162_tree : forall L ss calls hist st t root,
  Forall executes ss -> serves L ss calls -> collected hist = calls -> ms_run hist ms_init = Some st -> all_done ss ->
  (forall ts, In (CDelete ts) hist -> ~ In t ts) ->
  complete (recorded_spans ss t) root ->
  (forall i j, In i (recorded_spans ss t) -> In j (recorded_spans ss t) -> sp_span i = sp_span j -> i = j) ->
  exists tr, shows st t tr /\ tr_id tr = root /\
    (forall id, In id (map tr_id (nodes tr)) <-> In id (recorded_spans ss t)) /\ NoDup (map tr_id (nodes tr)) /\
    (forall n, In n (nodes tr) -> Permutation (tr_anns n) (recorded_anns ss t (sp_span (tr_id n)))) /\
    (forall p c, In p (nodes tr) -> In c (nodes tr) -> edge tr p c <-> sp_parent (tr_id c) = sp_span (tr_id p)).
Proof. intros L ss calls hist st t root H1 H2 H3 H4 H5. exact (tree_shown L ss calls hist st H1 H2 (eq_ind _ (Permutation _) (Permutation_refl _) _ H3) H4 H5 t root). Qed.
Print Assumptions C162_tree.

Lemma enters_ids g1 g2 rs cs : ChainModel.enters g1 g2 rs cs -> Forall is_id (g1 :: g2 :: flat_map ChainSpec.req_ids rs) ->
  map fst cs = MkSpanID g1 g2 0 :: ChainSpec.spans_below (MkSpanID g1 g2 0) rs.
Proof.
  intros He HI. apply Forall_cons in HI as [I1 HI]. pose proof HI as HI'. apply Forall_cons in HI' as [I2 HI'].
  inversion He as [names cf next g1' g2' lg r w out s rs' cs' Hh1 Hh2 Hs Hp Hhs Hm]; subst.
  destruct (ChainProps.span_used _ _ _ _ _ _ _ _ _ _ (MkSpanID g1 g2 0) (proj2 (proj2 (proj2 (proj2 (HttpProps.C54_selection g1 g2 (HttpModel.rq_header r))))) Hh1 Hh2) Hs Hp Hhs) as [-> [anns ->]].
  cbn [app map fst]. f_equal. by apply ChainProps.makes_ids.
Qed.
Lemma enters_nodup g1 g2 rs cs : ChainModel.enters g1 g2 rs cs ->
  Forall is_id (g1 :: g2 :: flat_map ChainSpec.req_ids rs) -> NoDup (g2 :: flat_map ChainSpec.req_ids rs) -> NoDup (map fst cs).
Proof.
  intros He HI Hnd. rewrite (enters_ids _ _ _ _ He HI). apply (NoDup_fmap_1 sp_span). cbn [fmap list_fmap sp_span]. eapply ChainProps.sublist_nodup; [|exact Hnd]. constructor.
  exact (ChainProps.spans_sub _ (MkSpanID g1 g2 0) rs (le_n _)).
Qed.
Lemma services_shown L ss calls hist st g1 g2 rs cs :
  ChainModel.enters g1 g2 rs cs ->
  Forall is_id (g1 :: g2 :: flat_map ChainSpec.req_ids rs) -> NoDup (g2 :: flat_map ChainSpec.req_ids rs) -> ~ In 0 (g2 :: flat_map ChainSpec.req_ids rs) ->
  Permutation (recorded_in ss g1) cs ->
  Forall executes ss -> serves L ss calls -> collected hist ≡ₚ calls -> ms_run hist ms_init = Some st -> all_done ss ->
  (forall ts, In (CDelete ts) hist -> ~ In g1 ts) ->
  exists tr, shows st g1 tr /\ tr_id tr = MkSpanID g1 g2 0 /\
    Permutation (map tr_id (nodes tr)) (MkSpanID g1 g2 0 :: ChainSpec.spans_below (MkSpanID g1 g2 0) rs) /\
    (forall n, In n (nodes tr) -> In (tr_id n, tr_anns n) cs) /\
    (forall p c, In p (nodes tr) -> In c (nodes tr) -> edge tr p c <-> sp_parent (tr_id c) = sp_span (tr_id p)).
Proof.
  intros He HI Hnd Hz HP Hex Hsv Hcol Hrun Hall Hd.
  eapply ChainProps.one_trace_live; [exact He|exact HI|exact Hnd|exact Hz| |exact Hrun].
  destruct (collected_made L ss calls hist Hex Hsv Hcol Hall g1 Hd) as (Q & HQ & EQ).
  rewrite <- HP, <- EQ. rewrite (made_single _ _ HQ); [done|]. rewrite (Permutation_map fst EQ), (Permutation_map fst HP).
  eapply enters_nodup; done.
Qed.
(** A request from outside comes in; the services that serve it and its subrequests record their spans with collectors of
    their own, whose connections to the server may break and be remade; [cs] is what the middleware and the transports
    recorded, spread over the services in any way.  Then the server shows one trace with exactly the expected spans, each with
    the annotations that were recorded for it, every span below the span within which its request was made. *)
Theorem C163_one_trace : forall L ss calls hist st g1 g2 rs cs,
  ChainModel.enters g1 g2 rs cs ->
  Forall is_id (g1 :: g2 :: flat_map ChainSpec.req_ids rs) -> NoDup (g2 :: flat_map ChainSpec.req_ids rs) -> ~ In 0 (g2 :: flat_map ChainSpec.req_ids rs) ->
  Permutation (recorded_in ss g1) cs ->
  Forall executes ss -> serves L ss calls -> collected hist = calls -> ms_run hist ms_init = Some st -> all_done ss ->
  (forall ts, In (CDelete ts) hist -> ~ In g1 ts) ->
  exists tr, shows st g1 tr /\ tr_id tr = MkSpanID g1 g2 0 /\
    Permutation (map tr_id (nodes tr)) (MkSpanID g1 g2 0 :: ChainSpec.spans_below (MkSpanID g1 g2 0) rs) /\
    (forall n, In n (nodes tr) -> In (tr_id n, tr_anns n) cs) /\
    (forall p c, In p (nodes tr) -> In c (nodes tr) -> edge tr p c <-> sp_parent (tr_id c) = sp_span (tr_id p)).
Proof.
  intros L ss calls hist st g1 g2 rs cs He HI Hnd Hz HP Hex Hsv <-. by eapply services_shown.
Qed.
Print Assumptions C163_one_trace.

(** ** Every chain of requests, spread over services in any way, over connections that always break *)
(** The connection breaks before each packet and is made again. *)
Definition outage : outcomes := MkOut (WFail 0, WOk) true (WOk, WOk).
Definition service (cs : list wcall) : sender :=
  MkSender (concat (map round cs)) (map (fun c => RCollect c outage) cs) (fst (rc_run (map (fun c => RCollect c outage) cs) rc_init)) (map (fun c => stream [c]) cs).
Lemma outage_run cs : forall r, map cn_out (rc_conns (fst (rc_run (map (fun c => RCollect c outage) cs) r))) = map cn_out (rc_conns r) ++ map (fun c => stream [c]) cs /\
  snd (rc_run (map (fun c => RCollect c outage) cs) r) = map (fun c => (c, true)) cs.
Proof.
  induction cs as [|c cs IH]; intros r; [by rewrite app_nil_r|]. cbn [map rc_run].
  assert (exists r', rc_collect r (new_packet (fst c) (snd c)) outage = (r', true) /\ map cn_out (rc_conns r') = map cn_out (rc_conns r) ++ [stream [c]]) as (r' & -> & E).
  { unfold stream, call_frame, frame, call_body. cbn [flat_map]. rewrite app_nil_r. unfold rc_collect, rc_retry, write_msg.
    generalize (enc_packet (new_packet (fst c) (snd c))). intros body. generalize (varint (N.of_nat (length body))). intros len. destruct r as [[k|] old].
    - unfold conn_write. cbn [rc_conn outage out_first fst snd]. destruct (cn_dead k); cbn [negb];
        unfold rc_connect, rc_close, conn_write; cbn; eexists; (split; [reflexivity|]); unfold rc_conns; cbn;
        rewrite !map_app; cbn; rewrite ?app_nil_r; done.
    - unfold rc_connect, rc_close, conn_write; cbn; eexists; (split; [reflexivity|]); unfold rc_conns; cbn.
      rewrite !map_app. cbn. by rewrite app_nil_r. }
  destruct (IH r') as [H1 H2]. destruct (rc_run _ r') as [r2 log] eqn:E2. cbn [fst snd] in *. split; [|by f_equal].
  rewrite H1, E, <- app_assoc. done.
Qed.
Lemma rounds_sends cs : sends_in (concat (map round cs)) = map (fun c => (c, None)) cs.
Proof. induction cs as [|[i a] cs IH]; [done|]. cbn [map concat]. unfold sends_in in *. rewrite omap_app, IH. done. Qed.
Lemma rounds_recordings cs : recordings (concat (map round cs)) = cs.
Proof. induction cs as [|[i a] cs IH]; [done|]. cbn [map concat]. unfold recordings in *. rewrite omap_app, IH. done. Qed.
Lemma service_executes cs : Forall valid_call cs -> Forall fits cs -> executes (service cs).
Proof.
  intros Hv Hf. rewrite List.Forall_forall in Hv, Hf. destruct (outage_run cs rc_init) as [H1 H2]. split; cbn [service se_log se_ops se_net se_arrived].
  - destruct (rounds_run cs) as [c Hc]. exists (MkCfg 0 false), c, (map (fun c => (c, true)) cs). split; [done|]. split; [rewrite <- H2; apply surjective_pairing|].
    rewrite rounds_sends. clear. induction cs as [|c cs IH]; cbn [map]; constructor; [done|exact IH].
  - cbn [rc_conns rc_init rc_old rc_conn map app] in H1. rewrite <- H1. clear. induction (rc_conns _) as [|x l IH]; cbn [map]; constructor; [done|exact IH].
  - intros c. rewrite rounds_recordings. apply Hv.
  - intros x. rewrite rounds_sends. intros (c & <- & Hc)%in_map_iff. specialize (Hf c Hc). unfold fits in Hf. cbn [fst]. destruct two64_max. lia.
Qed.
Lemma service_done cs : Forall fits cs -> delivers (service cs) /\ short_writes (se_ops (service cs)) /\ settled (se_log (service cs)).
Proof.
  intros Hf. rewrite List.Forall_forall in Hf. split; [|split].
  - split; cbn [service se_log se_net se_arrived]; [by rewrite (proj1 (outage_run cs rc_init))|]. intros x. rewrite rounds_sends. intros (c & <- & Hc)%in_map_iff. by apply Hf.
  - intros c o (d & [= -> <-] & _)%in_map_iff. split; split; cbn [outage out_first out_second fst snd]; try done. intros k [= <-].
    apply varint_nonempty.
  - cbn [service se_log]. split; [|split; [|split]].
    + intros id a q Hin. apply in_concat in Hin as (l & (c & <- & _)%in_map_iff & Hin). cbn in Hin. repeat destruct Hin as [Hin|Hin]; done.
    + induction cs as [|c cs IH] using rev_ind; [done|]. rewrite map_app, concat_app. cbn [map concat]. unfold queue in *. rewrite fold_left_app.
      rewrite IH; [done|]. intros x Hx. apply Hf, in_app_iff. by left.
    + intros l1 f q l2 E. exists None. revert l1 E. induction cs as [|c cs IH]; intros l1 E; [by destruct l1|]. cbn [map concat round app] in E.
      destruct l1 as [|? l1]; [done|]. injection E as _ E. destruct l1 as [|? l1].
      { injection E as <- <- <-. right. by left. }
      injection E as _ E. destruct l1 as [|? l1]; [done|]. injection E as _ E. destruct l1 as [|? l1]; [done|]. injection E as _ E.
      eapply IH; [|exact E]. intros x Hx. apply Hf. by right.
    + intros f r Hin. apply in_concat in Hin as (l & (c & <- & _)%in_map_iff & Hin). cbn in Hin. repeat destruct Hin as [Hin|Hin]; try done. by injection Hin.
Qed.
Lemma interleaved_concat {A} (ls : list (list A)) : interleaved ls (concat ls).
Proof.
  induction ls as [|l ls IH]; [by constructor|]. cbn [concat]. induction l as [|x l IHl].
  - cbn [app]. clear -IH. induction IH as [ls Hn|ls1 x l1 ls2 r H IH]; [constructor; by constructor|]. apply (il_cons ([] :: ls1) x l1 ls2 r). exact IH.
  - cbn [app]. by apply (il_cons [] x l ls).
Qed.
Lemma services_serve L css : (forall l, In l css -> Forall valid_call l /\ Forall fits l) -> serves L (map service css) (concat css).
Proof.
  intros Hcss. unfold serves. replace (concat css) with (concat (map (fun bs => fst (handle_conn L (fun _ _ => true) bs)) (concat (map se_arrived (map service css))))); [apply interleaved_concat|].
  clear -Hcss. induction css as [|l css IH]; [done|]. cbn [map concat]. rewrite map_app, concat_app, IH by (intros k Hk; apply Hcss; by right). f_equal.
  destruct (Hcss l (or_introl eq_refl)) as [Hv Hf]. cbn [service se_arrived]. clear -Hv Hf. induction l as [|c l IH]; [done|]. apply Forall_cons in Hv as [V1 V2]. apply Forall_cons in Hf as [F1 F2].
  cbn [map concat]. rewrite (WireProps.C39_whole L (fun _ _ => true) [c]), IH; [done|done|done|by constructor|by constructor|done].
Qed.
Theorem C163_possible : forall L g1 g2 rs cs css, ChainModel.enters g1 g2 rs cs -> Permutation (concat css) cs ->
  Forall is_id (g1 :: g2 :: flat_map ChainSpec.req_ids rs) -> Forall valid_call cs -> Forall fits cs ->
  exists st, Permutation (recorded_in (map service css) g1) cs /\ Forall executes (map service css) /\ serves L (map service css) (concat css) /\
    ms_run (map (fun c => CCollect (fst c) (snd c)) (concat css)) ms_init = Some st /\ all_done (map service css) /\
    forall s, In s (map service css) -> length (rc_conns (se_net s)) = length (recordings (se_log s)).
Proof.
  intros L g1 g2 rs cs css He HP HI Hv Hf.
  assert (forall c, In c cs -> sp_trace (fst c) = g1) as Ht.
  { intros c Hc. assert (In (fst c) (map fst cs)) as Hi by (by apply in_map). rewrite (enters_ids _ _ _ _ He HI) in Hi. destruct Hi as [<-|Hi]; [done|].
    apply in_split in Hi as (l1 & l2 & E). by destruct (ChainProps.parent_before _ _ rs l1 _ l2 (le_n _) E) as [-> _]. }
  assert (forall l, In l css -> Forall valid_call l /\ Forall fits l) as Hcss.
  { rewrite List.Forall_forall in Hv, Hf. intros l Hl. rewrite !List.Forall_forall. split; intros c Hc; [apply Hv|apply Hf]; (eapply Permutation_in; [exact HP|]; apply in_concat; eauto). }
  destruct (run_ok (map (fun c => CCollect (fst c) (snd c)) (concat css))) as (st & Hst & _).
  exists st. split; [|split; [|split; [|split; [exact Hst|split]]]].
  - unfold recorded_in. rewrite map_map. cbn [service se_log]. rewrite (map_ext _ _ rounds_recordings), map_id. rewrite HP. apply reflexive_eq.
    clear -Ht. induction cs as [|c cs IH]; [done|]. rewrite filter_cons, decide_True by (apply Ht; by left). f_equal. apply IH. intros d Hd. apply Ht. by right.
  - apply List.Forall_forall. intros s (l & <- & Hl)%in_map_iff. destruct (Hcss l Hl). by apply service_executes.
  - by apply services_serve.
  - intros s (l & <- & Hl)%in_map_iff. destruct (Hcss l Hl). by apply service_done.
  - intros s (l & <- & Hl)%in_map_iff. cbn [service se_log se_net]. rewrite rounds_recordings. pose proof (f_equal (@length bytes) (proj1 (outage_run l rc_init))) as E.
    rewrite app_length, !map_length in E. exact E.
Qed.
Print Assumptions C163_possible.
