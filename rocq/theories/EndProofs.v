From Verif Require Import Base ReflModel EventModel EventSpec RecorderModel ChunkModel ChunkSpec ChunkProofs
  WireModel WireSpec WireProofs RemoteModel RemoteProofs MemModel MemSpec MemProofs MemProofs2 MemProofs3 MemProofs4 EndSpec.
From Verif Require WireProps.
From Coq Require Import ssreflect.
Local Open Scope general_if_scope.

(** ** The recorder *)
Lemma records_out s o : records s o -> fst o = fst s /\ recorded (snd s) (snd o).
Proof.
  intros (lg & parts & rep & Hp & Hr).
  assert (forall ps r, rec_run r (map (fun a => MkCall (REvent (inl a)) None rep) ps ++
      [MkCall RFinish None rep; MkCall RErrors None rep]) =
    rec_run (MkRec (r_logger r) (r_span r) (r_anns r ++ concat ps) (r_finished r) (r_errors r) (r_collects r) (r_lines r) (r_returned r))
      [MkCall RFinish None rep; MkCall RErrors None rep]) as H.
  { induction ps as [|p ps IH]=> r.
    - cbn [concat map app]. rewrite app_nil_r. by destruct r.
    - cbn [concat map app]. rewrite {1}/rec_run. cbn [fold_left]. rewrite -/(rec_run _ _) IH /=. by rewrite -app_assoc. }
  rewrite H /= in Hr. injection Hr as <-. cbn. split; [done|]. by exists parts.
Qed.

(** ** The chunked collector *)
Lemma accepted_filter s log : accepted s log = flat_map (accepted1 s) (filter is_collect log).
Proof.
  induction log as [|e log IH]; [done|]. rewrite filter_cons /accepted. cbn [flat_map]. rewrite -/(accepted s log) IH.
  case_decide as H; [done|]. destruct e; [by destruct H|done..].
Qed.
Lemma accepted_outs s a outs l : Permutation l (map (fun o : wcall => EvCollect (fst o) (snd o) (OQueued None)) outs) ->
  NoDup (map fst outs) -> In (s, a) outs -> flat_map (accepted1 s) l = a.
Proof.
  intros HP Hnd Hin.
  assert (exists os, outs ≡ₚ os /\ l = map (fun o : wcall => EvCollect (fst o) (snd o) (OQueued None)) os) as (os & Ho & ->).
  { destruct (Permutation_map_inv _ _ HP) as (os & -> & H). by exists os. }
  rewrite Ho in Hnd. eapply Permutation_in in Hin; [|exact Ho]. clear -Hnd Hin.
  induction os as [|[i b] os IH]; [done|]. cbn [map flat_map fst snd accepted1] in *. apply NoDup_cons in Hnd as [Hni Hnd].
  destruct Hin as [[= -> ->]|Hin].
  - rewrite bool_decide_eq_true_2 //. enough (flat_map (accepted1 s) (map (fun o : wcall => EvCollect o.1 o.2 (OQueued None)) os) = []) as -> by apply app_nil_r.
    clear -Hni. induction os as [|[j b] os IH]; [done|]. cbn [map flat_map fst snd accepted1] in *.
    apply not_elem_of_cons in Hni as [Hj Hni]. rewrite bool_decide_eq_false_2; [by intros ->|]. by apply IH.
  - rewrite bool_decide_eq_false_2; [|by apply IH]. intros ->. apply Hni, elem_of_list_In, in_map_iff. by exists (s, a).
Qed.
Lemma was_accepted_outs s outs log :
  Permutation (filter is_collect log) (map (fun o : wcall => EvCollect (fst o) (snd o) (OQueued None)) outs) ->
  was_accepted s log <-> In s (map fst outs).
Proof.
  intros HP. split.
  - intros (a & e & Hin). assert (In (EvCollect s a (OQueued e)) (filter is_collect log)) as H.
    { apply elem_of_list_In, elem_of_list_filter. split; [done|]. by apply elem_of_list_In. }
    eapply Permutation_in in H; [|exact HP]. apply in_map_iff in H as ([i b] & [= -> -> <-] & H). apply in_map_iff. by exists (s, a).
  - intros ([i b] & <- & H)%in_map_iff. exists b, None. cbn [fst].
    assert (In (EvCollect i b (OQueued None)) (map (fun o : wcall => EvCollect (fst o) (snd o) (OQueued None)) outs)) as G
      by (apply in_map_iff; by exists (i, b)).
    eapply Permutation_in in G; [|symmetry; exact HP]. apply elem_of_list_In, elem_of_list_filter in G as [_ G]. by apply elem_of_list_In.
Qed.
Lemma entries_of_nil s q : (forall a, ~ In (s, a) q) -> entries_of s q = [].
Proof.
  induction q as [|[i b] q IH]=> H; [done|]. rewrite /entries_of. cbn [flat_map fst snd] in *.
  rewrite bool_decide_eq_false_2; [intros ->; apply (H b); by left|]. cbn [app]. apply IH. intros a Ha. apply (H a). by right.
Qed.
Lemma not_dropped s log : ~ was_dropped s log -> dropped s log = [].
Proof.
  intros H. rewrite /dropped. assert (forall ev, In ev log -> dropped1 s ev = []) as G.
  { intros [id a [|q|]| | |f q| | | |] Hin; cbn [dropped1]; try done; apply entries_of_nil; intros b Hb; apply H; exists q, b;
      split; try done; [left; by exists id, a|right; by exists f]. }
  clear H. induction log as [|ev log IH]; [done|]. cbn [flat_map]. rewrite G; [by left|]. rewrite IH //. intros ev' H. apply G. by right.
Qed.
Definition only (s : SpanID) (cs : list wcall) : list Annotation := concat (map snd (filter (fun c => fst c = s) cs)).
Lemma sent_sends s log : sent s log = only s (map fst (sends_in log)).
Proof.
  rewrite /only. induction log as [|ev log IH]; [done|]. rewrite /sent. cbn [flat_map]. rewrite -/(sent s log) IH.
  destruct ev as [| |f i a e| | | | |]; try done. cbn [sends_in omap list_omap sent1 map fst]. rewrite -/(sends_in log) filter_cons. cbn [fst].
  case_bool_decide as H; [by rewrite decide_True|by rewrite decide_False].
Qed.
Lemma was_sent_sends s log : was_sent s log <-> In s (map fst (map fst (sends_in log))).
Proof.
  split.
  - intros (f & a & e & H). apply in_map_iff. exists (s, a). split; [done|]. apply in_map_iff. exists ((s, a), e). split; [done|].
    apply elem_of_list_In, elem_of_list_omap. exists (EvSend f s a e). split; [by apply elem_of_list_In|done].
  - intros ([i a] & <- & H)%in_map_iff. apply in_map_iff in H as ([o e] & [= ->] & H). apply elem_of_list_In, elem_of_list_omap in H as (ev & H1 & H2).
    destruct ev; try done. injection H2 as -> -> ->. exists f, a, e. by apply elem_of_list_In.
Qed.

(** ** Sizes of packets *)
Lemma body_length id l : length (call_body (id, l)) = (length (call_body (id, [])) + list_sum (map (fun a => length (tag 5 3 ++ enc_ann (ann_wire a) ++ tag 5 4)) l))%nat.
Proof.
  rewrite /call_body /enc_packet /new_packet. cbn [fst snd wp_span wp_anns map flat_map]. rewrite !app_length. cbn [length].
  rewrite -!Nat.add_assoc. do 2 f_equal.
  induction l as [|a l IH]; [done|]. cbn [map flat_map]. rewrite app_length. rewrite /list_sum. cbn [fold_right]. rewrite -/(list_sum _). lia.
Qed.
Lemma sublist_sum {A} (f : A -> nat) l k : sublist l k -> (list_sum (map f l) <= list_sum (map f k))%nat.
Proof. induction 1; unfold list_sum in *; cbn [map fold_right]; lia. Qed.
Lemma fits_sub id l k : sublist l k -> fits (id, k) -> fits (id, l).
Proof.
  rewrite /fits (body_length id l) (body_length id k) => Hs. pose proof (sublist_sum (fun a => length (tag 5 3 ++ enc_ann (ann_wire a) ++ tag 5 4)) l k Hs) as H.
  intros G. eapply N.le_trans; [|exact G]. clear G. lia.
Qed.
Lemma valid_sub id l k : sublist l k -> valid_call (id, k) -> valid_call (id, l).
Proof.
  intros Hs (H1 & H2 & H3 & H4). split_and!; try done. intros a Ha. apply H4. cbn [snd] in *. apply elem_of_list_In.
  eapply (elem_of_submseteq l); [|by apply sublist_submseteq]. by apply elem_of_list_In.
Qed.

(** ** One application *)
Lemma concat_in_sublist {A} (x : list A) ls : In x ls -> sublist x (concat ls).
Proof.
  induction ls as [|l ls IH]; [done|]. intros [->|H]; cbn [concat].
  - by apply sublist_inserts_r.
  - apply sublist_inserts_l. by apply IH.
Qed.
Lemma app_received L spans outs bs : app_sends spans outs bs -> NoDup (map fst spans) ->
  (forall o, In o outs -> valid_call o /\ fits o) ->
  exists got, handle_conn L (fun _ _ => true) bs = (got, HClosed) /\
    (forall i, In i (map fst got) <-> In i (map fst spans)) /\
    (forall i evs, In (i, evs) spans -> recorded evs (only i got)).
Proof.
  intros [Hrec (cfg & log & c & Hrun & Hno & HP & Hdr & Hpend & Hfl & ops & r & cn & Hrc & Hok & Hcn & Hdead & <-)] Hnd Hv.
  assert (map fst outs = map fst spans) as Hids.
  { clear -Hrec. induction Hrec as [|s o ss os H _ IH]; [done|]. cbn. by rewrite IH (proj1 (records_out _ _ H)). }
  assert (forall s, accepted s log = sent s log) as Hacc.
  { intros s. destruct (order_kept cfg log c s Hrun Hno) as [_ H]. rewrite H; [by apply not_dropped|].
    rewrite /queued /flying Hpend Hfl !map_to_list_empty /=. by rewrite !app_nil_r. }
  assert (forall s, was_sent s log <-> In s (map fst outs)) as Hws.
  { intros s. rewrite -(was_accepted_outs s outs log HP) (presence cfg log c s Hrun). split; [tauto|].
    intros [H|[H|[(a & H)|(f & fl & H & _)]]]; [done|by apply Hdr in H| |].
    - by rewrite Hpend lookup_empty in H.
    - by rewrite Hfl lookup_empty in H. }
  assert (forall s a, In (s, a) outs -> sent s log = a) as Hsent.
  { intros s a Hin. rewrite -Hacc accepted_filter. apply (accepted_outs s a outs); [exact HP|by rewrite Hids|exact Hin]. }
  assert (Forall (fun c => valid_call c /\ fits c) (map fst (sends_in log))) as Hvf.
  { apply List.Forall_forall. intros [i a] Hin. assert (In i (map fst outs)) as Hi by (apply Hws, was_sent_sends, in_map_iff; by exists (i, a)).
    apply in_map_iff in Hi as ([i' b] & Hi & Hb). cbn [fst] in Hi. subst i'. destruct (Hv _ Hb) as [V F].
    assert (sublist a b) as Hsub.
    { rewrite -(Hsent _ _ Hb) sent_sends /only. apply concat_in_sublist, in_map_iff. exists (i, a). split; [done|].
      apply elem_of_list_In, elem_of_list_filter. split; [done|]. by apply elem_of_list_In. }
    split; [exact (valid_sub _ _ _ Hsub V)|exact (fits_sub _ _ _ Hsub F)]. }
  exists (map fst (sends_in log)).
  assert (cn_out cn = stream (map fst (sends_in log))) as ->.
  { destruct (remote_streams _ _ _ Hrc) as (css & H1 & H2). rewrite Hcn in H1. inversion H1 as [|? cs ? ? (k & d & Hk1 & Hk2 & Hk3) H1']; subst.
    inversion H1'; subst. cbn [concat] in H2. rewrite app_nil_r in H2. rewrite Hk2 (Hk3 Hdead) take_0 app_nil_r H2.
    f_equal. clear. rewrite /acked. induction (sends_in log) as [|x l IH]; [done|]. cbn [map]. rewrite filter_cons. case_decide as E; [|by destruct E]. cbn [map fst]. by rewrite IH. }
  split; [|split].
  - apply WireProps.C39_whole; try done; eapply Forall_impl; try exact Hvf; cbn; tauto.
  - intros i. by rewrite -was_sent_sends Hws Hids.
  - intros i evs Hin. rewrite -sent_sends.
    assert (exists o, In o outs /\ records (i, evs) o) as (o & Ho & Hr).
    { clear -Hrec Hin. induction Hrec as [|s o ss os H _ IH]; [done|]. destruct Hin as [->|Hin]; [exists o; split; [by left|done]|].
      destruct (IH Hin) as (o' & ? & ?). exists o'. split; [by right|done]. }
    destruct (records_out _ _ Hr) as [E R]. destruct o as [i' a]. cbn [fst snd] in *. subst i'. by rewrite (Hsent _ _ Ho).
Qed.

(** ** Interleaving *)
Lemma only_cons s c cs : only s (c :: cs) = (if decide (fst c = s) then snd c else []) ++ only s cs.
Proof. rewrite /only filter_cons. by case_decide. Qed.
Lemma only_absent s cs : ~ In s (map fst cs) -> only s cs = [].
Proof.
  induction cs as [|c cs IH]=> H; [done|]. rewrite only_cons. cbn [map] in H. rewrite decide_False; [intros E; apply H; by left|].
  apply IH. intros E. apply H. by right.
Qed.
Lemma interleaved_in {A} (x : A) ls l : interleaved ls l -> In x l <-> exists k, In k ls /\ In x k.
Proof.
  induction 1 as [ls H|ls1 y l ls2 r _ IH].
  - split; [done|]. intros (k & Hk & Hx). rewrite List.Forall_forall in H. by rewrite -(H _ Hk) in Hx.
  - cbn [In]. rewrite IH. clear IH. split.
    + intros [->|(k & Hk & Hx)].
      * exists (x :: l). split; [apply in_or_app; right; by left|by left].
      * apply in_app_or in Hk as [Hk|[<-|Hk]].
        -- exists k. split; [apply in_or_app; by left|done].
        -- exists (y :: l). split; [apply in_or_app; right; by left|by right].
        -- exists k. split; [apply in_or_app; right; by right|done].
    + intros (k & Hk & Hx). apply in_app_or in Hk as [Hk|[<-|Hk]].
      * right. exists k. split; [apply in_or_app; by left|done].
      * destruct Hx as [->|Hx]; [by left|]. right. exists l. split; [apply in_or_app; right; by left|done].
      * right. exists k. split; [apply in_or_app; right; by right|done].
Qed.
(** What concerns a span that only one of the lists mentions. *)
Lemma interleaved_only s ls l : interleaved ls l -> forall ls1 k ls2, ls = ls1 ++ k :: ls2 ->
  (forall k', In k' (ls1 ++ ls2) -> ~ In s (map fst k')) -> only s l = only s k.
Proof.
  induction 1 as [ls H|la y l lb r _ IH]=> ls1 k ls2 E Hn.
  - subst ls. rewrite List.Forall_forall in H. rewrite -(H k); [|done]. apply in_or_app; right; by left.
  - rewrite only_cons. assert (la ++ (y :: l) :: lb = ls1 ++ k :: ls2) as E' by exact E.
    apply app_eq_app in E' as [m [[-> Hm]|[-> Hm]]].
    + (* la = ls1 ++ m *)
      destruct m as [|m0 m]; cbn [app] in Hm.
      * injection Hm as -> ->. rewrite app_nil_r in IH. rewrite only_cons. f_equal. by apply (IH ls1 l lb).
      * injection Hm as <- ->. rewrite decide_False.
        { intros Hs. apply (Hn (y :: l)); [|cbn; by left]. apply in_or_app; right. apply in_or_app; right. by left. }
        apply (IH ls1 k (m ++ l :: lb)); [by rewrite -app_assoc|]. intros k' Hk Hs.
        apply in_app_or in Hk as [Hk|Hk]; [apply (Hn k'); [apply in_or_app; by left|done]|].
        apply in_app_or in Hk as [Hk|[<-|Hk]].
        -- apply (Hn k'); [|done]. apply in_or_app; right. apply in_or_app; by left.
        -- apply (Hn (y :: l)); [|cbn; by right]. apply in_or_app; right. apply in_or_app; right. by left.
        -- apply (Hn k'); [|done]. apply in_or_app; right. apply in_or_app; right. by right.
    + destruct m as [|m0 m]; cbn [app] in Hm.
      * injection Hm as <- <-. rewrite app_nil_r in Hn. rewrite only_cons. f_equal. by apply (IH la l lb).
      * injection Hm as <- ->. rewrite decide_False.
        { intros Hs. apply (Hn (y :: l)); [|cbn; by left]. apply in_or_app; left. apply in_or_app; right. by left. }
        apply (IH (la ++ l :: m) k ls2); [by rewrite -app_assoc|]. intros k' Hk Hs. rewrite -app_assoc in Hk.
        apply in_app_or in Hk as [Hk|Hk]; [apply (Hn k'); [rewrite -app_assoc; apply in_or_app; by left|done]|].
        cbn [app] in Hk. destruct Hk as [<-|Hk].
        -- apply (Hn (y :: l)); [|cbn; by right]. apply in_or_app; left. apply in_or_app; right. by left.
        -- apply (Hn k'); [|done]. rewrite -app_assoc. apply in_or_app; right. by right.
Qed.

(** ** The store *)
Notation collect_all cs := (map (fun c : wcall => CCollect (fst c) (snd c)) cs).
Lemma live_collects t cs acc : live t (collect_all cs) acc = acc ++ filter (fun c => sp_trace (fst c) = t) cs.
Proof.
  revert acc. induction cs as [|c cs IH]=> acc; cbn [map live]; [by rewrite app_nil_r|]. rewrite IH filter_cons.
  case_decide as H; [rewrite H N.eqb_refl -app_assoc; by destruct c|]. by apply N.eqb_neq in H as ->.
Qed.
Lemma first_ids_elem seen l i : In i (first_ids seen l) -> In i (map fst l) /\ sp_span i ∉ seen.
Proof.
  revert seen. induction l as [|[j a] l IH]=> seen; [done|]. cbn [first_ids map fst]. case_bool_decide as H.
  - intros [H1 H2]%IH. split; [by right|done].
  - intros [->|[H1 H2]%IH]; [split; [by left|done]|]. split; [by right|]. set_solver.
Qed.
Lemma first_ids_all seen l i : In i (map fst l) -> sp_span i ∉ seen ->
  (forall j, In j (map fst l) -> sp_span j = sp_span i -> j = i) -> In i (first_ids seen l).
Proof.
  revert seen. induction l as [|[j a] l IH]=> seen; [done|]. cbn [first_ids map fst]. intros Hin Hs Hu. case_bool_decide as H.
  - destruct Hin as [->|Hin]; [done|]. apply IH; [done|done|]. intros k Hk. apply Hu. by right.
  - destruct Hin as [->|Hin]; [by left|]. destruct (decide (sp_span i = sp_span j)) as [E|E].
    + left. apply Hu; [by left|done].
    + right. apply IH; [done|set_solver|]. intros k Hk. apply Hu. by right.
Qed.
Lemma first_ids_nodup seen l : NoDup (first_ids seen l).
Proof.
  revert seen. induction l as [|[j a] l IH]=> seen; [constructor|]. cbn [first_ids]. case_bool_decide as H; [done|].
  constructor; [|done]. intros Hj%elem_of_list_In. apply first_ids_elem in Hj as [_ Hj]. set_solver.
Qed.
Lemma anns_only t i cs : sp_trace i = t ->
  (forall j, In j (map fst cs) -> sp_trace j = t -> sp_span j = sp_span i -> j = i) ->
  anns_of (sp_span i) (filter (fun c => sp_trace (fst c) = t) cs) = only i cs.
Proof.
  intros Ht. induction cs as [|c cs IH]=> Hu; [done|]. rewrite only_cons -IH; [intros j Hj; apply Hu; by right|].
  rewrite filter_cons. destruct (decide (fst c = i)) as [E|E].
  - rewrite decide_True; [by rewrite E|]. rewrite /anns_of filter_cons decide_True; [by rewrite E|]. done.
  - cbn [app]. case_decide as Hc; [|done]. rewrite /anns_of filter_cons decide_False; [|done].
    intros Hs. apply E, Hu; [by left|done|done].
Qed.

(** ** Everything *)
Lemma acyclic_perm l k : Permutation l k -> acyclic l -> acyclic k.
Proof.
  intros HP [rank H]. exists rank. intros c p Hc Hp. apply H; by eapply Permutation_in; [symmetry; exact HP|].
Qed.
Section whole.
Context (L : lib) (apps : list (list aspan)) (outs : list (list wcall)) (bss : list (list Ascii.ascii)) (calls : list wcall).
Notation span_list := (concat apps).
Context (Hnd : NoDup (map (fun s : aspan => (sp_trace (fst s), sp_span (fst s))) span_list)).
Context (Hv : forall os o, In os outs -> In o os -> valid_call o /\ fits o).
Context (Happs : Forall3 app_sends apps outs bss).
Context (Hil : interleaved (map (fun bs => fst (handle_conn L (fun _ _ => true) bs)) bss) calls).

Lemma ids_unique i j : In i (map fst span_list) -> In j (map fst span_list) ->
  sp_trace i = sp_trace j -> sp_span i = sp_span j -> i = j.
Proof.
  clear -Hnd. intros (s1 & <- & H1)%in_map_iff (s2 & <- & H2)%in_map_iff Ht Hs. f_equal.
  induction span_list as [|s l IH]; [done|]. cbn [map] in Hnd. apply NoDup_cons in Hnd as [Hn Hnd'].
  assert (forall s', In s' l -> sp_trace s'.1 = sp_trace s.1 -> sp_span s'.1 = sp_span s.1 -> False) as Hx.
  { intros s' Hi E1 E2. apply Hn, elem_of_list_In, in_map_iff. exists s'. by rewrite E1 E2. }
  destruct H1 as [->|H1], H2 as [->|H2]; [done| | |by apply IH]; exfalso; [exact (Hx s2 H2 (eq_sym Ht) (eq_sym Hs))|exact (Hx s1 H1 Ht Hs)].
Qed.
Lemma ids_nodup : NoDup (map fst span_list).
Proof. clear -Hnd. apply (NoDup_fmap_1 (fun i => (sp_trace i, sp_span i))). change (NoDup (map (fun i => (sp_trace i, sp_span i)) (map fst span_list))). by rewrite map_map. Qed.
Lemma app_ids_nodup ss : In ss apps -> NoDup (map fst ss).
Proof.
  intros H. pose proof ids_nodup as Hn. apply in_split in H as (l1 & l2 & ->). rewrite concat_app map_app in Hn.
  apply NoDup_app in Hn as (_ & _ & Hn). cbn [concat] in Hn. rewrite map_app in Hn. by apply NoDup_app in Hn as (Hn & _ & _).
Qed.
Definition got_ok (ss : list aspan) (got : list wcall) : Prop :=
  (forall i, In i (map fst got) <-> In i (map fst ss)) /\ (forall i evs, In (i, evs) ss -> recorded evs (only i got)).
Lemma apps_got : Forall2 got_ok apps (map (fun bs => fst (handle_conn L (fun _ _ => true) bs)) bss).
Proof.
  assert (forall ss, In ss apps -> NoDup (map fst ss)) as Hn by exact app_ids_nodup. clear Hnd Hil.
  revert Hv Hn. induction Happs as [|ss os bs apps' outs' bss' H HF IH]; intros Hv Hn; [constructor|]. cbn [map]. constructor.
  - destruct (app_received L ss os bs H) as (got & -> & H1 & H2); [apply Hn; by left| |done].
    intros o Ho. apply (Hv os); [by left|done].
  - apply (IH HF).
    + intros os' o H1. apply Hv. by right.
    + intros ss' Hs. apply Hn. by right.
Qed.
Lemma calls_ids i : In i (map fst calls) <-> In i (map fst span_list).
Proof.
  pose proof apps_got as HF. split.
  - intros (c & <- & Hc)%in_map_iff. apply (interleaved_in c _ _ Hil) in Hc as (k & Hk & Hc).
    apply elem_of_list_In, elem_of_list_lookup in Hk as [n Hk]. destruct (Forall2_lookup_r _ _ _ _ _ HF Hk) as (ss & Hss & [Hok _]).
    assert (In (fst c) (map fst k)) as Hi by (apply in_map_iff; by exists c). apply Hok in Hi. apply in_map_iff in Hi as (s & Es & Hs).
    apply in_map_iff. exists s. split; [done|]. apply in_concat. exists ss. split; [|done]. apply elem_of_list_In. exact (elem_of_list_lookup_2 _ _ _ Hss).
  - intros (s & <- & Hs)%in_map_iff. apply in_concat in Hs as (ss & Hss & Hs).
    apply elem_of_list_In, elem_of_list_lookup in Hss as [n Hss]. destruct (Forall2_lookup_l _ _ _ _ _ HF Hss) as (k & Hk & [Hok _]).
    assert (In (fst s) (map fst ss)) as Hi by (apply in_map_iff; by exists s). apply Hok in Hi. apply in_map_iff in Hi as (c & Ec & Hc).
    apply in_map_iff. exists c. split; [done|]. apply (interleaved_in c _ _ Hil). exists k. split; [|done]. apply elem_of_list_In. exact (elem_of_list_lookup_2 _ _ _ Hk).
Qed.
Lemma calls_recorded i evs : In (i, evs) span_list -> recorded evs (only i calls).
Proof.
  intros (ss & Hss & Hi)%in_concat. apply in_split in Hss as (A1 & A2 & Ea). pose proof apps_got as HF. pose proof ids_nodup as Hn.
  rewrite Ea in HF, Hn. apply Forall2_app_inv_l in HF as (G1 & G2' & HF1 & HF2 & Eg). apply Forall2_cons_inv_l in HF2 as (g & G2 & [Hg1 Hg2] & HF2 & ->).
  rewrite (interleaved_only i _ _ Hil G1 g G2 Eg); [|by apply Hg2].
  assert (In i (map fst ss)) as Hi' by (apply in_map_iff; by exists (i, evs)).
  rewrite concat_app map_app in Hn. cbn [concat] in Hn. rewrite map_app in Hn.
  apply NoDup_app in Hn as (_ & Hn1 & Hn2). apply NoDup_app in Hn2 as (_ & Hn2 & _).
  intros k [Hk|Hk]%in_app_or Hik; apply elem_of_list_In, elem_of_list_lookup in Hk as [n Hk].
  - destruct (Forall2_lookup_r _ _ _ _ _ HF1 Hk) as (ss' & Hss' & [Hok _]). apply Hok in Hik. apply in_map_iff in Hik as (s & <- & Hs).
    apply (Hn1 (fst s)).
    + apply elem_of_list_In, in_map_iff. exists s. split; [done|]. apply in_concat. exists ss'. split; [|done]. apply elem_of_list_In. exact (elem_of_list_lookup_2 _ _ _ Hss').
    + apply elem_of_app. left. by apply elem_of_list_In.
  - destruct (Forall2_lookup_r _ _ _ _ _ HF2 Hk) as (ss' & Hss' & [Hok _]). apply Hok in Hik. apply in_map_iff in Hik as (s & <- & Hs).
    apply (Hn2 (fst s)); [by apply elem_of_list_In|].
    apply elem_of_list_In, in_map_iff. exists s. split; [done|]. apply in_concat. exists ss'. split; [|done]. apply elem_of_list_In. exact (elem_of_list_lookup_2 _ _ _ Hss').
Qed.

Lemma whole_way st t : ms_run (collect_all calls) ms_init = Some st ->
  let ids := filter (fun i => sp_trace i = t) (map fst span_list) in
  ids <> [] -> acyclic ids ->
  exists tr, shows st t tr /\ Permutation (map tr_id (nodes tr)) ids /\
    (forall p c, edge tr p c -> sp_parent (tr_id c) = sp_span (tr_id p) \/
       (p = tr /\ ~ exists q, In q ids /\ sp_span q = sp_parent (tr_id c))) /\
    forall n evs, In n (nodes tr) -> In (tr_id n, evs) span_list -> recorded evs (tr_anns n).
Proof.
  intros Hrun ids Hne Hac.
  assert (spans_of (live t (collect_all calls) []) ≡ₚ ids) as HP.
  { rewrite live_collects. cbn [app]. rewrite /spans_of. apply NoDup_Permutation.
    - apply first_ids_nodup.
    - apply NoDup_filter, ids_nodup.
    - intros i. rewrite elem_of_list_filter. rewrite !elem_of_list_In -calls_ids.
      assert (In i (map fst (filter (fun c : wcall => sp_trace c.1 = t) calls)) <-> sp_trace i = t /\ In i (map fst calls)) as Hf.
      { rewrite !in_map_iff. split.
        - intros (c & <- & Hc). apply elem_of_list_In, elem_of_list_filter in Hc as [H1 H2%elem_of_list_In]. split; [done|]. by exists c.
        - intros (H & c & <- & Hc). exists c. split; [done|]. apply elem_of_list_In, elem_of_list_filter. split; [done|]. by apply elem_of_list_In. }
      rewrite -Hf. split.
      + intros H. by apply first_ids_elem in H as [H _].
      + intros H. apply first_ids_all; [done|set_solver|]. intros j Hj Hs. apply Hf in H as [H1 H2].
        apply in_map_iff in Hj as (c & <- & Hc). apply elem_of_list_In, elem_of_list_filter in Hc as [Hc1 Hc2%elem_of_list_In].
        apply ids_unique; [|by apply calls_ids|by rewrite H1|done]. apply calls_ids, in_map_iff. by exists c. }
  assert (live t (collect_all calls) [] <> []) as Hlive.
  { intros E. rewrite E in HP. cbn in HP. apply Permutation_nil in HP. by apply Hne. }
  destruct (trace_displayed (collect_all calls) st t Hrun Hlive) as (tr & Hs & Hd & _ & Hp).
  specialize (Hp (acyclic_perm _ _ (symmetry HP) Hac)). exists tr. split; [done|]. split; [by rewrite Hp|]. destruct Hd as [D1 D2 D3 D4 D5]. split.
  - intros p c He. destruct (D5 p c He) as [H|[-> H]]; [by left|]. right. split; [done|]. intros (q & Hq & Eq). apply H. exists q. split; [|done].
    eapply Permutation_in; [symmetry; exact HP|done].
  - intros n evs Hn Hin. rewrite (D4 n Hn). specialize (D3 n Hn). eapply Permutation_in in D3; [|exact HP].
    apply elem_of_list_In, elem_of_list_filter in D3 as [Ht _]. rewrite live_collects. cbn [app]. rewrite (anns_only t (tr_id n)); [done| |].
    + intros j Hj H1 H2. apply ids_unique; [by apply calls_ids| |by rewrite Ht|done]. apply in_map_iff. by exists (tr_id n, evs).
    + by apply calls_recorded.
Qed.
End whole.
