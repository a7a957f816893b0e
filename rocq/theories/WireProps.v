(** The wire protocol, the collector server and RemoteCollector: C38-C43, C78. *)
From Verif Require Import Base WireModel WireSpec WireProofs RemoteModel RemoteProofs.
From Coq Require Import ZifyBool ZifyNat ZifyN.

(** A collector that always succeeds; two calls used by the examples. *)
Definition always : list wcall -> wcall -> bool := fun _ _ => true.
Definition call1 : wcall := (MkSpanID 1 2 0, [Ann "k" (Some "v"%string); Ann "nil" None; Ann "" (Some ""%string)]).
Definition call2 : wcall := (MkSpanID 1 3 2, []).
Lemma calls_valid : Forall valid_call [call1; call2].
Proof.
  repeat constructor; try done; cbn in *; repeat (destruct H as [<-|H]); try done.
Qed.
Lemma calls_fit : Forall fits [call1; call2].
Proof. repeat constructor; unfold fits; by vm_compute. Qed.

(** C38: a packet decodes to the span ID and the annotations it was made from. *)
Theorem C38_round_trip : forall L id anns, valid_call (id, anns) ->
  exists p, unmarshal L (enc_packet (new_packet id anns)) = Some p /\
    span_from_wire (wp_span p) = Some id /\ anns_from_wire (wp_anns p) = Some anns.
Proof. intros L id anns H. eexists. split; [exact (unmarshal_enc L (id, anns) H)|exact (from_wire_new id anns)]. Qed.
Print Assumptions C38_round_trip.
Example C38_round_trip_nonvacuous : valid_call call1.
Proof. pose proof calls_valid as H. by inversion H. Qed.

(** C39: whatever the cut, exactly the completely received packets are collected. *)
Theorem C39_exactly_complete : forall L coll cs n, Forall valid_call cs -> Forall fits cs -> (forall h c, coll h c = true) ->
  exists cs1 cs2, cs = cs1 ++ cs2 /\ fst (handle_conn L coll (take n (stream cs))) = cs1 /\
    (length (stream cs1) <= n)%nat /\ (forall c cs3, cs2 = c :: cs3 -> (n < length (stream (cs1 ++ [c])))%nat).
Proof.
  intros L coll cs n Hv Hf Hc. destruct (complete_split n cs) as (cs2 & H1 & H2 & H3). exists (complete n cs), cs2. split; [done|]. split; [|done].
  destruct (conn_stream L coll cs n Hv Hf) as [-> _]. by apply until_fail_ok.
Qed.
Print Assumptions C39_exactly_complete.
(** The whole stream: everything is collected and the connection ends without an error. *)
Theorem C39_whole : forall L coll cs, Forall valid_call cs -> Forall fits cs -> (forall h c, coll h c = true) ->
  handle_conn L coll (stream cs) = (cs, HClosed).
Proof.
  intros L coll cs Hv Hf Hc. destruct (conn_stream L coll cs (length (stream cs)) Hv Hf) as (H1 & _ & _ & H4).
  rewrite firstn_all, until_fail_ok, complete_all in * by done.
  assert (some_fail coll [] cs = false) as Hs. { clear -Hc. generalize (@nil wcall). induction cs as [|c cs IH]; intros b; [done|]. cbn. by rewrite Hc. }
  specialize (H4 Hs eq_refl). destruct (handle_conn L coll (stream cs)). cbn in *. congruence.
Qed.
Print Assumptions C39_whole.
Example C39_nonvacuous : handle_conn (MkLib true false) always (stream [call1; call2]) = ([call1; call2], HClosed).
Proof. exact (C39_whole _ _ _ calls_valid calls_fit (fun _ _ => eq_refl)). Qed.

(** C40: a packet that the collector refuses is the last one collected from that connection. *)
Theorem C40_stops : forall L coll cs1 c cs2 n, Forall valid_call (cs1 ++ c :: cs2) -> Forall fits (cs1 ++ c :: cs2) ->
  some_fail coll [] cs1 = false -> coll cs1 c = false -> (length (stream (cs1 ++ [c])) <= n)%nat ->
  handle_conn L coll (take n (stream (cs1 ++ c :: cs2))) = (cs1 ++ [c], HError).
Proof.
  intros L coll cs1 c cs2 n Hv Hf H1 H2 H3. destruct (conn_stream L coll (cs1 ++ c :: cs2) n Hv Hf) as (G1 & _ & G3 & _).
  destruct (complete_prefix n (cs1 ++ [c]) cs2 H3) as [cs3 E]. rewrite <- !app_assoc in E. cbn [app] in E. rewrite E in *.
  destruct (until_fail_stop coll c cs3 cs1 [] H1 H2) as [Ha Hb]. rewrite Ha in G1. rewrite Hb in G3.
  destruct (handle_conn _ _ _). cbn in *. rewrite G1, G3; auto.
Qed.
Print Assumptions C40_stops.
Example C40_stops_nonvacuous :
  handle_conn (MkLib true false) (fun h _ => match h with [] => true | _ => false end) (stream [call1; call2; call1]) = ([call1; call2], HError).
Proof.
  rewrite <- (firstn_all (stream [call1; call2; call1])). pose proof calls_valid as Hv. pose proof calls_fit as Hf.
  apply (C40_stops _ _ [call1] call2 [call1]); [| |done|done|].
  - apply (Forall_app valid_call [call1; call2] [call1]). split; [done|]. constructor; [by eapply Forall_inv|constructor].
  - apply (Forall_app fits [call1; call2] [call1]). split; [done|]. constructor; [by eapply Forall_inv|constructor].
  - unfold stream. cbn [app flat_map]. rewrite !app_length. cbn [length]. lia.
Qed.

(** C41: a call that returned nil, with all bytes delivered, reaches the server's collector if it
    is within the limit ... *)
Theorem C41_delivered_partial : forall L coll ops r log c, (forall h c, coll h c = true) -> rc_run ops rc_init = (r, log) ->
  (forall c ok, In (c, ok) log -> valid_call c /\ fits c) ->
  In (c, true) log -> exists cn, In cn (rc_conns r) /\ In c (fst (handle_conn L coll (cn_out cn))).
Proof.
  intros L coll ops r log c Hcoll Hr Hv Hin. destruct (remote_received L coll ops r log Hcoll Hr) as (css & Hc & H).
  { intros d ((d' & ok) & <- & Hd)%in_map_iff. by eapply Hv. }
  assert (In c (concat css)) as Hcc.
  { rewrite Hc. unfold acked. apply in_map_iff. exists (c, true). split; [done|]. by apply elem_of_list_In, elem_of_list_filter, conj, elem_of_list_In. }
  clear Hc Hr. induction H as [|cn cs cns css Hcn H IH]; [done|]. cbn [concat] in Hcc. apply in_app_or in Hcc as [Hcc|Hcc].
  - exists cn. split; [by left|]. destruct Hcn as [->|(d & _ & ->)]; [done|]. apply in_or_app. by left.
  - destruct (IH Hcc) as (cn' & ? & ?). exists cn'. split; [by right|done].
Qed.
Print Assumptions C41_delivered_partial.
Lemma one_collect c : rc_run [RCollect c (MkOut (WOk, WOk) true (WOk, WOk))] rc_init = (MkRC (Some (MkConn (call_frame c) false)) [], [(c, true)]).
Proof. reflexivity. Qed.
Lemma oversized_lost c : valid_call c -> max_message < N.of_nat (length (call_body c)) -> N.of_nat (length (call_body c)) < two64 ->
  exists o r, valid_call c /\ rc_run [RCollect c o] rc_init = (r, [(c, true)]) /\
  (exists cn, rc_conns r = [cn] /\ cn_dead cn = false /\ cn_out cn = call_frame c /\ forall L coll, fst (handle_conn L coll (cn_out cn)) = []).
Proof.
  intros Hv H1 H2. exists (MkOut (WOk, WOk) true (WOk, WOk)), (MkRC (Some (MkConn (call_frame c) false)) []).
  split; [exact Hv|]. split; [exact (one_collect c)|]. exists (MkConn (call_frame c) false). repeat (split; [exact eq_refl|]).
  intros L coll. cbn [cn_out]. pose proof (handle_oversized L coll c [] H1 H2) as H. rewrite app_nil_r in H. by rewrite H.
Qed.
(** ... but one that is larger is lost, although Collect returned nil and every byte was delivered. *)
Theorem C41_refuted : exists c o r, valid_call c /\ rc_run [RCollect c o] rc_init = (r, [(c, true)]) /\
  (exists cn, rc_conns r = [cn] /\ cn_dead cn = false /\ cn_out cn = call_frame c /\ forall L coll, fst (handle_conn L coll (cn_out cn)) = []).
Proof.
  exists big_call. exact (oversized_lost big_call big_valid (proj1 big_call_len) (proj2 big_call_len)).
Qed.
Print Assumptions C41_refuted.
(** This is so for every call of more than 1 MB. *)
Theorem C41_larger_refuted : forall c, valid_call c -> 1048576 < N.of_nat (length (call_body c)) < 2 ^ 64 -> exists o r, rc_run [RCollect c o] rc_init = (r, [(c, true)]) /\
  (exists cn, rc_conns r = [cn] /\ cn_dead cn = false /\ cn_out cn = call_frame c /\ forall L coll, fst (handle_conn L coll (cn_out cn)) = []).
Proof. intros c Hv [H1 H2]. destruct (oversized_lost c Hv H1 H2) as (o & r & _ & H). by exists o, r. Qed.
Print Assumptions C41_larger_refuted.

(** C42: the server can be made to panic by a packet without the optional parent ... *)
Theorem C42_refuted : exists bs, forall L coll, snd (handle_conn L coll bs) = HPanic.
Proof. exists (frame (WPacket (Some (WSpan (Some 1) (Some 2) None)) [])). intros [[] []] coll; reflexivity. Qed.
Print Assumptions C42_refuted.
(** ... and only by a message that lacks something: by one without parent, if the protocol buffer
    library checks the required fields of groups. *)
Theorem C42_panics_partial : forall L coll bs, snd (handle_conn L coll bs) = HPanic ->
  exists pre bs' p rest, bs = pre ++ bs' /\ read_msg L bs' = RMsg p rest /\ incomplete p /\ (lib_strict L = true -> no_parent p).
Proof.
  intros L coll bs H. destruct (handle_panic _ _ _ _ _ H) as (pre & bs' & p & rest & ? & ? & ?).
  exists pre, bs', p, rest. split_and!; try done. intros HL. by eapply strict_incomplete.
Qed.
Print Assumptions C42_panics_partial.
(** So no client that uses this package makes it panic, however its connection is cut. *)
Theorem C42_clients_partial : forall L coll cs n, Forall valid_call cs -> Forall fits cs ->
  snd (handle_conn L coll (take n (stream cs))) <> HPanic.
Proof. intros L coll cs n Hv Hf. exact (proj1 (proj2 (conn_stream L coll cs n Hv Hf))). Qed.
Print Assumptions C42_clients_partial.

(** C43: what RemoteCollector writes.  Every connection carries, in order, the complete frames of
    calls that returned nil, then part (perhaps all) of the frame of one call that failed on it;
    over all connections each call that returned nil is there exactly once, in order. *)
Theorem C43_streams : forall ops r log, rc_run ops rc_init = (r, log) ->
  exists css : list (list wcall),
    concat css = map fst (filter (fun x => snd x = true) log) /\
    Forall2 (fun cn cs => exists k c, (c ∈ map fst log \/ k = 0%nat) /\
      cn_out cn = stream cs ++ take k (call_frame c) /\ (cn_dead cn = false -> k = 0%nat)) (rc_conns r) css.
Proof. intros ops r log H. destruct (remote_streams _ _ _ H) as (css & H1 & H2). exists css. split; [exact H2|exact H1]. Qed.
Print Assumptions C43_streams.
(** With a server that gets those bytes: it collects the calls that returned nil, in order, and at most
    one more per connection. *)
Theorem C43_received : forall L coll ops r log, (forall h c, coll h c = true) -> rc_run ops rc_init = (r, log) ->
  (forall c, In c (map fst log) -> valid_call c /\ fits c) ->
  exists css, concat css = map fst (filter (fun x => snd x = true) log) /\
    Forall2 (fun cn cs => let got := fst (handle_conn L coll (cn_out cn)) in
      got = cs \/ exists c, In c (map fst log) /\ got = cs ++ [c]) (rc_conns r) css.
Proof. exact remote_received. Qed.
Print Assumptions C43_received.
(** One call makes at most one new connection, and leaves the bytes of the others as they were. *)
Theorem C43_attempts : forall r p o r' ok, rc_collect r p o = (r', ok) ->
  (rc_conns r' = rc_conns r) \/
  (exists cn cn', rc_conn r = Some cn /\ rc_conns r = rc_old r ++ [cn] /\ rc_conns r' = rc_old r ++ [cn'] /\
     cn_out cn `prefix_of` cn_out cn' /\ (length (cn_out cn') <= length (cn_out cn) + length (frame p))%nat) \/
  (exists before cn2, rc_conns r' = before ++ [cn2] /\ (length (cn_out cn2) <= length (frame p))%nat /\
     (before = rc_conns r \/
      exists cn cn', rc_conn r = Some cn /\ before = rc_old r ++ [cn'] /\ cn_out cn `prefix_of` cn_out cn' /\
        (length (cn_out cn') <= length (cn_out cn) + length (frame p))%nat)).
Proof. exact collect_attempts. Qed.
Print Assumptions C43_attempts.
(** The first connection breaks in the middle of a packet; the call is repeated on the second. *)
Definition broken_run : list rop :=
  [RCollect call1 (MkOut (WOk, WOk) true (WOk, WOk)); RCollect call2 (MkOut (WOk, WFail 3) true (WOk, WOk));
   RCollect call1 (MkOut (WFail 0, WOk) false (WOk, WOk)); RClose].
Example C43_nonvacuous : map snd (snd (rc_run broken_run rc_init)) = [true; true; false] /\ length (rc_conns (fst (rc_run broken_run rc_init))) = 2%nat.
Proof. split; reflexivity. Qed.

(** C78: the server reports a connection that ends inside a packet.  Not when it ends just after the
    packet's length ... *)
Theorem C78_refuted : exists c n, valid_call c /\ fits c /\ (0 < n < length (call_frame c))%nat /\
  forall L coll, handle_conn L coll (take n (call_frame c)) = ([], HClosed).
Proof.
  exists call2, 1%nat. pose proof calls_valid as Hv. pose proof calls_fit as Hf.
  inversion Hv as [|? ? ? Hv2]; inversion Hf as [|? ? ? Hf2]; subst. inversion Hv2; inversion Hf2; subst.
  split; [done|]. split; [done|]. split; [vm_compute; lia|]. intros L coll. reflexivity.
Qed.
Print Assumptions C78_refuted.
(** ... but always when at least one byte after the length was received. *)
Theorem C78_reported_partial : forall L coll cs n, Forall valid_call cs -> Forall fits cs -> (forall h c, coll h c = true) ->
  snd (handle_conn L coll (take n (stream cs))) = HClosed ->
  exists cs1 cs2, cs = cs1 ++ cs2 /\ fst (handle_conn L coll (take n (stream cs))) = cs1 /\
    (cs2 = [] \/ exists c cs3, cs2 = c :: cs3 /\
      (n <= length (stream cs1) + length (varint (N.of_nat (length (call_body c)))))%nat).
Proof.
  intros L coll cs n Hv Hf Hc Hcl. destruct (conn_stream L coll cs n Hv Hf) as [E _]. rewrite until_fail_ok in E by done.
  destruct (handle_closed L coll cs Hv Hf Hc _ _ _ ltac:(apply complete_fuel) Hcl) as [H|(c & cs' & H1 & H2)].
  - exists cs, []. rewrite app_nil_r, E. split_and!; auto.
  - exists (complete n cs), (c :: cs'). rewrite E. split_and!; try done. right. exists c, cs'. done.
Qed.
Print Assumptions C78_reported_partial.
