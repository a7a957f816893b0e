(** C114: the clients of a collector server do not disturb each other. *)
From Verif Require Import Base WireModel WireSpec WireProofs ListenModel ListenSpec ListenProofs WireProps.
From Coq Require Import ZifyBool ZifyNat ZifyN.

(** What is collected for a connection is decided by its own bytes alone: not by how they were split,
    nor by any other connection.  At any time it is the beginning of what a server with this one client
    would collect; once there is nothing left to do for it, all of that. *)
Theorem C114_own_bytes_partial : forall L coll tr s c, sv_run L coll tr sv_init = Some s ->
  (forall more, (closed c tr -> more = []) -> exists later, fst (handle_conn L coll (received c tr ++ more)) = calls_of c s ++ later) /\
  (sv_crashed s = false -> idle L coll c s -> calls_of c s = fst (handle_conn L coll (received c tr))).
Proof.
  intros L coll tr s c Hr. destruct (inv_run _ _ _ _ Hr) as [Hc _]. specialize (Hc c). unfold idle, sv_step.
  destruct (sv_conns s !! c) as [k|].
  - destruct Hc as [Hk Hcl]. split.
    + intros more Hm. specialize (Hk more). rewrite Hcl in Hm. specialize (Hk Hm). destruct (lc_end k).
      * rewrite Hk. exists []. by rewrite app_nil_r.
      * destruct Hk as (f & _ & ->). apply handle_extends.
    + intros -> Hi. specialize (Hk []). rewrite app_nil_r in Hk. specialize (Hk (fun _ => eq_refl)). destruct (lc_end k); [by rewrite Hk|].
      rewrite app_nil_r in Hk. destruct Hk as (f & Hf & ->). destruct f as [|f]; [lia|]. cbn [handle].
      destruct (lc_eof k); [done|]. destruct (read_now L (lc_buf k) false) eqn:E; [done|]. pose proof (blocked_nothing _ _ E) as Hb.
      destruct (read_msg L (lc_buf k)) as [p rest| |]; [by destruct (Hb p rest)|done|done].
  - destruct Hc as (-> & -> & _). split; [|done]. intros more _. by eexists.
Qed.
Print Assumptions C114_own_bytes_partial.

(** Every client writes calls of the API, and the network delivers the beginning of what each wrote in
    any pieces, in any order between clients: the server survives, and for every client exactly the
    calls that arrived completely are collected, in order. *)
Theorem C114_clients_partial : forall L coll tr s (wrote : nat -> list wcall), (forall h c, coll h c = true) ->
  (forall c, Forall valid_call (wrote c) /\ Forall fits (wrote c) /\ exists n, received c tr = take n (stream (wrote c))) ->
  sv_run L coll tr sv_init = Some s ->
  sv_crashed s = false /\
  forall c, (exists unread, wrote c = calls_of c s ++ unread) /\
    (idle L coll c s -> exists unread, wrote c = calls_of c s ++ unread /\
      forall d rest, unread = d :: rest -> (length (received c tr) < length (stream (calls_of c s ++ [d])))%nat).
Proof.
  intros L coll tr s wrote Hok Hw Hr. assert (sv_crashed s = false) as Hns.
  { destruct (sv_crashed s) eqn:Es; [|done]. destruct (inv_run _ _ _ _ Hr) as [Hc Hcr]. destruct (proj1 Hcr Es) as (c & k & Hk & He).
    specialize (Hc c). rewrite Hk in Hc. destruct Hc as [Hc _]. specialize (Hc []). rewrite He, app_nil_r in Hc. specialize (Hc (fun _ => eq_refl)).
    destruct (Hw c) as (Hv & Hf & n & Hn). rewrite Hn in Hc. destruct (conn_stream L coll (wrote c) n Hv Hf) as (_ & G & _). rewrite Hc in G. done. }
  split; [done|]. intros c. destruct (C114_own_bytes_partial L coll tr s c Hr) as [H1 H2]. destruct (Hw c) as (Hv & Hf & n & Hn).
  destruct (C39_exactly_complete L coll (wrote c) n Hv Hf Hok) as (cs1 & cs2 & E & Hh & Hl & Hu). rewrite <- Hn in Hh. split.
  - destruct (H1 [] (fun _ => eq_refl)) as [later Hla]. rewrite app_nil_r, Hh in Hla. exists (later ++ cs2). by rewrite app_assoc, <- Hla.
  - intros Hi. rewrite (H2 Hns Hi), Hh. exists cs2. split; [done|]. intros d rest Hd. specialize (Hu d rest Hd). rewrite Hn, take_length. lia.
Qed.
Print Assumptions C114_clients_partial.

(** No client keeps the handler of another from finishing: from any state its own steps are enough. *)
Theorem C114_progress_partial : forall L coll s c, exists n s', sv_run L coll (repeat (LHandle c) n) s = Some s' /\ idle L coll c s' /\
  forall d, d <> c -> calls_of d s' = calls_of d s.
Proof.
  intros L coll. assert (forall m s c, (forall k, sv_conns s !! c = Some k -> (length (lc_buf k) + (if lc_end k then 0 else 1) <= m)%nat) ->
    exists n s', sv_run L coll (repeat (LHandle c) n) s = Some s' /\ idle L coll c s' /\ forall d, d <> c -> calls_of d s' = calls_of d s) as H.
  2: { intros s c. apply (H (match sv_conns s !! c with Some k => S (length (lc_buf k)) | None => 0%nat end) s c). intros k ->. destruct (lc_end k); lia. }
  assert (forall s c, sv_step L coll (LHandle c) s = None -> exists n s', sv_run L coll (repeat (LHandle c) n) s = Some s' /\ idle L coll c s' /\
    forall d, d <> c -> calls_of d s' = calls_of d s) as Hstop. { intros s c E. exists O, s. cbn. by split_and!. }
  induction m as [|m IH]; intros s c Hm; (destruct (sv_step L coll (LHandle c) s) as [s1|] eqn:E; [|by apply Hstop]).
  - unfold sv_step in E. destruct (sv_crashed s); [done|]. destruct (sv_conns s !! c) as [k|]; [|done]. specialize (Hm k eq_refl).
    destruct (lc_end k); [done|lia].
  - destruct (IH s1 c) as (n & s' & Hr & Hi & Hd).
    + unfold sv_step in E. destruct (sv_crashed s); [done|]. destruct (sv_conns s !! c) as [k|]; [|done]. specialize (Hm k eq_refl).
      destruct (lc_end k); [done|]. destruct (read_now L (lc_buf k) (lc_eof k)) as [r|] eqn:Er; [|done]. injection E as <-.
      pose proof (read_now_sound L _ _ _ [] Er (fun _ => eq_refl)) as Hs. rewrite app_nil_r in Hs.
      intros k' Hk'. destruct r as [p rest| |]; cbn [handle_round read_more] in *.
      * rewrite app_nil_r in Hs. apply read_shorter in Hs. destruct (span_from_wire _) as [id|]; [destruct (anns_from_wire _) as [anns|]|];
          cbn [sv_conns] in Hk'; rewrite lookup_insert in Hk'; injection Hk' as <-; cbn; try lia. destruct (coll _ _); lia.
      * cbn [sv_conns set_conn] in Hk'. rewrite lookup_insert in Hk'. injection Hk' as <-. cbn. lia.
      * cbn [sv_conns set_conn] in Hk'. rewrite lookup_insert in Hk'. injection Hk' as <-. cbn. lia.
    + exists (S n), s'. cbn [repeat sv_run]. rewrite E. split_and!; [done..|]. intros d Hne. rewrite (Hd d Hne).
      unfold sv_step in E. destruct (sv_crashed s); [done|]. destruct (sv_conns s !! c) as [k|]; [|done]. destruct (lc_end k); [done|].
      destruct (read_now L (lc_buf k) (lc_eof k)) as [r|]; [|done]. injection E as <-. destruct r as [p rest| |]; try done. cbn [handle_round].
      destruct (span_from_wire _) as [id|]; [destruct (anns_from_wire _) as [anns|]|]; try done.
      rewrite calls_of_snoc. destruct (c =? d)%nat eqn:Ecd; [lia|]. by rewrite app_nil_r.
Qed.
Print Assumptions C114_progress_partial.

(** The process only dies of bytes that a single client can be blamed for. *)
Theorem C114_crash_partial : forall L coll tr s, sv_run L coll tr sv_init = Some s -> sv_crashed s = true ->
  exists c pre bad p rest, received c tr = pre ++ bad /\ read_msg L bad = RMsg p rest /\ incomplete p.
Proof.
  intros L coll tr s Hr Hs. destruct (inv_run _ _ _ _ Hr) as [Hc Hcr]. destruct (proj1 Hcr Hs) as (c & k & Hk & He). exists c.
  specialize (Hc c). rewrite Hk in Hc. destruct Hc as [Hc _]. specialize (Hc []). rewrite He, app_nil_r in Hc. specialize (Hc (fun _ => eq_refl)).
  destruct (handle_panic L coll (S (length (received c tr))) [] (received c tr)) as (pre & bs' & p & rest & H); [by unfold handle_conn in Hc; rewrite Hc|].
  by exists pre, bs', p, rest.
Qed.
Print Assumptions C114_crash_partial.

(** The claim without its condition is false: client 2's one packet without a parent ends the process,
    and the complete packet that client 1 had sent before is never collected, whatever happens next. *)
Theorem C114_refuted : exists tr, forall L coll, exists s,
  received 1 tr = stream [call1] /\ sv_run L coll tr sv_init = Some s /\ calls_of 1 s = [] /\
  forall tr' s', sv_run L coll (tr ++ tr') sv_init = Some s' -> calls_of 1 s' = [].
Proof.
  exists [LAccept 1; LAccept 2; LData 1 (stream [call1]); LData 2 (frame (WPacket (Some (WSpan (Some 1) (Some 2) None)) [])); LHandle 2].
  intros L coll. set (tr := [_; _; _; _; _]).
  assert (match sv_run L coll tr sv_init with Some s => calls_of 1 s = [] /\ sv_crashed s = true | None => False end) as H
    by (destruct L as [[] []]; vm_compute; split; reflexivity).
  destruct (sv_run L coll tr sv_init) as [s|] eqn:E; [|destruct H]. destruct H as [H1 H2]. exists s.
  split; [vm_compute; reflexivity|]. split; [reflexivity|]. split; [exact H1|]. intros tr' s' Hr.
  assert (forall tr1 tr2 s0, sv_run L coll (tr1 ++ tr2) s0 = match sv_run L coll tr1 s0 with Some s => sv_run L coll tr2 s | None => None end) as Happ.
  { clear. induction tr1 as [|l tr1 IH]; intros tr2 s0; cbn [sv_run app]; [reflexivity|]. destruct (sv_step L coll l s0); [apply IH|reflexivity]. }
  rewrite Happ, E in Hr. destruct tr' as [|l tr']; cbn [sv_run] in Hr.
  - injection Hr as <-. exact H1.
  - unfold sv_step in Hr. rewrite H2 in Hr. discriminate Hr.
Qed.
Print Assumptions C114_refuted.

(** Two clients whose packets arrive in pieces, interleaved; client 1's second packet is cut. *)
Definition two_clients : list slabel :=
  [LAccept 1; LAcceptError; LData 1 (take 3 (stream [call1; call2])); LAccept 2; LData 2 (stream [call2]); LHandle 2;
   LData 1 (take 60 (drop 3 (stream [call1; call2]))); LHandle 1; LClose 2; LHandle 2].
Example C114_nonvacuous : forall L, match sv_run L always two_clients sv_init with
  | Some s => sv_crashed s = false /\ sv_calls s = [(2%nat, call2); (1%nat, call1)] /\ idle L always 1 s /\ idle L always 2 s
  | None => False end.
Proof. intros [[] []]; vm_compute; split_and!; reflexivity. Qed.
Example C114_wrote_nonvacuous : forall c, exists n, received c two_clients = take n (stream (match c with 1%nat => [call1; call2] | 2%nat => [call2] | _ => [] end)).
Proof.
  intros [|[|[|c]]]; [by exists O|exists 63%nat|exists 100%nat|by exists O]; vm_compute; reflexivity.
Qed.
