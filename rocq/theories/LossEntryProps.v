(** C163: a chain of requests that meets its hypotheses. *)
From Verif Require Import Base ChunkModel WireModel WireSpec MemModel TimeModel ReflModel EventModel RecorderModel HttpModel HttpProps TransportModel TransportProps ChainModel ChainSpec ChainProps FailSpec RemoteModel LossSpec LossTreeProps.
Local Open Scope general_if_scope.
Local Open Scope N_scope.
Definition valid_callb (c : wcall) : bool :=
  (sp_trace (fst c) <? two64) && (sp_span (fst c) <? two64) && (sp_parent (fst c) <? two64) &&
  forallb (fun a => (N.of_nat (String.length (ann_key a)) <? two64) && (N.of_nat (String.length (val_bytes (ann_val a))) <? two64)) (snd c).
Lemma valid_callb_spec c : valid_callb c = true -> valid_call c.
Proof.
  unfold valid_callb. intros (((H1 & H2)%andb_prop & H3)%andb_prop & H4)%andb_prop. apply N.ltb_lt in H1, H2, H3. split_and!; [done..|].
  rewrite forallb_forall in H4. intros a Ha. specialize (H4 a Ha). apply andb_prop in H4 as [H5 H6]. apply N.ltb_lt in H5, H6. done.
Qed.
(** A request that is served, whose handler makes a request that is refused. *)
Definition from_outside : request := MkRequest "GET" "/x" "HTTP/1.1" ∅ ∅ "h" "1.2.3.4:5" 0 "" "/x".
Lemma an_entry : exists cs, enters 7 8 [Req 9 10 None] cs /\ forallb valid_callb cs = true /\ forallb (fun c => N.of_nat (length (call_body c)) <=? 1048576) cs = true.
Proof.
  eexists. split.
  - eapply (enters_intro [] (MkConfig None None None) (fun r _ => ([HWrite "hello"%string], r, false)) 7 8 (fun _ => []) from_outside a_writer); [vm_compute; reflexivity|vm_compute; reflexivity| | | |].
    + eapply (serve_done [] (MkConfig None None None) (fun r _ => ([HWrite "hello"%string], r, false)) 7 8 None (fun _ => []) from_outside a_writer _ _ _ _ _ _ _ _ time_zero time_zero);
        [vm_compute; reflexivity|reflexivity|reflexivity|reflexivity|reflexivity| |reflexivity|reflexivity| |vm_compute; reflexivity| |].
      * constructor. eapply (redact_headers_intro [] _ _ []); [reflexivity|reflexivity|vm_compute; reflexivity].
      * constructor. eapply (redact_headers_intro []); [reflexivity|reflexivity|reflexivity].
      * eapply marshal_plain; [reflexivity|vm_compute; reflexivity|reflexivity].
      * eapply marshal_plain; [reflexivity|vm_compute; reflexivity|reflexivity].
    + reflexivity.
    + left. eexists. reflexivity.
    + eapply (makes_unserved _ [] false (fun _ => TError "refused") 9 10 (fun _ => []) {[7 := ∅]} (MkHrequest a_get 7)); [by eexists| | |constructor].
      * eapply (round_trip_returns [] _ false (fun _ => TError "refused") 9 10 None (fun _ => []) {[7 := ∅]} (MkHrequest a_get 7) _ _ 0 _ _ _ _ _ time_zero time_zero);
         [vm_compute; reflexivity|reflexivity|reflexivity|reflexivity|reflexivity| |reflexivity|done|constructor|].
        -- constructor. eapply redact_headers_intro; [reflexivity|reflexivity|reflexivity].
        -- eapply marshal_plain; [reflexivity|vm_compute; reflexivity|reflexivity].
      * done.
  - split; vm_compute; reflexivity.
Qed.
Example C163_nonvacuous : exists cs c1 c2 st, cs = [c1; c2] /\ enters 7 8 [Req 9 10 None] cs /\ Forall is_id (7 :: 8 :: flat_map req_ids [Req 9 10 None]) /\
  NoDup (8 :: flat_map req_ids [Req 9 10 None]) /\ ~ In 0 (8 :: flat_map req_ids [Req 9 10 None]) /\
  let ss := map service [[c2]; [c1]] in
  Permutation (recorded_in ss 7) cs /\ Forall executes ss /\ serves (MkLib true true) ss [c2; c1] /\
  ms_run (map (fun c => CCollect (fst c) (snd c)) [c2; c1]) ms_init = Some st /\ all_done ss.
Proof.
  destruct an_entry as (cs & He & Hv & Hf).
  assert (Forall is_id (7 :: 8 :: flat_map req_ids [Req 9 10 None])) as HI by (by repeat constructor).
  pose proof (f_equal (@length _) (enters_ids _ _ _ _ He HI)) as Hl. rewrite map_length in Hl. destruct cs as [|c1 [|c2 [|]]]; [done|done| |done].
  rewrite forallb_forall in Hv, Hf.
  destruct (C163_possible (MkLib true true) 7 8 [Req 9 10 None] [c1; c2] [[c2]; [c1]] He) as (st & H1 & H2 & H3 & H4 & H5 & _).
  { constructor. }
  { done. }
  { apply List.Forall_forall. intros c Hc. by apply valid_callb_spec, Hv. }
  { apply List.Forall_forall. intros c Hc. by apply N.leb_le, Hf. }
  exists [c1; c2], c1, c2, st. split; [done|]. split; [done|]. split; [done|]. split; [|split].
  - apply (bool_decide_unpack _). by vm_compute.
  - cbn. intuition done.
  - split_and!; done.
Qed.
(** C162_tree: two processes; the child of one is the parent of the other's span, which arrives first. *)
Definition tree_calls : list (list wcall) :=
  [[(MkSpanID 1 4 3, [Ann "Msg" (Some "x")])]; [(MkSpanID 1 2 0, [Ann "Name" (Some "a")]); (MkSpanID 1 3 2, []); (MkSpanID 1 2 0, [Ann "Msg" None])]]%string.
Example C162_tree_nonvacuous : let ss := map service tree_calls in
  Forall executes ss /\ serves (MkLib true true) ss (concat tree_calls) /\ all_done ss /\
  recorded_spans ss 1 = [MkSpanID 1 4 3; MkSpanID 1 2 0; MkSpanID 1 3 2; MkSpanID 1 2 0] /\
  MemSpec.complete (recorded_spans ss 1) (MkSpanID 1 2 0) /\
  (forall i j, In i (recorded_spans ss 1) -> In j (recorded_spans ss 1) -> sp_span i = sp_span j -> i = j).
Proof.
  assert (forall l, In l tree_calls -> Forall valid_call l /\ Forall fits l) as H.
  { intros l Hl. assert (forallb valid_callb l = true /\ forallb (fun c => N.of_nat (length (call_body c)) <=? 1048576) l = true) as [Hv Hf]
      by (destruct Hl as [<-|[<-|[]]]; by vm_compute).
    rewrite forallb_forall in Hv, Hf. rewrite !List.Forall_forall. split; intros c Hc; [by apply valid_callb_spec, Hv|by apply N.leb_le, Hf]. }
  assert (recorded_spans (map service tree_calls) 1 = [MkSpanID 1 4 3; MkSpanID 1 2 0; MkSpanID 1 3 2; MkSpanID 1 2 0]) as E by reflexivity.
  cbn zeta. rewrite E. split; [|split; [by apply services_serve|split; [|split; [done|split]]]].
  - apply List.Forall_forall. intros s (l & <- & Hl)%in_map_iff. destruct (H l Hl). by apply service_executes.
  - intros s (l & <- & Hl)%in_map_iff. destruct (H l Hl). by apply service_done.
  - split.
    + split; [cbn; tauto|done].
    + intros s [<-|[<-|[<-|[<-|[]]]]]; done.
    + intros s [<-|[<-|[<-|[<-|[]]]]]; done.
    + intros s [<-|[<-|[<-|[<-|[]]]]] Hs; [exists (MkSpanID 1 3 2)|done|exists (MkSpanID 1 2 0)|done]; cbn; tauto.
    + exists N.to_nat.
      intros c p [<-|[<-|[<-|[<-|[]]]]] [<-|[<-|[<-|[<-|[]]]]]; cbn; try discriminate; lia.
  - intros i j [<-|[<-|[<-|[<-|[]]]]] [<-|[<-|[<-|[<-|[]]]]]; cbn; try discriminate; done.
Qed.
