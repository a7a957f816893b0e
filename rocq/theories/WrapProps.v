(** Property C156: what a handler does reaches the client through the middleware. *)
From Verif Require Import Base IdModel HttpModel WrapModel.
From Coq Require Import ssreflect.
Local Open Scope general_if_scope.
Local Open Scope Z_scope.

(** Every question of the handler is about Flusher, if the server's writer implements it, or about something that it does
    not implement. *)
Definition common_ifaces {S} (u : rw S) (l : list deed) : Prop := forall i ok, In (DAsk i ok) l -> (i = Flusher <-> rw_has u i = true).
Definition uses_flusher (l : list deed) : Prop := forall i arg r, In (DUse i arg r) l -> i = Flusher.
(** Bytes that were passed to Write, and bytes that it accepted. *)
Definition passed (l : list deed) : Z := foldr (fun d n => match d with DWrite b _ => Z.of_nat (String.length b) + n | _ => n end) 0 l.
Definition accepted (l : list deed) : Z := foldr (fun d n => match d with DWrite _ (k, _) => k + n | _ => n end) 0 l.
(** The last code passed to WriteHeader; 200 if there is none. *)
Definition last_code (l : list deed) : Z := foldr (fun d n => match d with DWriteHeader c => c | _ => n end) 200 (rev l).

Definition status_after (st : Z) (l : list deed) : Z :=
  fold_left (fun st d => match d with DWriteHeader c => c | DWrite _ _ => if st =? 0 then 200 else st | _ => st end) l st.
Lemma wrap_run {S} (u : rw S) p : forall i s l b s', run u p s = (l, b, s') -> common_ifaces u l -> uses_flusher l ->
  exists i', run (wrap u) p (i, s) = (l, b, (i', s')) /\ in_length i' = in_length i + passed l /\ in_status i' = status_after (in_status i) l.
Proof.
  induction p as [pb|k IH|h k IH|c k IH|x k IH|f k IH|f arg k IH]=> i s l b s'; cbn [run].
  - intros [= <- <- <-] _ _. exists i. split; [done|]. cbn. split; [lia|done].
  - intros H Hc Hu. exact (IH _ i s l b s' H Hc Hu).
  - destruct (run u k (rw_set u s h)) as [[l0 b0] s0] eqn:E. intros [= <- <- <-] Hc Hu.
    destruct (IH i _ _ _ _ E) as (i' & H1 & H2 & H3); [intros f ok Hin; apply (Hc f ok); by right|intros f a r Hin; apply (Hu f a r); by right|].
    exists i'. cbn [wrap rw_set fst snd]. by rewrite H1.
  - destruct (run u k (rw_write_header u s c)) as [[l0 b0] s0] eqn:E. intros [= <- <- <-] Hc Hu.
    destruct (IH (MkInfo c (in_length i)) _ _ _ _ E) as (i' & H1 & H2 & H3); [intros f ok Hin; apply (Hc f ok); by right|intros f a r Hin; apply (Hu f a r); by right|].
    exists i'. cbn [wrap rw_write_header fst snd]. by rewrite H1.
  - destruct (rw_write u s x) as [s1 r] eqn:Ew. destruct (run u (k r) s1) as [[l0 b0] s0] eqn:E. intros [= <- <- <-] Hc Hu.
    destruct (IH r (MkInfo (if in_status i =? 0 then 200 else in_status i) (in_length i + Z.of_nat (String.length x))) _ _ _ _ E) as (i' & H1 & H2 & H3);
      [intros f ok Hin; apply (Hc f ok); by right|intros f a r' Hin; apply (Hu f a r'); by right|].
    exists i'. cbn [wrap rw_write fst snd]. rewrite Ew H1. split; [done|]. split; [rewrite H2; cbn [in_length passed foldr]; rewrite -/(passed l0); lia|done].
  - destruct (run u (k (rw_has u f)) s) as [[l0 b0] s0] eqn:E. intros [= <- <- <-] Hc Hu.
    assert (rw_has (wrap u) f = rw_has u f) as Ef.
    { cbn [wrap rw_has]. pose proof (Hc f _ (or_introl eq_refl)) as [G1 G2]. destruct f; try (symmetry; by apply G1); destruct (rw_has u _); try done; by specialize (G2 eq_refl). }
    destruct (IH (rw_has u f) i _ _ _ _ E) as (i' & H1 & H2 & H3); [intros f' ok Hin; apply (Hc f' ok); by right|intros f' a r' Hin; apply (Hu f' a r'); by right|].
    exists i'. rewrite Ef H1. done.
  - destruct (rw_has u f) eqn:Ef.
    + destruct (rw_use u s f arg) as [s1 r] eqn:Ew. destruct (run u (k r) s1) as [[l0 b0] s0] eqn:E. intros [= <- <- <-] Hc Hu.
      assert (f = Flusher) as -> by (apply (Hu f arg r); by left).
      destruct (IH r i _ _ _ _ E) as (i' & H1 & H2 & H3); [intros f' ok Hin; apply (Hc f' ok); by right|intros f' a r' Hin; apply (Hu f' a r'); by right|].
      exists i'. cbn [wrap rw_has rw_use fst snd]. rewrite Ef Ew H1. done.
    + intros [= <- <- <-] Hc Hu. pose proof (Hc f _ (or_introl eq_refl)) as [G1 G2]. exists i.
      assert (rw_has (wrap u) f = false) as ->; [destruct f; try done; cbn; specialize (G1 eq_refl); congruence|].
      split; [done|]. cbn. split; [lia|done].
Qed.
Lemma status_last l : in_code (MkInfo (status_after 0 l) 0) = last_code l \/ exists c, In (DWriteHeader c) l /\ ~ (100 <= c <= 999).
Proof.
  unfold in_code, last_code. cbn [in_status]. induction l as [|d l IH] using rev_ind; [by left|].
  rewrite /status_after fold_left_app rev_app_distr. cbn [fold_left rev app foldr]. rewrite -/(status_after 0 l).
  destruct d as [h|c|b r|i ok|i a r]; try (destruct IH as [IH|(c' & Hc & Hb)]; [by left|right; exists c'; split; [apply in_or_app; by left|done]]).
  - destruct (decide (100 <= c <= 999)) as [H|H]; [left|right; exists c; split; [apply in_or_app; right; by left|done]].
    destruct (Z.eqb_spec c 0); [lia|done].
  - destruct IH as [IH|(c' & Hc & Hb)]; [left|right; exists c'; split; [apply in_or_app; by left|done]].
    rewrite -IH. destruct (Z.eqb_spec (status_after 0 l) 0) as [H|H]; [done|]. by destruct (Z.eqb_spec (status_after 0 l) 0).
Qed.

(** C156: for every server's writer and every handler that asks for no optional interface but Flusher (or for such as the
    writer does not implement either): the middleware passes on every call, with the same results, in the same order,
    and leaves the writer in the same state, but for the span ID in the header of handlers that return.  The recorded
    length is that of the bytes passed to Write, the recorded status the last one set. *)
Theorem C156_passes_partial : forall S (u : rw S) p span s l b s',
  run u p s = (l, b, s') -> common_ifaces u l -> uses_flusher l ->
  (forall c, In (DWriteHeader c) l -> 100 <= c <= 999) ->
  with_middleware u p span s =
    ((l, b, last_code l, passed l), if b then s' else rw_set u s' (header_set (rw_header u s') "Span-ID" (spanid_string span))).
Proof.
  intros S u p span s l b s' H Hc Hu Hcode. destruct (wrap_run u p (MkInfo 0 0) s l b s' H Hc Hu) as (i' & H1 & H2 & H3).
  assert (in_code i' = last_code l) as E.
  { destruct (status_last l) as [E|(c & Hin & Hb)]; [|by destruct (Hb (Hcode c Hin))]. rewrite -E /in_code /= H3 //. }
  rewrite /with_middleware H1. destruct b; cbn [wrap rw_set rw_header fst snd]; rewrite E H2 //.
Qed.
Print Assumptions C156_passes_partial.
(** Hence the recorded length is that of the body if every Write accepts all its bytes. *)
Theorem C156_length_partial : forall S (u : rw S) p span s l b s', run u p s = (l, b, s') -> common_ifaces u l -> uses_flusher l ->
  (forall x r, In (DWrite x r) l -> fst r = Z.of_nat (String.length x)) ->
  exists code s2, with_middleware u p span s = ((l, b, code, accepted l), s2).
Proof.
  intros S u p span s l b s' H Hc Hu Hw. destruct (wrap_run u p (MkInfo 0 0) s l b s' H Hc Hu) as (i' & H1 & H2 & H3).
  assert (passed l = accepted l) as E.
  { clear -Hw. induction l as [|d l IH]; [done|]. cbn [passed accepted foldr]. rewrite -/(passed l) -/(accepted l) IH; [intros x r Hx; apply (Hw x r); by right|].
    destruct d as [| |x [n ok]| |]; try done. specialize (Hw x (n, ok) (or_introl eq_refl)). cbn in Hw. by rewrite Hw. }
  rewrite /with_middleware H1. destruct b; cbn [wrap rw_set rw_header fst snd]; rewrite H2 E; by eexists _, _.
Qed.
Print Assumptions C156_length_partial.

(** net/http's writer (as in HttpModel), for a client that goes away after [room] bytes; Hijack gives a connection on which
    the handler writes [arg] itself. *)
Record conn_state := MkCS { cs_writer : writer; cs_room : nat; cs_raw : string }.
Definition server_writer : rw conn_state := {|
  rw_header s := w_header (cs_writer s);
  rw_set s h := let w := cs_writer s in MkCS (MkWriter h (w_sent w) (w_body w)) (cs_room s) (cs_raw s);
  rw_write_header s c := MkCS (w_write_header (cs_writer s) c) (cs_room s) (cs_raw s);
  rw_write s b :=
    let n := min (String.length b) (cs_room s) in
    (MkCS (w_write (cs_writer s) (substring 0 n b)) (cs_room s - n) (cs_raw s), (Z.of_nat n, (n =? String.length b)%nat));
  rw_has i := match i with Flusher | Hijacker => true | _ => false end;
  rw_use s i arg :=
    match i with
    | Flusher => (MkCS (w_write_header (cs_writer s) 200) (cs_room s) (cs_raw s), ""%string)
    | _ => (MkCS (cs_writer s) (cs_room s) (cs_raw s +:+ arg), ""%string)
    end;
|}.
Definition fresh_conn (room : nat) : conn_state := MkCS (MkWriter ∅ None "") room "".
(** A handler that streams: it writes, flushes, and stops when a Write fails. *)
Fixpoint streams (l : list string) : prog :=
  match l with
  | [] => Done false
  | x :: l => Write x (fun r => if snd r then Uses Flusher "" (fun _ => streams l) else Done false)
  end.
Definition streaming : prog := Asks Flusher (fun ok => if ok then streams ["one"; "two"; "three"]%string else WriteHeader 500 (Done false)).
Example C156_nonvacuous : exists l s', run server_writer streaming (fresh_conn 100) = (l, false, s') /\
  common_ifaces server_writer l /\ uses_flusher l /\ (forall c, In (DWriteHeader c) l -> 100 <= c <= 999) /\
  length l = 7%nat /\ w_body (cs_writer s') = "onetwothree"%string /\ accepted l = 11.
Proof.
  do 2 eexists. split; [reflexivity|]. split_and!; try done.
  - intros i ok Hin. cbn in Hin. repeat (destruct Hin as [Hin|Hin]; [try discriminate Hin; injection Hin as <- <-; done|]). done.
  - intros i arg r Hin. cbn in Hin. repeat (destruct Hin as [Hin|Hin]; [try discriminate Hin; injection Hin as <- <- <-; done|]). done.
  - intros c Hin. cbn in Hin. repeat (destruct Hin as [Hin|Hin]; [discriminate Hin|]). done.
Qed.

(** Not for every handler: one that takes over its connection, as WebSocket servers do, cannot when it is behind the middleware. *)
Definition websocket : prog :=
  Asks Hijacker (fun ok => if ok then Uses Hijacker "101 Switching Protocols" (fun _ => Done false) else WriteHeader 500 (Done false)).
Theorem C156_hijack_refuted : exists s s2 span,
  run server_writer websocket (fresh_conn 100) = ([DAsk Hijacker true; DUse Hijacker "101 Switching Protocols" ""], false, s) /\
  cs_raw s = "101 Switching Protocols"%string /\
  with_middleware server_writer websocket span (fresh_conn 100) = (([DAsk Hijacker false; DWriteHeader 500], false, 500, 0), s2) /\
  cs_raw s2 = ""%string.
Proof. eexists _, _, (MkSpanID 1 2 0). split; [reflexivity|]. split; [reflexivity|]. split; reflexivity. Qed.
Print Assumptions C156_hijack_refuted.
(** And the recorded length is not that of the response when the client goes away. *)
Theorem C156_length_refuted : exists l b s s2 span code n,
  run server_writer streaming (fresh_conn 5) = (l, b, s) /\ with_middleware server_writer streaming span (fresh_conn 5) = ((l, b, code, n), s2) /\
  accepted l = 5 /\ n = 6.
Proof. do 4 eexists. exists (MkSpanID 1 2 0). do 2 eexists. split; [reflexivity|]. split; [reflexivity|]. done. Qed.
Print Assumptions C156_length_refuted.
