(** C52-C58, C83, C84: headers, redaction and the server middleware of package httptrace. *)
From Verif Require Import Base StrOrder IdModel IdSpec IdProofs TimeModel ReflModel EventModel RecorderModel RecorderSpec RecorderProps
  HttpModel HttpSpec HttpProofs.
From Coq Require Import ssreflect.

(** ** C52 *)
Lemma merged_same names hdr hdr' trailer trailer' k :
  same_but_secrets names hdr hdr' -> same_but_secrets names trailer trailer' ->
  merged names hdr trailer k = merged names hdr' trailer' k.
Proof.
  intros [H1 H2] [H3 H4]. rewrite /merged. destruct (is_redacted names k) eqn:Hr.
  - specialize (H1 k). specialize (H3 k).
    destruct (hdr !! k), (hdr' !! k), (trailer !! k), (trailer' !! k); try done; exfalso;
      repeat match goal with H : is_Some _ <-> is_Some _ |- _ => first [apply (is_Some_None (A:=list string)), H; eauto; fail | clear H] end.
  - assert (~ secret names k) as Hs by (intros H%is_redacted_spec; congruence). by rewrite (H2 k Hs) (H4 k Hs).
Qed.
Lemma same_but_sym names h h' : same_but_secrets names h h' -> same_but_secrets names h' h.
Proof. intros [H1 H2]. split; [by intros k; rewrite H1|]. intros k Hk. by rewrite H2. Qed.
Lemma redact_transfer names hdr hdr' trailer trailer' m :
  same_but_secrets names hdr hdr' -> same_but_secrets names trailer trailer' ->
  redact_headers names hdr trailer m -> redact_headers names hdr' trailer' m.
Proof.
  intros H1 H2 [o1 o2 o3 Hp1 Hp2 Hp3]. apply (redact_headers_intro _ _ _ (map_to_list hdr') (map_to_list trailer')); [done|done|].
  rewrite Hp3.
  assert (fold_left (redact_trailer names) o2 (fold_left (redact_header names) o1 ∅) =
    fold_left (redact_trailer names) (map_to_list trailer') (fold_left (redact_header names) (map_to_list hdr') ∅)) as ->; last done.
  apply (map_eq (M:=gmap string)). intros k. rewrite (loops_merged names hdr trailer o1 o2 k Hp1 Hp2).
  rewrite (loops_merged names hdr' trailer' (map_to_list hdr') (map_to_list trailer')); [done|done|by apply merged_same].
Qed.

(** C52: what is recorded does not depend on the values of redacted headers and trailers. *)
Theorem C52_no_leak names hdr hdr' trailer trailer' m :
  same_but_secrets names hdr hdr' -> same_but_secrets names trailer trailer' ->
  redact_headers names hdr trailer m <-> redact_headers names hdr' trailer' m.
Proof. intros H1 H2. split; apply redact_transfer; try done; by apply same_but_sym. Qed.
Print Assumptions C52_no_leak.

(** C52: redacted headers and trailers are recorded as REDACTED. *)
Theorem C52_redacted names hdr trailer m k :
  redact_headers names hdr trailer m -> is_Some (hdr !! k) \/ is_Some (trailer !! k) -> secret names k ->
  m !! canonical_key k = Some "REDACTED"%string.
Proof.
  intros Hm Hk Hs. apply redact_spec in Hm as [E1 E2].
  assert (exists v, merged names hdr trailer k = Some v) as [v Hv].
  { rewrite /merged. destruct Hk as [[x ->]|[x ->]]; [eauto|]. destruct (hdr !! k); eauto. }
  destruct (E2 k v Hv) as [x Hx]. rewrite Hx. destruct (E1 _ _ Hx) as (k' & v' & Hk' & Hc & ->).
  assert (secret names k') as Hs'.
  { apply (secret_same names (canonical_key k')); first apply canonical_same. rewrite Hc.
    apply (secret_same names k); last done. apply same_name_sym, canonical_same. }
  apply is_redacted_spec in Hs'. rewrite /merged Hs' in Hk'.
  destruct (hdr !! k'), (trailer !! k'); simplify_eq; done.
Qed.
Print Assumptions C52_redacted.

(** C52: the other ones are recorded with all their values, if their names have the canonical form, in
    which net/http stores them; nothing else is recorded. *)
Theorem C52_recorded names hdr trailer m :
  redact_headers names hdr trailer m ->
  (forall k, is_Some (hdr !! k) \/ is_Some (trailer !! k) -> canonical_key k = k) ->
  forall k, ~ secret names k ->
  m !! k = match hdr !! k, trailer !! k with
           | None, None => None
           | a, b => Some (join "," (default [] a ++ default [] b))
           end.
Proof.
  intros Hm Hcan k Hs. apply redact_spec in Hm as [E1 E2].
  assert (is_redacted names k = false) as Hr by (destruct (is_redacted names k) eqn:E; [by apply is_redacted_spec in E|done]).
  assert (forall k' v, merged names hdr trailer k' = Some v -> canonical_key k' = k') as Hcan'.
  { intros k' v Hv. apply Hcan. rewrite /merged in Hv. destruct (hdr !! k'), (trailer !! k'); eauto. }
  assert (m !! k = join "," <$> merged names hdr trailer k) as ->.
  { destruct (m !! k) as [x|] eqn:Hx.
    - destruct (E1 _ _ Hx) as (k' & v & Hv & Hc & ->). rewrite (Hcan' _ _ Hv) in Hc. subst k'. by rewrite Hv.
    - destruct (merged names hdr trailer k) as [v|] eqn:Hv; last done. destruct (E2 _ _ Hv) as [x Hx'].
      rewrite (Hcan' _ _ Hv) Hx in Hx'. done. }
  rewrite /merged Hr. by destruct (hdr !! k), (trailer !! k).
Qed.
Print Assumptions C52_recorded.

Example C52_nonvacuous :
  let hdr := {["Authorization" := ["Basic x"]; "Accept" := ["a"; "b"]]} : header in
  let hdr' := {["Authorization" := ["Basic y"; "z"]; "Accept" := ["a"; "b"]]} : header in
  same_but_secrets ["AUTHORIZATION"%string] hdr hdr' /\ hdr <> hdr' /\
  secret ["AUTHORIZATION"%string] "Authorization" /\ ~ secret ["AUTHORIZATION"%string] "Accept" /\
  canonical_key "aUTHORIZATION" = "Authorization"%string /\ canonical_key "accept-LANGUAGE" = "Accept-Language"%string /\
  (exists m, redact_headers ["AUTHORIZATION"%string] hdr ∅ m).
Proof.
  cbn zeta. split; [split|split_and!].
  - intros k. destruct (decide (k = "Authorization"%string)) as [->|H1]; first by (rewrite !lookup_insert; split; eauto).
    rewrite !(lookup_insert_ne _ "Authorization"); first [reflexivity|by intros <-].
  - intros k Hk. destruct (decide (k = "Authorization"%string)) as [->|H1]; first by exfalso; apply Hk; constructor.
    rewrite !(lookup_insert_ne _ "Authorization"); first [reflexivity|by intros <-].
  - intros H. apply (f_equal (fun h : header => h !! "Authorization"%string)) in H. by rewrite !lookup_insert in H.
  - by constructor.
  - by intros [?|?%Exists_nil]%Exists_cons.
  - done.
  - done.
  - apply redact_total.
Qed.

(** ** C53, C54 *)

(** C53: a span ID set in the header is the one read back. *)
Theorem C53_propagation g1 g2 h s : is_id (sp_trace s) -> is_id (sp_span s) -> is_id (sp_parent s) ->
  fst (get_span_id g1 g2 (set_span_id_header h s)) = Some s.
Proof.
  intros H1 H2 H3. rewrite /get_span_id /get_span_id_header header_get_set.
  rewrite (decide_False (P := spanid_string s = ""%string)); [apply spanid_string_nonempty|]. by rewrite parse_spanid_string.
Qed.
Print Assumptions C53_propagation.
Example C53_nonvacuous :
  fst (get_span_id 5 6 (set_span_id_header {["Span-Id" := ["bad"]; "Parent-Span-Id" := ["1/2"]]} (MkSpanID 1 2 3))) = Some (MkSpanID 1 2 3).
Proof. apply C53_propagation; done. Qed.

(** C54: which span a request gets, and which error. *)
Theorem C54_selection g1 g2 h :
  let own := header_get h "Span-ID" in let parent := header_get h "Parent-Span-ID" in
  let chosen := fst (get_span_id g1 g2 h) in
  (forall s, own <> ""%string -> reads_as own s -> chosen = Some s) /\
  (own <> ""%string -> (forall s, ~ reads_as own s) -> chosen = None) /\
  (forall s, own = ""%string -> parent <> ""%string -> reads_as parent s -> chosen = Some (MkSpanID (sp_trace s) g1 (sp_span s))) /\
  (own = ""%string -> parent <> ""%string -> (forall s, ~ reads_as parent s) -> chosen = None) /\
  (own = ""%string -> parent = ""%string -> chosen = Some (MkSpanID g1 g2 0)).
Proof.
  cbn zeta. rewrite /get_span_id /get_span_id_header /header_span_id /header_parent_span_id.
  generalize (header_get h "Span-ID"), (header_get h "Parent-Span-ID"). intros own parent.
  assert (forall s r, reads_as s r <-> parse_spanid s = Some r) as Hp.
  { intros s r. rewrite parse_spanid_spec /reads_as. tauto. }
  split_and!.
  - intros s H1 H2%Hp. rewrite decide_False // H2. done.
  - intros H1 H2. rewrite decide_False //. destruct (parse_spanid own) as [s|] eqn:E; last done. by destruct (H2 s); apply Hp.
  - intros s -> H1 H2%Hp. repeat case_decide; try done. by rewrite H2.
  - intros -> H1 H2. repeat case_decide; try done. destruct (parse_spanid parent) as [s|] eqn:E; last done. by destruct (H2 s); apply Hp.
  - intros -> ->. done.
Qed.
Print Assumptions C54_selection.
Example C54_nonvacuous :
  fst (get_span_id 5 6 {["Parent-Span-Id" := ["1/2"]]}) = Some (MkSpanID 1 5 2) /\
  fst (get_span_id 5 6 {["Span-Id" := ["x"]; "Parent-Span-Id" := ["1/2"]]}) = None /\
  fst (get_span_id 5 6 ∅) = Some (MkSpanID 5 6 0).
Proof. done. Qed.

(** ** C55 *)
Definition malformed (h : header) : Prop :=
  let own := header_get h "Span-ID" in let parent := header_get h "Parent-Span-ID" in
  (own <> ""%string /\ forall s, ~ reads_as own s) \/ (own = ""%string /\ parent <> ""%string /\ forall s, ~ reads_as parent s).

Lemma malformed_none g1 g2 h : malformed h <-> fst (get_span_id g1 g2 h) = None.
Proof.
  destruct (C54_selection g1 g2 h) as (H1 & H2 & H3 & H4 & H5). rewrite /malformed. split.
  - intros [[? ?]|(? & ? & ?)]; auto.
  - intros Hn. destruct (decide (header_get h "Span-ID" = ""%string)) as [Ho|Ho].
    + right. split; first done. destruct (decide (header_get h "Parent-Span-ID" = ""%string)) as [Hp|Hp].
      { rewrite H5 // in Hn. }
      split; first done. intros s Hs. rewrite (H3 s) // in Hn.
    + left. split; first done. intros s Hs. rewrite (H1 s) // in Hn.
Qed.

(** C55 is false: a request with a malformed header is never handled, whatever the configuration and the
    handler: the middleware panics before it calls next. *)
Theorem C55_refuted : (exists r, malformed (rq_header r)) /\
  forall names cf next g1 g2 answer lg r w, malformed (rq_header r) ->
  (exists out, serve names cf next g1 g2 answer lg r w out) /\
  forall out, serve names cf next g1 g2 answer lg r w out -> oc_nexts out = [] /\ oc_panics out = true /\ oc_collects out = [].
Proof.
  split.
  { exists (MkRequest "" "" "" {["Span-Id" := ["x"]]} ∅ "" "" 0 "" ""). apply (malformed_none 0 0). done. }
  intros names cf next g1 g2 answer lg r w Hm. apply (malformed_none g1 g2) in Hm.
  destruct (get_span_id g1 g2 (rq_header r)) as [o from] eqn:Hg. cbn in Hm. subst o. split.
  - eexists. eapply serve_bad_header, Hg.
  - intros out Hs. inversion Hs; subst; [done|congruence|congruence].
Qed.
Print Assumptions C55_refuted.

(** C55, partial: all other requests are handled, once. *)
Theorem C55_handled_partial names cf next g1 g2 answer lg r w out : ~ malformed (rq_header r) ->
  serve names cf next g1 g2 answer lg r w out -> length (oc_nexts out) = 1%nat.
Proof.
  intros Hm Hs. rewrite (malformed_none g1 g2) in Hm. inversion Hs as [from Hg| |]; subst; [|done|done].
  by rewrite Hg in Hm.
Qed.
Print Assumptions C55_handled_partial.
Example C55_nonvacuous : ~ malformed {["Span-Id" := ["1/2"]]}.
Proof. rewrite (malformed_none 0 0). done. Qed.

(** ** C56, C57 *)
Lemma rr_run_spec ops w : fresh w ->
  let r := fold_left rr_step ops (MkRecorder 0 0 w) in
  rr_length r = Z.of_nat (String.length (body_of ops)) /\ w_body (rr_writer r) = body_of ops.
Proof.
  intros [Hs Hb]. cbn zeta.
  assert (forall r, rr_length (fold_left rr_step ops r) = (rr_length r + Z.of_nat (String.length (body_of ops)))%Z /\
    w_body (rr_writer (fold_left rr_step ops r)) = (w_body (rr_writer r) +:+ body_of ops)%string) as H.
  { induction ops as [|o ops IH]=> r /=; first by rewrite str_app_nil_r; split; first lia.
    destruct (IH (rr_step r o)) as [-> ->]. destruct o; cbn.
    - done.
    - rewrite /w_write_header. by destruct (w_sent (rr_writer r)).
    - rewrite str_length_app str_app_assoc /w_write_header. destruct (w_sent (rr_writer r)); cbn; split; try done; lia.
    - rewrite /w_write_header. by destruct (w_sent (rr_writer r)). }
  destruct (H (MkRecorder 0 0 w)) as [-> ->]. rewrite /= Hb. done.
Qed.

(** C56: the recorded length is the number of body bytes passed to the response writer, for every handler. *)
Theorem C56_length ops w : fresh w ->
  let r := fold_left rr_step ops (MkRecorder 0 0 w) in
  rs_length (partial_response r) = Z.of_nat (String.length (body_of ops)) /\ snd (w_response (rr_writer r)) = body_of ops.
Proof.
  intros Hw. destruct (rr_run_spec ops w Hw) as [H1 H2]. cbn zeta. split; first done.
  rewrite /w_response. destruct (w_sent _) as [[??]|]; done.
Qed.
Print Assumptions C56_length.

Definition status_of (r : recorder) : Z := rs_status (partial_response r).
Lemma run_no_codes ops r : codes_of ops = [] ->
  let r' := fold_left rr_step ops r in
  (rr_status r' = rr_status r \/ rr_status r = 0%Z /\ rr_status r' = 200%Z) /\
  match w_sent (rr_writer r) with
  | Some x => w_sent (rr_writer r') = Some x
  | None => match w_sent (rr_writer r') with Some (c, _) => c = 200%Z | None => True end
  end.
Proof.
  revert r. induction ops as [|o ops IH]=> r Hc /=.
  { split; first by left. destruct (w_sent (rr_writer r)) as [[??]|]; done. }
  destruct o as [f|c|b|]; cbn in Hc; try done;
    [destruct (IH (rr_step r (HHeader f)) Hc) as [H1 H2]|destruct (IH (rr_step r (HWrite b)) Hc) as [H1 H2]|destruct (IH (rr_step r HFlush) Hc) as [H1 H2]].
  - split; [exact H1|exact H2].
  - split.
    + generalize dependent (fold_left rr_step ops (rr_step r (HWrite b))). intros r' H1 _. cbn in H1. revert H1. destruct (Z.eqb_spec (rr_status r) 0) as [E|E]; intros H1.
      * right. split; first done. by destruct H1 as [H1|[H1 _]].
      * left. by destruct H1 as [H1|[H1 _]].
    + generalize dependent (fold_left rr_step ops (rr_step r (HWrite b))). intros r' _ H2. cbn in H2.
      rewrite /w_write_header in H2. destruct (w_sent (rr_writer r)) as [[??]|] eqn:E; cbn in H2; rewrite ?E /= in H2; by rewrite H2.
  - split; first exact H1.
    generalize dependent (fold_left rr_step ops (rr_step r HFlush)). intros r' _ H2. cbn in H2.
    rewrite /w_write_header in H2. destruct (w_sent (rr_writer r)) as [[??]|] eqn:E; cbn in H2; rewrite ?E /= in H2; by rewrite H2.
Qed.
Lemma run_headers ops r : Forall is_header_op ops ->
  let r' := fold_left rr_step ops r in rr_status r' = rr_status r /\ w_sent (rr_writer r') = w_sent (rr_writer r).
Proof.
  intros H. revert r. induction H as [|o ops Ho _ IH]=> r; first done. destruct o; try done. cbn. by destruct (IH (rr_step r (HHeader f))).
Qed.

(** C56: if the handler calls WriteHeader at most once and before any Write or Flush, the recorded status is the one sent. *)
Theorem C56_status ops w : fresh w -> proper ops ->
  let r := fold_left rr_step ops (MkRecorder 0 0 w) in
  rs_status (partial_response r) = fst (fst (w_response (rr_writer r))).
Proof.
  intros [Hs Hb] [Hc|(pre & code & post & -> & Hpre & Hpost & Hcode)]; cbn zeta.
  - destruct (run_no_codes ops (MkRecorder 0 0 w) Hc) as [H1 H2]. cbn in H1, H2. rewrite Hs in H2.
    rewrite /w_response /= /rr_code. revert H1 H2. generalize (fold_left rr_step ops (MkRecorder 0 0 w)). intros r H1 H2.
    destruct (w_sent (rr_writer r)) as [[c h]|]; cbn; [subst c|]; by destruct H1 as [->|[_ ->]].
  - rewrite fold_left_app /=. destruct (run_headers pre (MkRecorder 0 0 w) Hpre) as [H1 H2]. cbn in H1, H2.
    remember (fold_left rr_step pre (MkRecorder 0 0 w)) as r.
    destruct (run_no_codes post (rr_step r (HWriteHeader code)) Hpost) as [H3 H4]. cbn in H3, H4.
    rewrite /w_write_header H2 Hs /= in H4. rewrite /w_response /= /w_write_header H2 Hs.
    cbn in *. rewrite /w_write_header H2 Hs in H3. rewrite H4 /rr_code.
    destruct H3 as [->|[? ->]]; last lia. destruct (Z.eqb_spec code 0); [lia|done].
Qed.
Print Assumptions C56_status.

Definition a_writer : writer := MkWriter ∅ None "".
Example C56_nonvacuous :
  let ops := [HHeader (fun h => header_set h "X" "y"); HWriteHeader 404; HWrite "not"; HFlush; HWrite " found"] in
  proper ops /\ fresh a_writer /\ body_of ops = "not found"%string /\ status_of (fold_left rr_step ops (MkRecorder 0 0 a_writer)) = 404%Z.
Proof.
  cbn zeta. split; last done. right. eexists [_], 404%Z, [_; _; _]. split; first done. split; last done. by repeat constructor.
Qed.

(** C57 is false: a handler that calls WriteHeader again changes what is recorded, not what is sent. *)
Theorem C57_refuted : exists ops, (forall c, c ∈ codes_of ops -> (100 <= c <= 999)%Z) /\
  forall w, fresh w -> let r := fold_left rr_step ops (MkRecorder 0 0 w) in
  rs_status (partial_response r) <> fst (fst (w_response (rr_writer r))).
Proof.
  exists [HWrite "ok"; HWriteHeader 500]. split.
  - intros c [= ->]%elem_of_list_singleton. lia.
  - intros w [H1 H2]. cbn. rewrite /w_write /w_write_header /= H1 /=. done.
Qed.
Print Assumptions C57_refuted.

(** C57, partial: what is recorded is the last code passed to WriteHeader, or 200 without one; what is sent is
    the first one, unless a Write or Flush comes before it. *)
Theorem C57_recorded_partial ops w : (forall c, c ∈ codes_of ops -> (100 <= c <= 999)%Z) ->
  rs_status (partial_response (fold_left rr_step ops (MkRecorder 0 0 w))) = default 200%Z (last (codes_of ops)).
Proof.
  intros H. cbn.
  assert (forall l, omap (fun o => match o with HWriteHeader c => Some c | _ => None end) l = codes_of l) as Hom by done.
  destruct (last (codes_of ops)) as [c|] eqn:Hl.
  - assert (exists pre post, ops = pre ++ HWriteHeader c :: post /\ codes_of post = []) as (pre & post & -> & Hpost).
    { clear H. induction ops as [|o ops IH]; first done. cbn in Hl. fold (codes_of ops) in Hl.
      destruct (decide (codes_of ops = [])) as [He|He].
      - destruct o; cbn in Hl; rewrite ?Hom He /= in Hl; try done. injection Hl as ->. exists [], ops. done.
      - assert (last (codes_of ops) = Some c) as Hl'.
        { destruct o; cbn in Hl; rewrite ?Hom in Hl; try done. destruct (codes_of ops); done. }
        destruct (IH Hl') as (pre & post & -> & ?). exists (o :: pre), post. done. }
    rewrite fold_left_app /=. destruct (run_no_codes post (rr_step (fold_left rr_step pre (MkRecorder 0 0 w)) (HWriteHeader c)) Hpost) as [H1 _].
    assert (100 <= c <= 999)%Z as Hc.
    { apply H. rewrite /codes_of omap_app. apply elem_of_app. right. by left. }
    rewrite /rr_code. cbn in H1 |- *. destruct H1 as [->|[? ->]]; last lia. destruct (Z.eqb_spec c 0); [lia|done].
  - assert (codes_of ops = []) as He by by apply last_None.
    destruct (run_no_codes ops (MkRecorder 0 0 w) He) as [H1 _]. rewrite /rr_code. by destruct H1 as [->|[_ ->]].
Qed.
Print Assumptions C57_recorded_partial.

Theorem C57_sent_partial ops w : fresh w ->
  fst (fst (w_response (rr_writer (fold_left rr_step ops (MkRecorder 0 0 w))))) = first_code ops.
Proof.
  intros [Hs _].
  assert (forall r x, w_sent (rr_writer r) = Some x -> w_sent (rr_writer (fold_left rr_step ops r)) = Some x) as Hkeep.
  { clear. induction ops as [|o ops IH]=> r x Hx /=; first done. apply IH. destruct o; cbn; rewrite /w_write_header Hx //. }
  assert (forall r, w_sent (rr_writer r) = None ->
    match w_sent (rr_writer (fold_left rr_step ops r)) with Some (c, _) => c = first_code ops | None => first_code ops = 200%Z end) as H.
  { clear Hs Hkeep w. induction ops as [|o ops IH]=> r Hr /=; first by rewrite Hr.
    assert (forall r x, w_sent (rr_writer r) = Some x -> w_sent (rr_writer (fold_left rr_step ops r)) = Some x) as Hkeep.
    { clear. induction ops as [|o ops IH]=> r x Hx /=; first done. apply IH. destruct o; cbn; rewrite /w_write_header Hx //. }
    destruct o as [f|c|b|].
    - apply IH. done.
    - rewrite (Hkeep _ (c, w_header (rr_writer r))); last done. cbn. by rewrite /w_write_header Hr.
    - rewrite (Hkeep _ (200%Z, w_header (rr_writer r))); last done. cbn. by rewrite /w_write_header Hr.
    - rewrite (Hkeep _ (200%Z, w_header (rr_writer r))); last done. cbn. by rewrite /w_write_header Hr. }
  specialize (H (MkRecorder 0 0 w) Hs). rewrite /w_response. revert H. generalize (fold_left rr_step ops (MkRecorder 0 0 w)). intros r H.
  by destruct (w_sent (rr_writer r)) as [[c h]|].
Qed.
Print Assumptions C57_sent_partial.
Example C57_nonvacuous :
  let ops := [HWriteHeader 200; HWriteHeader 500] in
  last (codes_of ops) = Some 500%Z /\ first_code ops = 200%Z /\ fresh a_writer.
Proof. done. Qed.

(** ** C58 *)
Lemma rr_header ops r : w_header (rr_writer (fold_left rr_step ops r)) = header_after ops (w_header (rr_writer r)).
Proof.
  revert r. induction ops as [|o ops IH]=> r; first done. cbn. rewrite IH. f_equal.
  destruct o; cbn; rewrite /w_write_header; by destruct (w_sent (rr_writer r)).
Qed.

(** C58: a request with well-formed headers whose handler returns: next is called exactly once, with the
    chosen span in its context (or given to SetContextSpan), and then one span is collected, the chosen one, with
    the name and the server event of the request and the response.  The request is described as it was before the
    handler if it brought its own span ID, and as the handler left it otherwise. *)
Theorem C58_one_span names cf next g1 g2 lg r w out span :
  fst (get_span_id g1 g2 (rq_header r)) = Some span ->
  serve names cf next g1 g2 None lg r w out -> oc_panics out = false ->
  exists r1 ctx r2 ops req resp route user name recv snd anns1 anns2,
    oc_nexts out = [(r1, ctx)] /\ next r1 ctx = (ops, r2, false) /\
    (cf_set_context cf = None -> r1 = r /\ ctx = Some span) /\
    (forall f, cf_set_context cf = Some f -> r1 = f r span /\ ctx = None /\ oc_spans_set out = [span]) /\
    oc_collects out = [(span, anns1 ++ anns2)] /\
    marshal name_event (VStruct [("Name", VString name)]) anns1 /\
    marshal server_event (VStruct [("Server.Request", req); ("Server.Response", resp); ("Server.Route", VString route);
      ("Server.User", VString user); ("Server.Recv", VTime recv); ("Server.Send", VTime snd)]) anns2 /\
    (header_get (rq_header r) "Span-ID" <> ""%string -> request_info_of names r1 req) /\
    (header_get (rq_header r) "Span-ID" = ""%string -> request_info_of names r2 req) /\
    (route = match cf_route cf with Some f => f r2 | None => ""%string end) /\
    (user = match cf_user cf with Some f => f r2 | None => ""%string end) /\
    (route <> ""%string -> name = "Serve " +:+ route)%string /\
    (route = ""%string -> name = "Serve " +:+ rq_url_host r2 +:+ rq_url_path r2)%string /\
    ((forall c, c ∈ codes_of ops -> (100 <= c <= 999)%Z) ->
     response_info_of names
      (MkResponse (header_set (header_after ops (w_header w)) "Span-ID" (spanid_string span)) ∅
         (Z.of_nat (String.length (body_of ops))) (default 200%Z (last (codes_of ops)))) resp).
Proof.
  intros Hspan Hs Hp. inversion Hs as [from Hg|sp from r1 r2 ctx ops Hg Hc Hn|sp from r1 r2 ctx ops req resp recv snd anns1 anns2 rr rr' route user name Hg Hc Hn Hrr Hrr' Hreq Hroute Huser Hresp Hname Hm1 Hm2];
    subst out; cbn in Hp; try done.
  rewrite Hg in Hspan. cbn in Hspan. injection Hspan as ->.
  exists r1, ctx, r2, ops, req, resp, route, user, name, recv, snd, anns1, anns2.
  split; first done. split; first done.
  split. { intros Hcf. rewrite Hcf in Hc. by injection Hc as -> ->. }
  split. { intros f Hcf. rewrite Hcf in Hc. injection Hc as -> ->. cbn. by rewrite Hcf. }
  split. { cbn. by rewrite ?app_nil_l. }
  split; first done. split; first done.
  assert (from = header_span_id <-> header_get (rq_header r) "Span-ID" <> ""%string) as Hfrom.
  { revert Hg. rewrite /get_span_id /get_span_id_header. change (header_get (rq_header r) header_span_id) with (header_get (rq_header r) "Span-ID").
    destruct (decide (header_get (rq_header r) "Span-ID" = ""%string)) as [He|He].
    - intros Hg. split; last done. intros ->.
      destruct (decide (header_get (rq_header r) header_parent_span_id = ""%string)); first done.
      by destruct (parse_spanid (header_get (rq_header r) header_parent_span_id)).
    - destruct (parse_spanid (header_get (rq_header r) "Span-ID")); last done. by intros [= _ <-]. }
  split. { intros H%Hfrom. by rewrite decide_True in Hreq. }
  split. { intros H. rewrite decide_False in Hreq; last done. intros H'%Hfrom. done. }
  split; first done. split; first done.
  split. { intros H. by rewrite Hname decide_False. }
  split. { intros H. by rewrite Hname decide_True. }
  intros Hcodes.
  pose proof (C57_recorded_partial ops w Hcodes) as Hst. cbn in Hst.
  assert (rr_length rr' = Z.of_nat (String.length (body_of ops))) as Hlen.
  { subst rr' rr. clear. cbn.
    assert (forall q, rr_length (fold_left rr_step ops q) = (rr_length q + Z.of_nat (String.length (body_of ops)))%Z) as H.
    { induction ops as [|o ops IH]=> q /=; first lia. rewrite IH. destruct o; cbn; try done. rewrite str_length_app. lia. }
    by rewrite H. }
  assert (rr_code rr' = default 200%Z (last (codes_of ops))) as Hcode by by subst rr' rr.
  assert (w_header (rr_writer rr') = header_set (header_after ops (w_header w)) "Span-ID" (spanid_string span)) as Hh.
  { subst rr' rr. cbn. by rewrite rr_header. }
  by rewrite -Hlen -Hcode -Hh.
Qed.
Print Assumptions C58_one_span.

(** The middleware has an outcome for every request, handler and clock. *)
Lemma header_val_flat m p : exists fl, flatten (header_val m) p = Some fl.
Proof.
  rewrite /header_val. cbn. induction (map_to_kvs m) as [|[k v] l [fl IH]]; first by eexists. cbn [map cat_opt fold_right fst snd flatten]. rewrite /cat_opt in IH. rewrite IH. by eexists.
Qed.
Lemma request_info_total names r : exists q, request_info_of names r q /\ forall p, exists fl, flatten q p = Some fl.
Proof.
  destruct (redact_total names (rq_header r) (rq_trailer r)) as [m Hm]. eexists. split; first exact (request_info_intro _ _ _ Hm).
  intros p. cbn [flatten map fst snd cat_opt fold_right]. destruct (header_val_flat m (nest p "Headers")) as [fl ->]. cbn. by eexists.
Qed.
Lemma response_info_total names r : exists q, response_info_of names r q /\ forall p, exists fl, flatten q p = Some fl.
Proof.
  destruct (redact_total names (rs_header r) (rs_trailer r)) as [m Hm]. eexists. split; first exact (response_info_intro _ _ _ Hm).
  intros p. cbn [flatten map fst snd cat_opt fold_right]. destruct (header_val_flat m (nest p "Headers")) as [fl ->]. cbn. by eexists.
Qed.
Lemma serve_total names cf next g1 g2 answer lg r w : exists out, serve names cf next g1 g2 answer lg r w out /\
  (~ malformed (rq_header r) -> (forall r ctx, snd (next r ctx) = false) -> oc_panics out = false).
Proof.
  destruct (get_span_id g1 g2 (rq_header r)) as [[span|] from] eqn:Hg; last first.
  { eexists. split; first by eapply serve_bad_header, Hg. intros Hm. rewrite (malformed_none g1 g2) Hg in Hm. done. }
  destruct (match cf_set_context cf with Some f => (f r span, None) | None => (r, Some span) end) as [r1 ctx] eqn:Hc.
  destruct (next r1 ctx) as [[ops r2] [|]] eqn:Hn.
  { eexists. split; first by eapply serve_panics; [exact Hg|exact (eq_sym Hc)|exact Hn].
    intros _ Hf. specialize (Hf r1 ctx). by rewrite Hn in Hf. }
  destruct (request_info_total names (match decide (from = header_span_id) with left _ => r1 | right _ => r2 end)) as (req & Hreq & Hfl1).
  destruct (response_info_total names (partial_response (rr_step (fold_left rr_step ops (MkRecorder 0 0 w)) (HHeader (fun h => set_span_id_header h span)))))
    as (resp & Hresp & Hfl2).
  set (route := match cf_route cf with Some f => f r2 | None => ""%string end).
  set (user := match cf_user cf with Some f => f r2 | None => ""%string end).
  set (name := match decide (route = ""%string) with left _ => "Serve " +:+ rq_url_host r2 +:+ rq_url_path r2 | right _ => "Serve " +:+ route end%string).
  assert (exists fl, flatten (span_name_val name) "" = Some fl) as [fl1 H1] by by eexists.
  assert (exists fl, flatten (server_val req resp route user time_zero time_zero) "" = Some fl) as [fl2 H2].
  { rewrite /server_val. cbn [flatten map fst snd cat_opt fold_right].
    destruct (Hfl1 (nest "" "Server.Request")) as [f1 ->]. destruct (Hfl2 (nest "" "Server.Response")) as [f2 ->]. cbn. by eexists. }
  eexists. split.
  - eapply (serve_done names cf next g1 g2 answer lg r w span from r1 r2 ctx ops req resp time_zero time_zero _ _ _ _ route user name);
      [exact Hg|exact (eq_sym Hc)|exact Hn|reflexivity|reflexivity|exact Hreq|reflexivity|reflexivity|exact Hresp|reflexivity| |].
    + eapply marshal_plain; [done|exact H1|done].
    + eapply marshal_plain; [done|exact H2|done].
  - done.
Qed.

Definition a_get : request := MkRequest "GET" "/x" "HTTP/1.1" {["Parent-Span-Id" := ["1/2"]]} ∅ "h" "1.2.3.4:5" 0 "" "/x".
Example C58_nonvacuous next : (forall r ctx, snd (next r ctx) = false) ->
  exists out, fst (get_span_id 5 6 (rq_header a_get)) = Some (MkSpanID 1 5 2) /\
  serve ["Authorization"%string] (MkConfig (Some (fun _ => "route"%string)) None None) next 5 6 None (fun _ => []) a_get a_writer out /\ oc_panics out = false.
Proof.
  intros Hn. destruct (serve_total ["Authorization"%string] (MkConfig (Some (fun _ => "route"%string)) None None) next 5 6 None (fun _ => []) a_get a_writer)
    as (out & Hs & Hp).
  exists out. split; first done. split; first done. apply Hp; last done. rewrite (malformed_none 5 6). done.
Qed.

Lemma ops_of_serve names cf next g1 g2 answer lg r w out : serve names cf next g1 g2 answer lg r w out ->
  oc_panics out = false -> exists span r1 r2 ctx ops, oc_nexts out = [(r1, ctx)] /\ next r1 ctx = (ops, r2, false) /\
   fst (get_span_id g1 g2 (rq_header r)) = Some span /\
   oc_writer out = rr_writer (rr_step (fold_left rr_step ops (MkRecorder 0 0 w)) (HHeader (fun h => set_span_id_header h span))).
Proof.
  intros Hs Hp. inversion Hs as [from Hg|sp from r1 r2 ctx ops Hg Hc Hn|sp from r1 r2 ctx ops req resp recv snd anns1 anns2 rr rr' route user name Hg Hc Hn Hrr Hrr' Hreq Hroute Huser Hresp Hname Hm1 Hm2];
    subst out; cbn in Hp; try done.
  exists sp, r1, r2, ctx, ops. split; first done. split; first done. split; first by rewrite Hg. cbn. by subst rr' rr.
Qed.

(** ** C83 *)

(** C83 is false: a request whose handler panics is not recorded. *)
Theorem C83_refuted names cf next g1 g2 answer lg r w :
  ~ malformed (rq_header r) -> (forall r ctx, snd (next r ctx) = true) ->
  (exists out, serve names cf next g1 g2 answer lg r w out) /\
  forall out, serve names cf next g1 g2 answer lg r w out -> length (oc_nexts out) = 1%nat /\ oc_collects out = [].
Proof.
  intros Hm Hn. rewrite (malformed_none g1 g2) in Hm.
  destruct (get_span_id g1 g2 (rq_header r)) as [[span|] from] eqn:Hg; last done. clear Hm. split.
  - destruct (match cf_set_context cf with Some f => (f r span, None) | None => (r, Some span) end) as [r1 ctx] eqn:Hc.
    destruct (next r1 ctx) as [[ops r2] b] eqn:Hn1. pose proof (Hn r1 ctx) as Hb. rewrite Hn1 in Hb. cbn in Hb. subst b.
    eexists. eapply serve_panics; [exact Hg|exact (eq_sym Hc)|exact Hn1].
  - intros out Hs. inversion Hs as [? ?|? ? ? ? ? ? ? ? Hn1|? ? r1 r2 ctx ? ? ? ? ? ? ? ? ? ? ? ? ? ? Hn1]; subst; [congruence|done|].
    pose proof (Hn r1 ctx) as Hb. by rewrite Hn1 in Hb.
Qed.
Print Assumptions C83_refuted.

(** C83, partial: a request whose handler returns is recorded, once (if the collector takes it). *)
Theorem C83_recorded_partial names cf next g1 g2 lg r w out :
  ~ malformed (rq_header r) -> (forall r ctx, snd (next r ctx) = false) ->
  serve names cf next g1 g2 None lg r w out -> oc_panics out = false /\ exists span anns, oc_collects out = [(span, anns)].
Proof.
  intros Hm Hn Hs. rewrite (malformed_none g1 g2) in Hm.
  destruct (fst (get_span_id g1 g2 (rq_header r))) as [span|] eqn:Hsp; last done.
  assert (oc_panics out = false) as Hp.
  { inversion Hs as [from Hg|? ? r1 r2 ctx ? ? ? Hn1|]; subst; [by rewrite Hg in Hsp| |done].
    pose proof (Hn r1 ctx) as Hb. by rewrite Hn1 in Hb. }
  split; first done. destruct (C58_one_span _ _ _ _ _ _ _ _ _ _ Hsp Hs Hp) as (?&?&?&?&?&?&?&?&?&?&?&a1&a2&?&?&?&?&->&_). eauto.
Qed.
Print Assumptions C83_recorded_partial.
Example C83_nonvacuous : ~ malformed (rq_header a_get) /\
  exists next : handler, forall r ctx, snd (next r ctx) = true /\ fst (fst (next r ctx)) = [HWrite "half"].
Proof. split; first by rewrite (malformed_none 5 6). by exists (fun r ctx => ([HWrite "half"], r, true)). Qed.

(** ** C84 *)

(** C84 is false: the client does not get the span ID of a request whose handler writes a response. *)
Theorem C84_refuted names cf next g1 g2 lg r w out :
  fresh w -> w_header w = ∅ -> (forall r ctx, fst (next r ctx) = ([HWrite "hello"], r)) ->
  serve names cf next g1 g2 None lg r w out -> snd (fst (w_response (oc_writer out))) !! "Span-Id"%string = None \/ oc_nexts out = [].
Proof.
  intros [Hf _] Hw Hn Hs.
  assert (forall r1 ctx ops r2 b, next r1 ctx = (ops, r2, b) -> ops = [HWrite "hello"]) as Hops.
  { intros r1 ctx ops r2 b Hx. pose proof (Hn r1 ctx) as H. rewrite Hx in H. cbn in H. congruence. }
  inversion Hs as [? ?|? ? ? ? ? ? ? ? Hn1|? ? r1 r2 ctx ? ? ? ? ? ? ? ? ? ? ? ? ? ? Hn1]; subst; [by right| |];
    left; apply Hops in Hn1; subst; cbn; rewrite /w_response /= /w_write /w_write_header Hf /= Hw; done.
Qed.
Print Assumptions C84_refuted.
Example C84_refuted_nonvacuous : exists out, fresh a_writer /\ w_header a_writer = ∅ /\
  serve [] (MkConfig None None None) (fun r ctx => ([HWrite "hello"], r, false)) 5 6 None (fun _ => []) a_get a_writer out /\ oc_nexts out <> [].
Proof.
  destruct (serve_total [] (MkConfig None None None) (fun r ctx => ([HWrite "hello"], r, false)) 5 6 None (fun _ => []) a_get a_writer) as (out & Hs & _).
  exists out. split; first done. split; first done. split; first done.
  intros H. apply C55_handled_partial in Hs; last by rewrite (malformed_none 5 6). by rewrite H in Hs.
Qed.
(** C84, partial: it does get it if the handler has sent nothing itself. *)
Theorem C84_silent_partial names cf next g1 g2 lg r w out span :
  fresh w -> g1 < 2 ^ 64 -> g2 < 2 ^ 64 ->
  serve names cf next g1 g2 None lg r w out -> oc_panics out = false ->
  fst (get_span_id g1 g2 (rq_header r)) = Some span ->
  (forall r ctx, silent (fst (fst (next r ctx)))) ->
  says_span (snd (fst (w_response (oc_writer out)))) span.
Proof.
  intros [Hf _] Hg1 Hg2 Hs Hp Hsp Hsil.
  destruct (ops_of_serve _ _ _ _ _ _ _ _ _ _ Hs Hp) as (sp & r1 & r2 & ctx & ops & _ & Hn & Hsp' & ->).
  rewrite Hsp in Hsp'. injection Hsp' as <-. pose proof (Hsil r1 ctx) as Hops. rewrite Hn in Hops. cbn in Hops.
  destruct (run_headers ops (MkRecorder 0 0 w) Hops) as [_ H2]. cbn in H2. rewrite Hf in H2.
  rewrite /w_response /= H2 /=. exists (spanid_string span). rewrite /set_span_id_header /header_set.
  change (canonical_key header_span_id) with "Span-Id"%string. split; first by rewrite lookup_insert.
  assert (is_id (sp_trace span) /\ is_id (sp_span span) /\ is_id (sp_parent span)) as (I1 & I2 & I3).
  { revert Hsp. rewrite /get_span_id /get_span_id_header.
    assert (forall s x, parse_spanid s = Some x -> is_id (sp_trace x) /\ is_id (sp_span x) /\ is_id (sp_parent x)) as Hpar.
    { intros s x Hx. apply parse_spanid_spec in Hx. tauto. }
    case_decide; last first.
    { destruct (parse_spanid _) as [x|] eqn:Hx; last done. intros [= <-]. exact (Hpar _ _ Hx). }
    case_decide; first by intros [= <-].
    destruct (parse_spanid (header_get (rq_header r) header_parent_span_id)) as [x|] eqn:Hx; last done. intros [= <-].
    destruct (Hpar _ _ Hx) as (?&?&?). done. }
  assert (parse_spanid (spanid_string span) = Some span) as Hps by by apply parse_spanid_string.
  apply parse_spanid_spec in Hps. rewrite /reads_as. tauto.
Qed.
Print Assumptions C84_silent_partial.
Example C84_nonvacuous : exists out,
  serve [] (MkConfig None None None) (fun r ctx => ([HHeader (fun h => header_set h "X" "y")], r, false)) 5 6 None (fun _ => []) a_get a_writer out /\
  oc_panics out = false /\ silent [HHeader (fun h => header_set h "X" "y")] /\ fresh a_writer /\
  fst (get_span_id 5 6 (rq_header a_get)) = Some (MkSpanID 1 5 2).
Proof.
  destruct (serve_total [] (MkConfig None None None) (fun r ctx => ([HHeader (fun h => header_set h "X" "y")], r, false)) 5 6 None (fun _ => []) a_get a_writer)
    as (out & Hs & Hp).
  exists out. split; first done. split; first (apply Hp; [by rewrite (malformed_none 5 6)|done]). split; last done. by constructor.
Qed.
