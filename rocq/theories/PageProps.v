(** Property C65 (buffered page handlers). *)
From Verif Require Import Base IdModel TimeModel ReflModel EventModel RecorderModel HttpModel PageModel PageSpec.
From Coq Require Import ssreflect.
Local Open Scope general_if_scope.
Local Open Scope Z_scope.

Lemma run_buf ops rb : rb_buf (fold_left rb_step ops rb) = (rb_buf rb +:+ produced_body ops)%string.
Proof.
  revert rb. induction ops as [|o ops IH]=> rb; cbn [fold_left produced_body fold_right]; [by rewrite str_app_nil_r|]. rewrite IH.
  destruct o; cbn [rb_step rb_buf]; try done. by rewrite str_app_assoc.
Qed.
Lemma run_status ops rb : rb_status (fold_left rb_step ops rb) =
  List.last (omap (fun o => match o with HWriteHeader c => Some c | _ => None end) ops) (rb_status rb).
Proof.
  revert rb. induction ops as [|o ops IH]=> rb; [done|]. cbn [fold_left]. rewrite IH. destruct o as [f|c|b|]; cbn [rb_step rb_status omap list_omap]; try done.
  set (l := omap _ ops). clearbody l. clear. revert c. induction l as [|x l IH]=> c; [done|]. cbn [List.last] in *. destruct l; [done|]. apply IH.
Qed.
Lemma run_header ops rb : default ∅ (rb_header (fold_left rb_step ops rb)) =
  fold_left (fun h o => match o with HHeader f => f h | _ => h end) ops (default ∅ (rb_header rb)).
Proof. revert rb. induction ops as [|o ops IH]=> rb; [done|]. cbn [fold_left]. rewrite IH. by destruct o. Qed.

Lemma error_page w msg : unsent w ->
  w_response (handle_error w msg) = (500, error_header (w_header w), (msg +:+ String (ascii_of_N 10) EmptyString)%string).
Proof. destruct w as [h s b]. intros [H1 H2]. cbn [w_sent w_body] in *. by subst. Qed.

(** C65: when the handler fails, the client gets status 500 and the error, whatever the handler had done before: no
    status, no header and no body of it. *)
Theorem C65_failed : forall stack bad ops msg w, unsent w ->
  w_response (serve_page stack bad ops (PageErr msg) w) =
    (500, error_header (w_header w), (msg +:+ String (ascii_of_N 10) EmptyString)%string).
Proof. intros. by apply error_page. Qed.
Print Assumptions C65_failed.
(** C65: when it panics, the client gets status 500, the panic and the stack, and nothing else. *)
Theorem C65_panicked : forall stack bad ops rv w, unsent w ->
  w_response (serve_page stack bad ops (PagePanic rv) w) =
    (500, error_header (w_header w), (panic_msg rv stack +:+ String (ascii_of_N 10) EmptyString)%string).
Proof. intros. by apply error_page. Qed.
Print Assumptions C65_panicked.
Example C65_failed_nonvacuous : forall stack bad,
  w_response (serve_page stack bad [HHeader (fun h => header_set h "content-type" "text/html"); HWriteHeader 200; HWrite "<html>"] (PageErr "no such trace")
    (MkWriter {["Server"%string := ["x"%string]]} None "")) =
  (500, error_header {["Server"%string := ["x"%string]]}, ("no such trace" +:+ String (ascii_of_N 10) EmptyString)%string).
Proof. intros. by apply C65_failed. Qed.

(** C65 (proved part): when it succeeds, with no status or one of three digits that allows a body, the client gets
    exactly the status it last set, or else 200, the header it built over the writer's own, with the true length of the
    body added if there is one, and all it wrote. *)
Theorem C65_succeeded_partial : forall stack bad ops w, unsent w ->
  (produced_status ops = 0 \/ 200 <= produced_status ops <= 999 /\ produced_status ops <> 204 /\ produced_status ops <> 304) ->
  w_response (serve_page stack bad ops PageOk w) =
    (if produced_status ops =? 0 then 200 else produced_status ops,
     (let h := produced_header ops ∪ w_header w in
      if decide (produced_body ops = ""%string) then h
      else <["Content-Length"%string := [fmt_int (Z.of_nat (String.length (produced_body ops)))]]> h),
     produced_body ops).
Proof.
  intros stack bad ops [wh ws wb] [H1 H2] Hst. cbn [w_sent w_body w_header] in *. subst ws wb. rewrite /serve_page /rb_write_to.
  rewrite run_buf run_status run_header. cbn [rb_empty rb_buf rb_status rb_header default w_header w_sent w_body String.append].
  change (fold_left _ ops ∅) with (produced_header ops). change (List.last _ 0) with (produced_status ops).
  set (s := produced_status ops) in *. set (b := produced_body ops) in *. set (h := _ ∪ _).
  assert (header_set h "Content-Length" (fmt_int (Z.of_nat (String.length b))) = <["Content-Length"%string := [fmt_int (Z.of_nat (String.length b))]]> h) as -> by reflexivity.
  assert ((0 <? Z.of_nat (String.length b)) = bool_decide (b <> ""%string)) as ->.
  { destruct b; [done|]. cbn [String.length]. rewrite bool_decide_true; [done|]. lia. }
  destruct (decide (b = ""%string)) as [Hb|Hb].
  - rewrite bool_decide_false; [tauto|]. rewrite Hb. destruct (Z.eqb_spec s 0) as [Hs|Hs]; [done|].
    rewrite /page_write_header. assert ((s <? 100) || (999 <? s) = false) as -> by lia. done.
  - rewrite bool_decide_true; [done|]. destruct (Z.eqb_spec s 0) as [Hs|Hs]; [done|].
    rewrite /page_write_header. assert ((s <? 100) || (999 <? s) = false) as -> by lia. cbn [w_write_header w_sent w_header w_body page_write].
    assert (body_allowed s = true) as -> by (rewrite /body_allowed; lia). done.
Qed.
Print Assumptions C65_succeeded_partial.
Example C65_succeeded_nonvacuous : forall stack bad,
  let ops := [HWriteHeader 200; HHeader (fun h => header_set h "content-type" "text/html"); HWrite "not "; HWriteHeader 404; HWrite "here"] in
  produced_status ops = 404 /\ produced_body ops = "not here"%string /\
  w_response (serve_page stack bad ops PageOk (MkWriter ∅ None "")) =
    (404, <["Content-Length"%string := ["8"%string]]> {["Content-Type"%string := ["text/html"%string]]}, "not here"%string).
Proof.
  intros. split; [done|]. split; [done|]. rewrite C65_succeeded_partial; [done|by right|]. cbn -[insert union]. f_equal. f_equal. apply map_eq. intros k.
  change (produced_header ops) with (<["Content-Type"%string := ["text/html"%string]]> (∅ : header)). by rewrite right_id_L.
Qed.

(** C65 (proved part): a successful page with status 204 or 304 goes out with that status and without a body. *)
Theorem C65_bodyless_partial : forall stack bad ops w, unsent w -> produced_status ops = 204 \/ produced_status ops = 304 ->
  (w_response (serve_page stack bad ops PageOk w)).1.1 = produced_status ops /\ (w_response (serve_page stack bad ops PageOk w)).2 = ""%string.
Proof.
  intros stack bad ops [wh ws wb] [H1 H2] Hst. cbn [w_sent w_body] in *. subst ws wb. rewrite /serve_page /rb_write_to.
  rewrite run_status run_buf. cbn [rb_empty rb_status rb_buf w_header w_sent w_body String.append]. change (List.last _ 0) with (produced_status ops).
  destruct Hst as [-> | ->]; cbn -[produced_body]; by destruct (0 <? _).
Qed.
Print Assumptions C65_bodyless_partial.

(** C65 is false for a status that does not have three digits: sending it panics after the handler's header has been
    copied, so that the error page carries the handler's header, with the wrong length. *)
Theorem C65_refuted : exists ops, forall stack bad, exists msg h,
  w_response (serve_page stack bad ops PageOk (MkWriter ∅ None "")) = (500, h, msg) /\
  h !! "Set-Cookie"%string = Some ["secret"%string] /\ h !! "Content-Length"%string = Some ["2"%string] /\ (2 < String.length msg)%nat.
Proof.
  exists [HHeader (fun h => header_set h "set-cookie" "secret"); HWriteHeader 20; HWrite "hi"]. intros stack bad.
  eexists _, _. split; [reflexivity|]. split_and!; [reflexivity|reflexivity|]. unfold panic_msg. cbn. lia.
Qed.
Print Assumptions C65_refuted.
