(** Property C140: the stored form of the library's events. *)
From Verif Require Import Base StrOrder TimeModel ReflModel ReflSpec ReflProofs EventModel EventSpec EventProofs EventProps LibEventSpec.
From stdpp Require Import sorting.

Lemma cat_opt_somes {A} (ls : list (list A)) : cat_opt (map Some ls) = Some (concat ls).
Proof. induction ls as [|l ls IH]; [done|]. cbn [map cat_opt fold_right]. fold (cat_opt (map Some ls)). by rewrite IH. Qed.
Lemma flatten_headers p hs : flatten (headers_val hs) p = Some (map (fun h => (nest p (fst h), snd h)) hs).
Proof.
  unfold headers_val. destruct hs as [|h hs]; [done|]. set (l := h :: hs). assert (l <> []) as _ by done. cbn [flatten]. rewrite map_map. cbn [fst snd flatten].
  clearbody l. induction l as [|x l IH]; [done|]. cbn [map cat_opt fold_right]. unfold cat_opt in IH. by rewrite IH.
Qed.
Lemma nest_app p f : p <> ""%string -> nest p f = (p +:+ "." +:+ f)%string.
Proof. intros H. unfold nest. by destruct p. Qed.
Lemma str_assoc (a b c : string) : ((a +:+ b) +:+ c = a +:+ (b +:+ c))%string.
Proof. induction a as [|x a IH]; [done|]. cbn. by f_equal. Qed.
Lemma headers_kvs p hs : p <> ""%string -> flatten (headers_val hs) (nest p "Headers") = Some (map (fun h => ((p +:+ ".Headers." +:+ fst h)%string, snd h)) hs).
Proof.
  intros H. rewrite flatten_headers. f_equal. apply map_ext. intros h. f_equal. rewrite (nest_app p) by done. rewrite nest_app by (by destruct p).
  by rewrite !str_assoc.
Qed.
Lemma flatten_request p r : p <> ""%string -> flatten (request_val r) p = Some (request_kvs p r).
Proof.
  intros H. unfold request_val. cbn [flatten map fst snd cat_opt fold_right]. rewrite headers_kvs by done. rewrite !(nest_app p) by done. unfold request_kvs. cbn [app]. done.
Qed.
Lemma flatten_response p r : p <> ""%string -> flatten (response_val r) p = Some (response_kvs p r).
Proof. intros H. unfold response_val. cbn [flatten map fst snd cat_opt fold_right]. rewrite headers_kvs by done. rewrite !(nest_app p) by done. done. Qed.
Lemma library_flatten et x schema kvs : library_event et x schema kvs -> flatten x "" = Some kvs /\ ev_marshaler et = None /\ ev_schema et = schema.
Proof.
  intros []; (split; [|done]); try done; cbn [flatten map fst snd]; cbn [cat_opt fold_right];
    rewrite flatten_request, flatten_response by done; cbn [app]; done.
Qed.
Lemma headers_ok hs : sorted_keys hs -> good (TMap tstring) (headers_val hs).
Proof.
  intros H. unfold headers_val. destruct hs as [|h hs]; [exact I|]. set (l := h :: hs) in *. cbn [good]. split; [done|]. split.
  - clearbody l. induction H as [|x l _ IH Hx]; [constructor|]. cbn [map]. constructor; [done|]. clear -Hx. induction Hx; constructor; done.
  - clearbody l. clear. induction l as [|x l IH]; constructor; [exact I|done].
Qed.
Lemma response_writes r : writes (response_val r) = true.
Proof. unfold response_val. cbn [writes existsb fst snd]. by destruct (writes _). Qed.
Ltac struct_of := apply good_struct; eexists; split; [reflexivity|]; split; [reflexivity|]; split; [names|];
  repeat (apply Forall2_cons; split; [split; [reflexivity|]; cbn [fst snd]; split; [try (by apply tint_ok); try (by apply headers_ok); try exact I; auto|first [by right|by left|by right; apply response_writes]]|]); try constructor.
Lemma request_good r : request_ok r -> good request_info (request_val r).
Proof. intros [H1 H2]. struct_of. Qed.
Lemma response_good r : response_ok r -> good response_info (response_val r).
Proof. intros (H1 & H2 & H3). struct_of. Qed.
(** Every one of these is a value of its type, and what MarshalEvent makes of it is its stored form, with nothing else... *)
Theorem C140_stored : forall et x schema kvs, library_event et x schema kvs -> et ∈ library_events /\ good (ev_ty et) x /\ forall anns, marshal et x anns <-> stored schema kvs anns.
Proof.
  intros et x schema kvs H. split; [destruct H; unfold library_events; set_solver|]. split.
  - destruct H; pose proof request_good; pose proof response_good; struct_of.
  - destruct (library_flatten _ _ _ _ H) as (E & Em & <-). intros anns. split.
    + intros Ha. inversion Ha as [f a Hf|fl fl' _ Hfl Hp]; subst; [congruence|]. rewrite E in Hfl. injection Hfl as <-. by exists fl'.
    + intros (kvs' & Hp & ->). by eapply (marshal_plain et x kvs kvs').
Qed.
Print Assumptions C140_stored.
(** ... and there are no other values of these types that can be restored. *)
Theorem C140_all : forall et x, et ∈ library_events -> good (ev_ty et) x -> exists schema kvs, library_event et x schema kvs.
Proof.
  assert (forall v, good tstring v -> exists s, v = VString s) as Hs by (intros []; cbn; try done; eauto).
  assert (forall v, good TTime v -> exists t, v = VTime t /\ valid_time t) as Ht by (intros []; cbn; try done; eauto).
  assert (forall v, good tint v -> exists z, v = VInt z /\ int64 z) as Hi.
  { intros []; cbn; try done. intros [_ H]. eexists. split; [done|]. exact H. }
  assert (forall v, good (TMap tstring) v -> exists hs, v = headers_val hs /\ sorted_keys hs) as Hh.
  { intros []; cbn; try done. destruct o as [l|]; [|intros _; exists []; split; [done|constructor]]. intros (Hn & Hso & Hl).
    assert (exists hs, l = map (fun h => (fst h, VString (snd h))) hs) as [hs ->].
    { clear -Hl. induction Hl as [|[k v] l Hv _ [hs ->]]; [by exists []|]. destruct v; cbn in Hv; try done. by exists ((k, s) :: hs). }
    exists hs. split; [by destruct hs|]. clear -Hso. unfold sorted_keys. induction hs as [|h hs IH]; [constructor|]. inversion Hso as [|? ? H1 H2]; subst. constructor; [by apply IH|].
    clear -H2. induction hs as [|g hs IH]; [constructor|]. inversion H2; subst. constructor; [done|by apply IH]. }
  assert (forall fs v, good (TStruct fs) v -> exists l, v = VStruct l /\ Forall2 (fun f g => fst f = fst g /\ good (snd f) (snd g)) fs l) as Hst.
  { intros fs v (l & -> & _ & _ & H)%good_struct. exists l. split; [done|]. eapply Forall2_impl; [exact H|]. by intros ? ? (? & ? & _). }
  Ltac inv_fields := repeat match goal with
    | H : Forall2 _ [] _ |- _ => apply Forall2_nil_inv_l in H; subst
    | H : Forall2 _ (_ :: _) _ |- _ => let y := fresh "y" in let l := fresh "l" in let Hy := fresh "Hy" in
        apply Forall2_cons_inv_l in H as ([y ?v] & l & [Hy ?Hg] & H & ->); cbn [fst snd] in Hy; subst y; cbn [snd] in * end.
  assert (forall v, good request_info v -> exists r, v = request_val r /\ request_ok r) as Hrq.
  { intros v (l & -> & H)%Hst. inv_fields. apply Hs in Hg as [m ->]. apply Hs in Hg0 as [u ->]. apply Hs in Hg1 as [p ->]. apply Hh in Hg2 as (hs & -> & Hhs).
    apply Hs in Hg3 as [h ->]. apply Hs in Hg4 as [a ->]. apply Hi in Hg5 as (z & -> & Hz). by exists (Req m u p hs h a z). }
  assert (forall v, good response_info v -> exists r, v = response_val r /\ response_ok r) as Hrs.
  { intros v (l & -> & H)%Hst. inv_fields. apply Hh in Hg as (hs & -> & Hhs). apply Hi in Hg0 as (z & -> & Hz). apply Hi in Hg1 as (c & -> & Hc). by exists (Resp hs z c). }
  intros et x Het (l & -> & H)%Hst. unfold library_events in Het. repeat (apply elem_of_cons in Het as [->|Het]); [..|by apply elem_of_nil in Het].
  all: cbn in H; inv_fields; repeat match goal with
    | Hg : good tstring ?v |- _ => apply Hs in Hg as [? ->]
    | Hg : good TTime ?v |- _ => apply Ht in Hg as (? & -> & ?)
    | Hg : good request_info ?v |- _ => apply Hrq in Hg as (? & -> & ?)
    | Hg : good response_info ?v |- _ => apply Hrs in Hg as (? & -> & ?) end; do 2 eexists; by constructor.
Qed.
Print Assumptions C140_all.
(** Concretely: a message, and a served request. *)
Example C140_nonvacuous : library_event msg_event (VStruct [("Msg", VString "hello")]) "msg" [("Msg", "hello")] /\
  library_event server_event a_server "HTTPServer" [("Server.Request.Method", "GET"); ("Server.Request.URI", "/x?a=b"); ("Server.Request.Proto", "HTTP/1.1");
    ("Server.Request.Headers.Accept", "*/*"); ("Server.Request.Headers.Accept-Language", ""); ("Server.Request.Host", ""); ("Server.Request.RemoteAddr", "1.2.3.4:5");
    ("Server.Request.ContentLength", "-1"); ("Server.Response.ContentLength", "12"); ("Server.Response.StatusCode", "200"); ("Server.Route", "r"); ("Server.User", "");
    ("Server.Recv", "2014-11-30T23:59:58.12-08:00"); ("Server.Send", "2014-11-30T23:59:58.12-08:00")].
Proof.
  split; [constructor|]. apply (L_server (Req "GET" "/x?a=b" "HTTP/1.1" [("Accept", "*/*"); ("Accept-Language", "")] "" "1.2.3.4:5" (-1)) (Resp [] 12 200) "r" "" a_time a_time);
    [split; [repeat constructor|unfold int64; cbn; lia]|split; [constructor|unfold int64; cbn; lia]|apply a_time_valid..].
Qed.
