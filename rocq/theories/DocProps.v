(** Property C142: events sent as documented for other languages. *)
From Verif Require Import Base StrOrder TimeModel TimeProofs ReflModel ReflSpec ReflProofs ReflProofs2 ReflProofs3 EventModel EventProofs PyModel PySpec PyProps LibEventSpec DocSpec.
From Coq Require Import ssreflect.
Local Open Scope general_if_scope.

Lemma sent_elem kvs anns k s : sent kvs anns -> (k, s) ∈ kvs -> Ann k (Some s) ∈ anns.
Proof. intros H Hin. unfold sent in H. rewrite -H. apply elem_of_list_fmap. by exists (k, s). Qed.
Lemma sent_keys kvs anns a : sent kvs anns -> a ∈ anns -> ann_key a ∈ map fst kvs.
Proof. intros H Hin. unfold sent in H. rewrite -H in Hin. apply elem_of_list_fmap in Hin as ([k s] & -> & Hin). apply elem_of_list_fmap. by exists (k, s). Qed.
Lemma sent_schema kvs anns schema : sent kvs anns -> ("_schema:" +:+ schema, "")%string ∈ kvs -> bool_decide (schema ∈ schemas anns) = true.
Proof. intros H Hin. apply py_in, schemas_elem. exists (Some ""%string). by apply (sent_elem kvs). Qed.
Lemma sent_lookup kvs anns k s : sent kvs anns -> NoDup (map fst kvs) -> (k, s) ∈ kvs -> (k, s) ∈ map_to_kvs (string_map anns).
Proof.
  intros H Hnd Hin. apply kvs_elem, string_map_lookup.
  - unfold sent in H. rewrite -H map_map. exact Hnd.
  - exists (Ann k (Some s)). split; [by apply (sent_elem kvs)|done].
Qed.
Lemma kvs_not_nil (kvs : list (string * string)) k s : (k, s) ∈ kvs -> kvs <> [].
Proof. by intros Hin ->; apply elem_of_nil in Hin. Qed.
(** C142 (proved part): names, messages, logs and SQL queries that are sent as documented, in any order and beside any annotations under other keys, are read as
    those events with those values. *)
Theorem C142_partial : forall et v kvs others anns, documented et v kvs -> NoDup (map fst (kvs ++ others)) -> sent (kvs ++ others) anns ->
  unmarshal et anns (zero (ev_ty et)) = EDone v.
Proof.
  intros et v kvs others anns Hd Hnd Hs.
  assert (forall k s, (k, s) ∈ kvs -> (k, s) ∈ map_to_kvs (string_map anns)) as Hkv.
  { intros k s Hin. apply (sent_lookup (kvs ++ others)); [done|done|]. apply elem_of_app. by left. }
  assert (forall schema, ("_schema:" +:+ schema, "")%string ∈ kvs -> bool_decide (schema ∈ schemas anns) = true) as Hsch.
  { intros schema Hin. apply (sent_schema (kvs ++ others)); [done|]. apply elem_of_app. by left. }
  pose proof (kvs_sorted (string_map anns)) as Hss. unfold unmarshal. set (kv := map_to_kvs (string_map anns)) in *. clearbody kv.
  assert (bool_decide (ev_schema et ∈ schemas anns) = true) as -> by (apply Hsch; destruct Hd; cbn; set_solver).
  assert (ev_unmarshaler et = None) as -> by by destruct Hd. cbn [negb]. unfold ev_ty.
  destruct Hd as [n|m|m t Ht|q tag send recv H1 H2].
  - pose proof (kvs_not_nil _ _ _ (Hkv "Name"%string n ltac:(set_solver))) as Hne.
    destruct (read_flat (fun _ => VString n) (ev_fields name_event) kv) as [kv' Hr]; [apply (bool_decide_unpack _); reflexivity|by repeat constructor|done|done| |].
    { intros f ->%elem_of_list_singleton. split; [done|]. exists n. split; [apply Hkv; set_solver|done]. }
    by rewrite Hr.
  - pose proof (kvs_not_nil _ _ _ (Hkv "Msg"%string m ltac:(set_solver))) as Hne.
    destruct (read_flat (fun _ => VString m) (ev_fields msg_event) kv) as [kv' Hr]; [apply (bool_decide_unpack _); reflexivity|by repeat constructor|done|done| |].
    { intros f ->%elem_of_list_singleton. split; [done|]. exists m. split; [apply Hkv; set_solver|done]. }
    by rewrite Hr.
  - pose proof (kvs_not_nil _ _ _ (Hkv "Msg"%string m ltac:(set_solver))) as Hne.
    destruct (read_flat (fun k => if String.eqb k "Msg" then VString m else VTime t) (ev_fields log_event) kv) as [kv' Hr]; [apply (bool_decide_unpack _); reflexivity|by repeat constructor|done|done| |].
    { intros f [-> | ->%elem_of_list_singleton]%elem_of_cons; (split; [done|]).
      - exists m. split; [apply Hkv; set_solver|done].
      - exists (fmt_time t). split; [apply Hkv; set_solver|]. cbn. by rewrite parse_fmt_time. }
    by rewrite Hr.
  - pose proof (kvs_not_nil _ _ _ (Hkv "SQL"%string q ltac:(set_solver))) as Hne.
    destruct (read_flat (fun k => if String.eqb k "SQL" then VString q else if String.eqb k "Tag" then VString tag else if String.eqb k "ClientSend" then VTime send else VTime recv) (ev_fields sql_event) kv)
      as [kv' Hr]; [apply (bool_decide_unpack _); reflexivity|by repeat constructor|done|done| |].
    { intros f [->|[->|[->| ->%elem_of_list_singleton]%elem_of_cons]%elem_of_cons]%elem_of_cons; (split; [done|]).
      - exists q. split; [apply Hkv; set_solver|done].
      - exists tag. split; [apply Hkv; set_solver|done].
      - exists (fmt_time send). split; [apply Hkv; set_solver|]. cbn. by rewrite parse_fmt_time.
      - exists (fmt_time recv). split; [apply Hkv; set_solver|]. cbn. by rewrite parse_fmt_time. }
    by rewrite Hr.
Qed.
Print Assumptions C142_partial.
Example C142_nonvacuous : let kvs := [("Msg", "hello"); ("_schema:msg", "")]%string in let others := [("Name", "x"); ("_schema:name", "")]%string in
  documented msg_event (VStruct [("Msg"%string, VString "hello")]) kvs /\ NoDup (map fst (kvs ++ others)) /\
  sent (kvs ++ others) [Ann "_schema:name" (Some "")%string; Ann "Msg" (Some "hello")%string; Ann "_schema:msg" (Some "")%string; Ann "Name" (Some "x")%string].
Proof.
  split; [constructor|]. split; [apply (bool_decide_unpack _); reflexivity|]. unfold sent. cbn.
  exact (Permutation_sym (Permutation_middle [_; _; _] [] _)).
Qed.

(** ** HTTP events *)
Definition http_key (k : string) : Prop := has_prefix "Request." k = true \/ has_prefix "Response." k = true \/
  k ∈ ["Route"; "User"; "ServerRecv"; "ServerSend"; "ClientSend"; "ClientRecv"; "_schema:HTTPServer"; "_schema:HTTPClient"]%string.
Lemma request_keys r k : k ∈ map fst (request_kvs "Request" r) -> has_prefix "Request." k = true.
Proof.
  intros ([k' s] & -> & Hin)%elem_of_list_fmap. unfold request_kvs in Hin. rewrite !elem_of_app in Hin. destruct Hin as [Hin|[Hin|Hin]].
  - rewrite !elem_of_cons elem_of_nil in Hin. destruct_or!; by simplify_eq.
  - apply elem_of_list_fmap in Hin as (h & [= -> ->] & _). done.
  - rewrite !elem_of_cons elem_of_nil in Hin. destruct_or!; by simplify_eq.
Qed.
Lemma response_keys r k : k ∈ map fst (response_kvs "Response" r) -> has_prefix "Response." k = true.
Proof.
  intros ([k' s] & -> & Hin)%elem_of_list_fmap. unfold response_kvs in Hin. rewrite !elem_of_app in Hin. destruct Hin as [Hin|Hin].
  - apply elem_of_list_fmap in Hin as (h & [= -> ->] & _). done.
  - rewrite !elem_of_cons elem_of_nil in Hin. destruct_or!; by simplify_eq.
Qed.
Lemma server_keys rq rs route user recv send k : k ∈ map fst (documented_server rq rs route user recv send) -> http_key k.
Proof.
  unfold documented_server, http_key. pose proof (request_keys rq k) as H1. pose proof (response_keys rs k) as H2. revert H1 H2. generalize (request_kvs "Request" rq) (response_kvs "Response" rs). intros l1 l2 H1 H2.
  rewrite !map_app !elem_of_app. intros [H|[H|H]]; [left; by apply H1|right; left; by apply H2|right; right].
  cbn in H. set_solver.
Qed.
Lemma client_keys rq rs send recv k : k ∈ map fst (documented_client rq rs send recv) -> http_key k.
Proof.
  unfold documented_client, http_key. pose proof (request_keys rq k) as H1. pose proof (response_keys rs k) as H2. revert H1 H2. generalize (request_kvs "Request" rq) (response_kvs "Response" rs). intros l1 l2 H1 H2.
  rewrite !map_app !elem_of_app. intros [H|[H|[H|H]]]; [right; right; cbn in H; set_solver|left; by apply H1|right; left; by apply H2|right; right].
  cbn in H. set_solver.
Qed.
Lemma http_unread f k : f ∈ ev_fields server_event ++ ev_fields client_event -> http_key k -> has_prefix (fst f) k = false.
Proof.
  intros Hf. assert (exists f', f ∈ ev_fields server_event ++ ev_fields client_event /\ fst f = f' /\
    f' ∈ ["Server.Request"; "Server.Response"; "Server.Route"; "Server.User"; "Server.Recv"; "Server.Send"; "Client.Request"; "Client.Response"; "Client.Send"; "Client.Recv"]%string) as (f' & _ & -> & Hn).
  { exists (fst f). split; [done|]. split; [done|]. cbn in Hf. rewrite !elem_of_cons elem_of_nil in Hf. destruct_or!; subst; set_solver. }
  intros [Hk|[Hk|Hk]].
  - apply has_prefix_split in Hk as [r ->]. rewrite !elem_of_cons elem_of_nil in Hn. destruct_or!; by rewrite Hn.
  - apply has_prefix_split in Hk as [r ->]. rewrite !elem_of_cons elem_of_nil in Hn. destruct_or!; by rewrite Hn.
  - rewrite !elem_of_cons !elem_of_nil in Hn Hk. destruct_or!; by subst.
Qed.
Lemma read_http et kvs anns schema : et = server_event \/ et = client_event -> sent kvs anns -> ev_schema et = schema -> ("_schema:" +:+ schema, "")%string ∈ kvs ->
  (forall k, k ∈ map fst kvs -> http_key k) -> unmarshal et anns (zero (ev_ty et)) = EDone (zero (ev_ty et)).
Proof.
  intros He Hs Hsc Hin Hk. unfold unmarshal. rewrite Hsc (sent_schema kvs) //. cbn [negb]. assert (ev_unmarshaler et = None) as -> by by destruct He as [-> | ->].
  destruct (read_nothing (ev_fields et) (map_to_kvs (string_map anns))) as [kv' Hr].
  - destruct He as [-> | ->]; apply (bool_decide_unpack _); reflexivity.
  - destruct He as [-> | ->]; by repeat constructor.
  - apply ssorted_is_sorted, kvs_sorted.
  - intros f [k s] Hf Hks%kvs_elem. cbn [fst]. destruct (string_map_key _ _ _ Hks) as (a & Ha & <-). apply http_unread; [|by apply Hk, (sent_keys kvs anns)].
    rewrite elem_of_app. destruct He as [-> | ->]; [by left|by right].
  - unfold ev_ty. by rewrite Hr.
Qed.
(** C142 is false of HTTP events: whatever is sent as documented, the Go program reads an HTTP event without any information. *)
Theorem C142_refuted : forall rq rs anns,
  (forall route user recv send, sent (documented_server rq rs route user recv send) anns -> unmarshal server_event anns (zero (ev_ty server_event)) = EDone (zero (ev_ty server_event))) /\
  (forall send recv, sent (documented_client rq rs send recv) anns -> unmarshal client_event anns (zero (ev_ty client_event)) = EDone (zero (ev_ty client_event))).
Proof.
  intros rq rs anns. split.
  - intros route user recv send Hs. apply (read_http server_event _ anns "HTTPServer" ltac:(by left) Hs); [done| |].
    + unfold documented_server. rewrite !elem_of_app. right. right. set_solver.
    + intros k. apply server_keys.
  - intros send recv Hs. apply (read_http client_event _ anns "HTTPClient" ltac:(by right) Hs); [done| |].
    + unfold documented_client. rewrite !elem_of_app. right. right. right. set_solver.
    + intros k. apply client_keys.
Qed.
Print Assumptions C142_refuted.
Example C142_refuted_nonvacuous : let rq := Req "GET" "/endpoint-A" "HTTP/1.1" [("Accept-Encoding", "gzip")]%string "localhost:8699" "127.0.0.1:35741" 0 in
  let rs := Resp [] 23 200 in exists anns, sent (documented_client rq rs time_zero time_zero) anns /\ Ann "Request.Method" (Some "GET"%string) ∈ anns.
Proof. eexists. split; [apply Permutation_refl|]. cbn. set_solver. Qed.
