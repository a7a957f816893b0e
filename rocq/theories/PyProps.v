(** The Python client: C88-C93. *)
From Verif Require Import Base StrOrder IdModel IdSpec IdProofs WireModel WireSpec WireProofs WireProps TimeModel TimeProofs ReflModel ReflSpec ReflProofs ReflProofs2 ReflProofs3 EventModel EventProofs PyModel PySpec.
From Coq Require Import ssreflect ZifyBool ZifyNat ZifyN.
From stdpp Require Import sorting.
Local Open Scope N_scope.
Local Open Scope general_if_scope.

(** ** Span IDs *)

Lemma py_hex_numeral v : hex_numeral (py_hex v) v /\ ~ In "/"%char (Base.bytes (py_hex v)).
Proof.
  unfold py_hex. destruct (hex_loop_fuel (S (N.size_nat v)) v []) as (ds & -> & Hall & Hval & Hne & _); [lia|].
  rewrite app_nil_r. cbv zeta. set (h := map hex_digit ds).
  assert (pad_left (length h + length h mod 2) h = map hex_digit (replicate (length h mod 2) 0 ++ ds)) as ->.
  { unfold pad_left. rewrite map_app. f_equal. assert (forall n, map hex_digit (replicate n 0) = replicate n "0"%char) as -> by (intros n; induction n as [|n IH]; [done|]; cbn; by rewrite IH). f_equal. lia. }
  set (es := replicate _ 0 ++ ds). assert (Forall (fun d => d < 16) es) as Hes.
  { apply Forall_app. split; [|done]. apply Forall_replicate. lia. }
  assert (digits_val es = v) as Hv. { unfold es. rewrite digits_val_app digits_val_zeros. lia. }
  assert (es <> []) as Hn. { unfold es. by intros [_ ?]%app_eq_nil. }
  clearbody es. clear -Hes Hv Hn. split.
  - apply hex_numeral_digits. rewrite bytes_unbytes. split; [by destruct es|]. exists es. split; [|done]. clear Hv Hn.
    induction Hes as [|d es Hd Hes IH]; cbn; constructor; [by apply hex_digit_value_hex|done].
  - rewrite bytes_unbytes. intros (d & Hd & Hin)%in_map_iff. rewrite Forall_forall in Hes. apply elem_of_list_In, Hes, hex_digit_lower in Hin.
    rewrite Hd in Hin. vm_compute in Hin. intuition discriminate.
Qed.

(** C88: the text of a span ID reads back as that span ID in the Go program. *)
Theorem C88_text : forall s, is_id (sp_trace s) -> is_id (sp_span s) -> is_id (sp_parent s) -> parse_spanid (py_spanid s) = Some s.
Proof.
  intros s Ht Hs Hp. apply parse_spanid_spec. split; [done|]. split; [done|]. split; [done|].
  destruct (py_hex_numeral (sp_trace s)) as [A1 A2], (py_hex_numeral (sp_span s)) as [B1 B2], (py_hex_numeral (sp_parent s)) as [C1 C2].
  unfold span_parse_ok, py_spanid. destruct (N.eqb_spec (sp_parent s) 0) as [E|E].
  - left. exists (py_hex (sp_trace s)), (py_hex (sp_span s)). split; [|done]. by repeat constructor.
  - right. exists (py_hex (sp_trace s)), (py_hex (sp_span s)), (py_hex (sp_parent s)). split; [|done]. by repeat constructor.
Qed.
Print Assumptions C88_text.
Example C88_nonvacuous : py_spanid (MkSpanID 10 (two64 - 1) 256) = "0a/ffffffffffffffff/0100"%string.
Proof. reflexivity. Qed.

(** ** The socket collector *)

Lemma py_msg_frame c : py_msg (py_collect c) = call_frame (as_call c).
Proof.
  assert (py_collect c = new_packet (fst (as_call c)) (snd (as_call c))) as E by (unfold py_collect, new_packet, as_call, span_wire; cbn [fst snd]; rewrite map_map; reflexivity).
  unfold py_msg, call_frame, frame. rewrite E. reflexivity.
Qed.
Lemma py_send_spec results : forall buf, (snd (py_send buf results) = true /\ fst (py_send buf results) = buf) \/
  (snd (py_send buf results) = false /\ exists n, (n < length buf)%nat /\ fst (py_send buf results) = take n buf).
Proof.
  induction results as [|[[|n]|] results IH]; intros [|b buf].
  - by left.
  - right. split; [done|]. exists 0%nat. cbn. split; [lia|done].
  - by left.
  - right. split; [done|]. exists 0%nat. cbn. split; [lia|done].
  - by left.
  - cbn [py_send fst snd]. destruct (IH (drop (S n) (b :: buf))) as [[-> ->]|[-> (m & Hm & ->)]].
    + left. by rewrite take_drop.
    + right. split; [done|]. rewrite drop_length in Hm. exists (S n + m)%nat. split; [lia|]. by rewrite take_take_drop.
  - by left.
  - right. split; [done|]. exists 0%nat. cbn. split; [lia|done].
Qed.
Lemma session_app l1 l2 : py_session (l1 ++ l2) = (fst (py_session l1) ++ fst (py_session l2), snd (py_session l1) ++ snd (py_session l2)).
Proof. induction l1 as [|[c r] l1 IH]; [cbn; apply surjective_pairing|]. cbn [py_session app]. rewrite IH. cbn [fst snd]. rewrite app_assoc. reflexivity. Qed.
Lemma session_length l : length (snd (py_session l)) = length l.
Proof. induction l as [|[c r] l IH]; [done|]. cbn. by rewrite IH. Qed.
Lemma session_ok l : Forall (fun b => b = true) (snd (py_session l)) -> fst (py_session l) = stream (map (fun e => as_call (fst e)) l).
Proof.
  induction l as [|[c r] l IH]; [done|]. cbn [py_session map fst snd]. intros [H1 H2]%Forall_cons. rewrite IH; [done|]. unfold stream. cbn [flat_map]. f_equal.
  rewrite py_msg_frame in H1 |- *. destruct (py_send_spec r (call_frame (as_call c))) as [[_ ->]|[E _]]; [done|]. congruence.
Qed.
Lemma returned_app l1 l2 b1 b2 : length b1 = length l1 -> returned (l1 ++ l2) (b1 ++ b2) = returned l1 b1 ++ returned l2 b2.
Proof.
  intros H. unfold returned. revert b1 H. induction l1 as [|x l1 IH]; intros [|b b1] H; try done. cbn. injection H as H. destruct b; cbn; by rewrite IH.
Qed.
Lemma returned_all l oks : length oks = length l -> Forall (fun b => b = true) oks -> returned l oks = map fst l.
Proof.
  intros H Hf. unfold returned. revert l H. induction Hf as [|b oks -> Hf IH]; intros [|x l] H; try done. cbn. injection H as H. by rewrite IH.
Qed.

(** C89: a session in which no call raised an exception, except possibly the last one, is received by the
    server as exactly the calls that returned; nothing of a call that raised is. *)
Theorem C89_received_partial : forall L coll before c results bs oks, Forall valid_call (map (fun e => as_call (fst e)) (before ++ [(c, results)])) ->
  Forall fits (map (fun e => as_call (fst e)) (before ++ [(c, results)])) -> (forall h c, coll h c = true) ->
  py_session (before ++ [(c, results)]) = (bs, oks) -> Forall (fun ok => ok = true) (take (length before) oks) ->
  fst (handle_conn L coll bs) = map as_call (returned (before ++ [(c, results)]) oks).
Proof.
  intros L coll before c results bs oks Hv Hf Hc Hrun Hok. rewrite session_app in Hrun. injection Hrun as <- <-.
  rewrite -(session_length before) take_app in Hok. rewrite returned_app; [by rewrite session_length|].
  rewrite session_ok; [done|]. rewrite (returned_all before); [by rewrite session_length|done|].
  cbn [py_session fst snd]. rewrite app_nil_r py_msg_frame. rewrite !map_app in Hv, Hf |- *. cbn [map fst] in Hv, Hf.
  set (cs := map (fun e => as_call (fst e)) before) in *.
  assert (map as_call (map fst before) = cs) as -> by (unfold cs; by rewrite map_map).
  destruct (py_send_spec results (call_frame (as_call c))) as [[-> ->]|[-> (n & Hn & ->)]].
  - pose proof (C39_whole L coll (cs ++ [as_call c]) Hv Hf Hc) as E.
    assert (stream (cs ++ [as_call c]) = stream cs ++ call_frame (as_call c)) as Es by (unfold stream; rewrite flat_map_app; cbn [flat_map]; rewrite app_nil_r; reflexivity).
    rewrite Es in E. rewrite E. reflexivity.
  - destruct (C39_exactly_complete L coll (cs ++ [as_call c]) (length (stream cs) + n) Hv Hf Hc) as (c1 & c2 & E1 & E2 & E3 & E4).
    assert (stream (cs ++ [as_call c]) = stream cs ++ call_frame (as_call c)) as Es by (unfold stream; rewrite flat_map_app; cbn [flat_map]; rewrite app_nil_r; reflexivity).
    rewrite Es take_app_ge in E2; [lia|]. rewrite (_ : length (stream cs) + n - length (stream cs) = n)%nat in E2; [lia|]. rewrite E2. clear E2. destruct c2 as [|d c2 _] using rev_ind.
    + rewrite app_nil_r in E1. subst c1. rewrite Es app_length in E3. lia.
    + rewrite app_assoc in E1. apply app_inj_tail in E1 as [-> <-]. destruct c2 as [|x c2]; [rewrite app_nil_r; reflexivity || (rewrite !app_nil_r; reflexivity)|].
      exfalso. specialize (E4 x (c2 ++ [as_call c]) eq_refl). rewrite (_ : c1 ++ x :: c2 = (c1 ++ [x]) ++ c2) in E4; [by rewrite -app_assoc|].
      unfold stream in E4. rewrite (flat_map_app _ (c1 ++ [x])) app_length in E4. lia.
Qed.
Print Assumptions C89_received_partial.
Definition py_call1 : pycall := (MkSpanID 1 2 0, [("k", "v")]%string).
Definition py_call2 : pycall := (MkSpanID 1 3 2, [("Name", "x"); ("_schema:name", "")]%string).
Lemma py_calls_ok : Forall valid_call [as_call py_call1; as_call py_call2] /\ Forall fits [as_call py_call1; as_call py_call2].
Proof. split; [|repeat constructor; unfold fits; by vm_compute]. repeat constructor; try done; cbn in *; repeat (destruct H as [<-|H]); try done. Qed.
(** Bytes may be accepted in any portions; the second call raises after 5 bytes. *)
Example C89_nonvacuous : let s := py_session [(py_call1, [Some 3; Some 100]); (py_call2, [Some 5; None])]%nat in
  snd s = [true; false] /\ fst (handle_conn (MkLib true false) always (fst s)) = [as_call py_call1].
Proof. split; vm_compute; reflexivity. Qed.
(** C89 is false in general: a program that goes on after an exception (as the documentation's example
    does) loses calls that return: the rest of the stream is garbage to the server. *)
Theorem C89_refuted : exists calls bs oks c, Forall valid_call (map (fun e => as_call (fst e)) calls) /\ Forall fits (map (fun e => as_call (fst e)) calls) /\
  py_session calls = (bs, oks) /\ In c (returned calls oks) /\ forall L, ~ In (as_call c) (fst (handle_conn L always bs)).
Proof.
  exists [(py_call1, [Some 5; None]); (py_call2, [Some 1000])]%nat. eexists _, _, py_call2. split; [exact (proj1 py_calls_ok)|].
  split; [exact (proj2 py_calls_ok)|]. split; [reflexivity|]. split; [by left|]. intros [[] []]; vm_compute; intuition discriminate.
Qed.
Print Assumptions C89_refuted.

(** ** Events *)

Definition simple (t : ty) : Prop := match t with TScalar _ _ | TTime => True | _ => False end.
(** Reading one field that stands under its own name. *)
Lemma read_leaf t n x kv s v : simple t -> ssorted kv -> (n, s) ∈ kv -> parse_value t s = POk v ->
  exists r, unflat t n x kv = UOk v r /\ ssorted r /\ forall e, e ∈ kv -> slt n (fst e) = true -> e ∈ r.
Proof.
  intros Ht Hs Hin Hp. destruct (drop_until_exact n s kv Hs Hin) as (r & Hd & Hr & Hk). exists r. split; [|split; [exact (ssorted_suffix _ _ Hr Hs)|done]].
  destruct kv as [|e kv]; [by apply elem_of_nil in Hin|]. destruct t; try done; cbn [unflat]; rewrite (ssorted_is_sorted _ Hs); cbn [negb]; rewrite Hd Hp; done.
Qed.
Lemma py_in s anns : s ∈ schemas anns -> bool_decide (s ∈ schemas anns) = true.
Proof. intros. by apply bool_decide_eq_true_2. Qed.
Lemma kvs_nonempty m k s : (k, s) ∈ map_to_kvs m -> exists e l, map_to_kvs m = e :: l.
Proof. destruct (map_to_kvs m); [by intros ?%elem_of_nil|eauto]. Qed.
Lemma drop_until_all kv : drop_until "" kv = kv.
Proof. by destruct kv. Qed.
Lemma unflat_struct fs l kv : is_sorted kv = true -> kv <> [] -> unflat (TStruct fs) "" (VStruct l) kv =
  match run_fields "" (merge_sort key_le (map (fun f => (fst f, unflat (snd f))) fs)) l kv with
  | (_, _, true) => UPanic | (l, Some kv, _) => UOk (VStruct l) kv | (l, None, _) => UErr (VStruct l) end.
Proof. intros Hs Hk. destruct kv as [|[k s] kv]; [done|]. cbn [unflat]. rewrite Hs. cbn [negb]. by rewrite drop_until_all. Qed.

Definition name_le (a b : string * ty) : Prop := slt (fst a) (fst b) = true.
Lemma get_field_elem n l : n ∈ map fst l -> exists x, get_field n l = Some x.
Proof.
  intros (f & -> & Hf)%elem_of_list_fmap. unfold get_field. destruct (list_find _ l) as [[i y]|] eqn:E; [by eexists|].
  apply list_find_None in E. rewrite Forall_forall in E. by specialize (E f Hf).
Qed.
Lemma set_field_names n x l : map fst (set_field n x l) = map fst l.
Proof. induction l as [|f l IH]; [done|]. cbn. rewrite IH. destruct (String.eqb_spec (fst f) n); by subst. Qed.
Lemma run_leaves (val_of : string -> val) fs : StronglySorted name_le fs -> Forall (fun f => simple (snd f)) fs -> forall l kv, ssorted kv ->
  (forall f, f ∈ fs -> fst f <> ""%string /\ fst f ∈ map fst l /\ exists s, (fst f, s) ∈ kv /\ parse_value (snd f) s = POk (val_of (fst f))) ->
  exists kv', run_fields "" (map (fun f => (fst f, unflat (snd f))) fs) l kv = (fold_left (fun l f => set_field (fst f) (val_of (fst f)) l) fs l, Some kv', false).
Proof.
  induction 1 as [|[n t] fs Hss IH Hlt]; intros Hsim l kv Hs Hf; [by exists kv|]. inversion Hsim as [|? ? Ht Hsim']; subst. cbn [fst snd] in *.
  destruct (Hf (n, t) ltac:(left)) as (Hne & Hn & s & Hin & Hp). cbn [fst snd] in *. destruct (get_field_elem n l Hn) as [x Hx].
  destruct (read_leaf t n x kv s _ Ht Hs Hin Hp) as (r & Hr & Hsr & Hk).
  cbn [map run_fields fst snd]. rewrite Hx. cbn [nest]. rewrite Hr. cbn [fold_left fst]. apply IH; [done|done|].
  intros f Hff. destruct (Hf f ltac:(by right)) as (H1 & H2 & s' & H3 & H4). rewrite set_field_names. split; [done|]. split; [done|]. exists s'.
  split; [|done]. apply Hk; [done|]. cbn. rewrite Forall_forall in Hlt. exact (Hlt _ Hff).
Qed.
Lemma fold_set (val_of : string -> val) fs l :
  fold_left (fun l (f : string * ty) => set_field (fst f) (val_of (fst f)) l) fs l =
  map (fun g => if decide (fst g ∈ map fst fs) then (fst g, val_of (fst g)) else g) l.
Proof.
  revert l. induction fs as [|f fs IH]; intros l.
  - cbn. induction l as [|g l IHl]; [done|]. cbn. destruct (decide _) as [H|_]; [by apply elem_of_nil in H|]. by rewrite -IHl.
  - cbn [fold_left]. rewrite IH. unfold set_field. rewrite map_map. apply map_ext. intros g. cbn [map].
    destruct (String.eqb_spec (fst g) (fst f)) as [E|E]; cbn [fst].
    + destruct (decide (fst g ∈ fst f :: map fst fs)) as [_|H2]; [|exfalso; apply H2; rewrite E; left]. rewrite E. by destruct (decide _).
    + destruct (decide (fst g ∈ map fst fs)) as [H1|H1], (decide (fst g ∈ fst f :: map fst fs)) as [H2|H2]; try done.
      * exfalso. apply H2. by right.
      * apply elem_of_cons in H2 as [H2|H2]; done.
Qed.
Lemma read_flat (val_of : string -> val) fs kv : NoDup (map fst fs) -> Forall (fun f => simple (snd f)) fs -> ssorted kv -> kv <> [] ->
  (forall f, f ∈ fs -> fst f <> ""%string /\ exists s, (fst f, s) ∈ kv /\ parse_value (snd f) s = POk (val_of (fst f))) ->
  exists kv', unflat (TStruct fs) "" (zero (TStruct fs)) kv = UOk (VStruct (map (fun f => (fst f, val_of (fst f))) fs)) kv'.
Proof.
  intros Hnd Hsim Hs Hne Hf. cbn [zero]. rewrite unflat_struct; [by apply ssorted_is_sorted|done|].
  destruct (field_order unflat fs Hnd) as (fs' & -> & Hp & Hss).
  destruct (run_leaves val_of fs' Hss ltac:(by rewrite Hp) (map (fun f => (fst f, zero (snd f))) fs) kv Hs) as [kv' ->].
  { intros f Hff. rewrite Hp in Hff. destruct (Hf f Hff) as [H1 H2]. split; [done|]. split; [|done]. rewrite map_map. cbn [fst]. apply elem_of_list_fmap. by exists f. }
  exists kv'. do 2 f_equal. rewrite fold_set map_map. apply map_ext_in. intros f Hff%elem_of_list_In. cbn [fst].
  destruct (decide _) as [_|H]; [done|]. exfalso. apply H. apply elem_of_list_fmap. exists f. split; [done|]. by rewrite Hp.
Qed.

(** C90: an event recorded in Python is read by the Go program as the event of its schema with the same
    values, whatever else is recorded for the span under other keys. *)
Theorem C90_read : forall e et v anns, same_event e et v -> py_schema e ∈ schemas anns ->
  (forall k s, py_marshal e !! k = Some s -> string_map anns !! k = Some s) ->
  unmarshal et anns (zero (ev_ty et)) = EDone v.
Proof.
  intros e et v anns He Hsch Hm.
  assert (forall k s, py_marshal e !! k = Some s -> (k, s) ∈ map_to_kvs (string_map anns)) as Hkv by (intros k s Hk; apply kvs_elem; by apply Hm).
  clear Hm. pose proof (kvs_sorted (string_map anns)) as Hs. set (kv := map_to_kvs (string_map anns)) in *.
  unfold unmarshal. assert (ev_schema et = py_schema e) as -> by by destruct He.
  rewrite (py_in _ _ Hsch). cbn [negb]. assert (ev_unmarshaler et = None) as -> by by destruct He. fold kv. clearbody kv.
  assert (kv <> []) as Hne.
  { intros ->. assert (exists k s, py_marshal e !! k = Some s) as (k & s & Hk) by (destruct He; [exists "Name"%string|exists "Msg"%string|exists "Msg"%string|exists "Span.Start"%string|exists "SQL"%string]; eexists; reflexivity).
    apply Hkv in Hk. by apply elem_of_nil in Hk. }
  unfold ev_ty. destruct He as [n|m|m text t Ht|ts te s e H1 H2|sql tag ts tr s r H1 H2].
  - destruct (read_flat (fun _ => VString n) (ev_fields name_event) kv) as [kv' ->]; [apply (bool_decide_unpack _); reflexivity|by repeat constructor|done|done| |done].
    intros f ->%elem_of_list_singleton. split; [done|]. exists n. split; [by apply Hkv|done].
  - destruct (read_flat (fun _ => VString m) (ev_fields msg_event) kv) as [kv' ->]; [apply (bool_decide_unpack _); reflexivity|by repeat constructor|done|done| |done].
    intros f ->%elem_of_list_singleton. split; [done|]. exists m. split; [by apply Hkv|done].
  - destruct (read_flat (fun k => if String.eqb k "Msg" then VString m else VTime t) (ev_fields log_event) kv) as [kv' ->]; [apply (bool_decide_unpack _); reflexivity|by repeat constructor|done|done| |done].
    intros f [-> | ->%elem_of_list_singleton]%elem_of_cons; (split; [done|]).
    + exists m. split; [by apply Hkv|done].
    + exists text. split; [by apply Hkv|]. cbn. by rewrite Ht.
  - destruct (read_flat (fun k => if String.eqb k "Span.Start" then VTime s else VTime e) (ev_fields Timespan_event) kv) as [kv' ->]; [apply (bool_decide_unpack _); reflexivity|by repeat constructor|done|done| |done].
    intros f [-> | ->%elem_of_list_singleton]%elem_of_cons; (split; [done|]).
    + exists ts. split; [by apply Hkv|]. cbn. by rewrite H1.
    + exists te. split; [by apply Hkv|]. cbn. by rewrite H2.
  - destruct (read_flat (fun k => if String.eqb k "SQL" then VString sql else if String.eqb k "Tag" then VString tag else if String.eqb k "ClientSend" then VTime s else VTime r) (ev_fields sql_event) kv)
      as [kv' ->]; [apply (bool_decide_unpack _); reflexivity|by repeat constructor|done|done| |done].
    intros f [->|[->|[->| ->%elem_of_list_singleton]%elem_of_cons]%elem_of_cons]%elem_of_cons; (split; [done|]).
    + exists sql. split; [by apply Hkv|done].
    + exists tag. split; [by apply Hkv|done].
    + exists ts. split; [by apply Hkv|]. cbn. by rewrite H1.
    + exists tr. split; [by apply Hkv|]. cbn. by rewrite H2.
Qed.
Print Assumptions C90_read.
Lemma marshal_anns e anns : py_marshal_event e anns -> (forall k, has_prefix schema_prefix k = true -> py_marshal e !! k = None) ->
  py_schema e ∈ schemas (as_anns anns) /\ forall k s, py_marshal e !! k = Some s -> string_map (as_anns anns) !! k = Some s.
Proof.
  intros (items & Hp & ->) Hno. split.
  - apply schemas_elem. exists (Some ""%string). unfold as_anns. rewrite map_app. apply elem_of_app. right. left.
  - intros k s Hk. apply string_map_lookup.
    + unfold as_anns. rewrite map_map. cbn [ann_key]. rewrite map_app. apply NoDup_app. split; [rewrite -Hp; apply NoDup_fst_map_to_list|].
      split; [|apply NoDup_singleton]. intros x Hx ->%elem_of_list_singleton. rewrite -Hp in Hx. apply elem_of_list_fmap in Hx as ([k' s'] & E & Hx).
      apply elem_of_map_to_list in Hx. cbn in E. subst k'. rewrite Hno in Hx; [|done]. exact (has_prefix_app schema_prefix (py_schema e)).
    + exists (Ann k (Some s)). split; [|done]. unfold as_anns. rewrite map_app. apply elem_of_app. left. rewrite -Hp. apply elem_of_list_fmap.
      exists (k, s). split; [done|]. by apply elem_of_map_to_list.
Qed.
(** In particular when it is the only event of its span; whatever the order of the dictionary. *)
Theorem C90_alone : forall e et v anns, same_event e et v -> py_marshal_event e anns -> unmarshal et (as_anns anns) (zero (ev_ty et)) = EDone v.
Proof.
  intros e et v anns He Ha. destruct (marshal_anns e anns Ha) as [H1 H2]; [|exact (C90_read e et v _ He H1 H2)].
  intros k Hk. destruct (py_marshal e !! k) as [s|] eqn:E; [|done]. exfalso.
  destruct He; cbn [py_marshal] in E; repeat (apply lookup_insert_Some in E as [[<- _]|[_ E]]; [done|]); apply lookup_singleton_Some in E as [<- _]; done.
Qed.
Print Assumptions C90_alone.
Example C90_nonvacuous : exists v, same_event (PySQL "SELECT 1" "" "2015-04-01T12:00:00Z" "2015-04-01T12:00:01.500000Z") sql_event v.
Proof. eexists. apply same_sql; vm_compute; reflexivity. Qed.

(** ** HTTP events *)

Definition not_map (t : ty) : Prop := match t with TMap _ => False | _ => True end.
Lemma unflat_unread t n x kv : not_map t -> is_sorted kv = true -> (forall e, e ∈ kv -> has_prefix n (fst e) = false) -> unflat t n x kv = UOk x [].
Proof.
  intros Ht Hs Hn. assert (drop_until n kv = []) as Hd.
  { clear Hs. induction kv as [|e kv IH]; [done|]. cbn. rewrite Hn; [left|]. apply IH. intros. apply Hn. by right. }
  destruct kv as [|e kv]; [by destruct t|]. destruct t; try done; cbn [unflat]; rewrite Hs; cbn [negb]; by rewrite Hd.
Qed.
Lemma set_get n l x : NoDup (map fst l) -> get_field n l = Some x -> set_field n x l = l.
Proof.
  intros Hnd. unfold get_field. destruct (list_find _ l) as [[i f]|] eqn:E; [|done]. intros [= <-]. apply list_find_Some in E as (Hi & <- & _).
  unfold set_field. apply elem_of_list_lookup_2 in Hi. induction l as [|g l IH]; [done|]. cbn. apply NoDup_cons in Hnd as [H1 H2].
  apply elem_of_cons in Hi as [->|Hi].
  - rewrite String.eqb_refl. destruct g as [m y]. cbn [fst snd] in *. f_equal. clear -H1. induction l as [|h l IH]; [done|]. cbn. destruct (String.eqb_spec (fst h) m) as [E|E].
    + exfalso. apply H1. cbn. rewrite E. left.
    + f_equal. apply IH. intros H. apply H1. cbn. by right.
  - rewrite IH; [done|done|]. destruct (String.eqb_spec (fst g) (fst f)) as [E|E]; [|done]. exfalso. apply H1. rewrite E. apply elem_of_list_fmap. by exists f.
Qed.
Lemma run_unread fs : Forall (fun f => not_map (snd f)) fs -> forall l kv, NoDup (map fst l) -> is_sorted kv = true ->
  (forall f, f ∈ fs -> fst f ∈ map fst l /\ forall e, e ∈ kv -> has_prefix (fst f) (fst e) = false) ->
  exists kv', run_fields "" (map (fun f => (fst f, unflat (snd f))) fs) l kv = (l, Some kv', false).
Proof.
  induction 1 as [|[n t] fs Ht Hfs IH]; intros l kv Hnd Hs Hf; [by exists kv|]. destruct (Hf (n, t) ltac:(left)) as [H1 H2]. cbn [fst snd] in *.
  destruct (get_field_elem n l H1) as [x Hx]. cbn [map run_fields fst snd]. rewrite Hx. cbn [nest]. rewrite (unflat_unread t n x kv Ht Hs H2).
  rewrite (set_get n l x Hnd Hx). apply IH; [done|done|]. intros f Hff. split; [by apply Hf; right|]. by intros e He%elem_of_nil.
Qed.
Lemma read_nothing fs kv : NoDup (map fst fs) -> Forall (fun f => not_map (snd f)) fs -> is_sorted kv = true ->
  (forall f e, f ∈ fs -> e ∈ kv -> has_prefix (fst f) (fst e) = false) ->
  exists kv', unflat (TStruct fs) "" (zero (TStruct fs)) kv = UOk (zero (TStruct fs)) kv'.
Proof.
  intros Hnd Hm Hs Hf. destruct (decide (kv = [])) as [->|Hne]; [by exists []|]. cbn [zero]. rewrite unflat_struct; [done|done|].
  destruct (field_order unflat fs Hnd) as (fs' & -> & Hp & _).
  destruct (run_unread fs' ltac:(by rewrite Hp) (map (fun f => (fst f, zero (snd f))) fs) kv) as [kv' ->]; [by rewrite map_map|done| |by exists kv'].
  intros f Hff. rewrite Hp in Hff. split; [rewrite map_map; apply elem_of_list_fmap; by exists f|]. intros e. by apply Hf.
Qed.
Lemma string_map_key anns k s : string_map anns !! k = Some s -> exists a, a ∈ anns /\ ann_key a = k.
Proof.
  induction anns as [|a anns IH] using rev_ind; [done|]. rewrite string_map_app. cbn [fold_left]. intros [[<- _]|[_ H]]%lookup_insert_Some.
  - exists a. split; [apply elem_of_app; right; left|done].
  - destruct (IH H) as (b & Hb & Hk). exists b. split; [apply elem_of_app; by left|done].
Qed.
Lemma flatten_keys info into k s : py_flatten info into !! k = Some s -> into !! k = Some s \/ exists k', k = py_info_key k' /\ info !! k' = Some s.
Proof.
  unfold py_flatten. assert (forall k' s', (k', s') ∈ map_to_list info -> info !! k' = Some s') as H by (intros k' s'; apply elem_of_map_to_list).
  revert into H. generalize (map_to_list info). intros l. induction l as [|[k' s'] l IH]; intros into H; [by left|]. cbn [fold_left fst snd].
  intros [Hk|Hk]%IH; [|by right|intros; apply H; by right]. apply lookup_insert_Some in Hk as [[<- <-]|[_ Hk]]; [|by left]. right. exists k'. split; [done|]. apply H. left.
Qed.
Lemma info_key_prefix k : has_prefix "Request." (py_info_key k) = true.
Proof. unfold py_info_key. destruct (String.eqb k "Headers"); [exact (has_prefix_app "Request." ("Headers." +:+ k))|exact (has_prefix_app "Request." k)]. Qed.
Lemma has_prefix_split p s : has_prefix p s = true -> exists r, s = (p +:+ r)%string.
Proof.
  revert s. induction p as [|c p IH]; intros s H; [by exists s|]. destruct s as [|d s]; [done|]. cbn in H. destruct (Ascii.eqb_spec c d) as [<-|]; [|done].
  destruct (IH s H) as [r ->]. by exists r.
Qed.

(** C91 is false: whatever HTTP event is recorded in Python, the Go program reads an HTTP event without any
    information: no route, no user, no times, no request and no response. *)
Theorem C91_refuted : forall req resp route user send recv anns,
  (py_marshal_event (PyHTTPServer req resp route user send recv) anns ->
    unmarshal server_event (as_anns anns) (zero (ev_ty server_event)) = EDone (zero (ev_ty server_event))) /\
  (py_marshal_event (PyHTTPClient req resp send recv) anns ->
    unmarshal client_event (as_anns anns) (zero (ev_ty client_event)) = EDone (zero (ev_ty client_event))).
Proof.
  assert (forall e et anns base, py_marshal_event e anns -> py_schema e = ev_schema et -> ev_unmarshaler et = None ->
    (forall k s, py_marshal e !! k = Some s -> k ∈ base \/ has_prefix "Request." k = true) ->
    forallb (fun k => negb (has_prefix schema_prefix k)) base = true ->
    forallb (fun f => match snd f with TMap _ => false | _ => forallb (fun k => negb (has_prefix (fst f) k)) ((schema_prefix +:+ ev_schema et)%string :: base) &&
      negb (has_prefix (fst f) "Request.") && negb (has_prefix "R" (fst f)) && negb (String.eqb (fst f) "") end) (ev_fields et) = true -> NoDup (map fst (ev_fields et)) ->
    unmarshal et (as_anns anns) (zero (ev_ty et)) = EDone (zero (ev_ty et))) as Hgen.
  { intros e et anns base Ha Hsch Hu Hk Hb Hf Hnd. rewrite forallb_forall in Hb. rewrite forallb_forall in Hf.
    destruct (marshal_anns e anns Ha) as [H1 H2].
    { intros k Hp. destruct (py_marshal e !! k) as [s|] eqn:E; [|done]. exfalso. apply Hk in E as [E|E].
      - apply elem_of_list_In, Hb in E. by rewrite Hp in E.
      - apply has_prefix_split in E as [r ->]. done. }
    unfold unmarshal. rewrite -Hsch (py_in _ _ H1) Hu. cbn [negb].
    destruct (read_nothing (ev_fields et) (map_to_kvs (string_map (as_anns anns))) Hnd) as [kv' Hr].
    - apply Forall_forall. intros f Hff%elem_of_list_In%Hf. by destruct (snd f).
    - apply ssorted_is_sorted, kvs_sorted.
    - intros f [k s] Hff%elem_of_list_In%Hf He. apply kvs_elem in He.
      assert (match snd f with TMap _ => false | _ => true end = true) as Hm by by destruct (snd f).
      assert (forallb (fun k => negb (has_prefix (fst f) k)) ((schema_prefix +:+ ev_schema et)%string :: base) &&
        negb (has_prefix (fst f) "Request.") && negb (has_prefix "R" (fst f)) && negb (String.eqb (fst f) "") = true) as Hall by by destruct (snd f).
      apply andb_prop in Hall as [Hall Hall4]. apply andb_prop in Hall as [Hall Hall3]. apply andb_prop in Hall as [Hall1 Hall2].
      rewrite forallb_forall in Hall1. cbn [fst].
      assert (exists a, a ∈ as_anns anns /\ ann_key a = k) as (a & Ha1 & <-).
      { exact (string_map_key _ _ _ He). }
      unfold as_anns in Ha1. apply elem_of_list_fmap in Ha1 as ([k' s'] & -> & Hin). cbn [ann_key fst] in *.
      destruct Ha as (items & Hp & ->). apply elem_of_app in Hin as [Hin|[= -> ->]%elem_of_list_singleton].
      + rewrite -Hp in Hin. apply elem_of_map_to_list, Hk in Hin as [Hin|Hin].
        * specialize (Hall1 k'). rewrite negb_true_iff in Hall1. apply Hall1. right. by apply elem_of_list_In.
        * apply has_prefix_split in Hin as [r ->]. destruct (fst f) as [|c n]; [done|].
          cbn in Hall3 |- *. destruct (Ascii.eqb_spec c "R"); [|done]. subst. done.
      + rewrite Hsch. specialize (Hall1 (schema_prefix +:+ ev_schema et)%string). rewrite negb_true_iff in Hall1. apply Hall1. by left.
    - unfold ev_ty. by rewrite Hr. }
  intros req resp route user send recv anns. split; intros Ha.
  - apply (Hgen _ _ _ ["Route"; "User"; "ServerRecv"; "ServerSend"]%string Ha); try done; [|apply (bool_decide_unpack _); reflexivity].
    intros k s Hk. cbn [py_marshal] in Hk. apply flatten_keys in Hk as [Hk|(k' & -> & _)]; [|right; apply info_key_prefix].
    apply flatten_keys in Hk as [Hk|(k' & -> & _)]; [|right; apply info_key_prefix]. left.
    repeat (apply lookup_insert_Some in Hk as [[<- _]|[_ Hk]]; [set_solver|]); apply lookup_singleton_Some in Hk as [<- _]; set_solver.
  - apply (Hgen _ _ _ ["ServerRecv"; "ServerSend"]%string Ha); try done; [|apply (bool_decide_unpack _); reflexivity].
    intros k s Hk. cbn [py_marshal] in Hk. apply flatten_keys in Hk as [Hk|(k' & -> & _)]; [|right; apply info_key_prefix].
    apply flatten_keys in Hk as [Hk|(k' & -> & _)]; [|right; apply info_key_prefix]. left.
    repeat (apply lookup_insert_Some in Hk as [[<- _]|[_ Hk]]; [set_solver|]); apply lookup_singleton_Some in Hk as [<- _]; set_solver.
Qed.
Print Assumptions C91_refuted.
Example C91_nonvacuous : exists anns, py_marshal_event (PyHTTPServer {["Method" := "GET"]} {["ContentLength" := "28"]} "/b" "u" "s" "r") anns.
Proof. eexists _, _. done. Qed.
Lemma info_key_inj k k' : k <> "Headers.Headers"%string -> k' <> "Headers.Headers"%string -> py_info_key k = py_info_key k' -> k = k'.
Proof.
  intros N1 N2. unfold py_info_key. destruct (String.eqb_spec k "Headers") as [->|H1], (String.eqb_spec k' "Headers") as [->|H2]; try done.
  - intros E. exfalso. change ("Request." +:+ ("Headers." +:+ "Headers") = "Request." +:+ k')%string in E. injection E as E. congruence.
  - intros E. exfalso. change ("Request." +:+ k = "Request." +:+ ("Headers." +:+ "Headers"))%string in E. injection E as E. congruence.
  - by intros [= ->].
Qed.
Lemma flatten_lookup info into k v : info !! k = Some v -> info !! "Headers.Headers"%string = None -> py_flatten info into !! py_info_key k = Some v.
Proof.
  intros Hk Hh. unfold py_flatten.
  assert (forall k' s', (k', s') ∈ map_to_list info -> info !! k' = Some s') as H by (intros k' s'; apply elem_of_map_to_list).
  apply elem_of_map_to_list in Hk. revert H Hk. generalize (map_to_list info). intros l. revert into.
  induction l as [|[k' s'] l IH] using rev_ind; intros into H Hk; [by apply elem_of_nil in Hk|]. rewrite fold_left_app. cbn [fold_left fst snd].
  destruct (decide (k' = k)) as [->|E].
  - rewrite lookup_insert. f_equal. assert (info !! k = Some s') as H1 by (apply H, elem_of_app; right; left). assert (info !! k = Some v) as H2 by (by apply H). congruence.
  - rewrite lookup_insert_ne.
    + intros Ek. apply E, info_key_inj; [| |done].
      * intros ->. assert (info !! "Headers.Headers"%string = Some s') as H1 by (apply H, elem_of_app; right; left). congruence.
      * intros ->. apply H in Hk. congruence.
    + apply IH; [intros; apply H, elem_of_app; by left|]. apply elem_of_app in Hk as [Hk|[= -> ->]%elem_of_list_singleton]; [done|congruence].
Qed.
(** Nor would different names help: what the request and the response both have (a method, headers, a
    length) is recorded for the response only. *)
Theorem C91_overwritten_refuted : forall req resp route user send recv k v, resp !! k = Some v -> resp !! "Headers.Headers"%string = None ->
  exists key, py_marshal (PyHTTPServer req resp route user send recv) !! key = Some v /\
    py_marshal (PyHTTPServer (<[k := "another"%string]> req) resp route user send recv) !! key = Some v /\
    forall w, py_marshal (PyHTTPServer (<[k := w]> req) ∅ route user send recv) !! key = Some w \/ (<[k := w]> req) !! "Headers.Headers"%string <> None.
Proof.
  intros req resp route user send recv k v Hk Hh. exists (py_info_key k). cbn [py_marshal]. split; [by apply flatten_lookup|]. split; [by apply flatten_lookup|].
  intros w. destruct (<[k:=w]> req !! "Headers.Headers"%string) eqn:E; [by right|]. left. unfold py_flatten at 1. rewrite map_to_list_empty. cbn [fold_left].
  apply flatten_lookup; [by rewrite lookup_insert|done].
Qed.
Print Assumptions C91_overwritten_refuted.
Example C91_overwritten_nonvacuous : py_marshal (PyHTTPServer {["ContentLength" := "7"]} {["ContentLength" := "28"]} "" "" "" "") !! "Request.ContentLength"%string = Some "28"%string.
Proof. reflexivity. Qed.

(** C91 (proved part): an HTTP event is recorded in Python with its route, user and times, and with every entry of the
    response's information and every entry of the request's that the response's does not have (no entry is named "Headers.Headers",
    which has the key of "Headers").  The values are there; only the keys are not those that the Go program reads. *)
Definition entry_key (n k : string) : Prop := n = "Headers"%string /\ k = "Request.Headers.Headers"%string \/ n <> "Headers"%string /\ k = ("Request." +:+ n)%string.
Definition from_info (req resp : gmap string string) (k v : string) : Prop :=
  exists n, entry_key n k /\ (resp !! n = Some v \/ resp !! n = None /\ req !! n = Some v).
Lemma entry_key_is n k : entry_key n k <-> k = py_info_key n.
Proof. unfold entry_key, py_info_key. destruct (String.eqb_spec n "Headers") as [->|E]; naive_solver. Qed.
Lemma flatten_iff info into k v : info !! "Headers.Headers"%string = None ->
  py_flatten info into !! k = Some v <-> (exists n, k = py_info_key n /\ info !! n = Some v) \/ (into !! k = Some v /\ forall n, k = py_info_key n -> info !! n = None).
Proof.
  intros Hh. split.
  - intros H. destruct (flatten_keys _ _ _ _ H) as [Hi|(n & -> & Hn)]; [|left; by exists n].
    destruct (decide (Exists (fun n => py_info_key n = k) (map fst (map_to_list info)))) as [(n & Hn%elem_of_list_In & <-)%Exists_exists|Hno].
    + apply in_map_iff in Hn as ([n' w] & <- & Hn%elem_of_list_In%elem_of_map_to_list). cbn [fst] in *. rewrite (flatten_lookup info into n' w Hn Hh) in H. injection H as <-. left. by exists n'.
    + right. split; [done|]. intros n ->. destruct (info !! n) as [w|] eqn:En; [|done]. exfalso. apply Hno, Exists_exists. exists n. split; [|done].
      apply elem_of_list_In, in_map_iff. exists (n, w). split; [done|]. by apply elem_of_list_In, elem_of_map_to_list.
  - intros [(n & -> & Hn)|[Hi Hn]]; [by apply flatten_lookup|]. unfold py_flatten.
    assert (forall k' s', (k', s') ∈ map_to_list info -> k <> py_info_key k') as H.
    { intros k' s' Hin%elem_of_map_to_list E. rewrite (Hn k' E) in Hin. done. }
    revert into Hi H. generalize (map_to_list info). intros l. induction l as [|[k' s'] l IH]; intros into Hi H; [done|]. cbn [fold_left fst snd]. apply IH; [|intros k'' s'' Hin; apply (H k'' s''); by right].
    rewrite lookup_insert_ne; [|done]. intros E. apply (H k' s'); [left|done].
Qed.
Lemma flatten_both req resp into k v : req !! "Headers.Headers"%string = None -> resp !! "Headers.Headers"%string = None ->
  (forall n, into !! py_info_key n = None) ->
  py_flatten resp (py_flatten req into) !! k = Some v <-> into !! k = Some v \/ from_info req resp k v.
Proof.
  intros Hq Hr Hi. assert (forall n m, is_Some (req !! n) \/ is_Some (resp !! n) -> is_Some (req !! m) \/ is_Some (resp !! m) -> py_info_key n = py_info_key m -> n = m) as Hinj.
  { intros n m Hn Hm. apply info_key_inj; intros ->; destruct Hn as [[? ?]|[? ?]], Hm as [[? ?]|[? ?]]; congruence. }
  rewrite flatten_iff // flatten_iff //. split.
  - intros [(n & -> & Hn)|[[(n & -> & Hn)|[H1 H2]] H3]].
    + right. exists n. split; [by apply entry_key_is|by left].
    + right. exists n. split; [by apply entry_key_is|right; split; [by apply H3|done]].
    + by left.
  - intros [H|(n & ->%entry_key_is & [Hn|[H1 H2]])].
    + right. split; [right; split; [done|]|]; intros n ->; by rewrite Hi in H.
    + left. by exists n.
    + right. split; [left; by exists n|]. intros m E. destruct (resp !! m) as [w|] eqn:Em; [|done]. assert (n = m) as ->; [|congruence]. apply Hinj; [left; by eexists|right; by eexists|done].
Qed.
Lemma info_key_not k n : has_prefix "Request." k = false -> k <> py_info_key n.
Proof. intros H ->. by rewrite info_key_prefix in H. Qed.
Theorem C91_partial : forall req resp route user send recv anns, req !! "Headers.Headers"%string = None -> resp !! "Headers.Headers"%string = None ->
  (py_marshal_event (PyHTTPServer req resp route user send recv) anns -> exists items, anns = items ++ [("_schema:HTTPServer", "")]%string /\ NoDup (map fst items) /\
    forall k v, (k, v) ∈ items <-> (k, v) ∈ [("Route", route); ("User", user); ("ServerSend", send); ("ServerRecv", recv)]%string \/ from_info req resp k v) /\
  (py_marshal_event (PyHTTPClient req resp send recv) anns -> exists items, anns = items ++ [("_schema:HTTPClient", "")]%string /\ NoDup (map fst items) /\
    forall k v, (k, v) ∈ items <-> (k, v) ∈ [("ServerSend", send); ("ServerRecv", recv)]%string \/ from_info req resp k v).
Proof.
  intros req resp route user send recv anns Hq Hr.
  assert (forall (base : list (string * string)) (into m : gmap string string) items, into = list_to_map base -> NoDup (map fst base) -> Forall (fun e => has_prefix "Request." (fst e) = false) base ->
    m = py_flatten resp (py_flatten req into) -> Permutation (map_to_list m) items ->
    NoDup (map fst items) /\ forall k v, (k, v) ∈ items <-> (k, v) ∈ base \/ from_info req resp k v) as H.
  { intros base into m items -> Hnd Hb -> Hp. split; [rewrite -Hp; apply NoDup_fst_map_to_list|]. intros k v. rewrite -Hp elem_of_map_to_list flatten_both //; [|by rewrite -elem_of_list_to_map].
    - intros n. apply not_elem_of_list_to_map_1. intros ([k' v'] & E & Hin)%elem_of_list_fmap. rewrite Forall_forall in Hb. apply Hb in Hin. cbn [fst] in *. by apply (info_key_not k' n). }
  split; intros (items & Hp & ->); exists items; (split; [done|]); (eapply H; [| | | |exact Hp]; [|by repeat (constructor; [set_solver|]); constructor|by repeat constructor| cbn [py_marshal]; reflexivity]).
  - cbn [list_to_map foldr]. by rewrite (insert_commute _ "ServerSend"%string "ServerRecv"%string).
  - cbn [list_to_map foldr]. by rewrite (insert_commute _ "ServerSend"%string "ServerRecv"%string).
Qed.
Print Assumptions C91_partial.
Example C91_partial_nonvacuous : exists anns, py_marshal_event (PyHTTPServer {["Method" := "GET"]} {["ContentLength" := "28"]} "/b" "" "s" "r") anns /\
  from_info {["Method" := "GET"]} {["ContentLength" := "28"]} "Request.Method" "GET".
Proof.
  eexists. split; [eexists; split; [done|reflexivity]|]. exists "Method"%string. split; [by right|]. right. by split.
Qed.

(** ** The recorder *)

Lemma tags_spec id tags : Forall (fun e => is_Some (snd e)) tags -> snd (py_tags id tags) = true /\
  Forall2 (fun e c => exists v, snd e = Some v /\ c = (id, [(fst e, v)])) tags (fst (py_tags id tags)).
Proof.
  induction 1 as [|[k v] tags [w Hw] H [IH1 IH2]]; [split; [done|constructor]|]. cbn in Hw. subst v. cbn. split; [done|]. constructor; [by exists w|done].
Qed.
Lemma tags_id id tags c : c ∈ fst (py_tags id tags) -> fst c = id /\ exists k v, snd c = [(k, v)] /\ (k, Some v) ∈ tags.
Proof.
  induction tags as [|[k [v|]] tags IH]; cbn; [by intros ?%elem_of_nil| |by intros ?%elem_of_nil].
  intros [->|H]%elem_of_cons; [split; [done|]; exists k, v; split; [done|left]|]. destruct (IH H) as (E & k' & v' & E' & Hin). split; [done|]. exists k', v'.
  split; [done|by right].
Qed.

Lemma marshal_some e : exists anns, py_marshal_event e anns.
Proof. eexists _, _. split; reflexivity. Qed.
(** C92: a span whose tags are strings and that has no baggage is recorded completely: record_span returns,
    and the collector got, for the span's ID, its name, its times (both readable by the Go program) and one
    annotation for each tag; nothing is recorded for a span that is not sampled. *)
Theorem C92_recorded_partial : forall sp calls ok, py_record sp calls ok ->
  (ps_sampled sp = false -> calls = [] /\ ok = true) /\
  (forall c, c ∈ calls -> fst c = MkSpanID (ps_trace sp) (ps_id sp) (match ps_parent sp with Some p => p | None => 0 end)) /\
  (ps_sampled sp = true -> ps_baggage sp = None \/ ps_baggage sp = Some ∅ -> (forall m k, ps_tags sp = Some m -> m !! k <> Some None) ->
    ok = true /\ exists name times tags, map snd calls = name :: times :: tags /\
      unmarshal name_event (as_anns name) (zero (ev_ty name_event)) = EDone (VStruct [("Name", VString (ps_name sp))]) /\
      (forall s e, parse_time (ps_start sp) = Some s -> parse_time (ps_end sp) = Some e ->
        unmarshal Timespan_event (as_anns times) (zero (ev_ty Timespan_event)) = EDone (VStruct [("Span.Start", VTime s); ("Span.End", VTime e)])) /\
      (forall k v, [(k, v)] ∈ tags <-> exists m, ps_tags sp = Some m /\ m !! k = Some (Some v)) /\
      length tags = match ps_tags sp with Some m => size m | None => 0%nat end).
Proof.
  intros sp calls ok [Hs|name times tags baggage Hs Hn Ht Htags Hbag].
  - split; [done|]. split; [by intros c ?%elem_of_nil|]. congruence.
  - split; [congruence|]. split.
    { intros c [->|[->|Hc]%elem_of_cons]%elem_of_cons; [done|done|]. by destruct (tags_id _ _ _ Hc) as [-> _]. }
    intros _ Hb Hst. assert (baggage = []) as -> by (destruct Hb as [Hb|Hb]; rewrite Hb in Hbag; cbn in Hbag; [done|]; rewrite map_to_list_empty in Hbag; by apply Permutation_nil in Hbag).
    assert (Forall (fun e => is_Some (snd e)) tags) as Hsome.
    { apply Forall_forall. intros [k [v|]] Hin; [by eexists|]. exfalso. destruct (ps_tags sp) as [m|]; cbn in Htags; [|subst; by apply elem_of_nil in Hin].
      rewrite -Htags in Hin. apply elem_of_map_to_list in Hin. by apply (Hst m k eq_refl). }
    destruct (tags_spec (py_span_id sp) tags Hsome) as [-> H2]. split; [done|]. eexists name, times, _. split; [reflexivity|].
    split; [exact (C90_alone _ _ _ _ (same_name _) Hn)|]. split; [intros s e H3 H4; exact (C90_alone _ _ _ _ (same_timespan _ _ _ _ H3 H4) Ht)|].
    assert (forall k v, [(k, v)] ∈ map snd (fst (py_tags (py_span_id sp) tags)) <-> (k, Some v) ∈ tags) as Hin.
    { intros k v. clear -H2. induction H2 as [|[k' v'] c tags cs (w & E1 & E2) H2 IH]; [split; by intros ?%elem_of_nil|]. cbn [map]. cbn in E1. subst v' c. cbn [snd fst].
      rewrite !elem_of_cons IH. split; intros [[= -> ->]|H]; auto. }
    split.
    + intros k v. rewrite Hin. destruct (ps_tags sp) as [m|]; cbn in Htags.
      * rewrite -Htags elem_of_map_to_list. split; [by exists m|]. intros (m' & [= <-] & H). done.
      * subst tags. split; [by intros ?%elem_of_nil|by intros (m & ? & _)].
    + rewrite map_length -(Forall2_length _ _ _ H2). destruct (ps_tags sp) as [m|]; cbn in Htags; [|by subst].
      by rewrite -Htags.
Qed.
Print Assumptions C92_recorded_partial.
Definition py_example : py_span := MkPySpan true 1 2 (Some 3) "op" "2015-04-01T12:00:00Z" "2015-04-01T12:00:01Z" (Some {["k" := Some "v"%string]}) None.
Example C92_nonvacuous : exists calls ok, py_record py_example calls ok /\ length calls = 3%nat.
Proof.
  destruct (marshal_some (PyName (ps_name py_example))) as [name Hn], (marshal_some (PyTimespan (ps_start py_example) (ps_end py_example))) as [times Ht].
  eexists _, _. split; [exact (py_record_sampled py_example name times [("k", Some "v")]%string [] eq_refl Hn Ht (Permutation_refl _) eq_refl)|reflexivity].
Qed.

(** C92 is false in general: for every sampled span with baggage record_span raises, and none of the
    baggage reaches the collector. *)
Theorem C92_refuted : forall sp calls ok m, py_record sp calls ok -> ps_sampled sp = true -> ps_baggage sp = Some m -> m <> ∅ ->
  ok = false /\ forall c k v, c ∈ calls -> (k, v) ∈ snd c -> k = "Name"%string \/ k = "Span.Start"%string \/ k = "Span.End"%string \/ k = "_schema:name"%string \/ k = "_schema:Timespan"%string \/
    exists t, ps_tags sp = Some t /\ t !! k = Some (Some v).
Proof.
  intros sp calls ok m [?|name times tags baggage Hs Hn Ht Htags Hbag] Hs' Hb Hm; [congruence|]. rewrite Hb in Hbag. cbn in Hbag.
  assert (py_baggage baggage = false) as ->.
  { destruct baggage; [|done]. exfalso. apply Hm, map_to_list_empty_iff. symmetry in Hbag. by apply Permutation_nil in Hbag. }
  rewrite andb_false_r. split; [done|]. intros c k v [->|[->|Hc]%elem_of_cons]%elem_of_cons Hin; cbn [snd] in *.
  - destruct Hn as (items & Hp & ->). apply elem_of_app in Hin as [Hin|[= -> ->]%elem_of_list_singleton]; [|tauto].
    rewrite -Hp in Hin. apply elem_of_map_to_list in Hin. cbn [py_marshal] in Hin. apply lookup_singleton_Some in Hin as [<- _]. tauto.
  - destruct Ht as (items & Hp & ->). apply elem_of_app in Hin as [Hin|[= -> ->]%elem_of_list_singleton]; [|tauto].
    rewrite -Hp in Hin. apply elem_of_map_to_list in Hin. cbn [py_marshal] in Hin. apply lookup_insert_Some in Hin as [[<- _]|[_ Hin]]; [tauto|]. apply lookup_singleton_Some in Hin as [<- _]. tauto.
  - destruct (tags_id _ _ _ Hc) as (_ & k' & v' & E & Hin'). rewrite E in Hin. apply elem_of_list_singleton in Hin as [= -> ->]. do 5 right.
    destruct (ps_tags sp) as [t|]; cbn in Htags; [|subst; by apply elem_of_nil in Hin']. exists t. split; [done|]. rewrite -Htags in Hin'. by apply elem_of_map_to_list in Hin'.
Qed.
Print Assumptions C92_refuted.
Example C92_refuted_nonvacuous : let sp := MkPySpan true 1 2 None "op" "" "" None (Some {["user" := "u"%string]}) in exists calls, py_record sp calls false.
Proof.
  cbv zeta. set (sp := MkPySpan _ _ _ _ _ _ _ _ _). destruct (marshal_some (PyName (ps_name sp))) as [name Hn], (marshal_some (PyTimespan (ps_start sp) (ps_end sp))) as [times Ht].
  eexists. exact (py_record_sampled sp name times [] [("user", "u")]%string eq_refl Hn Ht eq_refl (Permutation_refl _)).
Qed.

(** ** The Twisted collector *)

Definition only (f conn : nat) (o : tw_op) : Prop :=
  match o with TCollect g _ => g = f | TConnect g c => g = f /\ c = conn | TLost _ => False | TFlush g => g = f end.
(** C93: as long as a program has one factory whose connection is never lost, whatever it collects is written
    once, in order, except for what the next flush will write. *)
Theorem C93_once_partial : forall f conn ops, Forall (only f conn) ops ->
  exists sent, default [] (tw_wire (tw_run ops) !! conn) = sent /\ (forall c, c <> conn -> tw_wire (tw_run ops) !! c = None) /\
    sent ++ tw_pending (tw_run ops) f = collected_by f ops /\
    default [] (tw_wire (tw_run (ops ++ [TConnect f conn; TFlush f])) !! conn) = collected_by f ops.
Proof.
  intros f conn ops Hops.
  assert (default [] (tw_wire (tw_run ops) !! conn) ++ tw_pending (tw_run ops) f = collected_by f ops /\ (forall c, c <> conn -> tw_wire (tw_run ops) !! c = None) /\
    (forall r, tw_remote (tw_run ops) !! f = Some r -> r = (conn, true))) as (H1 & H2 & H3).
  { induction ops as [|o ops IH] using rev_ind; [done|]. apply Forall_app in Hops as [Hops Ho]. apply Forall_cons in Ho as [Ho _].
    destruct (IH Hops) as (H1 & H2 & H3). clear IH. unfold tw_run, collected_by in *. rewrite fold_left_app flat_map_app. cbn [fold_left flat_map].
    rewrite app_nil_r -H1. set (s := fold_left tw_step ops tw_init) in *. clearbody s. clear H1.
    destruct o as [g c|g c|g|g]; cbn [only] in Ho.
    - subst g. rewrite Nat.eqb_refl. unfold tw_step, tw_pending. destruct (tw_own s !! f) as [l|] eqn:E; cbn.
      + rewrite lookup_insert. by rewrite app_assoc.
      + rewrite E. by rewrite app_assoc.
    - destruct Ho as [-> ->]. cbn. rewrite app_nil_r. split; [done|]. split; [done|]. intros r. rewrite lookup_insert. by intros [= <-].
    - done.
    - subst g. rewrite app_nil_r. unfold tw_step. destruct (tw_pending s f) as [|p l] eqn:E; [by rewrite E|].
      destruct (tw_remote s !! f) as [[c up]|] eqn:Er; [|rewrite E; split; [done|]; split; [done|]; intros r; congruence]. specialize (H3 _ eq_refl). injection H3 as -> ->.
      unfold tw_pending. cbn. rewrite !lookup_insert. cbn. rewrite app_nil_r. split; [done|]. split; [|by rewrite Er; intros r [= <-]].
      intros c Hc. rewrite lookup_insert_ne; [done|]. by apply H2. }
  exists (default [] (tw_wire (tw_run ops) !! conn)). split; [done|]. split; [done|]. split; [done|].
  unfold tw_run in *. rewrite fold_left_app. cbn [fold_left]. set (s := fold_left tw_step ops tw_init) in *. clearbody s. rewrite -H1.
  unfold tw_step at 1. unfold tw_step at 1. cbn. unfold tw_pending in *. cbn. destruct (match tw_own s !! f with Some l => l | None => tw_shared s end) as [|p l] eqn:E.
  - cbn. by rewrite app_nil_r.
  - rewrite lookup_insert. cbn. by rewrite lookup_insert.
Qed.
Print Assumptions C93_once_partial.
Example C93_nonvacuous : Forall (only 0 7) [TCollect 0 py_call1; TConnect 0 7; TFlush 0; TCollect 0 py_call2] /\
  tw_wire (tw_run [TCollect 0 py_call1; TConnect 0 7; TFlush 0; TCollect 0 py_call2]) !! 7%nat = Some [py_call1].
Proof. split; [repeat constructor|]. vm_compute. reflexivity. Qed.

(** C93 is false with two factories: what was collected for one server is also sent to the other one. *)
Theorem C93_refuted : forall c, exists ops, (forall f d, In (TCollect f d) ops -> f = 0%nat) /\ (forall conn, In (TConnect 0 conn) ops -> conn = 10%nat) /\
  tw_wire (tw_run ops) !! 10%nat = Some [c] /\ tw_wire (tw_run ops) !! 11%nat = Some [c].
Proof.
  intros c. exists [TConnect 0 10; TConnect 1 11; TCollect 0 c; TFlush 1; TFlush 0]. split; [cbn; intuition congruence|]. split; [cbn; intuition congruence|].
  split; reflexivity.
Qed.
Print Assumptions C93_refuted.
(** And a connection that is lost takes along what is collected before the next one is made. *)
Theorem C93_lost_refuted : forall c, exists before after, let ops := before ++ [TLost 0; TCollect 0 c] ++ after in
  In (TConnect 0 12) after /\ tw_pending (tw_run ops) 0 = [] /\ forall conn l, tw_wire (tw_run ops) !! conn = Some l -> ~ In c l.
Proof.
  intros c. exists [TConnect 0 10; TFlush 0], [TFlush 0; TConnect 0 12; TFlush 0]. split; [cbn; tauto|]. split; [done|]. intros conn l Hl. assert (tw_wire (tw_run ([TConnect 0 10; TFlush 0] ++ [TLost 0; TCollect 0 c] ++ [TFlush 0; TConnect 0 12; TFlush 0])) = ∅) as E by (vm_compute; reflexivity). rewrite E in Hl. by rewrite lookup_empty in Hl.
Qed.
Print Assumptions C93_lost_refuted.
