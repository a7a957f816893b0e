(** Properties C106 (exports), C107 (permalinks) and C108 (uploads). *)
From Verif Require Import Base IdModel JsonModel JsonSpec JsonProofs MemModel MemSpec MemProofs MemProofs2 MemProofs3 MemProofs4 UploadModel UploadProofs UploadProps TraceJsonModel TraceJsonProofs.
From Coq Require Import ssreflect.
Local Open Scope general_if_scope.
Local Open Scope N_scope.

Lemma utf8_char_encode x bs : utf8_char x bs -> scalar x /\ bs = encode_rune x.
Proof.
  intros H. destruct H as [a Ha|a b x Ha Hb -> Hx|a b c x Ha Hb Hc -> Hx Hs|a b c d x Ha Hb Hc Hd -> Hx]; unfold continues in *.
  - split; [split; lia|]. rewrite /encode_rune. destruct (N.ltb_spec (N_of_ascii a) 128); [|lia]. by rewrite (ascii_bn a).
  - set (x := _ + _) in *. assert (x < 2048) by (subst x; lia). split; [split; lia|]. rewrite /encode_rune. destruct (N.ltb_spec x 128); [lia|].
    destruct (N.ltb_spec x 2048); [|lia]. subst x. repeat f_equal; symmetry; apply ascii_bn; div_lia.
  - set (x := _ + (_ - 128)) in *. assert (x < 65536) by (subst x; lia). split; [split; lia|]. rewrite /encode_rune. destruct (N.ltb_spec x 128); [lia|].
    destruct (N.ltb_spec x 2048); [lia|]. assert (surrogate x || (1114111 <? x) = false) as ->.
    { rewrite /surrogate. destruct (N.leb_spec 55296 x), (N.leb_spec x 57343), (N.ltb_spec 1114111 x); try done; lia. }
    destruct (N.ltb_spec x 65536); [|lia]. subst x. repeat f_equal; symmetry; apply ascii_bn; div_lia.
  - set (x := _ + (_ - 128)) in *. split; [split; lia|]. rewrite /encode_rune. destruct (N.ltb_spec x 128); [lia|].
    destruct (N.ltb_spec x 2048); [lia|]. assert (surrogate x || (1114111 <? x) = false) as ->.
    { rewrite /surrogate. destruct (N.leb_spec 55296 x), (N.leb_spec x 57343), (N.ltb_spec 1114111 x); try done; lia. }
    destruct (N.ltb_spec x 65536); [lia|]. subst x. repeat f_equal; symmetry; apply ascii_bn; div_lia.
Qed.
Lemma utf8_bytes_utf8 s : utf8_bytes s -> utf8 s.
Proof.
  induction 1 as [|x bs l Hx _ IH]; [by exists []|]. destruct (utf8_char_encode x bs Hx) as [H1 ->]. destruct IH as (xs & H2 & ->).
  exists (x :: xs). split; [by constructor|done].
Qed.

(** IDs are 64-bit numbers, and the keys of annotations are UTF-8. *)
Definition ids64 (t : tree) : Prop := forall n, In n (nodes t) -> is_id (sp_trace (tr_id n)) /\ is_id (sp_span (tr_id n)) /\ is_id (sp_parent (tr_id n)).
Definition utf8_keys (t : tree) : Prop := forall n a, In n (nodes t) -> In a (tr_anns n) -> utf8_string (ann_key a).
Lemma clean_id t : utf8_keys t -> clean t = t.
Proof. intros H. apply clean_utf8. intros n a Hn Ha. apply utf8_bytes_utf8. by apply (H n a). Qed.

(** C106 (proved part): take any tree a store shows, or any subtree of it, in which every key is UTF-8, and export it by either
    way of the trace page.  The text uploaded to any store that has no such trace is accepted, and that store then shows exactly the exported
    tree: all spans, children in their order, annotations with their keys and bytes, nil values included.  (The condition on parents is that of C64.) *)
Theorem C106_partial : forall calls st t tr sub calls' st' bf j text,
  ms_run calls ms_init = Some st -> shows st t tr -> In sub (nodes tr) -> ids64 sub -> utf8_keys sub ->
  (forall n, In n (nodes sub) -> n <> sub -> sp_parent (tr_id n) <> 0 /\ sp_span (tr_id n) <> sp_parent (tr_id sub)) ->
  ms_run calls' ms_init = Some st' -> ms_trace_of st' t = None ->
  encodes sub j -> exported bf j text ->
  exists st'', serve_upload text st' = Some (st'', UOk) /\ shows st'' t sub.
Proof.
  intros calls st t tr sub calls' st' bf j text Hrun Hs Hsub Hid Hk Hcond Hrun' Hnone He Hx.
  destruct (C64_recreated_partial calls st t tr sub calls' st' [] [] Hrun Hs Hsub Hcond Hrun' Hnone) as (st'' & Hup & Hs''); [by intros ? ? []..|].
  exists st''. split; [|done]. rewrite (upload_exported bf sub j text st' He Hid Hx) (clean_id sub Hk). cbn [app] in Hup. by rewrite Hup.
Qed.
Print Assumptions C106_partial.
(** C106: whatever the keys, the text is accepted by every store. *)
Theorem C106_accepted : forall bf tr j text calls st, ids64 tr -> encodes tr j -> exported bf j text -> ms_run calls ms_init = Some st ->
  exists st', serve_upload text st = Some (st', UOk).
Proof.
  intros bf tr j text calls st Hid He Hx Hrun. rewrite (upload_exported bf tr j text st He Hid Hx).
  destruct (C64_total [clean tr] calls st Hrun) as (st' & ->). by exists st'.
Qed.
Print Assumptions C106_accepted.
Definition json_wit : tree := Tree (MkSpanID 1 2 9) [Ann "A<é" (Some "v")] [Tree (MkSpanID 1 3 2) [Ann "n" None; Ann "" (Some "")] []].
Definition json_wit_j : json :=
  JObj [(Base.bytes "ID", enc_spanid (MkSpanID 1 2 9)); (Base.bytes "Annotations", JArr [enc_ann (Ann "A<é" (Some "v"))]);
        (Base.bytes "Sub", JArr [JObj [(Base.bytes "ID", enc_spanid (MkSpanID 1 3 2)); (Base.bytes "Annotations", JArr [enc_ann (Ann "n" None); enc_ann (Ann "" (Some ""))]); (Base.bytes "Sub", JNull)]])].
Example C106_nonvacuous : encodes json_wit json_wit_j /\ ids64 json_wit /\ utf8_keys json_wit /\
  shows (final [CCollect (MkSpanID 1 3 2) [Ann "n" None; Ann "" (Some "")]; CCollect (MkSpanID 1 2 9) [Ann "A<é" (Some "v")]]) 1 json_wit /\
  (forall n, In n (nodes json_wit) -> n <> json_wit -> sp_parent (tr_id n) <> 0 /\ sp_span (tr_id n) <> sp_parent (tr_id json_wit)) /\
  unbytes (print_compact true json_wit_j) = "{""ID"":{""Trace"":""0000000000000001"",""Span"":""0000000000000002"",""Parent"":""0000000000000009""},""Annotations"":[{""Key"":""A\u003cé"",""Value"":""dg==""}],""Sub"":[{""ID"":{""Trace"":""0000000000000001"",""Span"":""0000000000000003"",""Parent"":""0000000000000002""},""Annotations"":[{""Key"":""n"",""Value"":null},{""Key"":"""",""Value"":""""}],""Sub"":null}]}"%string.
Proof.
  split_and!.
  - apply (encodes_intro _ _ _ _ _ [JObj [(Base.bytes "ID", enc_spanid (MkSpanID 1 3 2)); (Base.bytes "Annotations", JArr [enc_ann (Ann "n" None); enc_ann (Ann "" (Some ""))]); (Base.bytes "Sub", JNull)]]); [by left| |by left].
    constructor; [|constructor]. apply (encodes_intro _ _ _ _ _ []); [by left|constructor|by right].
  - intros n. cbn. intuition subst; vm_compute; done.
  - intros n a. cbn. intuition subst; cbn in *; intuition subst; cbn.
    + apply (Utf8_cons 65 ["A"%char]); [apply (Utf8_1 "A"); vm_compute; done|]. apply (Utf8_cons 60 ["<"%char]); [apply (Utf8_1 "<"); vm_compute; done|].
      apply (Utf8_cons 233 (Base.bytes "é") []); [|constructor]. apply Utf8_2; vm_compute; done.
    + apply (Utf8_cons 110 ["n"%char] []); [apply (Utf8_1 "n"); vm_compute; done|constructor].
    + constructor.
  - apply (shown_by 9). vm_compute. reflexivity.
  - cbn. intuition subst; cbn in *; congruence.
  - vm_compute. reflexivity.
Qed.
(** C106 is false of all keys: a key that is not UTF-8 comes back as another. *)
Definition bad_key : string := String "255" "".
Theorem C106_refuted : exists calls st tr j text st'' tr'',
  ms_run calls ms_init = Some st /\ shows st 1 tr /\ ids64 tr /\ encodes tr j /\ exported true j text /\
  serve_upload text ms_init = Some (st'', UOk) /\ shows st'' 1 tr'' /\ tr'' <> tr.
Proof.
  set (tr := Tree (MkSpanID 1 1 0) [Ann bad_key None] []). set (j := JObj [(Base.bytes "ID", enc_spanid (MkSpanID 1 1 0)); (Base.bytes "Annotations", JArr [enc_ann (Ann bad_key None)]); (Base.bytes "Sub", JNull)]).
  assert (encodes tr j) as He by (apply (encodes_intro _ _ _ _ _ []); [by left|constructor|by right]).
  assert (ids64 tr) as Hid by (intros n; cbn; intuition subst; vm_compute; done).
  exists [CCollect (MkSpanID 1 1 0) [Ann bad_key None]], (final [CCollect (MkSpanID 1 1 0) [Ann bad_key None]]), tr, j, (print_indented true (JArr [j])),
    (final [CCollect (MkSpanID 1 1 0) [Ann (unbytes replacement) None]]), (Tree (MkSpanID 1 1 0) [Ann (unbytes replacement) None] []).
  split; [apply final_run|]. split; [apply (shown_by 9); vm_compute; reflexivity|]. split; [done|]. split; [done|]. split; [constructor|].
  split; [rewrite (upload_exported true tr j _ ms_init He Hid); [constructor|]; reflexivity|]. split; [apply (shown_by 9); vm_compute; reflexivity|discriminate].
Qed.
Print Assumptions C106_refuted.

(** C107 (proved part): the same of permalinks, for any compression whose output can be read back to the end of the data when at most two
    of its last bytes are missing (gzip's trailer has eight). *)
Theorem C107_partial : forall gzip gunzip calls st t tr sub calls' st' bf j,
  (forall data z lost, gzip data = z ++ lost -> (length lost <= 2)%nat -> gunzip z = Some data) ->
  ms_run calls ms_init = Some st -> shows st t tr -> In sub (nodes tr) -> ids64 sub -> utf8_keys sub ->
  (forall n, In n (nodes sub) -> n <> sub -> sp_parent (tr_id n) <> 0 /\ sp_span (tr_id n) <> sp_parent (tr_id sub)) ->
  ms_run calls' ms_init = Some st' -> ms_trace_of st' t = None -> encodes sub j ->
  exists st'', open_permalink gunzip (permalink gzip bf j) st' = Some (st'', UOk) /\ shows st'' t sub.
Proof.
  intros gzip gunzip calls st t tr sub calls' st' bf j Hgz Hrun Hs Hsub Hid Hk Hcond Hrun' Hnone He.
  destruct (C64_recreated_partial calls st t tr sub calls' st' [] [] Hrun Hs Hsub Hcond Hrun' Hnone) as (st'' & Hup & Hs''); [by intros ? ? []..|].
  exists st''. split; [|done]. rewrite (upload_permalink gzip gunzip bf sub j st' Hgz He Hid) (clean_id sub Hk). cbn [app] in Hup. by rewrite Hup.
Qed.
Print Assumptions C107_partial.
(** C107: opening a permalink where the trace exists already changes nothing. *)
Theorem C107_existing : forall gzip gunzip bf tr j st l,
  (forall data z lost, gzip data = z ++ lost -> (length lost <= 2)%nat -> gunzip z = Some data) ->
  ids64 tr -> encodes tr j -> ms_trace_of st (sp_trace (tr_id tr)) = Some l ->
  open_permalink gunzip (permalink gzip bf j) st = Some (st, UOk).
Proof.
  intros gzip gunzip bf tr j st l Hgz Hid He Hl. rewrite (upload_permalink gzip gunzip bf tr j st Hgz He Hid). cbn [upload_traces].
  replace (tr_id (clean tr)) with (tr_id tr) by by destruct tr. by rewrite Hl.
Qed.
Print Assumptions C107_existing.
(** C107: a permalink is made of letters, digits, "-" and "_", so that it needs no escapes in a query. *)
Definition query_safe (c : ascii) : Prop :=
  In c (Base.bytes "ABCDEFGHIJKLMNOPQRSTUVWXYZabcdefghijklmnopqrstuvwxyz0123456789-_").
Lemma url_char n : n < 64 -> query_safe (Base64Model.b64_char Base64Model.alphabet_url n).
Proof.
  intros Hn. unfold Base64Model.b64_char, query_safe. apply (nth_In Base64Model.alphabet_url). change (length Base64Model.alphabet_url) with 64%nat. lia.
Qed.
Theorem C107_query_safe : forall gzip bf j, Forall query_safe (permalink gzip bf j).
Proof.
  intros gzip bf j. rewrite /permalink. generalize (firstn (3 * (length (gzip (print_compact bf j ++ ["010"%char])) / 3)) (gzip (print_compact bf j ++ ["010"%char]))).
  intros l. induction l as [|a|a b|a b c l IH] using Base64Proofs.list_ind3; cbn [Base64Model.b64_encode Base64Model.b64_pad app]; repeat (apply List.Forall_cons; [apply url_char|]); try apply List.Forall_nil; try exact IH.
  all: first [apply Base64Proofs.r1, N_ascii_bounded|apply Base64Proofs.r2, N_ascii_bounded|apply Base64Proofs.r2'|apply Base64Proofs.r3, N_ascii_bounded|apply Base64Proofs.r3'|apply Base64Proofs.r4].
Qed.
Print Assumptions C107_query_safe.
(** C107: but a permalink does not hold the compressed trace to its end: when its length is not a multiple of three, the last one or two bytes are missing,
    and a reader that checks gzip's trailer refuses it. *)
Theorem C107_truncated : forall gzip bf j, let z := gzip (print_compact bf j ++ ["010"%char]) in (length z mod 3 <> 0)%nat ->
  exists z', Base64Model.b64_decode Base64Model.alphabet_url false (permalink gzip bf j) = Some z' /\ z' <> z /\ exists lost, z = z' ++ lost /\ (1 <= length lost <= 2)%nat.
Proof.
  intros gzip bf j z Hm. exists (firstn (3 * (length z / 3)) z). rewrite /permalink -/z (Base64Proofs.b64_roundtrip _ Base64Proofs.alpha_url).
  pose proof (Nat.div_mod (length z) 3 ltac:(lia)). pose proof (Nat.mod_upper_bound (length z) 3 ltac:(lia)).
  split; [done|]. split.
  - intros E. apply (f_equal length) in E. rewrite firstn_length in E. lia.
  - exists (skipn (3 * (length z / 3)) z). rewrite firstn_skipn skipn_length. split; [done|lia].
Qed.
Print Assumptions C107_truncated.
(** A compression of the kind assumed: each byte marked, and eight bytes at the end. *)
Definition toy_gzip (l : text) : text := concat (map (fun c => ["1"; c]%char) l) ++ repeat "0"%char 8.
Fixpoint toy_gunzip (l : text) : option text :=
  match l with a :: c :: l => if Ascii.eqb a "1" then c' ← toy_gunzip l; Some (c :: c') else Some [] | _ => Some [] end.
Example C107_nonvacuous :
  (forall data z lost, toy_gzip data = z ++ lost -> (length lost <= 2)%nat -> toy_gunzip z = Some data) /\
  (length (toy_gzip (print_compact true json_wit_j ++ ["010"%char])) mod 3 <> 0)%nat.
Proof.
  split; [|vm_compute; discriminate]. intros data. induction data as [|c data IH]; intros z lost E Hl.
  - destruct z as [|a [|b z]].
    + apply (f_equal length) in E. cbn in E. lia.
    + apply (f_equal length) in E. cbn in E. lia.
    + change (toy_gzip []) with ("0" :: "0" :: repeat "0" 6)%char in E. injection E as <- <- _. reflexivity.
  - change (toy_gzip (c :: data)) with ("1"%char :: c :: toy_gzip data) in E. destruct z as [|a [|b z]].
    + apply (f_equal length) in E. rewrite /toy_gzip in E. cbn [length app] in E. rewrite app_length repeat_length in E. lia.
    + apply (f_equal length) in E. rewrite /toy_gzip in E. cbn [length app] in E. rewrite app_length repeat_length in E. lia.
    + injection E as <- <- E. cbn [toy_gunzip Ascii.eqb Bool.eqb]. by rewrite (IH z lost E Hl).
Qed.

(** C108: an upload that is refused leaves the store as it was. *)
Lemma collect_g_error t st st' : collect_g t st <> Some (st', UError).
Proof.
  revert st. induction t as [|id anns subs IH] using gtrace_ind'; intros st; [done|]. rewrite collect_g_unfold. destruct (ms_collect id anns st) as [st1|]; [|done]. clear st.
  revert st1. induction IH as [|s subs H _ IHs]; intros st; [done|]. cbn [gloop]. specialize (H st). destruct (collect_g s st) as [[st1 []]|]; [apply IHs|done..].
Qed.
Lemma upload_g_error ts st st' : upload_g ts st <> Some (st', UError).
Proof.
  revert st. induction ts as [|[|id anns subs] ts IH]; intros st; [done|done|].
  change (upload_g (GTrace id anns subs :: ts) st) with (match ms_trace_of st (sp_trace id) with Some _ => upload_g ts st
     | None => match collect_g (GTrace id anns subs) st with Some (st, UOk) => upload_g ts st | r => r end end).
  destruct (ms_trace_of st (sp_trace id)); [apply IH|]. pose proof (collect_g_error (GTrace id anns subs) st) as H.
  destruct (collect_g _ st) as [[st1 []]|]; [apply IH|apply H|done|done].
Qed.
Theorem C108_refused : forall body st st', serve_upload body st = Some (st', UError) -> st' = st.
Proof.
  intros body st st'. rewrite /serve_upload. destruct (parse_all body) as [j|]; [|congruence]. destruct (dec_traces j) as [ts|]; [|congruence].
  intros H. by destruct (upload_g_error ts st st').
Qed.
Print Assumptions C108_refused.
Example C108_refused_nonvacuous :
  serve_upload (Base.bytes "[{""ID"":{""Trace"":""1"",""Span"":""1""}},{""ID"":{""Trace"":true}}]") ms_init = Some (ms_init, UError) /\
  serve_upload (Base.bytes "[{""ID"":") ms_init = Some (ms_init, UError).
Proof. split; reflexivity. Qed.
(** C108 is false of texts with a null trace: the request ends in a panic, and what came before the null was stored. *)
Theorem C108_refuted : exists body st', serve_upload (Base.bytes body) ms_init = Some (st', UPanic) /\ shows st' 1 (Tree (MkSpanID 1 1 0) [] [Tree (MkSpanID 1 2 1) [] []]).
Proof.
  exists "[{""id"":{""trace"":""1"",""span"":1},""SUB"":[{""ID"":{""Trace"":1,""Span"":2,""Parent"":""01""}, ""More"":[-0.5e1]}, null]}]"%string,
    (final [CCollect (MkSpanID 1 1 0) []; CCollect (MkSpanID 1 2 1) []]).
  split; [reflexivity|apply (shown_by 9); vm_compute; reflexivity].
Qed.
Print Assumptions C108_refuted.
(** C108 (proved part): every other upload is either refused, or accepted in full: it is the upload of the traces the text holds. *)
Inductive no_null : gtrace -> tree -> Prop :=
| No_null id anns subs ts : Forall2 no_null subs ts -> no_null (GTrace id anns subs) (Tree id anns ts).
Lemma no_null_graft g t : no_null g t -> g = graft t.
Proof.
  revert g. induction t as [id anns ts IH] using tree_ind'. intros g H. inversion H as [? ? subs ? Hs]; subst. cbn [graft]. f_equal.
  clear -IH Hs. revert subs Hs. induction IH as [|c ts Hc _ IHs]; intros subs Hs; inversion Hs; subst; [done|]. cbn [map]. f_equal; [by apply Hc|by apply IHs].
Qed.
Theorem C108_partial : forall body j gs ts calls st, ms_run calls ms_init = Some st ->
  parse_all body = Some j -> dec_traces j = Some gs -> Forall2 no_null gs ts ->
  exists st', serve_upload body st = Some (st', UOk) /\ upload_traces ts st = Some st'.
Proof.
  intros body j gs ts calls st Hrun Hj Hg Hn. rewrite /serve_upload Hj Hg. assert (gs = map graft ts) as ->.
  { clear -Hn. induction Hn as [|g t gs ts H _ IH]; [done|]. cbn [map]. by rewrite -IH (no_null_graft g t H). }
  rewrite upload_graft. destruct (C64_total ts calls st Hrun) as (st' & ->). by exists st'.
Qed.
Print Assumptions C108_partial.
Example C108_partial_nonvacuous : exists j,
  parse_all (Base.bytes " [ {""ID"":{""Trace"":""2"",""Span"":2},""Annotations"":[{""Key"":""k"",""Value"":""AQI=""}],""Sub"":[{}]} ] ") = Some j /\
  dec_traces j = Some [GTrace (MkSpanID 2 2 0) [Ann "k" (Some (String "001" (String "002" "")))] [GTrace (MkSpanID 0 0 0) [] []]] /\
  Forall2 no_null [GTrace (MkSpanID 2 2 0) [Ann "k" (Some (String "001" (String "002" "")))] [GTrace (MkSpanID 0 0 0) [] []]]
    [Tree (MkSpanID 2 2 0) [Ann "k" (Some (String "001" (String "002" "")))] [Tree (MkSpanID 0 0 0) [] []]].
Proof. eexists. split_and!; [vm_compute; reflexivity|vm_compute; reflexivity|repeat constructor]. Qed.
(** C108: no upload panics in the store itself. *)
Lemma collect_g_total t st : ms_ok st -> exists st' r, collect_g t st = Some (st', r) /\ ms_ok st'.
Proof.
  revert st. induction t as [|id anns subs IH] using gtrace_ind'; intros st Hok; [by exists st, UPanic|]. rewrite collect_g_unfold. destruct (collect_ok st id anns Hok) as (st1 & -> & Hok1 & _).
  clear st Hok. revert st1 Hok1. induction IH as [|s subs H _ IHs]; intros st Hok; [by exists st, UOk|]. cbn [gloop].
  destruct (H st Hok) as (st1 & r & -> & Hok1). destruct r; [by apply IHs|by exists st1, UError|by exists st1, UPanic].
Qed.
Theorem C108_total : forall body calls st, ms_run calls ms_init = Some st -> exists st' r, serve_upload body st = Some (st', r).
Proof.
  intros body calls st Hrun. destruct (run_state _ _ Hrun) as [Hok _]. rewrite /serve_upload. destruct (parse_all body) as [j|]; [|by exists st, UError].
  destruct (dec_traces j) as [ts|]; [|by exists st, UError]. clear Hrun calls. revert st Hok.
  induction ts as [|[|id anns subs] ts IH]; intros st Hok; [by exists st, UOk|by exists st, UPanic|].
  change (upload_g (GTrace id anns subs :: ts) st) with (match ms_trace_of st (sp_trace id) with Some _ => upload_g ts st
     | None => match collect_g (GTrace id anns subs) st with Some (st, UOk) => upload_g ts st | r => r end end).
  destruct (ms_trace_of st (sp_trace id)); [by apply IH|]. destruct (collect_g_total (GTrace id anns subs) st Hok) as (st1 & r & -> & Hok1).
  destruct r; [by apply IH|by exists st1, UError|by exists st1, UPanic].
Qed.
Print Assumptions C108_total.
