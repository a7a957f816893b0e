(** Property C135 (exporting the selected traces). *)
From Verif Require Import Base IdModel IdSpec IdJsonModel JsonModel JsonSpec JsonProofs JsonGramSpec JsonGramProofs JsonGramProofs2 MemModel MemSpec MemProofs MemProofs2 MemProofs3 MemProofs4 UploadModel UploadProofs UploadProps TraceJsonModel TraceJsonProofs TraceJsonProps ServeProps ExportModel.
From Coq Require Import ssreflect.
Local Open Scope general_if_scope.
Local Open Scope N_scope.
Local Open Scope char_scope.

(** ** Strings *)

Lemma good_utf8 x bs : good_piece (inl (x, bs)) -> utf8_char x bs.
Proof. intros (_ & _ & H). apply (decode_utf8 (bs ++ []) x bs []). apply H. Qed.
Lemma sanitized s : utf8 (sanitize s).
Proof.
  rewrite /sanitize. pose proof (pieces_good s) as H. induction H as [|p ps Hp _ IH]; [by exists []|]. cbn [map concat]. destruct IH as (xs & Hxs & ->).
  destruct p as [[x bs]|a].
  - apply good_utf8, utf8_char_encode in Hp as [Hx ->]. exists (x :: xs). split; [by constructor|done].
  - exists (65533 :: xs). split; [constructor; [split; lia|done]|done].
Qed.
Lemma sanitize_twice s : sanitize (sanitize s) = sanitize s.
Proof. apply sanitize_utf8, sanitized. Qed.
Lemma replaced : string_char false ["\"; "u"; "f"; "f"; "f"; "d"] replacement.
Proof.
  apply (SC_code false ["f"; "f"; "f"; "d"] 65533); [apply hex4_of; by eexists _, _, _, _|]. change replacement with (encode_rune 65533). apply encode_utf8. split; lia.
Qed.
Lemma low_code : forallb (fun n => let x := N.of_nat n in match hex4 "0" "0" (hex_low (x / 16)) (hex_low (x mod 16)) with Some y => (y =? x)%N | None => false end) (seq 0 128) = true.
Proof. vm_compute. done. Qed.
Lemma coded x : x < 128 -> string_char false (esc_u 0 0 (x / 16) (x mod 16)) [ascii_of_N x].
Proof.
  intros Hx. apply (SC_code false [hex_low 0; hex_low 0; hex_low (x / 16); hex_low (x mod 16)] x).
  - apply hex4_of. eexists _, _, _, _. split; [reflexivity|]. pose proof low_code as H. rewrite forallb_forall in H. specialize (H (N.to_nat x)). cbv zeta in H.
    rewrite N2Nat.id in H. change (hex_low 0) with "0". destruct (hex4 _ _ _ _) as [y|]; [|discriminate H; apply in_seq; lia].
    f_equal. apply N.eqb_eq. apply H. apply in_seq. lia.
  - assert (utf8_char (N_of_ascii (ascii_of_N x)) [ascii_of_N x]) as H by (apply Utf8_1; rewrite bn_ascii; lia). rewrite bn_ascii in H; [lia|done].
Qed.
Lemma single x bs : utf8_char x bs -> x < 128 -> bs = [ascii_of_N x].
Proof. intros H Hx. inversion H; subst; unfold continues in *; [by rewrite ascii_N_embedding|lia..]. Qed.
Lemma go_piece bf p : good_piece p -> string_char false (esc_piece bf p) (san_piece p).
Proof.
  destruct p as [[x bs]|a]; cbn [esc_piece san_piece]; [|intros _; apply replaced]. intros H%good_utf8.
  destruct (N.ltb_spec x 128) as [Hx|Hx].
  - pose proof (single x bs H Hx) as ->. rewrite /esc_ascii.
    destruct (Ascii.eqb_spec (ascii_of_N x) quote) as [->|H1]; [apply SC_escape; by left|]. destruct (Ascii.eqb_spec (ascii_of_N x) "\") as [->|H2]; [apply SC_escape; by right; left|]. cbn [orb].
    destruct (N.eqb_spec x 8) as [->|H8]; [destruct bf; cbn [andb]; [apply SC_escape; cbn; tauto|by apply (coded 8)]|]. cbn [andb].
    destruct (N.eqb_spec x 12) as [->|H12]; [destruct bf; cbn [andb]; [apply SC_escape; cbn; tauto|by apply (coded 12)]|]. cbn [andb].
    destruct (N.eqb_spec x 10) as [->|H10]; [apply SC_escape; cbn; tauto|]. destruct (N.eqb_spec x 13) as [->|H13]; [apply SC_escape; cbn; tauto|]. destruct (N.eqb_spec x 9) as [->|H9]; [apply SC_escape; cbn; tauto|].
    destruct (_ || _ || _ || _) eqn:E; [by apply coded|]. apply (SC_plain false x); [done|..].
    + destruct (N.ltb_spec x 32); [done|lia].
    + intros ->. by apply H1.
    + intros ->. by apply H2.
  - destruct ((x =? 8232) || (x =? 8233))%N eqn:E.
    + apply orb_true_iff in E as [E|E]; apply N.eqb_eq in E; subst x; (eapply (SC_code false); [apply hex4_of; eexists _, _, _, _; split; [reflexivity|vm_compute; reflexivity]|exact H]).
    + apply (SC_plain false x); [done|lia..].
Qed.
Lemma js_piece_char p : good_piece p -> string_char false (js_piece p) (san_piece p).
Proof.
  destruct p as [[x bs]|a]; cbn [js_piece san_piece]; [|intros _; apply replaced]. intros H%good_utf8.
  repeat (match goal with |- context [N.eqb x ?n] => destruct (N.eqb_spec x n) as [->|?]; [rewrite (single _ bs H) //; apply SC_escape; cbn; tauto|] end).
  destruct (N.ltb_spec x 32) as [Hx|Hx]; [rewrite (single x bs H); [lia|]; apply coded; lia|]. by apply (SC_plain false x).
Qed.
Lemma chars_concat {A} (f g : A -> text) l : (forall x, In x l -> string_char false (f x) (g x)) -> string_chars false (concat (map f l)) (concat (map g l)).
Proof. induction l as [|x l IH]; intros H; [constructor|]. cbn [map concat]. constructor; [apply H; by left|apply IH; intros y Hy; apply H; by right]. Qed.
Definition quotes (enc : text -> text) : Prop := forall s, exists inner, enc s = quote :: inner ++ [quote] /\ string_chars false inner (sanitize s).
Lemma go_quotes bf : quotes (enc_string bf).
Proof. intros s. eexists. split; [reflexivity|]. apply chars_concat. intros p Hp. apply go_piece. pose proof (pieces_good s) as H. rewrite List.Forall_forall in H. by apply H. Qed.
Lemma js_quotes : quotes js_quote.
Proof. intros s. eexists. split; [reflexivity|]. apply chars_concat. intros p Hp. apply js_piece_char. pose proof (pieces_good s) as H. rewrite List.Forall_forall in H. by apply H. Qed.

(** ** Values *)

Local Opaque join_with.
(** The numbers of a value are numbers by the grammar. *)
Fixpoint nums (j : json) : Prop :=
  match j with
  | JNum s => number s
  | JArr l => foldr (fun j P => nums j /\ P) True l
  | JObj kvs => foldr (fun kv P => nums (snd kv) /\ P) True kvs
  | _ => True
  end.
Lemma plain_nums j : JsonProofs.plain j = true -> nums j.
Proof.
  induction j as [| b |s|s|l IH|kvs IH] using json_ind'; try done; cbn [JsonProofs.plain nums].
  - induction IH as [|x l Hx _ IHl]; [done|]. cbn [forallb foldr]. intros [H1 H2]%andb_true_iff. split; [by apply Hx|by apply IHl].
  - induction IH as [|x l Hx _ IHl]; [done|]. cbn [forallb foldr]. intros [H1 H2]%andb_true_iff. split; [by apply Hx|by apply IHl].
Qed.
Section print.
  Context (enc : text -> text) (nl : nat -> text) (sp : text).
  Hypothesis Henc : quotes enc.
  Hypothesis Hnl : forall d, spaces (nl d).
  Hypothesis Hsp : spaces sp.
  Notation print := (gen_print enc nl sp).
  Lemma print_value j : nums j -> forall d, value false (print d j) (san j).
  Proof.
    induction j as [| b |s|s|l IH|kvs IH] using json_ind'; intros Hp d; try discriminate.
    - apply V_null.
    - destruct b; [apply V_true|apply V_false].
    - by apply V_num.
    - cbn [gen_print san]. destruct (Henc s) as (inner & -> & Hs). by apply V_str.
    - destruct l as [|x l]; [apply (V_arr0 false []); constructor|]. cbn [gen_print san].
      assert (forall w (l : list json), l <> [] -> Forall (fun j => nums j -> forall d, value false (print d j) (san j)) l -> foldr (fun j P => nums j /\ P) True l -> spaces w ->
        elements false (w ++ join_with (print (S d)) ("," :: nl (S d)) l ++ nl d) (map san l)) as He.
      { clear x l IH Hp. intros w l. revert w. induction l as [|x l IHl]; intros w Hne Hall Hp Hw; [done|]. apply Forall_cons in Hall as [Hx Hall]. destruct Hp as [Hpx Hp].
        rewrite join_cons. change (map san (x :: l)) with (san x :: map san l). destruct l as [|y l].
        - rewrite app_nil_r. apply E_one; auto.
        - specialize (IHl (nl (S d)) ltac:(done) Hall Hp (Hnl _)). pose proof (E_more false w (print (S d) x) [] (san x) (nl (S d) ++ join_with (print (S d)) ("," :: nl (S d)) (y :: l) ++ nl d) (map san (y :: l)) Hw (Hx Hpx _) ltac:(constructor)) as H.
          specialize (H IHl). clear IHl. revert H. generalize (join_with (print (S d)) ("," :: nl (S d)) (y :: l)). intros J H. rewrite -!app_assoc. exact H. }
      replace ("[" :: nl (S d) ++ join_with (print (S d)) ("," :: nl (S d)) (x :: l) ++ nl d ++ ["]"]) with ("[" :: (nl (S d) ++ join_with (print (S d)) ("," :: nl (S d)) (x :: l) ++ nl d) ++ ["]"]) by (by rewrite -!app_assoc).
      apply V_arr. by apply He.
    - destruct kvs as [|x l]; [apply (V_obj0 false []); constructor|]. cbn [gen_print san].
      set (mem := fun kv : text * json => enc (fst kv) ++ ":" :: sp ++ print (S d) (snd kv)).
      assert (forall w (l : list (text * json)), l <> [] -> Forall (fun kv => nums (snd kv) -> forall d, value false (print d (snd kv)) (san (snd kv))) l -> foldr (fun kv P => nums (snd kv) /\ P) True l -> spaces w ->
        members false (w ++ join_with mem ("," :: nl (S d)) l ++ nl d) (map (fun kv => (sanitize (fst kv), san (snd kv))) l)) as He.
      { clear x l IH Hp. intros w l. revert w. induction l as [|[k x] l IHl]; intros w Hne Hall Hp Hw; [done|]. apply Forall_cons in Hall as [Hx Hall]. cbn [snd] in Hx. destruct Hp as [Hpx Hp].
        rewrite join_cons. cbn [map fst snd]. unfold mem at 1. cbn [fst snd]. destruct (Henc k) as (inner & -> & Hk). destruct l as [|y l].
        - rewrite app_nil_r. pose proof (M_one false w inner (sanitize k) [] sp (print (S d) x) (nl d) (san x) Hw Hk ltac:(constructor) Hsp (Hx Hpx _) (Hnl d)) as H.
          cbn [app] in H |- *. rewrite -!app_assoc in H |- *. cbn [app] in H |- *. rewrite -!app_assoc. exact H.
        - pose proof (M_more false w inner (sanitize k) [] sp (print (S d) x) [] (san x) (nl (S d) ++ join_with mem ("," :: nl (S d)) (y :: l) ++ nl d) _ Hw Hk ltac:(constructor) Hsp (Hx Hpx _) ltac:(constructor) (IHl (nl (S d)) ltac:(done) Hall Hp (Hnl _))) as H.
          clear IHl. revert H. generalize (join_with mem ("," :: nl (S d)) (y :: l)). intros J H. cbn [app] in H |- *. rewrite -!app_assoc in H |- *. cbn [app] in H |- *. rewrite -!app_assoc. cbn [app]. rewrite -?app_assoc. exact H. }
      replace ("{" :: nl (S d) ++ join_with mem ("," :: nl (S d)) (x :: l) ++ nl d ++ ["}"]) with ("{" :: (nl (S d) ++ join_with mem ("," :: nl (S d)) (x :: l) ++ nl d) ++ ["}"]) by (by rewrite -!app_assoc).
      apply V_obj. by apply He.
  Qed.
End print.
Lemma indent_spaces d : spaces ("010" :: repeat " " (2 * d)).
Proof. apply spaces_blank, blank_indent. Qed.
Lemma go_print bf nl sp j : forall d, print_json bf nl sp d j = gen_print (enc_string bf) nl sp d j.
Proof.
  done.
Qed.
Lemma document_of s v : value false s v -> document false s v.
Proof. intros H. exists [], s, []. split; [by rewrite app_nil_r|]. split; [constructor|]. split; [done|constructor]. Qed.
Lemma go_document bf j : JsonProofs.plain j = true -> document false (print_indented bf j) (san j).
Proof. intros H. apply document_of. rewrite /print_indented go_print. apply print_value; [apply go_quotes|apply indent_spaces|by repeat constructor|by apply plain_nums]. Qed.
Lemma js_document j : JsonProofs.plain j = true -> document false (js_stringify j) (san j).
Proof. intros H. apply document_of. apply print_value; [apply js_quotes|apply indent_spaces|by repeat constructor|by apply plain_nums]. Qed.

(** ** Exports *)

Lemma san_twice j : san (san j) = san j.
Proof.
  induction j as [| b |s|s|l IH|kvs IH] using json_ind'; try done; cbn [san].
  - by rewrite sanitize_twice.
  - f_equal. rewrite map_map. induction IH as [|x l Hx _ IHl]; [done|]. cbn [map]. by rewrite Hx IHl.
  - f_equal. rewrite map_map. induction IH as [|x l Hx _ IHl]; [done|]. cbn [map fst snd]. by rewrite Hx IHl sanitize_twice.
Qed.
Lemma plain_san j : JsonProofs.plain j = true -> JsonProofs.plain (san j) = true.
Proof.
  induction j as [| b |s|s|l IH|kvs IH] using json_ind'; try done; cbn [san JsonProofs.plain]; rewrite !forallb_forall; intros H x; rewrite in_map_iff; intros (y & <- & Hy); rewrite List.Forall_forall in IH; apply IH; auto.
Qed.
(** What is assumed of JSON.parse: a JSON text (RFC 8259) is read as the value it stands for. *)
Definition json_parse (parse : text -> option json) : Prop := forall s v, document false s v -> parse s = Some v.
Definition chosen (boxes : list box) : list tree := map bx_trace (List.filter bx_checked boxes).
Lemma export_is parse bf boxes : json_parse parse -> Forall (boxed bf) boxes -> chosen boxes <> [] ->
  exists js, Forall2 encodes (chosen boxes) js /\ export_selected parse boxes = Some (js_stringify (JArr (map san js))).
Proof.
  intros Hparse Hb. rewrite /chosen /export_selected.
  assert (Forall (boxed bf) (List.filter bx_checked boxes)) as Hf by (apply List.Forall_forall; intros b [Hb' _]%filter_In; rewrite List.Forall_forall in Hb; by apply Hb).
  clear Hb. generalize dependent (List.filter bx_checked boxes). intros l Hf Hne.
  assert (exists js, Forall2 encodes (map bx_trace l) js /\ mapM (fun b => parse (bx_text b)) l = Some (map san js)) as (js & Hjs & ->).
  { clear Hne. induction Hf as [|b l (j & Hj & Et) _ (js & Hjs & Em)]; [exists []; split; [constructor|done]|]. exists (j :: js). cbn [map mapM]. split; [by constructor|].
    rewrite Et (Hparse _ _ (go_document bf j (enc_plain _ _ Hj))) Em. done. }
  exists js. split; [done|]. destruct js; [|done]. apply Forall2_nil_inv_r in Hjs. by rewrite Hjs in Hne.
Qed.
Lemma upload_document body trs js st : Forall2 encodes trs js -> Forall ids64 trs -> document false body (JArr (map san js)) ->
  serve_upload body st = ok_of (upload_traces (map clean trs) st).
Proof.
  intros Hjs Hid Hd. rewrite /serve_upload (document_complete _ _ Hd). cbn [dec_traces].
  assert (mapM dec_trace (map san js) = Some (map graft (map clean trs))) as ->; [|apply upload_graft].
  apply mapM_Some. clear -Hjs Hid. induction Hjs as [|t j trs js Hj _ IH]; [constructor|]. apply Forall_cons in Hid as [Ht Hid]. cbn [map]. constructor; [by apply dec_enc|by apply IH].
Qed.

(** The lines of the list page: traces that the store shows, each once, with their data. *)
Record lines (bf : bool) (st : MS) (boxes : list box) : Prop := {
  ln_shown : forall b, In b boxes -> shows st (sp_trace (tr_id (bx_trace b))) (bx_trace b) /\ ids64 (bx_trace b) /\ boxed bf b;
  ln_once : List.NoDup (map (fun b => sp_trace (tr_id (bx_trace b))) boxes) }.
(** What C64 asks of a tree. *)
Definition importable (tr : tree) : Prop :=
  forall n, In n (nodes tr) -> n <> tr -> sp_parent (tr_id n) <> 0 /\ sp_span (tr_id n) <> sp_parent (tr_id tr).

(** C135 (proved part): "Export Selected" gives a text as soon as a trace is selected; uploaded to any store, in this
    layout or any other, it is accepted; the store then shows each selected trace that it did not have exactly as it was,
    and all other traces as before. *)
Theorem C135_partial : forall calls st bf boxes parse calls' st', ms_run calls ms_init = Some st -> lines bf st boxes -> json_parse parse ->
  chosen boxes <> [] -> (forall tr, In tr (chosen boxes) -> utf8_keys tr) -> ms_run calls' ms_init = Some st' ->
  exists body v, export_selected parse boxes = Some body /\ document false body v /\
    forall pasted, document false pasted v -> exists st'', serve_upload pasted st' = Some (st'', UOk) /\
      (forall tr, In tr (chosen boxes) -> importable tr -> ms_trace_of st' (sp_trace (tr_id tr)) = None -> shows st'' (sp_trace (tr_id tr)) tr) /\
      (forall t, ms_trace_of st' t <> None \/ (forall tr, In tr (chosen boxes) -> sp_trace (tr_id tr) <> t) ->
        ms_trace_of st'' t = ms_trace_of st' t /\ forall tr, shows st'' t tr <-> shows st' t tr).
Proof.
  intros calls st bf boxes parse calls' st' Hrun [Hl Hnd] Hparse Hne Hgood Hrun'.
  destruct (export_is parse bf boxes Hparse) as (js & Hjs & Hex); [apply List.Forall_forall; intros b Hb; by apply Hl|done|].
  assert (forall tr, In tr (chosen boxes) -> shows st (sp_trace (tr_id tr)) tr /\ ids64 tr) as Hc.
  { intros tr. rewrite /chosen in_map_iff. intros (b & <- & [Hb _]%filter_In). destruct (Hl b Hb) as (H1 & H2 & _). done. }
  assert (JsonProofs.plain (JArr (map san js)) = true) as Hp.
  { cbn [JsonProofs.plain]. rewrite forallb_forall. intros x. rewrite in_map_iff. intros (j & <- & Hj). apply plain_san.
    apply elem_of_list_In, elem_of_list_lookup in Hj as [i Ei]. destruct (Forall2_lookup_r _ _ _ _ _ Hjs Ei) as (tr & _ & He). by apply (enc_plain tr). }
  exists (js_stringify (JArr (map san js))), (JArr (map san js)). split; [done|]. split.
  { pose proof (js_document _ Hp) as H. cbn [san] in H. rewrite map_map (List.map_ext _ san san_twice) in H. done. }
  intros pasted Hd. assert (map clean (chosen boxes) = chosen boxes) as Hclean.
  { clear -Hgood. induction (chosen boxes) as [|tr l IH]; [done|]. cbn [map]. rewrite clean_id; [by apply Hgood; left|]. f_equal. apply IH. intros x Hx. apply Hgood. by right. }
  assert (forall x n, In x (chosen boxes) -> In n (nodes x) -> sp_trace (tr_id n) = sp_trace (tr_id x)) as Hone.
  { intros x n Hxi Hn. by apply (shown_trace calls st _ x Hrun (proj1 (Hc x Hxi))). }
  destruct (C64_total (chosen boxes) calls' st' Hrun') as (st'' & Hup). exists st''. split.
  { rewrite (upload_document pasted (chosen boxes) js st' Hjs) //; [apply List.Forall_forall; intros tr Htr; by apply Hc|]. by rewrite Hclean Hup. }
  split.
  - intros tr Htr Himp Hnone. assert (exists before after, chosen boxes = before ++ tr :: after /\ forall x, In x before -> sp_trace (tr_id x) <> sp_trace (tr_id tr)) as (before & after & E & Hb).
    { assert (List.NoDup (map (fun x => sp_trace (tr_id x)) (chosen boxes))) as Hnd'.
      { rewrite /chosen map_map. clear -Hnd. induction boxes as [|b l IH]; [constructor|]. cbn [map List.filter] in *. inversion Hnd as [|? ? H1 H2]; subst. destruct (bx_checked b); [|by apply IH].
        cbn [map]. constructor; [|by apply IH]. intros Hin. apply H1. apply in_map_iff in Hin as (x & Ex & [Hx _]%filter_In). apply in_map_iff. by exists x. }
      apply in_split in Htr as (before & after & E). exists before, after. split; [done|]. intros x Hx Eq. rewrite E map_app in Hnd'. cbn [map] in Hnd'. apply NoDup_remove_2 in Hnd'. apply Hnd'.
      apply in_app_iff. left. rewrite -Eq. by apply (in_map (fun x => sp_trace (tr_id x))). }
    destruct (Hc tr Htr) as [Hs _].
    destruct (C64_recreated_partial calls st _ tr tr calls' st' before after Hrun Hs (nodes_self tr) Himp Hrun' Hnone) as (s2 & Hup2 & Hs2).
    + intros x n Hxi Hn. rewrite (Hone x n) //; [rewrite E; apply in_app_iff; by left|]. by apply Hb.
    + intros x n Hxi Hn. apply Hone; [|done]. rewrite E. apply in_app_iff. right. by right.
    + rewrite -E Hup in Hup2. injection Hup2 as <-. done.
  - intros t Ht. apply (C64_existing_partial (chosen boxes) calls' st' st'' t Hrun' Hup Hone). exact Ht.
Qed.
Print Assumptions C135_partial.
(** C135: with no box ticked nothing is exported; otherwise exactly the ticked ones, in their order, whatever their keys. *)
Theorem C135_selected : forall bf boxes parse, json_parse parse -> (forall b, In b boxes -> boxed bf b) ->
  (chosen boxes = [] -> export_selected parse boxes = None) /\
  (chosen boxes <> [] -> exists body js, export_selected parse boxes = Some body /\ Forall2 encodes (chosen boxes) js /\ document false body (JArr (map san js))).
Proof.
  intros bf boxes parse Hparse Hb. split.
  - rewrite /chosen /export_selected. by destruct (List.filter bx_checked boxes).
  - intros Hne. destruct (export_is parse bf boxes Hparse) as (js & Hjs & Hex); [by apply List.Forall_forall|done|].
    exists (js_stringify (JArr (map san js))), js. split; [done|]. split; [done|].
    assert (JsonProofs.plain (JArr (map san js)) = true) as Hp.
    { cbn [JsonProofs.plain]. rewrite forallb_forall. intros x. rewrite in_map_iff. intros (j & <- & Hj). apply plain_san.
      apply elem_of_list_In, elem_of_list_lookup in Hj as [i Ei]. destruct (Forall2_lookup_r _ _ _ _ _ Hjs Ei) as (tr & _ & He). by apply (enc_plain tr). }
    pose proof (js_document _ Hp) as H. cbn [san] in H. rewrite map_map (List.map_ext _ san san_twice) in H. done.
Qed.
Print Assumptions C135_selected.
(** C135 is false of all traces: a key that is not UTF-8 comes back as another. *)
Theorem C135_refuted : exists calls st boxes body st'' tr tr'', ms_run calls ms_init = Some st /\ lines true st boxes /\ chosen boxes = [tr] /\ importable tr /\
  (forall parse, json_parse parse -> export_selected parse boxes = Some body) /\ serve_upload body ms_init = Some (st'', UOk) /\
  shows st'' (sp_trace (tr_id tr)) tr'' /\ tr'' <> tr.
Proof.
  set (tr := Tree (MkSpanID 1 1 0) [Ann bad_key None] []). set (j := JObj [(Base.bytes "ID", enc_spanid (MkSpanID 1 1 0)); (Base.bytes "Annotations", JArr [enc_ann (Ann bad_key None)]); (Base.bytes "Sub", JNull)]).
  assert (encodes tr j) as He by (apply (encodes_intro _ _ _ _ _ []); [by left|constructor|by right]).
  assert (ids64 tr) as Hid by (intros n; cbn; intuition subst; vm_compute; done).
  set (b := MkBox tr true (print_indented true j)).
  exists [CCollect (MkSpanID 1 1 0) [Ann bad_key None]], (final [CCollect (MkSpanID 1 1 0) [Ann bad_key None]]), [b], (js_stringify (JArr (map san [j]))),
    (final [CCollect (MkSpanID 1 1 0) [Ann (unbytes replacement) None]]), tr, (Tree (MkSpanID 1 1 0) [Ann (unbytes replacement) None] []).
  split; [apply final_run|]. split; [constructor|].
  { intros x [<-|[]]. split; [apply (shown_by 9); vm_compute; reflexivity|]. split; [done|]. by exists j. }
  { apply List.NoDup_cons; [intros []|constructor]. }
  split; [done|]. split; [intros n [<-|[]]; done|]. split.
  { intros parse Hparse. rewrite /export_selected. cbn [List.filter bx_checked b mapM bx_text]. by rewrite (Hparse _ _ (go_document true j (enc_plain _ _ He))). }
  split; [|split; [apply (shown_by 9); vm_compute; reflexivity|discriminate]].
  rewrite (upload_document _ [tr] [j] ms_init); [constructor; [exact He|constructor]|constructor; [exact Hid|constructor]| |reflexivity].
  assert (JsonProofs.plain (JArr (map san [j])) = true) as Hp by (vm_compute; done).
  pose proof (js_document _ Hp) as H. cbn [san] in H. rewrite map_map (List.map_ext _ san san_twice) in H. done.
Qed.
Print Assumptions C135_refuted.

(** Two lines, of which the first is ticked; the reader of encoding/json can stand for JSON.parse. *)
Definition other_tree : tree := Tree (MkSpanID 7 7 0) [Ann "Name" (Some "x"%string)] [].
Definition other_j : json := JObj [(Base.bytes "ID", enc_spanid (MkSpanID 7 7 0)); (Base.bytes "Annotations", JArr [enc_ann (Ann "Name" (Some "x"%string))]); (Base.bytes "Sub", JNull)].
Definition wit_calls : list call := [CCollect (MkSpanID 1 3 2) [Ann "n"%string None; Ann "" (Some ""%string)]; CCollect (MkSpanID 7 7 0) [Ann "Name" (Some "x"%string)]; CCollect (MkSpanID 1 2 9) [Ann "A<é" (Some "v"%string)]].
Definition wit_boxes : list box := [MkBox json_wit true (print_indented true json_wit_j); MkBox other_tree false (print_indented true other_j)].
Example C135_nonvacuous : ms_run wit_calls ms_init = Some (final wit_calls) /\ lines true (final wit_calls) wit_boxes /\ json_parse parse_all /\
  chosen wit_boxes = [json_wit] /\ utf8_keys json_wit /\ importable json_wit /\ ms_trace_of ms_init 1 = None /\
  unbytes (js_stringify (JArr [san other_j])) = "[
  {
    ""ID"": {
      ""Trace"": ""0000000000000007"",
      ""Span"": ""0000000000000007"",
      ""Parent"": ""0000000000000000""
    },
    ""Annotations"": [
      {
        ""Key"": ""Name"",
        ""Value"": ""eA==""
      }
    ],
    ""Sub"": null
  }
]"%string.
Proof.
  destruct C106_nonvacuous as (He & Hid & Hk & _ & Himp & _).
  split; [apply final_run|]. split; [constructor|].
  { intros x [<-|[<-|[]]].
    - split; [apply (shown_by 9); vm_compute; reflexivity|]. split; [exact Hid|]. exists json_wit_j. done.
    - split; [apply (shown_by 9); vm_compute; reflexivity|]. split; [intros n; cbn; intuition subst; vm_compute; done|].
      exists other_j. split; [|done]. apply (encodes_intro _ _ _ _ _ []); [by left|constructor|by right]. }
  { cbn. apply List.NoDup_cons; [intros [H|[]]; discriminate|]. apply List.NoDup_cons; [intros []|constructor]. }
  split; [intros s v; apply document_complete|]. split; [done|]. split; [done|]. split; [done|]. split; [done|]. vm_compute. reflexivity.
Qed.
