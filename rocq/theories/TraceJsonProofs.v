(** Proofs about the JSON form of traces. *)
From Verif Require Import Base IdModel IdSpec IdProofs ReflModel Base64Model Base64Proofs IdJsonModel JsonModel JsonProofs MemModel MemSpec MemProofs MemProofs2 MemProofs3 MemProofs4 UploadModel UploadProofs TraceJsonModel.
From Coq Require Import ssreflect.
Local Open Scope general_if_scope.
Local Open Scope N_scope.

(** * What is decoded *)
Fixpoint graft (t : tree) : gtrace := let 'Tree id anns subs := t in GTrace id anns (map graft subs).
Definition clean_key (k : string) : string := unbytes (sanitize (Base.bytes k)).
Definition clean_ann (a : Annotation) : Annotation := Ann (clean_key (ann_key a)) (ann_val a).
Fixpoint clean (t : tree) : tree := let 'Tree id anns subs := t in Tree id (map clean_ann anns) (map clean subs).
Definition ids_ok (s : SpanID) : Prop := is_id (sp_trace s) /\ is_id (sp_span s) /\ is_id (sp_parent s).

Lemma ascii_hex i : is_id i -> Forall (fun c => bn c < 128) (Base.bytes (id_string i)).
Proof.
  intros Hi. destruct (id_string_shape i Hi) as [_ H]. apply List.Forall_forall. intros c Hc. specialize (H c Hc).
  repeat (destruct H as [<-|H]; [reflexivity|]). destruct H.
Qed.
Lemma dec_enc_id i : is_id i -> dec_id (san (enc_id i)) = Some i.
Proof.
  intros Hi. cbn [san enc_id dec_id]. rewrite (sanitize_utf8 _ (ascii_utf8 _ (ascii_hex i Hi))) unbytes_bytes (parse_id_string i Hi). done.
Qed.
Definition b64ch (c : ascii) : bool := (bn c <? 128) && negb (Ascii.eqb c "010"%char || Ascii.eqb c "013"%char).
Lemma b64_char_ch n : b64ch (b64_char alphabet_std n) = true.
Proof.
  rewrite /b64_char. assert (forallb b64ch alphabet_std = true) as H by (vm_compute; reflexivity). rewrite forallb_forall in H.
  destruct (nth_in_or_default (N.to_nat n) alphabet_std "="%char) as [Hin| ->]; [by apply H|done].
Qed.
Lemma b64_all l : forallb b64ch (b64_encode alphabet_std true l) = true.
Proof.
  induction l as [|a|a b|a b c l IH] using list_ind3; cbn [b64_encode b64_pad repeat app forallb]; rewrite ?b64_char_ch; done.
Qed.
Lemma filter_all {A} (f : A -> bool) l : (forall x, In x l -> f x = true) -> List.filter f l = l.
Proof. induction l as [|x l IH]; [done|]. intros H. cbn. rewrite (H x (or_introl eq_refl)) IH; [|done]. intros y Hy. apply H. by right. Qed.
Lemma b64_text v : Forall (fun c => bn c < 128) (b64_encode alphabet_std true v).
Proof.
  pose proof (b64_all v) as H. rewrite forallb_forall in H. apply List.Forall_forall. intros c Hc. specialize (H c Hc). rewrite /b64ch in H.
  apply andb_prop in H as [H _]. by apply N.ltb_lt.
Qed.
Lemma dec_enc_value v : dec_bytes (san (match v with None => JNull | Some v => JStr (b64_encode alphabet_std true (Base.bytes v)) end)) = Some v.
Proof.
  destruct v as [v|]; [|done]. cbn [san dec_bytes]. rewrite (sanitize_utf8 _ (ascii_utf8 _ (b64_text _))). rewrite filter_all.
  { intros c Hc. pose proof (b64_all (Base.bytes v)) as H. rewrite forallb_forall in H. specialize (H c Hc). rewrite /b64ch in H. by apply andb_prop in H as [_ H]. }
  rewrite (b64_roundtrip _ alpha_std) unbytes_bytes. done.
Qed.
Lemma dec_enc_ann a : dec_ann (san (enc_ann a)) = Some (clean_ann a).
Proof.
  rewrite /enc_ann. cbn [san map fst snd dec_ann].
  change (names (sanitize (Base.bytes "Key")) ?f) with (names (Base.bytes "Key") f). cbn [fold_opt fst snd].
  change (names (sanitize (Base.bytes "Key")) "Key") with true. change (names (sanitize (Base.bytes "Value")) "Key") with false.
  change (names (sanitize (Base.bytes "Value")) "Value") with true. cbn iota. rewrite dec_enc_value. done.
Qed.
Lemma dec_enc_spanid s cur : ids_ok s -> dec_spanid cur (san (enc_spanid s)) = Some s.
Proof.
  intros (H1 & H2 & H3). rewrite /enc_spanid. cbn [san map fst snd dec_spanid fold_opt].
  change (names (sanitize (Base.bytes "Trace")) "Trace") with true. cbn iota. change (JStr (sanitize (Base.bytes (id_string ?i)))) with (san (enc_id i)).
  rewrite (dec_enc_id _ H1). cbn iota.
  change (names (sanitize (Base.bytes "Span")) "Trace") with false. change (names (sanitize (Base.bytes "Span")) "Span") with true. cbn iota.
  rewrite (dec_enc_id _ H2). cbn iota.
  change (names (sanitize (Base.bytes "Parent")) "Trace") with false. change (names (sanitize (Base.bytes "Parent")) "Span") with false.
  change (names (sanitize (Base.bytes "Parent")) "Parent") with true. cbn iota.
  rewrite (dec_enc_id _ H3). cbn [sp_trace sp_span sp_parent]. by destruct s.
Qed.
Lemma dec_enc_anns anns ja : ja = JArr (map enc_ann anns) \/ anns = [] /\ ja = JNull -> dec_anns (san ja) = Some (map clean_ann anns).
Proof.
  intros [-> |[-> ->]]; [|done]. cbn [san dec_anns]. apply mapM_Some. rewrite map_map. induction anns as [|a anns IH]; constructor; [apply dec_enc_ann|done].
Qed.

Definition tree_ok (t : tree) : Prop := forall n, In n (nodes t) -> ids_ok (tr_id n).
Lemma dec_enc t j : encodes t j -> tree_ok t -> dec_trace (san j) = Some (graft (clean t)).
Proof.
  revert j. induction t as [id anns subs IH] using tree_ind'. intros j He Hok. inversion He as [? ? ? ja js l Ha Hs Hj]; subst.
  assert (ids_ok id) as Hid. { apply (Hok (Tree id anns subs)). rewrite nodes_unfold. by left. }
  assert (mapM dec_trace (map san l) = Some (map graft (map clean subs))) as Hl.
  { apply mapM_Some. assert (forall c n, In c subs -> In n (nodes c) -> ids_ok (tr_id n)) as Hok'.
    { intros c n Hc Hn. apply Hok. rewrite nodes_unfold. right. apply in_concat. exists (nodes c). split; [|done]. by apply in_map. }
    clear -IH Hs Hok'. revert l Hs. induction IH as [|c subs Hc _ IHs]; intros l Hs; inversion Hs as [|? j ? l' H1 H2]; subst; cbn [map]; constructor.
    - apply Hc; [done|]. intros n Hn. apply (Hok' c n); [by left|done].
    - apply IHs; [|done]. intros c' n Hc' Hn. apply (Hok' c' n); [by right|done]. }
  cbn [san map fst snd dec_trace fold_opt].
  change (names (sanitize (Base.bytes "ID")) "ID") with true. cbn iota.
  match goal with |- context [dec_spanid ?c ?x] => change x with (san (enc_spanid id)) end. rewrite (dec_enc_spanid id _ Hid).
  change (names (sanitize (Base.bytes "Annotations")) "ID") with false. change (names (sanitize (Base.bytes "Annotations")) "Annotations") with true. cbn iota.
  rewrite (dec_enc_anns anns ja Ha). change (names (sanitize (Base.bytes "Sub")) "ID") with false. change (names (sanitize (Base.bytes "Sub")) "Annotations") with false.
  change (names (sanitize (Base.bytes "Sub")) "Sub") with true. cbn iota.
  destruct Hj as [-> |[-> ->]]; cbn [san]; [rewrite Hl|]; done.
Qed.
Lemma enc_plain t j : encodes t j -> plain j = true.
Proof.
  revert j. induction t as [id anns subs IH] using tree_ind'. intros j He. inversion He as [? ? ? ja js l Ha Hs Hj]; subst. cbn [plain forallb snd enc_spanid enc_id andb].
  assert (forallb plain l = true) as Hl.
  { clear -IH Hs. revert l Hs. induction IH as [|c subs Hc _ IHs]; intros l Hs; inversion Hs as [|? j ? l' H1 H2]; subst; [done|]. cbn [forallb]. by rewrite (Hc _ H1) (IHs _ H2). }
  assert (plain ja = true) as ->. { destruct Ha as [-> |[_ ->]]; [|done]. cbn [plain]. clear. induction anns as [|[k [v|]] anns IH]; done. }
  destruct Hj as [-> |[_ ->]]; cbn [plain andb]; [by rewrite Hl|done].
Qed.

(** Keys in UTF-8 stay as they are. *)
Definition keys_utf8 (t : tree) : Prop := forall n a, In n (nodes t) -> In a (tr_anns n) -> utf8 (Base.bytes (ann_key a)).
Lemma clean_utf8 t : keys_utf8 t -> clean t = t.
Proof.
  induction t as [id anns subs IH] using tree_ind'. intros H. cbn [clean]. f_equal.
  - assert (forall a, In a anns -> utf8 (Base.bytes (ann_key a))) as Ha. { intros a Ha. apply (H (Tree id anns subs) a); [rewrite nodes_unfold; by left|done]. }
    clear -Ha. induction anns as [|a anns IH]; [done|]. cbn [map]. rewrite IH; [intros b Hb; apply Ha; by right|]. f_equal.
    rewrite /clean_ann /clean_key (sanitize_utf8 _ (Ha a (or_introl eq_refl))) unbytes_bytes. by destruct a.
  - assert (forall c, In c subs -> keys_utf8 c) as Hc.
    { intros c Hc n a Hn. apply H. rewrite nodes_unfold. right. apply in_concat. exists (nodes c). split; [by apply in_map|done]. }
    clear -IH Hc. induction IH as [|c subs H1 _ IHs]; [done|]. cbn [map]. rewrite (H1 (Hc c (or_introl eq_refl))) IHs; [|done]. intros c' Hc'. apply Hc. by right.
Qed.

(** * Texts *)
Lemma blank_indent d : blank ("010" :: repeat " " (2 * d))%char.
Proof. constructor; [done|]. induction (2 * d)%nat as [|n IH]; constructor; done. Qed.
Lemma parse_indented bf j : plain j = true -> parse_all (print_indented bf j) = Some (san j).
Proof.
  intros Hp. rewrite /print_indented. rewrite -(app_nil_r (print_json _ _ _ _ _)). apply parse_all_print; [apply blank_indent|by repeat constructor|done|constructor].
Qed.
Lemma parse_compact bf j rest : plain j = true -> parse_first (print_compact bf j ++ rest) = Some (san j, rest).
Proof. intros Hp. apply parse_first_print; [intros; constructor|constructor|done]. Qed.
Lemma parse_bracket bf j : plain j = true -> parse_all ("[" :: print_indented bf j ++ ["]"])%char = Some (JArr [san j]).
Proof.
  intros Hp. set (nl := fun d : nat => ("010" :: repeat " " (2 * d))%char).
  assert (forall d, blank (nl d)) as Hnl by apply blank_indent. assert (blank [" "]%char) as Hsp by (repeat constructor).
  rewrite /parse_all /parse_first.
  destruct (print_head bf nl [" "]%char 0 j Hp) as (c & r & E & Hc & Hc1 & Hc2).
  assert (forall n, (S (S (cost j)) <= n)%nat -> parse_json n ("[" :: print_indented bf j ++ ["]"])%char = Some (JArr [san j], [])) as H.
  { intros n Hn. destruct n as [|[|n]]; [lia|lia|]. cbn [parse_json]. rewrite skip_black; [done|].
    change (print_indented bf j) with (print_json bf nl [" "]%char 0 j). cbn [Ascii.eqb Bool.eqb quote]. rewrite E. cbn [app]. rewrite (skip_black c); [done|].
    rewrite (proj2 (Ascii.eqb_neq c "]") Hc1). cbn [parse_elems]. change (c :: r ++ ?t) with ([] ++ (c :: r) ++ t). rewrite -E.
    rewrite (reads_all bf nl [" "]%char Hnl Hsp j Hp 0%nat n [] _); [constructor|lia|]. done. }
  rewrite H; [|done]. pose proof (cost_length bf nl [" "]%char Hnl j Hp 0%nat) as Hl. change (print_indented bf j) with (print_json bf nl [" "]%char 0 j). cbn [length]. rewrite app_length. cbn [length]. lia.
Qed.

(** * Uploading what was decoded *)
Section gtrace_induction.
  Context (P : gtrace -> Prop) (Hnil : P GNil) (Htrace : forall id anns subs, Forall P subs -> P (GTrace id anns subs)).
  Fixpoint gtrace_ind' (g : gtrace) : P g :=
    match g with
    | GNil => Hnil
    | GTrace id anns subs => Htrace id anns subs ((fix go l : Forall P l := match l with [] => List.Forall_nil _ | x :: l => List.Forall_cons _ _ _ (gtrace_ind' x) (go l) end) subs)
    end.
End gtrace_induction.
Section gloop.
  Context (f : gtrace -> MS -> option (MS * uploaded)).
  Fixpoint gloop (subs : list gtrace) (st : MS) : option (MS * uploaded) :=
    match subs with [] => Some (st, UOk) | s :: subs => match f s st with Some (st, UOk) => gloop subs st | r => r end end.
End gloop.
Lemma collect_g_unfold id anns subs st : collect_g (GTrace id anns subs) st =
  match ms_collect id anns st with None => None | Some st => gloop collect_g subs st end.
Proof. done. Qed.
Definition ok_of (o : option MS) : option (MS * uploaded) := match o with Some st => Some (st, UOk) | None => None end.
Lemma collect_graft t st : collect_g (graft t) st = ok_of (collect_trace t st).
Proof.
  revert st. induction t as [id anns subs IH] using tree_ind'. intros st. cbn [graft]. rewrite collect_g_unfold collect_trace_unfold.
  destruct (ms_collect id anns st) as [st1|]; [|done]. cbn [mbind option_bind]. clear st. revert st1.
  induction IH as [|c subs Hc _ IHs]=> st; [done|]. cbn [gloop cloop map]. rewrite Hc. destruct (collect_trace c st) as [st1|]; [|done]. cbn [ok_of mbind option_bind]. apply IHs.
Qed.
Lemma upload_graft ts st : upload_g (map graft ts) st = ok_of (upload_traces ts st).
Proof.
  revert st. induction ts as [|[id anns subs] ts IH]=> st; [done|]. cbn [map upload_traces tr_id].
  change (upload_g (graft (Tree id anns subs) :: map graft ts) st) with
    (match ms_trace_of st (sp_trace id) with Some _ => upload_g (map graft ts) st
     | None => match collect_g (graft (Tree id anns subs)) st with Some (st, UOk) => upload_g (map graft ts) st | r => r end end).
  destruct (ms_trace_of st (sp_trace id)); [apply IH|]. rewrite collect_graft. destruct (collect_trace _ st) as [st1|]; [|done]. cbn [ok_of mbind option_bind]. apply IH.
Qed.

Lemma upload_exported bf t j text st : encodes t j -> tree_ok t -> exported bf j text -> serve_upload text st = ok_of (upload_traces [clean t] st).
Proof.
  intros He Hok Hx. rewrite /serve_upload. assert (parse_all text = Some (JArr [san j])) as ->.
  { destruct Hx; [|by apply parse_bracket, (enc_plain t)]. rewrite parse_indented; [|done]. cbn [plain forallb]. by rewrite (enc_plain t j He). }
  cbn [dec_traces mapM]. rewrite (dec_enc t j He Hok). cbn [mbind option_bind mret option_ret]. apply (upload_graft [clean t]).
Qed.
Lemma upload_permalink gzip gunzip bf t j st :
  (forall data z lost, gzip data = z ++ lost -> (length lost <= 2)%nat -> gunzip z = Some data) ->
  encodes t j -> tree_ok t -> open_permalink gunzip (permalink gzip bf j) st = ok_of (upload_traces [clean t] st).
Proof.
  intros Hgz He Hok. rewrite /open_permalink /permalink (b64_roundtrip _ alpha_url).
  set (z := gzip _). rewrite (Hgz (print_compact bf j ++ ["010"%char]) _ (skipn (3 * (length z / 3)) z)).
  { by rewrite firstn_skipn. }
  { rewrite skipn_length. pose proof (Nat.div_mod (length z) 3 ltac:(lia)). pose proof (Nat.mod_upper_bound (length z) 3 ltac:(lia)). lia. }
  rewrite (parse_compact bf j _ (enc_plain t j He)) (dec_enc t j He Hok). apply (upload_graft [clean t]).
Qed.
