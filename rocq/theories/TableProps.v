(** Properties C152 (the table of a profile) and C153 (names in tables). *)
From Verif Require Import Base FloatModel IdModel IdSpec IdProofs ReflModel ReflProofs EventModel EventProps JsonModel JsonSpec JsonProofs JsonGramSpec JsonGramProofs ExportProps TraceModel TraceSpec WebModel ProfModel ProfSpec ProfProofs ProfProps DashModel DashProps HtmlSpec TableModel TableSpec.
From Verif Require PageSpec SniffModel SniffProps.
From Coq Require Import ssreflect.
Local Open Scope general_if_scope.
Local Open Scope Z_scope.

Lemma ascii_ids v : is_id v -> Forall (fun c => (N_of_ascii c < 128)%N) (Base.bytes (id_string v)).
Proof. intros Hv. apply List.Forall_forall. intros c Hc. destruct (id_string_shape v Hv) as [_ H]. specialize (H c Hc). cbn in H. repeat (destruct H as [<-|H]); try contradiction; by vm_compute. Qed.
Lemma page_ascii s : is_id (sp_trace (tr_id s)) -> is_id (sp_span (tr_id s)) -> sanitize (Base.bytes (page_of s)) = Base.bytes (page_of s).
Proof.
  intros H1 H2. apply sanitize_utf8, ascii_utf8. rewrite /page_of. destruct (decide _); rewrite /url_to_trace /url_to_trace_span !bytes_app.
  - apply List.Forall_app. split; [repeat constructor|by apply ascii_ids].
  - repeat (apply List.Forall_app; split); try (by apply ascii_ids); repeat constructor.
Qed.
Lemma profile_document bf prof : document false (print_compact bf (JArr (map profile_json prof))) (JArr (map (fun p => san (profile_json p)) prof)).
Proof.
  rewrite -(map_map profile_json san prof). change (JArr (map san (map profile_json prof))) with (san (JArr (map profile_json prof))). apply compact_document.
  cbn [nums]. induction prof as [|p prof IH]; [done|]. split; [|exact IH]. cbn. repeat (split; [apply fmt_int_number || done|]). done.
Qed.
Lemma int64_in z : int64_range (int64 z).
Proof. rewrite /int64_range /int64. pose proof (Z.mod_pos_bound (z + 2 ^ 63) (2 ^ 64)). lia. Qed.

(** C152: the browser reads the profile of a trace as one row for every span, depth first: its name, the address of its page
    and its times, and there is nothing else. *)
Theorem C152_rows : forall bf reg t prof total, calc_profile reg app_urls t = ROk prof ->
  Forall (fun s => is_id (sp_trace (tr_id s)) /\ is_id (sp_span (tr_id s))) (subtrees t) ->
  Forall2 (longest reg) (subtrees t) total -> sum total < 2 ^ 63 ->
  exists body rows, profile_data bf reg t = ROk body /\ document false body (JArr rows) /\ Forall2 (profile_row reg) (subtrees t) rows.
Proof.
  intros bf reg t prof total Hc Hids Hl Hs. rewrite /profile_data Hc. eexists _, _. split; [reflexivity|]. split; [apply profile_document|].
  pose proof (C60_profile _ _ _ _ Hc) as Hp. pose proof (C60_sums _ _ _ _ _ Hc Hl Hs) as Hsum. clear Hc Hl Hs.
  revert Hids Hsum. induction Hp as [|s p l prof' (Hn & Hu & Ht & (ch & Hch & Ech) & (all & Hall & Eall)) _ IH]=> Hids Hsum; cbn [map]; constructor.
  - inversion Hsum as [|? ? ? ? ((ch' & Hch' & Ech') & (all' & Hall' & Eall') & H0 & H1 & H2)]; subst. inversion Hids as [|? ? [Hi1 Hi2]]; subst.
    assert (ch' = ch) as ->. { transitivity (map (own reg) (s :: tr_subs s)); [|symmetry]; by apply own_all. }
    assert (all' = all) as ->. { transitivity (map (own reg) (subtrees s)); [|symmetry]; by apply own_all. }
    assert (int64_range (pf_cum p)) as Rcum by (rewrite Eall; apply int64_in).
    assert (int64_range (pf_children p)) as Rch by (rewrite Ech; apply int64_in).
    assert (int64_range (pf_time p)) as Rt by (rewrite /int64_range in Rcum |- *; lia).
    assert (pf_url p = page_of s) as Eu. { revert Hu. rewrite /page_of. repeat case_decide; cbn; congruence. }
    assert (san (profile_json p) = JObj [(Base.bytes "Name", JStr (sanitize (Base.bytes (title s)))); (Base.bytes "URL", JStr (Base.bytes (page_of s)));
      (Base.bytes "Time", json_int (pf_time p)); (Base.bytes "TimeChildren", json_int (pf_children p)); (Base.bytes "TimeCum", json_int (pf_cum p))]) as ->.
    { rewrite /title -Hn -(page_ascii s Hi1 Hi2) -Eu. reflexivity. }
    apply (ProfileRow reg s _ _ _ (pf_time p) ch all); try done; [by apply int_is| |].
    + rewrite -Ech'. by apply int_is.
    + rewrite -Eall'. by apply int_is.
  - inversion Hsum; inversion Hids; subst. by apply IH.
Qed.
Print Assumptions C152_rows.
Example C152_nonvacuous : exists reg, register_all library_events = Some reg /\ profile_data true reg c60_trace = ROk (Base.bytes
  "[{""Name"":""root"",""URL"":""/traces/0000000000000001"",""Time"":2500,""TimeChildren"":2502,""TimeCum"":2503},{""Name"":""a"",""URL"":""/traces/0000000000000001/0000000000000003"",""Time"":2,""TimeChildren"":3,""TimeCum"":3},{""Name"":""0000000000000004"",""URL"":""/traces/0000000000000001/0000000000000004"",""Time"":1,""TimeChildren"":1,""TimeCum"":1},{""Name"":""z"",""URL"":""/traces/0000000000000001/0000000000000005"",""Time"":0,""TimeChildren"":0,""TimeCum"":0}]").
Proof. eexists. split; [vm_compute; reflexivity|]. vm_compute. reflexivity. Qed.

(** ** C153 *)

Lemma normal_app a b : ~ In "013"%char a -> normal (a ++ b) = a ++ normal b.
Proof.
  induction a as [|c a IH]=> H; [done|]. cbn [app normal]. destruct (Ascii.eqb_spec c "013"%char) as [->|_]; [by destruct H; left|].
  f_equal. apply IH. intros Hc. apply H. by right.
Qed.
(** C153 (proved part): a name without the characters < and & (and without carriage returns and NUL) is shown as it is. *)
Theorem C153_partial : forall names char v, Forall (fun c => ~ In c ["<"; "&"; "013"; "000"]%char) v -> shows names char (cell v) v.
Proof.
  intros names char v Hv. rewrite /shows /cell_reads /cell normal_app.
  { intros H. rewrite List.Forall_forall in Hv. apply (Hv _ H). cbn. tauto. }
  change (normal (Base.bytes "</td>")) with (Base.bytes "</td>"). induction Hv as [|c v Hc _ IH].
  - apply RT_end. right. eexists _, _. split; [reflexivity|]. tauto.
  - cbn [app]. apply RT_char; [| | |done].
    + intros ->. apply Hc. cbn. tauto.
    + intros ->. apply Hc. cbn. tauto.
    + intros (c' & r & [= -> _] & _). apply Hc. cbn. tauto.
Qed.
Print Assumptions C153_partial.
(** A tag in the name is a tag of the page. *)
Theorem C153_markup : forall names char v tag r t rest, v = "<"%char :: tag :: r -> letter tag -> ~ In "013"%char v ->
  cell_reads names char (cell v) t rest -> t = [] /\ rest = cell v.
Proof.
  intros names char v tag r t rest Ev Ht Hr H. rewrite /cell_reads /cell normal_app // in H. change (normal (Base.bytes "</td>")) with (Base.bytes "</td>") in H. change (v ++ Base.bytes "</td>") with (cell v) in H.
  assert (stops InElement (cell v)) as Hs. { exists tag, (r ++ Base.bytes "</td>"). split; [by rewrite /cell Ev|by left]. }
  assert (cell v = "<"%char :: tag :: r ++ Base.bytes "</td>") as Ec by by rewrite /cell Ev. rewrite Ec in H Hs |- *. clear Ec Ev Hr. inversion H; subst; [done|]. match goal with Hn : ~ stops _ _ |- _ => by destruct (Hn Hs) end.
Qed.
Print Assumptions C153_markup.
(** C153 is false: whoever records a span can put markup with a script into the page, by its name. *)
Definition wit153 : tree := Tree (MkSpanID 1 2 0) [Ann "Name" (Some "<img src=x onerror=alert(1)>"); Ann "_schema:name" None]%string [].
Theorem C153_refuted : exists t, forall reg bf, register_all library_events = Some reg ->
  exists body row name, profile_data bf reg t = ROk body /\ document false body (JArr [JObj ((Base.bytes "Name", JStr name) :: row)]) /\
    name = Base.bytes (span_name (tr_anns t)) /\
    forall names char, ~ shows names char (cell name) name /\
      forall t rest, cell_reads names char (cell name) t rest -> t = [] /\ rest = Base.bytes "<img src=x onerror=alert(1)></td>".
Proof.
  exists wit153. intros reg bf Hreg. assert (exists prof, calc_profile reg app_urls wit153 = ROk prof /\ exists p, prof = [p] /\ pf_name p = "<img src=x onerror=alert(1)>"%string) as (prof & Hc & p & -> & Hn).
  { destruct (C60_total app_urls wit153) as (reg' & Hreg' & prof & Hc); [by eexists|by eexists|]. rewrite Hreg in Hreg'. injection Hreg' as <-. exists prof. split; [done|].
    pose proof (C60_profile _ _ _ _ Hc) as Hp. cbn [subtrees wit153 map concat app] in Hp. inversion Hp as [|? p ? ? (Hn & _) Hr]; subst. inversion Hr; subst. exists p. split; [done|]. by rewrite Hn. }
  destruct p as [n u a b c]. cbn [pf_name] in Hn. subst n. rewrite /profile_data Hc. set (name := Base.bytes "<img src=x onerror=alert(1)>").
  assert (forall names char t rest, cell_reads names char (cell name) t rest -> t = [] /\ rest = Base.bytes "<img src=x onerror=alert(1)></td>") as Hread.
  { intros names char t rest H. eapply (C153_markup names char name "i"%char) in H as [-> ->]; [done|reflexivity|right; by vm_compute|]. vm_compute. intuition discriminate. }
  eexists _, _, name. split; [reflexivity|]. split; [|split; [done|]].
  - pose proof (profile_document bf [MkProfile "<img src=x onerror=alert(1)>" u a b c]) as Hd. exact Hd.
  - intros names char. split; [|apply Hread]. intros H. apply Hread in H as [H _]. done.
Qed.
Print Assumptions C153_refuted.
Example C153_nonvacuous : Forall (fun c => ~ In c ["<"; "&"; "013"; "000"]%char) (Base.bytes "GET /users > ""a""").
Proof. apply List.Forall_forall. intros c Hc Hin. cbn in Hin. destruct Hin as [<-|[<-|[<-|[<-|[]]]]]; vm_compute in Hc; intuition discriminate. Qed.

(** C151 (profiles, proved part): whatever the names of a trace's spans, its profile is sent as plain text or, with LP at the place of
    the mark of one, as a font. *)
Theorem C151_profile_partial : forall stack bad bf reg tr body w, profile_data bf reg tr = ROk body -> PageSpec.unsent w -> SniffProps.no_type w ->
  exists h t, SniffModel.served stack bad (SniffModel.AData body) w = (200, h, unbytes body) /\ SniffModel.sent_type (200, h, unbytes body) = Some t /\
  (SniffProps.lp_at_34 body -> t = SniffProps.font_type) /\ (~ SniffProps.lp_at_34 body -> t = SniffProps.text_type).
Proof.
  intros stack bad bf reg tr body w H Hw Ht. rewrite /profile_data in H. destruct (calc_profile reg app_urls tr) as [| |prof]; try done. injection H as <-.
  eapply SniffProps.C151_data_partial; [done|done|apply profile_document|]. left. by eexists.
Qed.
Print Assumptions C151_profile_partial.
