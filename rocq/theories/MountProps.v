(** Property C161 (traceapp below a path of its user's router). *)
From Verif Require Import Base IdModel IdSpec IdProofs WebModel WebSpec WebProofs WebProps RouteModel RouteSpec RouteProps HrefModel HrefSpec HrefProps MountModel MountSpec.
From Coq Require Import ssreflect.
Local Open Scope general_if_scope.
Local Open Scope string_scope.

Lemma prefix_text_joined P cs s : plain_prefix P -> joined ("" :: cs) s -> cs <> [] -> joined ("" :: (P ++ cs)%list) (prefix_text P +:+ s).
Proof.
  induction P as [|c P IH]; intros HP J Hne; [done|].
  assert (joined ("" :: (P ++ cs)%list) (prefix_text P +:+ s)) as J2 by (apply IH; [intros x Hx; apply HP; by right|done..]).
  inversion J2 as [q Hq E1 E2|p ps s2 Hp J3 E1 E2]; [by destruct P, cs|]. cbn [prefix_text app].
  rewrite !str_app_assoc -E2. apply (J_cons "" _ (c +:+ String "/" s2)); [by intros []|].
  apply J_cons; [by apply HP; left|]. done.
Qed.
Lemma joined_drop P cs path : joined ("" :: (P ++ cs)%list) path -> cs <> [] -> exists s, joined ("" :: cs) s /\ path = prefix_text P +:+ s.
Proof.
  revert path. induction P as [|c P IH]; intros path J Hne; [by exists path|].
  inversion J as [|p ps s Hp J2]; subst. inversion J2 as [q Hq E1 E2|p' ps' s2 Hp2 J3 E1 E2]; [by destruct P, cs|]; subst.
  destruct (IH ("" +:+ String "/" s2)) as (t & Jt & Et); [by apply J_cons; [intros []|]|done|].
  exists t. split; [done|]. cbn [prefix_text]. rewrite !str_app_assoc -Et. done.
Qed.
Lemma plain_prefix_cons P c : plain_prefix (c :: P) -> plain_prefix P.
Proof. intros H x Hx. apply H. by right. Qed.
Lemma match_lit_app P segs cs : match_segs (map Lit P ++ segs) (P ++ cs)%list = match_segs segs cs.
Proof. induction P as [|p P IH]; [done|]. cbn [map app match_segs]. by rewrite String.eqb_refl. Qed.
Lemma match_lit_some P segs cs v : match_segs (map Lit P ++ segs) cs = Some v -> exists ds, cs = (P ++ ds)%list /\ match_segs segs ds = Some v.
Proof.
  revert cs. induction P as [|p P IH]; intros cs; [by exists cs|]. cbn [map app match_segs]. destruct cs as [|c cs]; [done|].
  destruct (String.eqb_spec p c) as [<-|]; [|done]. intros (ds & -> & H)%IH. by exists ds.
Qed.
Lemma components_inj path cs ds : components path = Some cs -> components path = Some ds -> cs = ds.
Proof. congruence. Qed.
Lemma below_static P path cs : plain_prefix P -> components path = Some cs ->
  String.prefix (prefix_text P +:+ "/static/") path = true <-> exists c ds, cs = (P ++ "static" :: c :: ds)%list.
Proof.
  intros HP E. split.
  - intros [r ->]%prefix_spec. rewrite str_app_assoc in E.
    assert (exists c ds, components ("/static/" +:+ r) = Some ("static" :: c :: ds)) as (c & ds & Ec).
    { destruct (components ("/static/" +:+ r)) as [es|] eqn:Ee.
      - destruct (proj1 (static_prefix _ _ Ee)) as (c & ds & ->); [apply prefix_spec; by exists r|]. by exists c, ds.
      - exfalso. revert Ee. rewrite /components. change ("/static/" +:+ r) with ("/" +:+ "static" +:+ "/" +:+ r).
        assert (split_on "/" (Base.bytes ("/" +:+ "static" +:+ "/" +:+ r)) = [] :: Base.bytes "static" :: split_on "/" (Base.bytes r)) as -> by (cbn; done). done. }
    apply components_joined in Ec as [_ J]. exists c, ds. apply (components_inj _ _ _ E), components_joined.
    split; [by destruct P|]. by apply prefix_text_joined.
  - intros (c & ds & ->). apply components_joined in E as [_ J]. destruct (joined_drop _ _ _ J) as (s & Js & ->); [done|].
    inversion Js as [|? ? s1 _ J1]; subst. inversion J1 as [|? ? s2 _ J2]; subst. apply prefix_spec. exists s2. by rewrite str_app_assoc.
Qed.
Lemma first_below P m path cs : plain_prefix P -> components path = Some (P ++ cs)%list -> first_match (routes_below P) m path = first_seg routes m cs.
Proof.
  intros HP E.
  assert (forall pat n mt, match_route (MkRoute n mt (Exact (map Lit P ++ pat))) m path = if String.eqb mt m then match_segs pat cs else None) as Hex.
  { intros pat n mt. rewrite (match_exact (MkRoute n mt (Exact (map Lit P ++ pat))) m path _ (map Lit P ++ pat) E eq_refl). by rewrite match_lit_app. }
  assert (match_route (MkRoute StaticRoute "GET" (Prefix (prefix_text P +:+ "/static/"))) m path = if stat m cs then Some [] else None) as Hst.
  { rewrite /match_route /stat. cbn [rt_method rt_pat]. destruct (String.eqb "GET" m); [|done]. cbn [negb andb].
    destruct (String.prefix _ path) eqn:Hp.
    - apply (below_static _ _ _ HP E) in Hp as (c & ds & Ec%app_inv_head). subst cs. by rewrite String.eqb_refl.
    - destruct cs as [|c [|d cs]]; try done. destruct (String.eqb_spec "static" c) as [<-|]; [|done].
      exfalso. assert (String.prefix (prefix_text P +:+ "/static/") path = true); [|congruence]. apply (below_static _ _ _ HP E). by exists d, cs. }
  rewrite /routes_below /routes. cbn [map below rt_pat rt_name rt_method first_match first_seg]. rewrite Hst !Hex. done.
Qed.
Lemma first_not_below P m path cs r v : plain_prefix P -> components path = Some cs -> first_match (routes_below P) m path = DRoute r v -> exists ds, cs = (P ++ ds)%list.
Proof.
  intros HP E. rewrite /routes_below. assert (Forall (fun x => match rt_pat x with Exact _ => True | Prefix p => p = "/static/" end) routes) as Hr by (repeat constructor).
  revert Hr. generalize routes. intros rs. induction 1 as [|x rs Hx Hrs IH]; [done|]. cbn [map first_match].
  destruct (match_route (below P x) m path) as [w|] eqn:Em; [|done]. intros _. revert Em. rewrite /match_route /below. cbn [rt_method rt_pat].
  destruct (negb _); [done|]. destruct (rt_pat x) as [segs|p].
  - rewrite E. cbn [mbind option_bind]. intros (ds & -> & _)%match_lit_some. by exists ds.
  - subst p. destruct (String.prefix _ path) eqn:Hp; [|done]. intros _. apply (below_static _ _ _ HP E) in Hp as (c & ds & ->). by eexists.
Qed.
Lemma prefix_below P path cs : plain_prefix P -> components path = Some (P ++ cs)%list -> cs <> [] -> String.prefix (prefix_text P) path = true.
Proof.
  intros HP [_ J]%components_joined Hne. destruct (joined_drop _ _ _ J Hne) as (s & _ & ->). apply prefix_spec. by exists s.
Qed.
Lemma ours P m path cs r v : plain_prefix P -> components path = Some cs ->
  (if String.prefix (prefix_text P) path then first_match (routes_below P) m path else DNotFound) = DRoute r v <-> exists ds, cs = (P ++ ds)%list /\ address_of m ds r v.
Proof.
  intros HP E. split.
  - destruct (String.prefix _ path); [|done]. intros H. destruct (first_not_below _ _ _ _ _ _ HP E H) as [ds ->]. exists ds. split; [done|].
    apply seg_address. by rewrite -(first_below P m path).
  - intros (ds & -> & Ha). assert (ds <> []) as Hne by (by destruct Ha). rewrite (prefix_below P path ds) // (first_below P m path ds) //. by apply seg_address.
Qed.

(** C161, what holds: below the prefix, traceapp answers as it does without one (C128)... *)
Theorem C161_addresses_partial : forall A (before after : string -> string -> option A) P m path cs r v,
  plain_prefix P -> leaves_alone before P -> plain_path path cs ->
  serve before after P m path = Traceapp r v <-> exists ds, cs = (P ++ ds)%list /\ address_of m ds r v.
Proof.
  intros A before after P m path cs r v HP Hal Hpl. pose proof Hpl as [E Hc]%plain_spec. rewrite -(ours P m path cs r v HP E) /serve E Hc. split.
  - destruct (before m path); [done|]. destruct (if String.prefix _ _ then _ else _) as [| |r' v']; [by destruct (after m path)..|]. by intros [= -> ->].
  - intros H. pose proof H as (ds & -> & _)%(ours P m path cs r v HP E). by rewrite (Hal m path ds Hpl) H.
Qed.
Print Assumptions C161_addresses_partial.
(** ... and everything else is left to the user's router. *)
Theorem C161_others_partial : forall A (before after : string -> string -> option A) P m path, plain_prefix P ->
  (forall cs ds r v, plain_path path cs -> cs = (P ++ ds)%list -> ~ address_of m ds r v) ->
  alone before after m path (serve before after P m path).
Proof.
  intros A before after P m path HP Hno. rewrite /serve /alone. setoid_rewrite plain_spec. destruct (components path) as [cs|] eqn:E.
  2:{ left. split; [by intros cs [? _]|done]. }
  destruct (clean_components cs) eqn:Hc.
  2:{ left. split; [intros cs' [[= <-] ?]; congruence|done]. }
  right. exists cs. split; [done|]. destruct (before m path); [done|].
  destruct (if String.prefix _ _ then _ else _) as [| |r v] eqn:F; [by destruct (after m path)..|].
  exfalso. pose proof F as (ds & -> & Ha)%(ours P m path cs r v HP E). apply (Hno (P ++ ds)%list ds r v); [by apply plain_spec|done..].
Qed.
Print Assumptions C161_others_partial.

Lemma clean_app P ds : plain_prefix P -> clean_components ds = true -> ds <> [] -> clean_components (P ++ ds)%list = true.
Proof.
  intros HP Hd Hne. induction P as [|c P IH]; [done|]. cbn [app clean_components]. destruct (HP c) as (H1 & H2 & H3 & _); [by left|].
  rewrite (IH (plain_prefix_cons _ _ HP)) (proj2 (String.eqb_neq _ _) H1) (proj2 (String.eqb_neq _ _) H2) (proj2 (String.eqb_neq _ _) H3).
  by destruct (P ++ ds)%list.
Qed.
Lemma served {A} (before after : string -> string -> option A) P m s ds r v : plain_prefix P -> leaves_alone before P ->
  components s = Some ds -> clean_components ds = true -> address_of m ds r v -> serve before after P m (prefix_text P +:+ s) = Traceapp r v.
Proof.
  intros HP Hal [Hne J]%components_joined Hc Ha. apply (C161_addresses_partial _ _ _ _ _ _ (P ++ ds)%list); [done..| |by exists ds].
  apply plain_spec. split; [|by apply clean_app]. apply components_joined. split; [by destruct P|]. by apply prefix_text_joined.
Qed.
Lemma build_lit P segs vals : build (map Lit P ++ segs) vals = (x ← build segs vals; Some (prefix_text P +:+ x)).
Proof.
  induction P as [|c P IH]; [cbn [map app]; by destruct (build segs vals)|]. cbn [map app build prefix_text]. rewrite IH. destruct (build segs vals); [|done].
  cbn [mbind option_bind]. by rewrite !str_app_assoc.
Qed.
Lemma build_var n x vals segs : var vals n = x -> x <> "" -> build (Var n :: segs) vals = (rest ← build segs vals; Some ("/" +:+ x +:+ rest)).
Proof. intros E Hx. cbn [build]. rewrite E. by destruct x. Qed.
(** The addresses that the router makes are those of the pages they are for. *)
Theorem C161_urls_partial : forall A (before after : string -> string -> option A) P r v, plain_prefix P -> leaves_alone before P -> linked r v ->
  exists path m, url_in P r v = Some path /\ serve before after P m path = Traceapp r v.
Proof.
  intros A before after P r v HP Hal Hl.
  enough (exists s ds m, url_in P r v = Some (prefix_text P +:+ s) /\ components s = Some ds /\ clean_components ds = true /\ address_of m ds r v) as (s & ds & m & E & H1 & H2 & H3).
  { exists (prefix_text P +:+ s), m. split; [done|]. by apply (served _ _ _ _ _ ds). }
  destruct Hl as [| | | | | | |t Ht|t Ht|t s Ht Hs|t s Ht Hs]; rewrite /url_in /=; rewrite ?build_lit.
  - exists "/", [""], "GET". repeat split; constructor.
  - exists "/static/", ["static"; ""], "GET". repeat split; constructor.
  - exists "/traces", ["traces"], "GET". repeat split; constructor.
  - exists "/traces/upload", ["traces"; "upload"], "POST". repeat split; constructor.
  - exists "/dashboard", ["dashboard"], "GET". repeat split; constructor.
  - exists "/dashboard/data", ["dashboard"; "data"], "GET". repeat split; constructor.
  - exists "/aggregate", ["aggregate"], "GET". repeat split; constructor.
  - destruct (id_dots t Ht) as (H1 & H2 & H3 & H4). exists ("/traces/" +:+ id_string t), ["traces"; id_string t], "GET". split; [|split; [|split]].
    + cbn [build]. change (var [("Trace", id_string t)] "Trace") with (id_string t). destruct (id_string t) eqn:E; [done|]. cbn [mbind option_bind]. by rewrite -E str_app_nil_r.
    + apply components_joined. split; [done|]. by apply joined_tr, id_string_no_slash.
    + cbn [clean_components]. by rewrite (proj2 (String.eqb_neq _ _) H1) (proj2 (String.eqb_neq _ _) H2).
    + by constructor.
  - destruct (id_dots t Ht) as (H1 & H2 & H3 & H4). exists ("/traces/" +:+ id_string t +:+ "/profile"), ["traces"; id_string t; "profile"], "GET". split; [|split; [|split]].
    + cbn [build]. change (var [("Trace", id_string t)] "Trace") with (id_string t). destruct (id_string t) eqn:E; [done|]. cbn [mbind option_bind]. by rewrite -E.
    + apply components_joined. split; [done|]. apply (joined_tr2 (id_string t) "profile"); [by apply id_string_no_slash|apply profile_no_slash].
    + cbn [clean_components]. by rewrite (proj2 (String.eqb_neq _ _) H1) (proj2 (String.eqb_neq _ _) H2) (proj2 (String.eqb_neq _ _) H3).
    + by constructor.
  - destruct (id_dots t Ht) as (H1 & H2 & H3 & H4), (id_dots s Hs) as (K1 & K2 & K3 & K4).
    exists ("/traces/" +:+ id_string t +:+ "/" +:+ id_string s), ["traces"; id_string t; id_string s], "GET". split; [|split; [|split]].
    + cbn [build]. change (var [("Trace", id_string t); ("Span", id_string s)] "Trace") with (id_string t). change (var [("Trace", id_string t); ("Span", id_string s)] "Span") with (id_string s).
      destruct (id_string t) eqn:E; [done|]. destruct (id_string s) eqn:E2; [done|]. cbn [mbind option_bind]. by rewrite -E -E2 str_app_nil_r.
    + apply components_joined. split; [done|]. by apply joined_tr2; apply id_string_no_slash.
    + cbn [clean_components]. by rewrite (proj2 (String.eqb_neq _ _) H1) (proj2 (String.eqb_neq _ _) H2) (proj2 (String.eqb_neq _ _) H3) (proj2 (String.eqb_neq _ _) K1) (proj2 (String.eqb_neq _ _) K2).
    + by constructor.
  - destruct (id_dots t Ht) as (H1 & H2 & H3 & H4), (id_dots s Hs) as (K1 & K2 & K3 & K4).
    exists ("/traces/" +:+ id_string t +:+ "/" +:+ id_string s +:+ "/profile"), ["traces"; id_string t; id_string s; "profile"], "GET". split; [|split; [|split]].
    + cbn [build]. change (var [("Trace", id_string t); ("Span", id_string s)] "Trace") with (id_string t). change (var [("Trace", id_string t); ("Span", id_string s)] "Span") with (id_string s).
      destruct (id_string t) eqn:E; [done|]. destruct (id_string s) eqn:E2; [done|]. cbn [mbind option_bind]. by rewrite -E -E2.
    + apply components_joined. split; [done|]. apply (joined_tr3 (id_string t) (id_string s) "profile"); [by apply id_string_no_slash..|apply profile_no_slash].
    + cbn [clean_components]. by rewrite (proj2 (String.eqb_neq _ _) H1) (proj2 (String.eqb_neq _ _) H2) (proj2 (String.eqb_neq _ _) H3) (proj2 (String.eqb_neq _ _) K1) (proj2 (String.eqb_neq _ _) K2) (proj2 (String.eqb_neq _ _) K3).
    + by constructor.
Qed.
Print Assumptions C161_urls_partial.
(** The references that the pages write relative to the base URL lead to their destinations, if it ends with a slash. *)
Theorem C161_relative_partial : forall A (before after : string -> string -> option A) P b0 b have p r,
  new_base b0 = Some b -> plain_base b -> plain_prefix P -> P <> [] -> leaves_alone before P -> u_path b0 = prefix_text P +:+ "/" ->
  page_ids p -> In r (page_refs b have p) -> String.prefix "/" (r_text r) = false -> leads_below before after b P r.
Proof.
  intros A before after P b0 b have p r Hb Hpl HP Hne Hal Ep Hp Hr Hpre.
  assert (prefix_text P <> "") as Hne2 by (destruct P; [done|by cbn]).
  assert (u_path b = prefix_text P +:+ "/") as Eb.
  { apply new_base_spec in Hb as (_ & _ & _ & _ & [[E0 _]|[_ ->]]); [|done]. rewrite Ep in E0. by destruct (prefix_text P). }
  assert (mounted b0 (prefix_text P)) as Hm.
  { left. split; [destruct P as [|c P]; [done|]; apply prefix_spec; by eexists|]. split; [|by right]. clear -HP Hne. induction P as [|c P IH]; [done|]. destruct P as [|d P].
    - cbn [prefix_text]. destruct (HP c) as (Hc & _ & _ & Hs); [by left|]. rewrite str_app_nil_r.
      clear -Hc Hs. assert (exists q x, c = q +:+ String x "" /\ In x (bytes c)) as (q & x & E & Hx).
      { clear Hs. induction c as [|y c IH]; [done|]. destruct c as [|z c]; [exists "", y; split; [done|by left]|].
        destruct IH as (q & x & E & Hx); [done|]. exists (String y q), x. split; [by rewrite E|by right]. }
      exists ("/" +:+ q), x. split; [by rewrite E|]. intros ->. by apply Hs.
    - destruct IH as (q & x & E & Hx); [exact (plain_prefix_cons _ _ HP)|done|]. exists ("/" +:+ c +:+ q), x. split; [|done]. cbn [prefix_text] in *. by rewrite E !str_app_assoc. }
  destruct (proj2 (C130_below_partial b0 b (prefix_text P) have p r Hb Hpl Hm Hne2 Eb Hp Hr) Hpre) as [Hex Hall]. split; [done|].
  intros target Ht. destruct (Hall _ Ht) as (m & cs & path & query & route & v & Et & J & Hd & Hdi).
  assert (cs <> []) as Hcs by (by destruct Hd).
  assert (components path = Some cs) as Ec by (by apply components_joined).
  exists m, cs, (prefix_text P +:+ path), query, route, v. split.
  { destruct Et as [->|(-> & -> & ->)]; [by rewrite str_app_assoc|]. exfalso.
    pose proof Hb as (Hs0 & _ & Es & _ & _)%new_base_spec. rewrite -Es in Hs0.
    destruct (page_well _ _ _ _ Hp Hr) as (rest & Hw & _). remember (r_text r) as text eqn:Etext. destruct Hw as [rest|rest Hn|rest Hn1 Hn2 Hn3].
    - apply resolves_base in Ht; [|done|done|rewrite Eb; apply prefix_spec; destruct P; [done|]; cbn [prefix_text]; by eexists].
      rewrite Eb in Ht. apply (f_equal String.length) in Ht. rewrite !str_length_app in Ht. cbn in Ht. lia.
    - exfalso. assert (String.prefix "/" ("/" +:+ rest) = true) as Hpt by (apply prefix_spec; by exists rest). congruence.
    - apply (resolves_relative b (prefix_text P) "") in Ht; [|done|by intros []|done..]. apply (f_equal String.length) in Ht. rewrite !str_length_app in Ht. cbn in Ht. lia. }
  split; [by apply prefix_text_joined|]. split; [done|]. assert (clean_components cs = true) as Hcl.
  { rewrite /dispatch Ec in Hdi. by destruct (clean_components cs). }
  apply (served _ _ _ _ _ cs); [done..|]. apply (C128_addresses m path cs); [by apply plain_spec|done].
Qed.
Print Assumptions C161_relative_partial.

Lemma static_rest r : static_asked ("/static/" +:+ r) = Some ("/" +:+ r).
Proof.
  rewrite /static_asked. assert (String.prefix "/static/" ("/static/" +:+ r) = true) as -> by (apply prefix_spec; by exists r).
  rewrite bytes_app -bytes_length drop_app. by rewrite unbytes_bytes.
Qed.
Lemma static_length path name : static_asked path = Some name -> (String.length name + 7 = String.length path)%nat.
Proof.
  rewrite /static_asked. destruct (String.prefix "/static/" path) eqn:Hp; [|done]. intros E. apply prefix_spec in Hp as [r ->].
  move: (static_rest r). rewrite /static_asked. assert (String.prefix "/static/" ("/static/" +:+ r) = true) as -> by (apply prefix_spec; by exists r).
  rewrite E. intros [= ->]. rewrite !str_length_app. cbn. lia.
Qed.
(** Without a prefix, the files of the application are served under their names... *)
Theorem C161_files_partial : forall f fs path name, plain_path path ("static" :: f :: fs) -> joined ("" :: f :: fs) name -> static_asked path = Some name.
Proof.
  intros f fs path name (J & _) Jn. inversion J as [|? ? s1 _ J1]; subst. inversion J1 as [|? ? s2 _ J2]; subst.
  inversion Jn as [|? ? s3 _ J3]; subst. rewrite (joined_inv _ _ _ J2 J3). exact (static_rest s3).
Qed.
Print Assumptions C161_files_partial.
(** ... but C161 is false: below any other prefix none of them is. *)
Theorem C161_static_refuted : forall A (before after : string -> string -> option A) P f fs path name,
  plain_prefix P -> P <> [] -> leaves_alone before P -> plain_path path (P ++ "static" :: f :: fs) -> joined ("" :: f :: fs) name ->
  serve before after P "GET" path = Traceapp StaticRoute [] /\ static_asked path <> Some name.
Proof.
  intros A before after P f fs path name HP Hne Hal Hpl Jn. split.
  - apply (C161_addresses_partial _ _ _ _ _ _ (P ++ "static" :: f :: fs)%list); [done..|]. eexists. split; [done|constructor].
  - intros E%static_length. destruct Hpl as (J & _). destruct (joined_drop _ _ _ J) as (s & Js & ->); [done|].
    inversion Js as [|? ? s1 _ J1]; subst. inversion J1 as [|? ? s2 _ J2]; subst. inversion Jn as [|? ? s3 _ J3]; subst.
    rewrite (joined_inv _ _ _ J2 J3) !str_length_app in E. destruct P as [|c P]; [done|]. cbn in E. lia.
Qed.
Print Assumptions C161_static_refuted.
Lemma suffix_short {X} (P ds rest : list X) : rest = (P ++ ds)%list -> (length rest <= 1)%nat -> ds = rest \/ ds = [].
Proof. intros ->. rewrite app_length. destruct P as [|p P]; [by left|]. destruct ds; [by right|]. cbn. lia. Qed.
(** Nor do the references lead anywhere that the pages write from the root of the site, nor does the prefix itself. *)
Theorem C161_references_refuted : forall A (before after : string -> string -> option A) P, plain_prefix P -> P <> [] -> leaves_alone before P ->
  (forall m r v, serve before after P m (prefix_text P) <> Traceapp r v) /\
  forall m path, In (m, path) fixed_requests ->
    (forall b, exists p r, page_ids p /\ In r (page_refs b true p) /\ r_text r = path) /\
    forall r v, serve before after P m path <> Traceapp r v.
Proof.
  intros A before after P HP Hne Hal. split.
  - intros m r v H. assert (plain_path (prefix_text P) P) as Hpl.
    { apply plain_spec. clear -HP Hne. assert (exists Q c, P = (Q ++ [c])%list) as (Q & c & ->) by (induction P using rev_ind; [done|by eexists _, _]).
      destruct (HP c) as (H1 & H2 & H3 & H4); [apply in_app_iff; right; by left|].
      assert (plain_prefix Q) as HQ by (intros x Hx; apply HP, in_app_iff; by left).
      assert (prefix_text (Q ++ [c]) = prefix_text Q +:+ ("/" +:+ c)) as ->.
      { clear. induction Q as [|x Q IH]; [cbn; by rewrite str_app_nil_r|]. cbn [app prefix_text]. by rewrite IH !str_app_assoc. }
      split; [|apply clean_app; [done| |done]; cbn [clean_components]; by rewrite (proj2 (String.eqb_neq _ _) H2) (proj2 (String.eqb_neq _ _) H3)].
      apply components_joined. split; [by destruct Q|]. apply prefix_text_joined; [done| |done]. apply (J_cons "" [c] c); [by intros []|by constructor]. }
    apply (C161_addresses_partial _ _ _ _ _ _ P) in H as (ds & E & Ha); [|done..]. destruct ds; [by inversion Ha|].
    apply (f_equal length) in E. rewrite app_length in E. cbn in E. lia.
  - intros m path Hin. split.
    + intros b. cbn [fixed_requests In] in Hin.
      destruct Hin as [[= <- <-]|[[= <- <-]|[[= <- <-]|[[= <- <-]|[[= <- <-]|[[= <- <-]|[[= <- <-]|[]]]]]]]].
      * exists (RootPage), (MkRef (ToStatic ["favicon.png"]) "/static/favicon.png"). split; [repeat constructor|]. split; [|done]. rewrite /page_refs /layout_refs /root_refs; cbn [In app map]; repeat first [left; reflexivity | right].
      * exists (RootPage), (MkRef (ToStatic ["logo_white.png"]) "/static/logo_white.png"). split; [repeat constructor|]. split; [|done]. rewrite /page_refs /layout_refs /root_refs; cbn [In app map]; repeat first [left; reflexivity | right].
      * exists (RootPage), (MkRef (ToStatic ["logo_red.png"]) "/static/logo_red.png"). split; [repeat constructor|]. split; [|done]. rewrite /page_refs /layout_refs /root_refs; cbn [In app map]; repeat first [left; reflexivity | right].
      * exists (RootPage), (MkRef (ToStatic ["red_spinner.png"]) "/static/red_spinner.png"). split; [repeat constructor|]. split; [|done]. rewrite /page_refs /layout_refs /root_refs; cbn [In app map]; repeat first [left; reflexivity | right].
      * exists (RootPage), (MkRef ToTraces "/traces"). split; [repeat constructor|]. split; [|done]. rewrite /page_refs /layout_refs /root_refs; cbn [In app map]; repeat first [left; reflexivity | right].
      * exists (TracesPage []), (MkRef ToUpload "/traces/upload"). split; [repeat constructor|]. split; [|done]. rewrite /page_refs /layout_refs /traces_refs; cbn [In app map]; repeat first [left; reflexivity | right].
      * exists (DashboardPage []), (MkRef ToDashboardData "/dashboard/data"). split; [repeat constructor|]. split; [|done]. rewrite /page_refs /layout_refs /dashboard_refs; cbn [In app map]; repeat first [left; reflexivity | right].
    + intros r v H. destruct P as [|c P]; [done|].
      assert (exists cs, components path = Some cs /\ clean_components cs = true /\ forall ds, cs = c :: (P ++ ds)%list -> ~ address_of m ds r v) as (cs & Ec & Hcl & Hno).
      { clear -Hin. enough (exists x rest, components path = Some (x :: rest) /\ clean_components (x :: rest) = true /\ (length rest <= 1)%nat /\ first_seg routes m rest = DNotFound) as (x & rest & E & Hcl & Hlen & Hno).
        { exists (x :: rest). split; [done|]. split; [done|]. intros ds [= _ Er] Ha.
          destruct (suffix_short P ds rest) as [->| ->]; [done..|apply seg_address in Ha; congruence|inversion Ha]. }
        cbn [fixed_requests In] in Hin.
        destruct Hin as [[= <- <-]|[[= <- <-]|[[= <- <-]|[[= <- <-]|[[= <- <-]|[[= <- <-]|[[= <- <-]|[]]]]]]]]; eexists _, _; (split; [vm_compute; reflexivity|]); repeat split; vm_compute; try reflexivity; lia. }
      destruct (proj1 (C161_addresses_partial _ before after (c :: P) m path cs r v HP Hal (proj2 (plain_spec _ _) (conj Ec Hcl))) H) as (ds & E & Ha). by apply (Hno ds).
Qed.
Print Assumptions C161_references_refuted.
(** An application below "/tools/appdash" of a router with a page of its own. *)
Example C161_nonvacuous :
  let before := fun m path => if (String.eqb m "GET" && String.eqb path "/about")%bool then Some 1 else None in
  let P := ["tools"; "appdash"] in
  let b := MkBase "https" "mysite.com" "/tools/appdash/" in
  plain_prefix P /\ leaves_alone before P /\ new_base b = Some b /\ plain_base b /\ u_path b = prefix_text P +:+ "/" /\
  serve before (fun _ _ => None) P "GET" "/tools/appdash/traces/000000000000000a" = Traceapp TraceRoute [("Trace", "000000000000000a")] /\
  url_in P TraceRoute [("Trace", id_string 10)] = Some "/tools/appdash/traces/000000000000000a" /\
  serve before (fun _ _ => None) P "GET" "/about" = Users 1 /\
  plain_path "/tools/appdash/static/js/a.js" (P ++ ["static"; "js"; "a.js"]) /\ joined [""; "js"; "a.js"] "/js/a.js" /\
  static_asked "/tools/appdash/static/js/a.js" = None /\ static_asked "/static/js/a.js" = Some "/js/a.js".
Proof.
  cbv zeta. split; [intros c [<- | [<- | []]]; repeat split; try done; intros Hin; vm_compute in Hin; intuition discriminate|].
  split.
  { intros m path cs [E _]%plain_spec. destruct (String.eqb_spec path "/about") as [->|]; [by vm_compute in E|by rewrite andb_false_r]. }
  split; [reflexivity|]. split; [split; intros Hin; vm_compute in Hin; intuition discriminate|].
  split; [reflexivity|]. split; [by vm_compute|]. split; [by vm_compute|]. split; [by vm_compute|]. split; [by apply plain_spec|].
  split; [by apply components_joined|]. by vm_compute.
Qed.
