(** Property C130 (the references of the pages). *)
From Verif Require Import Base IdModel IdSpec IdProofs WebModel WebSpec WebProofs WebProps RouteSpec RouteProps HrefModel HrefSpec.
From Coq Require Import ssreflect.
Local Open Scope general_if_scope.
Local Open Scope string_scope.

Lemma comma_inj ps s s' : comma_list ps s -> comma_list ps s' -> s = s'.
Proof.
  intros H. revert s'. induction H as [p Hp|p ps s Hp H IH]; intros s' H'; inversion H' as [|p0 ps0 s0 Hp0 H0]; subst; try done; [inversion H0|inversion H|].
  by rewrite (IH _ H0).
Qed.
Lemma id_not v s : is_id v -> parse_id s = inr ErrSyntax -> id_string v <> s.
Proof. intros Hv E. by apply (names_not s _ v E), id_named. Qed.
Lemma id_dots v : is_id v -> id_string v <> "." /\ id_string v <> ".." /\ id_string v <> "" /\ id_string v <> "profile".
Proof. intros Hv. split; [by apply id_not|]. split; [by apply id_not|]. split; by apply id_not. Qed.

(** The three ways references are written; [rest] is what follows the slash. *)
Inductive written (b : base_url) : string -> string -> Prop :=
| W_base rest : written b (url_string b +:+ rest) rest
| W_path rest : String.prefix "/" rest = false -> written b ("/" +:+ rest) rest
| W_relative rest : rest <> "" -> ~ In "/"%char (bytes rest) -> ~ In ":"%char (bytes rest) -> written b rest rest.
Definition goes (r : reference) (rest : string) : Prop :=
  (exists m cs path query route v, path +:+ query = "/" +:+ rest /\ joined ("" :: cs) path /\ destination (r_for r) m cs query route v /\ dispatch m path = DRoute route v) /\
  (forall m cs path query route v, joined ("" :: cs) path -> destination (r_for r) m cs query route v -> path +:+ query = "/" +:+ rest).
Definition well (b : base_url) (r : reference) : Prop := exists rest, written b (r_text r) rest /\ goes r rest.

Lemma goes_intro p text rest m cs path query route v :
  destination p m cs query route v -> (forall m' cs' query' route' v', destination p m' cs' query' route' v' -> cs' = cs /\ query' = query) ->
  joined ("" :: cs) path -> (forall c, In c cs -> c <> "." /\ c <> "..") -> (forall before c after, cs = (before ++ c :: after)%list -> after <> [] -> c <> "") ->
  address_of m cs route v -> path +:+ query = "/" +:+ rest -> goes (MkRef p text) rest.
Proof.
  intros Hd Hu Hj H1 H2 Ha E. split.
  - exists m, cs, path, query, route, v. split; [done|]. split; [done|]. split; [done|]. apply (C128_addresses m path cs); [|done].
    split; [done|]. split; [|done]. by destruct Ha.
  - intros m' cs' path' query' route' v' Hj' Hd'. cbn [r_for] in Hd'. destruct (Hu _ _ _ _ _ Hd') as [-> ->]. by rewrite (joined_inv _ _ _ Hj' Hj).
Qed.
Lemma plain_parts cs : clean_components cs = true ->
  (forall c, In c cs -> c <> "." /\ c <> "..") /\ (forall before c after, cs = (before ++ c :: after)%list -> after <> [] -> c <> "").
Proof. apply clean_spec. Qed.
Lemma goes_fixed p text rest m cs path route v :
  destination p m cs "" route v -> (forall m' cs' query' route' v', destination p m' cs' query' route' v' -> cs' = cs /\ query' = "") ->
  components path = Some cs -> clean_components cs = true -> address_of m cs route v -> path = "/" +:+ rest -> goes (MkRef p text) rest.
Proof.
  intros Hd Hu [_ Hj]%components_joined Hc Ha ->. destruct (plain_parts cs Hc) as [H1 H2].
  apply (goes_intro p text rest m cs ("/" +:+ rest) "" route v); try done. apply str_app_nil_r.
Qed.
Ltac fixed d := match goal with |- goes (MkRef ?p _) ?rest => eapply (goes_fixed p _ rest _ _ ("/" +:+ rest)); [apply d|by inversion 1|vm_compute; reflexivity|reflexivity|constructor|reflexivity] end.
Lemma static_well b f fs rest text : written b text rest -> components ("/" +:+ rest) = Some ("static" :: f :: fs) -> clean_components ("static" :: f :: fs) = true ->
  well b (MkRef (ToStatic (f :: fs)) text).
Proof.
  intros Hw Hc Hcl. exists rest. split; [done|]. eapply goes_fixed; [constructor| |exact Hc|done|constructor|done]. by inversion 1.
Qed.
Lemma trace_goes t text : is_id t -> goes (MkRef (ToTrace t) text) ("traces/" +:+ id_string t).
Proof.
  intros Ht. destruct (id_dots t Ht) as (H1 & H2 & H3 & H4).
  apply (goes_intro _ text _ "GET" ["traces"; id_string t] ("/traces/" +:+ id_string t) "" TraceRoute [("Trace", id_string t)]); [constructor|by inversion 1| | | |by constructor|apply str_app_nil_r].
  - by apply joined_tr, id_string_no_slash.
  - intros c [<- | [<- | []]]; done.
  - intros [|x [|y [|]]] c after E Hafter; cbn [app] in E; simplify_eq; done.
Qed.
Lemma permalink_goes t pl text : is_id t -> goes (MkRef (ToPermalink t pl) text) ("traces/" +:+ id_string t +:+ "?permalink=" +:+ pl).
Proof.
  intros Ht. destruct (id_dots t Ht) as (H1 & H2 & H3 & H4).
  apply (goes_intro _ text _ "GET" ["traces"; id_string t] ("/traces/" +:+ id_string t) ("?permalink=" +:+ pl) TraceRoute [("Trace", id_string t)]); [constructor|by inversion 1| | | |by constructor|by rewrite str_app_assoc].
  - by apply joined_tr, id_string_no_slash.
  - intros c [<- | [<- | []]]; done.
  - intros [|x [|y [|]]] c after E Hafter; cbn [app] in E; simplify_eq; done.
Qed.
Lemma profile_goes t text : is_id t -> goes (MkRef (ToProfile t) text) ("traces/" +:+ id_string t +:+ "/profile").
Proof.
  intros Ht. destruct (id_dots t Ht) as (H1 & H2 & H3 & H4).
  apply (goes_intro _ text _ "GET" ["traces"; id_string t; "profile"] ("/traces/" +:+ id_string t +:+ "/profile") "" TraceProfileRoute [("Trace", id_string t)]); [constructor|by inversion 1| | | |by constructor|apply str_app_nil_r].
  - apply (joined_tr2 (id_string t) "profile"); [by apply id_string_no_slash|apply profile_no_slash].
  - intros c [<- | [<- | [<- | []]]]; done.
  - intros [|x [|y [|z [|]]]] c after E Hafter; cbn [app] in E; simplify_eq; done.
Qed.
Lemma span_goes t s text : is_id t -> is_id s -> goes (MkRef (ToSpan t s) text) ("traces/" +:+ id_string t +:+ "/" +:+ id_string s).
Proof.
  intros Ht Hs. destruct (id_dots t Ht) as (H1 & H2 & H3 & H4), (id_dots s Hs) as (H5 & H6 & H7 & H8).
  apply (goes_intro _ text _ "GET" ["traces"; id_string t; id_string s] ("/traces/" +:+ id_string t +:+ "/" +:+ id_string s) "" TraceSpanRoute [("Trace", id_string t); ("Span", id_string s)]); [constructor|by inversion 1| | | |by constructor|apply str_app_nil_r].
  - by apply joined_tr2; apply id_string_no_slash.
  - intros c [<- | [<- | [<- | []]]]; done.
  - intros [|x [|y [|z [|]]]] c after E Hafter; cbn [app] in E; simplify_eq; done.
Qed.
Lemma span_profile_goes t s text : is_id t -> is_id s -> goes (MkRef (ToSpanProfile t s) text) ("traces/" +:+ id_string t +:+ "/" +:+ id_string s +:+ "/profile").
Proof.
  intros Ht Hs. destruct (id_dots t Ht) as (H1 & H2 & H3 & H4), (id_dots s Hs) as (H5 & H6 & H7 & H8).
  apply (goes_intro _ text _ "GET" ["traces"; id_string t; id_string s; "profile"] ("/traces/" +:+ id_string t +:+ "/" +:+ id_string s +:+ "/profile") "" TraceSpanProfileRoute [("Trace", id_string t); ("Span", id_string s)]); [constructor|by inversion 1| | | |by constructor|apply str_app_nil_r].
  - apply (joined_tr3 (id_string t) (id_string s) "profile"); [by apply id_string_no_slash..|apply profile_no_slash].
  - intros c [<- | [<- | [<- | [<- | []]]]]; done.
  - intros [|x [|y [|z [|w [|]]]]] c after E Hafter; cbn [app] in E; simplify_eq; done.
Qed.
Lemma slowest_goes ids text : Forall is_id ids -> goes (MkRef (ToSlowest ids) text) ("traces?show=" +:+ row_show ids).
Proof.
  intros Hids. apply (goes_intro _ text _ "GET" ["traces"] "/traces" ("?show=" +:+ row_show ids) TracesRoute []); [| | | | |constructor|done].
  - constructor. destruct ids as [|i ids]; [by left|]. right. by apply row_comma.
  - inversion 1 as [| | | | |l show Hs| | | | | | | |]; subst. split; [done|]. f_equal. destruct ids as [|i ids].
    + destruct Hs as [[_ ->]|Hs]; [done|inversion Hs].
    + destruct Hs as [[? _]|Hs]; [done|]. by apply (comma_inj _ _ _ Hs), row_comma.
  - by apply components_joined.
  - by intros c [<- | []].
  - intros [|x [|]] c after E Hafter; cbn [app] in E; simplify_eq; done.
Qed.
Lemma selection_goes ids text : ids <> [] -> Forall is_id ids -> goes (MkRef (ToSelection ids) text) ("aggregate?selection=" +:+ row_show ids).
Proof.
  intros Hne Hids. apply (goes_intro _ text _ "GET" ["aggregate"] "/aggregate" ("?selection=" +:+ row_show ids) AggregateRoute []); [| | | | |constructor|done].
  - constructor. by apply row_comma.
  - inversion 1 as [| | | | | | | | | | | | |l sel Hs]; subst. split; [done|]. f_equal. by apply (comma_inj _ _ _ Hs), row_comma.
  - by apply components_joined.
  - by intros c [<- | []].
  - intros [|x [|]] c after E Hafter; cbn [app] in E; simplify_eq; done.
Qed.

Ltac slash := intros Hin; vm_compute in Hin; intuition discriminate.
Ltac one :=
  lazymatch goal with
  | |- well ?b (MkRef (ToStatic _) (url_string _ +:+ ?rest)) => apply (static_well b _ _ rest); [apply W_base|vm_compute; reflexivity|reflexivity]
  | |- well ?b (MkRef (ToStatic _) (String _ ?rest)) => apply (static_well b _ _ rest); [by apply (W_path b rest)|vm_compute; reflexivity|reflexivity]
  | |- well ?b (MkRef ToHome _) => exists ""; split; [rewrite -{1}(str_app_nil_r (url_string b)); apply W_base|fixed D_home]
  | |- well ?b (MkRef ToDashboard _) => exists "dashboard"; split; [apply W_relative; [done|slash|slash]|fixed D_dashboard]
  | |- well ?b (MkRef ToTraces "traces") => exists "traces"; split; [apply W_relative; [done|slash|slash]|fixed D_traces]
  | |- well ?b (MkRef ToTraces "/traces") => exists "traces"; split; [by apply (W_path b "traces")|fixed D_traces]
  | |- well ?b (MkRef ToUpload _) => exists "traces/upload"; split; [by apply (W_path b "traces/upload")|fixed D_upload]
  | |- well ?b (MkRef ToDashboardData _) => exists "dashboard/data"; split; [by apply (W_path b "dashboard/data")|fixed D_data]
  | |- well ?b (MkRef ToAggregate _) => exists "aggregate"; split; [rewrite /aggregate_button /aggregate_query Nat.eqb_refl str_app_nil_r; apply W_base|fixed D_aggregate]
  end.
Lemma span_ref_well b i : is_id (sp_trace i) -> is_id (sp_span i) -> well b (span_ref i).
Proof.
  intros Ht Hs. rewrite /span_ref. case_match.
  - exists ("traces/" +:+ id_string (sp_trace i)). split; [by apply (W_path b ("traces/" +:+ _))|by apply trace_goes].
  - exists ("traces/" +:+ id_string (sp_trace i) +:+ "/" +:+ id_string (sp_span i)). split; [by apply (W_path b ("traces/" +:+ _))|by apply span_goes].
Qed.
Lemma page_well b have p r : page_ids p -> In r (page_refs b have p) -> well b r.
Proof.
  intros Hp. rewrite /page_refs. rewrite in_app_iff. intros [Hr|Hr].
  - rewrite /layout_refs !in_app_iff in Hr. destruct Hr as [Hr|[Hr|Hr]].
    + cbn [In] in Hr. destruct Hr as [<- | [<- | [<- | [<- | [<- | [<- | []]]]]]]; one.
    + destruct have; [|done]. destruct Hr as [<- | []]. one.
    + destruct Hr as [<- | []]. one.
  - destruct p as [|listed|i pl spans|rows|]; cbn [page_ids] in Hp.
    + cbn [root_refs In] in Hr. destruct Hr as [<- | [<- | [<- | []]]]; one.
    + apply in_app_iff in Hr as [[<- | (t & <- & Ht)%in_map_iff]|[<- | []]]; [one| |one].
      exists ("traces/" +:+ id_string t). split; [by apply (W_path b ("traces/" +:+ _))|]. apply trace_goes.
      rewrite List.Forall_forall in Hp. by apply Hp.
    + apply Forall_cons in Hp as [[Ht Hs] Hsp]. rewrite /trace_refs !in_app_iff in Hr. destruct Hr as [Hr|[Hr|Hr]].
      * cbn [In] in Hr. destruct Hr as [<- | [<- | []]]; one.
      * case_match; cbn [In] in Hr.
        { destruct Hr as [<- | [<- | []]].
          - exists ("traces/" +:+ id_string (sp_trace i) +:+ "?permalink=" +:+ pl). split; [rewrite /url_to_trace str_app_assoc; by apply (W_path b ("traces/" +:+ _))|by apply permalink_goes].
          - exists ("traces/" +:+ id_string (sp_trace i) +:+ "/profile"). split; [by apply (W_path b ("traces/" +:+ _))|by apply profile_goes]. }
        destruct Hr as [<- | []]. exists ("traces/" +:+ id_string (sp_trace i) +:+ "/" +:+ id_string (sp_span i) +:+ "/profile"). split; [by apply (W_path b ("traces/" +:+ _))|by apply span_profile_goes].
      * apply in_map_iff in Hr as (j & <- & Hj). rewrite List.Forall_forall in Hsp. destruct (Hsp j Hj). by apply span_ref_well.
    + rewrite /dashboard_refs in_app_iff in Hr. destruct Hr as [Hr|Hr].
      * cbn [In] in Hr. destruct Hr as [<- | [<- | [<- | []]]]; one.
      * apply in_map_iff in Hr as (ids & <- & Hin). rewrite List.Forall_forall in Hp. exists ("traces?show=" +:+ row_show ids).
        split; [by apply (W_path b ("traces?show=" +:+ _))|]. by apply slowest_goes, Hp.
    + cbn [aggregate_refs In] in Hr. destruct Hr as [<- | []]; one.
Qed.

(** ** Resolving *)

Lemma prefix_slash_app a b : String.prefix "/" a = true -> String.prefix "/" (a +:+ b) = true.
Proof. rewrite !prefix_spec. intros [r ->]. exists (r +:+ b). by rewrite str_app_assoc. Qed.
Lemma no_slash_prefix s : ~ In "/"%char (bytes s) -> String.prefix "/" s = false.
Proof. intros H. destruct (String.prefix "/" s) eqn:E; [|done]. apply prefix_spec in E as [r ->]. exfalso. apply H. by left. Qed.
Lemma slash_prefix p : String.prefix "/" (String "/" p) = true.
Proof. apply prefix_spec. by exists p. Qed.
Lemma scheme_no_slash b s : u_scheme b <> "" -> plain_base b -> String.prefix "/" (u_scheme b +:+ s) = false.
Proof.
  intros Hne [Hs _]. destruct (String.prefix _ _) eqn:E; [|done]. apply prefix_spec in E as [r E]. destruct (u_scheme b) as [|c q]; [done|]. injection E as -> _. exfalso. apply Hs. by left.
Qed.
Lemma bytes_in_app c a b : In c (bytes (a +:+ b)) <-> In c (bytes a) \/ In c (bytes b).
Proof. rewrite bytes_app. apply in_app_iff. Qed.
(** The text after the last slash is determined. *)
Lemma last_slash dir last dir' last' : dir +:+ "/" +:+ last = dir' +:+ "/" +:+ last' -> ~ In "/"%char (bytes last) -> ~ In "/"%char (bytes last') -> dir = dir' /\ last = last'.
Proof.
  revert dir'. induction dir as [|c dir IH]; intros [|c' dir'] E H H'; cbn in E.
  - by injection E.
  - injection E as <- ->. exfalso. apply H. apply bytes_in_app. right. by left.
  - injection E as -> E. exfalso. apply H'. rewrite -E. apply bytes_in_app. right. by left.
  - injection E as -> E. by destruct (IH dir' E H H') as [-> ->].
Qed.
Lemma resolves_base b rest target : u_scheme b <> "" -> plain_base b -> String.prefix "/" (u_path b) = true ->
  resolves b (url_string b +:+ rest) target <-> target = u_path b +:+ rest.
Proof.
  intros Hs Hp Hslash. assert (exists q, u_path b = "/" +:+ q) as [q Eq].
  { by apply prefix_spec. }
  rewrite /url_string Eq !str_app_assoc. split.
  - inversion 1 as [p E|p Hn E|dir last p E1 E2 E3 E4 E5 E]; subst.
    + apply str_app_inv_head in E. injection E as E. apply str_app_inv_head in E. by injection E as ->.
    + pose proof (scheme_no_slash b ("://" +:+ u_host b +:+ "/" +:+ q +:+ rest) Hs Hp) as Hf. by rewrite -E slash_prefix in Hf.
    + exfalso. apply E5. apply bytes_in_app. right. by left.
  - intros ->. apply R_absolute.
Qed.
Lemma resolves_path b rest target : u_scheme b <> "" -> plain_base b -> String.prefix "/" rest = false ->
  resolves b ("/" +:+ rest) target <-> target = "/" +:+ rest.
Proof.
  intros Hs Hp Hn. split.
  - inversion 1 as [p E|p Hn' E|dir last p E1 E2 E3 E4 E5 E]; subst; [|done|by rewrite slash_prefix in E4].
    match type of E with _ +:+ ?s = _ => pose proof (scheme_no_slash b s Hs Hp) as Hf end. by rewrite E slash_prefix in Hf.
  - intros ->. by apply R_path.
Qed.
Lemma resolves_relative b dir last rest target : u_path b = dir +:+ "/" +:+ last -> ~ In "/"%char (bytes last) ->
  rest <> "" -> ~ In "/"%char (bytes rest) -> ~ In ":"%char (bytes rest) -> resolves b rest target <-> target = dir +:+ "/" +:+ rest.
Proof.
  intros Hd Hl Hne Hs Hc. assert (String.prefix "/" rest = false) as Hpre.
  { by apply no_slash_prefix. }
  split.
  - inversion 1 as [p E|p Hn' E|dir' last' p E1 E2 E3 E4 E5 E]; subst.
    + exfalso. apply Hc. apply bytes_in_app. right. by left.
    + by rewrite slash_prefix in Hpre.
    + rewrite Hd in E1. by destruct (last_slash _ _ _ _ E1 Hl E2) as [<- _].
  - intros ->. by apply (R_relative b dir last).
Qed.

Lemma new_base_spec b0 b : new_base b0 = Some b <->
  u_scheme b0 <> "" /\ u_host b0 <> "" /\ u_scheme b = u_scheme b0 /\ u_host b = u_host b0 /\
  (u_path b0 = "" /\ u_path b = "/" \/ u_path b0 <> "" /\ u_path b = u_path b0).
Proof.
  rewrite /new_base. destruct b0 as [s h p], b as [s' h' p']. cbn.
  destruct (String.eqb_spec s ""), (String.eqb_spec h ""); cbn; [split; [done|tauto]..|].
  destruct (String.eqb_spec p ""); split; [intros [= <- <- <-]; tauto|intros (? & ? & -> & -> & [[_ ->]|[? _]]); done|intros [= <- <- <-]; tauto|intros (? & ? & -> & -> & [[? _]|[_ ->]]); done].
Qed.
(** C130: New accepts exactly the base URLs with a scheme and a host; "" and "/" are the same path. *)
Theorem C130_new : forall b0,
  (new_base b0 = None <-> u_scheme b0 = "" \/ u_host b0 = "") /\
  (forall b, new_base b0 = Some b -> u_scheme b = u_scheme b0 /\ u_host b = u_host b0 /\ u_path b = if String.eqb (u_path b0) "" then "/" else u_path b0).
Proof.
  intros b0. split.
  - rewrite /new_base. destruct (String.eqb_spec (u_scheme b0) ""), (String.eqb_spec (u_host b0) ""); cbn; intuition congruence.
  - intros b (_ & _ & Es & Eh & Ep)%new_base_spec. split; [done|]. split; [done|].
    destruct Ep as [[-> ->]|[Hne ->]]; [done|]. by destruct (String.eqb_spec (u_path b0) "").
Qed.
Print Assumptions C130_new.
(** C130, what holds: if the application is served at the root of its host, every reference of every page leads to
    its destination... *)
Theorem C130_root_partial : forall b0 b have p r, new_base b0 = Some b -> plain_base b -> mounted b0 "" ->
  page_ids p -> In r (page_refs b have p) -> leads b "" r.
Proof.
  intros b0 b have p r (Hs & Hh & Es & Eh & Ep)%new_base_spec Hpl Hm Hp Hr. rewrite -Es in Hs. clear Es Eh.
  assert (u_path b = "/") as Epath.
  { destruct Hm as [[? _]|[_ Hm]]; [done|]. destruct Ep as [[_ ->]|[? ->]]; [done|]. by destruct Hm. }
  destruct (page_well _ _ _ _ Hp Hr) as (rest & Hw & (m & cs & path & query & route & v & E & Hj & Hd & Hdi) & _).
  assert (forall target, resolves b (r_text r) target <-> target = "/" +:+ rest) as Hres.
  { intros target. destruct Hw as [rest|rest Hn|rest Hne Hn Hc].
    - rewrite resolves_base // Epath //.
    - by apply resolves_path.
    - by apply (resolves_relative b "" ""). }
  split; [exists ("/" +:+ rest); by apply Hres|]. intros target ->%Hres.
  exists m, cs, path, query, route, v. split; [by left|]. done.
Qed.
Print Assumptions C130_root_partial.
(** ... if it is served below a path, with a base URL that ends in a slash, those references lead to their
    destination that do not start with a slash: the scripts and styles, the logo, the links of the navigation bar
    and the aggregated view.  The links to traces, spans, profiles, images and data do not... *)
Lemma prefix_written b text rest : u_scheme b <> "" -> plain_base b -> written b text rest -> String.prefix "/" text = true -> text = "/" +:+ rest.
Proof.
  intros Hs Hp Hw H. destruct Hw as [rest|rest Hn|rest Hne Hn Hc]; [|done|].
  - rewrite /url_string !str_app_assoc scheme_no_slash // in H.
  - by rewrite no_slash_prefix in H.
Qed.
Lemma length_app_eq a b : a = b +:+ a -> b = "".
Proof. intros E. apply (f_equal String.length) in E. rewrite str_length_app in E. destruct b; [done|]. cbn in E. lia. Qed.
Lemma home_root r rest : goes r rest -> (exists m cs path query route v, path = "/" /\ query = "" /\ joined ("" :: cs) path /\ destination (r_for r) m cs query route v) -> rest = "".
Proof. intros [_ Hu] (m & cs & path & query & route & v & -> & -> & Hj & Hd). pose proof (Hu _ _ _ _ _ _ Hj Hd) as E. cbn in E. by injection E. Qed.
Theorem C130_below_partial : forall b0 b mount have p r, new_base b0 = Some b -> plain_base b -> mounted b0 mount -> mount <> "" ->
  u_path b = mount +:+ "/" -> page_ids p -> In r (page_refs b have p) ->
  leads b mount r <-> String.prefix "/" (r_text r) = false.
Proof.
  intros b0 b mount have p r (Hs & Hh & Es & Eh & Ep)%new_base_spec Hpl Hm Hmne Epath Hp Hr. rewrite -Es in Hs. clear Es Eh Ep.
  assert (String.prefix "/" mount = true) as Hmount by (by destruct Hm as [(? & _ & _)|[? _]]).
  destruct (page_well _ _ _ _ Hp Hr) as (rest & Hw & Hg). pose proof Hg as [(m & cs & path & query & route & v & E & Hj & Hd & Hdi) Hu]. split.
  - intros [[target Ht] Hall]. destruct (String.prefix "/" (r_text r)) eqn:Hpre; [|done]. exfalso.
    pose proof (prefix_written _ _ _ Hs Hpl Hw Hpre) as Etext.
    assert (String.prefix "/" rest = false) as Hn.
    { inversion Hw as [rest' Et|rest' Hn Et|rest' Hne Hn Hc Et]; subst; [|done|].
      - rewrite -Et /url_string !str_app_assoc scheme_no_slash // in Hpre.
      - rewrite Etext in Hn. exfalso. apply Hn. by left. }
    assert (resolves b (r_text r) ("/" +:+ rest)) as Hres by (rewrite Etext; by apply resolves_path).
    destruct (Hall _ Hres) as (m' & cs' & path' & query' & route' & v' & Et & Hj' & Hd' & _).
    pose proof (Hu _ _ _ _ _ _ Hj' Hd') as E'. destruct Et as [Et|(Et & -> & ->)].
    + rewrite E' in Et. by apply length_app_eq in Et.
    + assert (rest = "") as ->. { apply (home_root r rest Hg). exists m', cs', "/", "", route', v'. done. }
      destruct Hm as [(_ & (p1 & c & -> & Hc) & _)|[? _]]; [|done]. destruct p1 as [|c1 p1]; [injection Et as Ec; by rewrite -Ec in Hc|]. injection Et as _ Et. by destruct p1.
  - intros Hpre. assert (forall target, resolves b (r_text r) target <-> target = mount +:+ "/" +:+ rest) as Hres.
    { intros target. destruct Hw as [rest|rest Hn|rest Hne Hn Hc].
      - rewrite resolves_base //; [rewrite Epath; by apply prefix_slash_app|by rewrite Epath str_app_assoc].
      - by rewrite slash_prefix in Hpre.
      - apply (resolves_relative b mount ""); [by rewrite Epath|by intros []|done..]. }
    split; [exists (mount +:+ "/" +:+ rest); by apply Hres|]. intros target ->%Hres.
    exists m, cs, path, query, route, v. split; [left; by rewrite E|]. done.
Qed.
Print Assumptions C130_below_partial.
(** ... and C130 is false: with a base URL such as https://mysite.com/appdash, which New's documentation gives as
    an example, no reference of any page leads to its destination, except for the logo's. *)
Theorem C130_refuted : forall b0 b mount have p r, new_base b0 = Some b -> plain_base b -> mounted b0 mount -> mount <> "" ->
  u_path b = mount -> page_ids p -> In r (page_refs b have p) -> leads b mount r -> r_for r = ToHome.
Proof.
  intros b0 b mount have p r (Hs & Hh & Es & Eh & Ep)%new_base_spec Hpl Hm Hmne Epath Hp Hr Hl. rewrite -Es in Hs. clear Es Eh Ep.
  destruct Hm as [(Hmount & (p1 & c & Emount & Hc) & _)|[? _]]; [|done].
  destruct (page_well _ _ _ _ Hp Hr) as (rest & Hw & Hg). pose proof Hg as [_ Hu]. destruct Hl as [[target Ht] Hall].
  destruct (Hall _ Ht) as (m & cs & path & query & route & v & Et & Hj & Hd & _). pose proof (Hu _ _ _ _ _ _ Hj Hd) as E.
  destruct Et as [Et|(Et & -> & ->)].
  - exfalso. rewrite E in Et. subst target. remember (r_text r) as text eqn:Etext. destruct Hw as [rest|rest Hn|rest Hne Hn Hcol].
    + apply resolves_base in Ht; [|done..|by rewrite Epath]. rewrite Epath in Ht. apply str_app_inv_head in Ht. symmetry in Ht; by apply (length_app_eq rest "/") in Ht.
    + apply resolves_path in Ht; [|done..]. symmetry in Ht. by apply (length_app_eq ("/" +:+ rest) mount) in Ht.
    + inversion Ht as [q Eq|q Hn' Eq|dir last q E1 E2 E3 E4 E5 Eq Etgt]; subst.
      * apply Hcol. rewrite -Eq. apply bytes_in_app. right. by left.
      * apply Hn. rewrite -Eq. by left.
      * destruct (last_slash _ _ _ _ Etgt Hn Hn) as [-> _]. rewrite Epath in E1. apply (f_equal String.length) in E1. rewrite !str_length_app in E1. cbn in E1. lia.
  - assert (cs = [""]) as ->.
    { assert (components "/" = Some cs) as Ec; [|by injection Ec]. apply components_joined. split; [|done]. by inversion Hd. }
    remember (r_for r) as f. by inversion Hd.
Qed.
Print Assumptions C130_refuted.
(** The button for the aggregated view of a selection leads there, too. *)
Theorem C130_selection_partial : forall b0 b listed checked, new_base b0 = Some b -> plain_base b -> mounted b0 "" ->
  Forall is_id checked -> checked <> [] -> length checked <> length listed ->
  leads b "" (MkRef (ToSelection checked) (aggregate_button b listed checked)).
Proof.
  intros b0 b listed checked (Hs & Hh & Es & Eh & Ep)%new_base_spec Hpl Hm Hids Hne Hlen. rewrite -Es in Hs. clear Es Eh.
  assert (u_path b = "/") as Epath.
  { destruct Hm as [[? _]|[_ Hm]]; [done|]. destruct Ep as [[_ ->]|[? ->]]; [done|]. by destruct Hm. }
  rewrite /aggregate_button /aggregate_query (proj2 (Nat.eqb_neq _ _) Hlen).
  destruct (selection_goes checked (url_string b +:+ "aggregate" +:+ "?selection=" +:+ js_join (map id_string checked)) Hne Hids) as [(m & cs & path & query & route & v & E & Hj & Hd & Hdi) _].
  split; cbn [r_text].
  - eexists. by apply resolves_base; [..|rewrite Epath|].
  - intros target ->%resolves_base; [|done..|by rewrite Epath]. exists m, cs, path, query, route, v. split; [left|done]. by rewrite Epath E.
Qed.
Print Assumptions C130_selection_partial.
(** The documented example: with it, all this is about something, and a page has broken references. *)
Example C130_nonvacuous :
  let b0 := MkBase "https" "mysite.com" "/appdash" in
  new_base b0 = Some b0 /\ plain_base b0 /\ mounted b0 "/appdash" /\ page_ids (TracesPage [10; 11]) /\
  In (MkRef (ToTrace 10) "/traces/000000000000000a") (page_refs b0 false (TracesPage [10; 11])) /\
  resolves b0 "https://mysite.com/appdashstatic/krisk/fuse/fuse.min.js" "/appdashstatic/krisk/fuse/fuse.min.js" /\
  new_base (MkBase "http" "localhost:7700" "") = Some (MkBase "http" "localhost:7700" "/") /\ mounted (MkBase "http" "localhost:7700" "") "".
Proof.
  split; [reflexivity|]. split; [split; intros Hin; vm_compute in Hin; intuition discriminate|].
  split; [left; split; [reflexivity|]; split; [exists "/appdas", "h"%char; done|by left]|]. split; [repeat constructor|].
  split; [vm_compute; tauto|]. split; [apply (R_absolute (MkBase "https" "mysite.com" "/appdash") "appdashstatic/krisk/fuse/fuse.min.js")|]. split; [reflexivity|]. right. split; [done|by left].
Qed.
