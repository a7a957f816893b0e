(** Proofs about the pages. *)
From Coq Require Import ssreflect.
From Verif Require Import Base IdModel IdSpec IdProofs TraceModel TraceSpec TraceProps MemModel MemSpec UploadModel Base64Model Base64Proofs WebModel WebSpec.
Local Open Scope general_if_scope.
Local Open Scope N_scope.

Lemma nodes_subtrees t : nodes t = subtrees t.
Proof.
  revert t. apply tree_ind'. intros i a subs IH. cbn [nodes subtrees tr_subs]. f_equal.
  induction IH as [|x l Hx _ IHl]; [done|]. cbn [map concat]. by rewrite Hx IHl.
Qed.
Lemma first_span_find t s sub : find_span t s = Some sub <-> first_span t s sub.
Proof.
  rewrite C66_first /first_span nodes_subtrees. split.
  - intros (b & a & E & Hs & Hb). exists b, a. split_and!; [done..|]. intros x Hx. rewrite Forall_forall in Hb. apply Hb. by apply elem_of_list_In.
  - intros (b & a & E & Hs & Hb). exists b, a. split_and!; [done..|]. apply Forall_forall. intros x Hx. apply Hb. by apply elem_of_list_In.
Qed.

Lemma components_joined path cs : components path = Some cs <-> cs <> [] /\ joined ("" :: cs)%string path.
Proof.
  rewrite joined_split /components -/delim. destruct (split_on delim (bytes path)) as [|p ps] eqn:E; first by (split; [done|intros [_ [=]]]).
  destruct p as [|c p]; cbn [map unbytes tl]; last by (split; [done|intros [_ [=]]]).
  destruct ps as [|q ps]; cbn [map]; first by (split; [done|intros [? [= <-]]]).
  split; [intros [= <-]; by split|by intros [_ [= <-]]].
Qed.

(** The decision of the router for trace pages. *)
Inductive trace_route : route_name -> vars -> list string -> Prop :=
| TR_trace a : a <> ""%string -> trace_route TraceRoute [("Trace", a)]%string ["traces"; a]%string
| TR_profile a : a <> ""%string -> trace_route TraceProfileRoute [("Trace", a)]%string ["traces"; a; "profile"]%string
| TR_span a b : a <> ""%string -> b <> ""%string -> b <> "profile"%string -> trace_route TraceSpanRoute [("Trace", a); ("Span", b)]%string ["traces"; a; b]%string
| TR_span_profile a b : a <> ""%string -> b <> ""%string -> trace_route TraceSpanProfileRoute [("Trace", a); ("Span", b)]%string ["traces"; a; b; "profile"]%string.
Definition is_trace_route (r : route_name) : bool :=
  match r with TraceRoute | TraceSpanRoute | TraceProfileRoute | TraceSpanProfileRoute => true | _ => false end.
Lemma match_exact r m path cs pat : components path = Some cs -> rt_pat r = Exact pat -> match_route r m path = if String.eqb (rt_method r) m then match_segs pat cs else None.
Proof. intros E Hp. rewrite /match_route Hp E. by destruct (String.eqb _ _). Qed.
Lemma first_match_traces path cs : components path = Some ("traces" :: cs)%string ->
  first_match routes "GET" path =
    match match_segs [Var "Trace"] cs with Some v => DRoute TraceRoute v | None =>
    match match_segs [Var "Trace"; Lit "profile"] cs with Some v => DRoute TraceProfileRoute v | None =>
    match match_segs [Var "Trace"; Var "Span"; Lit "profile"] cs with Some v => DRoute TraceSpanProfileRoute v | None =>
    match match_segs [Var "Trace"; Var "Span"] cs with Some v => DRoute TraceSpanRoute v | None =>
    match match_segs [] cs with Some v => DRoute TracesRoute v | None => DNotFound end end end end end.
Proof.
  intros E. assert (match_route (MkRoute StaticRoute "GET" (Prefix "/static/")) "GET" path = None) as HS.
  { apply components_joined in E as [_ J]. inversion J; subst. match goal with H : joined (_ :: _) _ |- _ => inversion H; subst end; done. }
  unfold routes. cbn [first_match]. rewrite HS. repeat match goal with |- context [match_route ?x "GET" path] => rewrite (match_exact x _ path _ _ E eq_refl) end. done.
Qed.
Lemma var_seg n pat c cs : match_segs (Var n :: pat) (c :: cs) = if String.eqb c "" then None else v ← match_segs pat cs; Some ((n, c) :: v).
Proof. by destruct c. Qed.
Lemma lit_seg s pat c cs : match_segs (Lit s :: pat) (c :: cs) = if String.eqb s c then match_segs pat cs else None.
Proof. done. Qed.
Lemma first_match_other path c cs r v : components path = Some (c :: cs) -> c <> "traces"%string ->
  first_match routes "GET" path = DRoute r v -> is_trace_route r = false.
Proof.
  intros E Hc. unfold routes. cbn [first_match].
  repeat (match goal with |- context [match_route ?x "GET" path] =>
    lazymatch x with
    | MkRoute StaticRoute _ _ => destruct (match_route x "GET" path); [by intros [= <- <-]|]
    | _ => rewrite (match_exact x _ path _ _ E eq_refl); cbn [rt_method rt_pat rt_name];
           rewrite ?lit_seg; change (String.eqb "GET" "GET") with true; change (String.eqb "POST" "GET") with false; cbn [rt_name];
           rewrite ?(proj2 (String.eqb_neq "traces" c) (fun H => Hc (eq_sym H)));
           repeat (match goal with |- (match (if ?b then _ else _) with _ => _ end) = _ -> _ => destruct b end);
           repeat (match goal with |- (match match_segs ?p ?l with _ => _ end) = _ -> _ => destruct (match_segs p l); [by intros [= <- <-]|] end)
    end end); try done; by intros [= <- <-].
Qed.
Lemma dispatch_trace path r v : is_trace_route r = true ->
  dispatch "GET" path = DRoute r v <-> exists cs, joined ("" :: cs)%string path /\ clean_components cs = true /\ trace_route r v cs.
Proof.
  intros Hr. rewrite /dispatch. split.
  - destruct (components path) as [cs|] eqn:E; [|done]. destruct (clean_components cs) eqn:Hc; [|done].
    intros H. exists cs. pose proof E as [Hne J]%components_joined. split; [done|]. split; [done|].
    destruct cs as [|c cs]; [done|]. destruct (decide (c = "traces"%string)) as [->|Hn].
    2:{ pose proof (first_match_other _ _ _ _ _ E Hn H). congruence. }
    rewrite (first_match_traces _ _ E) in H.
    destruct cs as [|a [|b [|p [|]]]]; cbn [match_segs] in H.
    + injection H as <- <-. done.
    + destruct a; [done|]. injection H as <- <-. by constructor.
    + destruct a as [|x a]; [done|]. destruct (String.eqb_spec "profile" b) as [<-|Hb].
      * injection H as <- <-. by constructor.
      * destruct b; [done|]. injection H as <- <-. by constructor.
    + destruct a as [|x a]; [done|]. destruct (String.eqb "profile" b); (destruct b; [done|]);
      (destruct (String.eqb_spec "profile" p) as [<-|Hp]; [|done]); injection H as <- <-; by constructor.
    + exfalso. destruct a as [|x a]; [done|]. destruct (String.eqb "profile" b); (destruct b; [done|]);
      (destruct (String.eqb_spec "profile" p) as [<-|Hp]; done).
  - intros (cs & J & Hc & T). assert (components path = Some cs) as E by (apply components_joined; split; [by inversion T|done]).
    rewrite E Hc. destruct T as [a Ha|a Ha|a b Ha Hb Hp|a b Ha Hb]; rewrite (first_match_traces _ _ E); destruct a as [|x a]; try done.
    + destruct b as [|y b]; [done|]. cbn [match_segs]. destruct (String.eqb_spec "profile" (String y b)); [congruence|done].
    + destruct b as [|y b]; [done|]. cbn [match_segs]. by destruct (String.eqb_spec "profile" (String y b)).
Qed.
Lemma names_parse a v : names_id a v <-> parse_id a = inl v.
Proof. by rewrite parse_id_spec. Qed.
Lemma names_no c a v : uint_digit c = None -> names_id a v -> ~ In c (bytes a).
Proof.
  intros Hc [[_ (ds & H & _)]%hex_numeral_digits _] Hin. induction H as [|x d l ds Hx _ IH]; [done|].
  destruct Hin as [->|Hin]; [|by apply IH]. apply uint_digit_spec in Hx as [Hx _]. congruence.
Qed.
Lemma names_not s a v : parse_id s = inr ErrSyntax -> names_id a v -> a <> s.
Proof. intros Hs H ->. apply names_parse in H. congruence. Qed.
Lemma neqb a s : a <> s -> String.eqb a s = false. Proof. apply String.eqb_neq. Qed.
Lemma names_clean1 a v : names_id a v -> (String.eqb a "" || String.eqb a "." || String.eqb a "..")%bool = false.
Proof. intros H. rewrite (neqb a "") ?(neqb a ".") ?(neqb a "..") //; by apply (names_not _ a v). Qed.
Lemma names_clean2 a v : names_id a v -> (String.eqb a "." || String.eqb a "..")%bool = false.
Proof. intros H. rewrite ?(neqb a ".") ?(neqb a "..") //; by apply (names_not _ a v). Qed.
Lemma base_joined cs path : joined cs path -> path_base path = default "/"%string (last (List.filter (fun c => negb (String.eqb c "")) cs)).
Proof. intros H%joined_split. by rewrite /path_base -/delim H. Qed.
Lemma joined_tr a : ~ In "/"%char (bytes a) -> joined [""; "traces"; a]%string ("/traces/" +:+ a)%string.
Proof. intros H. apply (J_cons "" ["traces"; a]%string ("traces/" +:+ a)%string); [by intros []|]. apply (J_cons "traces" [a]%string a); [vm_compute; intuition discriminate|]. by constructor. Qed.
Lemma joined_tr2 a b : ~ In "/"%char (bytes a) -> ~ In "/"%char (bytes b) -> joined [""; "traces"; a; b]%string ("/traces/" +:+ a +:+ "/" +:+ b)%string.
Proof.
  intros Ha Hb. apply (J_cons "" ["traces"; a; b]%string ("traces/" +:+ a +:+ "/" +:+ b)%string); [by intros []|].
  apply (J_cons "traces" [a; b]%string (a +:+ "/" +:+ b)%string); [vm_compute; intuition discriminate|]. apply (J_cons a [b] b); [done|by constructor].
Qed.
Lemma joined_tr3 a b c : ~ In "/"%char (bytes a) -> ~ In "/"%char (bytes b) -> ~ In "/"%char (bytes c) ->
  joined [""; "traces"; a; b; c]%string ("/traces/" +:+ a +:+ "/" +:+ b +:+ "/" +:+ c)%string.
Proof.
  intros Ha Hb Hc. apply (J_cons "" ["traces"; a; b; c]%string ("traces/" +:+ a +:+ "/" +:+ b +:+ "/" +:+ c)%string); [by intros []|].
  apply (J_cons "traces" [a; b; c]%string (a +:+ "/" +:+ b +:+ "/" +:+ c)%string); [vm_compute; intuition discriminate|].
  apply (J_cons a [b; c]%string (b +:+ "/" +:+ c)%string); [done|]. apply (J_cons b [c] c); [done|by constructor].
Qed.
Lemma joined_inv cs path path' : joined cs path -> joined cs path' -> path = path'.
Proof.
  intros J. revert path'. induction J as [p Hp|p ps s Hp J IH]; intros path' J'; inversion J'; subst; try done; try (match goal with H : joined [] _ |- _ => by inversion H end).
  f_equal. f_equal. by apply IH.
Qed.
Lemma joined_parts cs path p : joined cs path -> In p cs -> ~ In "/"%char (bytes p).
Proof. induction 1 as [q Hq|q ps s Hq J IH]; intros Hin; destruct Hin as [->|Hin]; try done; by apply IH. Qed.
Lemma profile_no_slash : ~ In "/"%char (bytes "profile"). Proof. vm_compute. intuition discriminate. Qed.

Definition sub_of (store : N -> option tree) (a : string) (b : option string) : option tree :=
  match parse_id a with
  | inr _ => None
  | inl i => t ← store i; match b with None => Some t | Some b => match parse_id b with inr _ => None | inl s => find_span t s end end
  end.
Lemma sub_addressed store a b sub : sub_of store a b = Some sub <-> addressed store a b sub.
Proof.
  rewrite /sub_of /addressed. setoid_rewrite names_parse. destruct (parse_id a) as [i|e].
  - split.
    + intros (t & Ht & H)%bind_Some. exists i, t. split; [done|]. split; [done|]. destruct b as [b|]; [|by injection H].
      destruct (parse_id b) as [s|e] eqn:E; [|done]. exists s. split; [by apply names_parse|]. by apply first_span_find.
    + intros (i' & t & [= <-] & Ht & H). apply bind_Some. exists t. split; [done|]. destruct b as [b|]; [|by subst].
      destruct H as (s & Hb%names_parse & Hs). rewrite Hb. by apply first_span_find.
  - split; [done|]. by intros (i & t & ? & _).
Qed.
Definition link_of (trace : tree) : string :=
  if sp_parent (tr_id trace) =? 0 then url_to_trace_profile (sp_trace (tr_id trace))
  else url_to_trace_span_profile (sp_trace (tr_id trace)) (sp_span (tr_id trace)).
Lemma serve_sub store path a b v : var v "Trace" = a -> var v "Span" = default ""%string b -> b <> Some ""%string ->
  serve_trace store path v = match sub_of store a b with
    | None => ShowError
    | Some t => if String.eqb (path_base path) "profile" then ShowProfile t else ShowPage t (link_of t)
    end.
Proof.
  intros Ha Hb Hne. rewrite /serve_trace /sub_of Ha Hb. destruct (parse_id a) as [i|]; [|done].
  destruct (store i) as [t|]; [|done]. cbn [mbind option_bind]. destruct b as [b|]; [|done]. cbn [default].
  rewrite (neqb (id b) "") //; cbn; congruence.
Qed.
Lemma get_profile store a b path t : profile_address a b path -> addressed store a b t -> get_page store path = Some (ShowProfile t).
Proof.
  intros (page & Hp & ->) H. pose proof H as Hs%sub_addressed. destruct H as (i & t0 & Hi & Ht & Hb).
  pose proof (names_no "/" a i eq_refl Hi) as Na. pose proof (names_not "" a i eq_refl Hi) as Ne.
  rewrite /get_page. destruct Hp as [a|a b].
  - replace (("/traces/" +:+ a) +:+ "/profile")%string with ("/traces/" +:+ a +:+ "/" +:+ "profile")%string by (rewrite ?str_app_assoc; done).
    pose proof (joined_tr2 a "profile" Na profile_no_slash) as J.
    assert (dispatch "GET" _ = DRoute TraceProfileRoute [("Trace", a)]%string) as ->.
    { apply dispatch_trace; [done|]. eexists. split; [exact J|]. split; [|by constructor]. cbn [clean_components]. by rewrite (names_clean1 a i). }
    rewrite (serve_sub _ _ a None) // Hs (base_joined _ _ J). cbn [List.filter]. rewrite (neqb a "") //.
  - destruct Hb as (s & Hb & _).
    pose proof (names_no "/" b s eq_refl Hb) as Nb. pose proof (names_not "" b s eq_refl Hb) as Nbe.
    replace (("/traces/" +:+ a +:+ "/" +:+ b) +:+ "/profile")%string with ("/traces/" +:+ a +:+ "/" +:+ b +:+ "/" +:+ "profile")%string by (rewrite ?str_app_assoc; done).
    pose proof (joined_tr3 a b "profile" Na Nb profile_no_slash) as J.
    assert (dispatch "GET" _ = DRoute TraceSpanProfileRoute [("Trace", a); ("Span", b)]%string) as ->.
    { apply dispatch_trace; [done|]. eexists. split; [exact J|]. split; [|by constructor]. cbn [clean_components]. by rewrite (names_clean1 a i) // (names_clean1 b s). }
    rewrite (serve_sub _ _ a (Some b)) //; [congruence|]. rewrite Hs (base_joined _ _ J). cbn [List.filter]. rewrite (neqb a "") // (neqb b "") //.
Qed.
Lemma get_show store a b path t : page_address a b path -> addressed store a b t -> get_page store path = Some (ShowPage t (link_of t)).
Proof.
  intros Hp H. pose proof H as Hs%sub_addressed. destruct H as (i & t0 & Hi & Ht & Hb).
  pose proof (names_no "/" a i eq_refl Hi) as Na. pose proof (names_not "" a i eq_refl Hi) as Ne.
  rewrite /get_page. destruct Hp as [a|a b].
  - pose proof (joined_tr a Na) as J.
    assert (dispatch "GET" _ = DRoute TraceRoute [("Trace", a)]%string) as ->.
    { apply dispatch_trace; [done|]. eexists. split; [exact J|]. split; [|by constructor]. cbn [clean_components]. by rewrite (names_clean2 a i). }
    rewrite (serve_sub _ _ a None) // Hs (base_joined _ _ J). cbn [List.filter]. rewrite (neqb a "") //= (neqb a "profile") //. by apply (names_not _ a i).
  - destruct Hb as (s & Hb & _).
    pose proof (names_no "/" b s eq_refl Hb) as Nb. pose proof (names_not "" b s eq_refl Hb) as Nbe.
    pose proof (names_not "profile" b s eq_refl Hb) as Nbp.
    pose proof (joined_tr2 a b Na Nb) as J.
    assert (dispatch "GET" _ = DRoute TraceSpanRoute [("Trace", a); ("Span", b)]%string) as ->.
    { apply dispatch_trace; [done|]. eexists. split; [exact J|]. split; [|by constructor]. cbn [clean_components]. by rewrite (names_clean1 a i) // (names_clean2 b s). }
    rewrite (serve_sub _ _ a (Some b)) //; [congruence|]. rewrite Hs (base_joined _ _ J). cbn [List.filter]. rewrite (neqb a "") // (neqb b "") //= (neqb b "profile") //.
Qed.
Lemma get_inv store path r : get_page store path = Some r -> r <> ShowError ->
  exists a b t, addressed store a b t /\
    ((profile_address a b path /\ r = ShowProfile t) \/ (page_address a b path /\ r = ShowPage t (link_of t))).
Proof.
  rewrite /get_page. destruct (dispatch "GET" path) as [| |rn v] eqn:D; [done..|]. destruct (is_trace_route rn) eqn:Hr; [|by destruct rn].
  pose proof (proj1 (dispatch_trace _ _ _ Hr) D) as (cs & J & Hc & T). intros H Hne.
  assert (serve_trace store path v = r) as HS by (destruct rn; congruence). clear H D.
  assert (forall p, In p cs -> ~ In "/"%char (bytes p)) as Hns by (intros p Hp; apply (joined_parts _ _ _ J); by right).
  destruct T as [a Ha|a Ha|a b Ha Hb Hp|a b Ha Hb].
  - rewrite (serve_sub _ _ a None) // in HS. destruct (sub_of store a None) as [t|] eqn:Es; [|congruence].
    exists a, None, t. split; [by apply sub_addressed|]. right.
    assert (path = "/traces/" +:+ a)%string as -> by (eapply joined_inv; [exact J|apply joined_tr, Hns; by right; left]).
    split; [constructor|]. rewrite (base_joined _ _ J) in HS. cbn [List.filter] in HS. rewrite (neqb a "") //= (neqb a "profile") // in HS.
    intros ->. by apply sub_addressed in Es as (? & ? & ?%(names_not "profile" _ _ eq_refl) & _).
  - rewrite (serve_sub _ _ a None) // in HS. destruct (sub_of store a None) as [t|] eqn:Es; [|congruence].
    exists a, None, t. split; [by apply sub_addressed|]. left.
    assert (path = "/traces/" +:+ a +:+ "/" +:+ "profile")%string as -> by (eapply joined_inv; [exact J|apply joined_tr2; [apply Hns; by right; left|apply profile_no_slash]]).
    split; [exists ("/traces/" +:+ a)%string; split; [constructor|by rewrite ?str_app_assoc]|].
    rewrite (base_joined _ _ J) in HS. cbn [List.filter] in HS. by rewrite (neqb a "") //= in HS.
  - rewrite (serve_sub _ _ a (Some b)) // in HS; [congruence|]. destruct (sub_of store a (Some b)) as [t|] eqn:Es; [|congruence].
    exists a, (Some b), t. split; [by apply sub_addressed|]. right.
    assert (path = "/traces/" +:+ a +:+ "/" +:+ b)%string as -> by (eapply joined_inv; [exact J|apply joined_tr2; apply Hns; [by right; left|by right; right; left]]).
    split; [constructor|]. rewrite (base_joined _ _ J) in HS. cbn [List.filter] in HS. by rewrite (neqb a "") // (neqb b "") //= (neqb b "profile") // in HS.
  - rewrite (serve_sub _ _ a (Some b)) // in HS; [congruence|]. destruct (sub_of store a (Some b)) as [t|] eqn:Es; [|congruence].
    exists a, (Some b), t. split; [by apply sub_addressed|]. left.
    assert (path = "/traces/" +:+ a +:+ "/" +:+ b +:+ "/" +:+ "profile")%string as -> by (eapply joined_inv; [exact J|apply joined_tr3; [apply Hns; by right; left|apply Hns; by right; right; left|apply profile_no_slash]]).
    split; [exists ("/traces/" +:+ a +:+ "/" +:+ b)%string; split; [constructor|by rewrite ?str_app_assoc]|].
    rewrite (base_joined _ _ J) in HS. cbn [List.filter] in HS. by rewrite (neqb a "") // (neqb b "") //= in HS.
Qed.
