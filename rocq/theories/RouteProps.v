(** Property C128 (addresses of the web application). *)
From Verif Require Import Base IdModel IdSpec IdProofs WebModel WebSpec WebProofs RouteModel RouteSpec.
From Coq Require Import ssreflect.
Local Open Scope general_if_scope.
Local Open Scope string_scope.

Lemma clean_spec cs : clean_components cs = true <->
  (forall c, In c cs -> c <> "." /\ c <> "..") /\ (forall before c after, cs = (before ++ c :: after)%list -> after <> [] -> c <> "").
Proof.
  induction cs as [|c cs IH]; [split; [|done]; intros _; split; [done|]; by intros [|]|].
  assert (clean_components (c :: cs) = true <-> (c <> "." /\ c <> "..") /\ (cs <> [] -> c <> "") /\ clean_components cs = true) as ->.
  { cbn [clean_components]. destruct cs as [|d cs].
    - destruct (String.eqb_spec c "."), (String.eqb_spec c ".."); cbn; intuition congruence.
    - destruct (clean_components (d :: cs)); destruct (String.eqb_spec c ""), (String.eqb_spec c "."), (String.eqb_spec c ".."); cbn; intuition congruence. }
  rewrite IH. split.
  - intros (H1 & H2 & H3 & H4). split.
    + intros x [<- | Hx]; [done|by apply H3].
    + intros [|b before] x after E Hne; injection E as <- E; [subst; by apply H2|]. by apply (H4 before x after).
  - intros [H1 H2]. split; [apply H1; by left|]. split; [|split].
    + intros Hne. by apply (H2 [] c cs).
    + intros x Hx. apply H1. by right.
    + intros before x after -> Hne. by apply (H2 (c :: before) x after).
Qed.
Lemma plain_spec path cs : plain_path path cs <-> components path = Some cs /\ clean_components cs = true.
Proof. rewrite components_joined clean_spec /plain_path. tauto. Qed.

Lemma prefix_spec p s : String.prefix p s = true <-> exists r, s = p +:+ r.
Proof.
  revert s. induction p as [|x p IH]; intros s; [split; [intros _; by exists s|intros _; by destruct s]|]. destruct s as [|y s]; [split; [done|by intros [r ?]]|]. cbn [String.prefix].
  destruct (ascii_dec x y) as [->|Hne].
  - rewrite IH. split; [intros [r ->]; by exists r|intros [r [= ->]]; by exists r].
  - split; [done|]. intros [r [= ->]]. done.
Qed.
Lemma static_prefix path cs : components path = Some cs ->
  String.prefix "/static/" path = true <-> exists c cs', cs = "static" :: c :: cs'.
Proof.
  intros E. rewrite prefix_spec. pose proof E as [Hne J]%components_joined. split.
  - intros [r ->]. rewrite /components in E. change ("/static/" +:+ r) with ("/" +:+ "static" +:+ "/" +:+ r) in E.
    assert (split_on "/" (Base.bytes ("/" +:+ "static" +:+ "/" +:+ r)) = [] :: Base.bytes "static" :: split_on "/" (Base.bytes r)) as E2 by (cbn; done).
    rewrite E2 in E. injection E as <-. destruct (split_on "/" (Base.bytes r)) as [|c cs'] eqn:E3; [by apply split_on_nonempty in E3|].
    exists (unbytes c), (map unbytes cs'). done.
  - intros (c & cs' & ->). inversion J as [|? ? s1 _ J1]; subst. inversion J1 as [|? ? s2 _ J2]; subst. exists s2. done.
Qed.

Definition stat (m : string) (cs : list string) : bool := String.eqb "GET" m && match cs with c :: _ :: _ => String.eqb "static" c | _ => false end.
Lemma stat_match m path cs : components path = Some cs -> match_route (MkRoute StaticRoute "GET" (Prefix "/static/")) m path = if stat m cs then Some [] else None.
Proof.
  intros E. rewrite /match_route /stat. cbn [rt_method rt_pat]. destruct (String.eqb "GET" m); [|done]. cbn [negb andb].
  destruct (String.prefix "/static/" path) eqn:P.
  - apply (static_prefix _ _ E) in P as (c & cs' & ->). by rewrite String.eqb_refl.
  - destruct cs as [|c [|d cs]]; try done. destruct (String.eqb_spec "static" c) as [<-|]; [|done].
    exfalso. assert (String.prefix "/static/" path = true); [|congruence]. apply (static_prefix _ _ E). by exists d, cs.
Qed.
Fixpoint first_seg (rs : list route) (m : string) (cs : list string) : dispatched :=
  match rs with
  | [] => DNotFound
  | r :: rs => match (match rt_pat r with Exact pat => if String.eqb (rt_method r) m then match_segs pat cs else None | Prefix _ => if stat m cs then Some [] else None end) with
               | Some v => DRoute (rt_name r) v | None => first_seg rs m cs end
  end.
Lemma first_match_seg m path cs : components path = Some cs -> first_match routes m path = first_seg routes m cs.
Proof.
  intros E. rewrite /routes. cbn [first_match first_seg rt_pat rt_name rt_method]. rewrite (stat_match _ _ _ E).
  repeat match goal with |- context [match_route ?x m path] => rewrite (match_exact x _ path _ _ E eq_refl) end. done.
Qed.
Lemma seg_address m cs r v : first_seg routes m cs = DRoute r v <-> address_of m cs r v.
Proof.
  split.
  - rewrite /routes. cbn [first_seg rt_pat rt_name rt_method]. rewrite /stat.
    destruct (String.eqb_spec "GET" m) as [Eg|Hg]; [subst m|destruct (String.eqb_spec "POST" m) as [E|Hp]; [|done]].
    + destruct cs as [|c cs]; [done|].
      destruct (String.eqb_spec "" c) as [<-|H1]; [destruct cs; [intros [= <- <-]; constructor|done]|].
      destruct (String.eqb_spec "static" c) as [<-|H2]; [destruct cs; [done|intros [= <- <-]; constructor]|].
      destruct (String.eqb_spec "traces" c) as [<-|H3].
      { destruct cs as [|t [|s [|p [|]]]]; cbn -[String.eqb].
        - intros [= <- <-]; constructor.
        - destruct t; [done|]. intros [= <- <-]. by constructor.
        - destruct t; [done|]. destruct (String.eqb_spec "profile" s) as [<-|Hs]; [intros [= <- <-]; by constructor|].
          destruct s; [done|]. intros [= <- <-]. constructor; congruence.
        - destruct t; [done|]. destruct (String.eqb "profile" s); (destruct s; [done|]); (destruct (String.eqb_spec "profile" p) as [<-|Hs]; [|done]);
          intros [= <- <-]; by constructor.
        - destruct t; [done|]. destruct (String.eqb "profile" s); (destruct s; [done|]); by destruct (String.eqb "profile" p). }
      destruct (String.eqb_spec "dashboard" c) as [<-|H4].
      { destruct cs as [|t [|]]; cbn -[String.eqb].
        - intros [= <- <-]; constructor.
        - destruct (String.eqb_spec "data" t) as [<-|]; [intros [= <- <-]; constructor|done].
        - by destruct (String.eqb "data" t). }
      destruct (String.eqb_spec "aggregate" c) as [<-|H5].
      { destruct cs; [intros [= <- <-]; constructor|done]. }
      intros H. exfalso. revert H. cbn -[String.eqb]. rewrite ?(proj2 (String.eqb_neq _ _) H1) ?(proj2 (String.eqb_neq _ _) H2) ?(proj2 (String.eqb_neq _ _) H3) ?(proj2 (String.eqb_neq _ _) H4) ?(proj2 (String.eqb_neq _ _) H5).
      by destruct cs.
    + subst m. destruct cs as [|c [|d cs]]; [done| |]; cbn -[String.eqb]; (destruct (String.eqb_spec "traces" c) as [<-|]; [|done]); [done|].
      destruct (String.eqb_spec "upload" d) as [<-|]; [|done]. destruct cs; [intros [= <- <-]; constructor|done].
  - destruct 1 as [|c cs| |t Ht|t Ht|t s Ht Hs Hp|t s Ht Hs| | | |]; try done; try (destruct t; [done|]); try (destruct s; [done|]); try done.
    + rewrite /routes. cbn -[String.eqb]. rewrite ?String.eqb_refl. destruct (String.eqb_spec "profile" (String a0 s)); [congruence|done].
    + rewrite /routes. cbn -[String.eqb]. rewrite ?String.eqb_refl. by destruct (String.eqb "profile" (String a0 s)).
Qed.

(** C128: a request for a plainly written path is answered by the handler of its address in the table, with the
    address's variables, and by no other... *)
Theorem C128_addresses : forall m path cs r v, plain_path path cs -> dispatch m path = DRoute r v <-> address_of m cs r v.
Proof.
  intros m path cs r v [E Hc]%plain_spec. rewrite /dispatch E Hc (first_match_seg _ _ _ E). apply seg_address.
Qed.
Print Assumptions C128_addresses.
(** ... what has no address is not found, and other paths are redirected to a plainly written one. *)
Theorem C128_rest : forall m path,
  (dispatch m path = DNotFound <-> exists cs, plain_path path cs /\ forall r v, ~ address_of m cs r v) /\
  (dispatch m path = DRedirect <-> forall cs, ~ plain_path path cs).
Proof.
  intros m path. setoid_rewrite plain_spec. rewrite /dispatch. destruct (components path) as [cs|] eqn:E.
  2:{ split; split; try done; [by intros (cs & [? _] & _)|]. intros _ cs [? _]. done. }
  destruct (clean_components cs) eqn:Hc.
  2:{ split; split; try done; [intros (cs' & [[= <-] ?] & _); congruence|]. intros _ cs' [[= <-] ?]. congruence. }
  rewrite (first_match_seg _ _ _ E). destruct (first_seg routes m cs) as [| |r v] eqn:F.
  - exfalso. clear -F. revert F. generalize routes. intros rs. induction rs as [|x rs IH]; [done|]. cbn [first_seg]. case_match; [done|apply IH].
  - split; split; try done.
    + intros _. exists cs. split; [done|]. intros r v H%seg_address. congruence.
    + intros H. by destruct (H cs).
  - split; split; try done.
    + intros (cs' & [[= <-] _] & Hno). apply seg_address in F. by destruct (Hno r v).
    + intros H. by destruct (H cs).
Qed.
Print Assumptions C128_rest.
(** The URLs of routes without variables lead to them, and all routes but those of traces and spans have one. *)
Theorem C128_urls : forall r,
  match url_to r with
  | Some path => exists m, dispatch m path = DRoute r []
  | None => r = TraceRoute \/ r = TraceSpanRoute \/ r = TraceProfileRoute \/ r = TraceSpanProfileRoute
  end.
Proof. intros []; vm_compute; try tauto; try (exists "GET"; reflexivity); exists "POST"; reflexivity. Qed.
Print Assumptions C128_urls.
Example C128_nonvacuous : plain_path "/static/js/a.js" ["static"; "js"; "a.js"] /\ address_of "GET" ["static"; "js"; "a.js"] StaticRoute [] /\
  plain_path "/traces/upload" ["traces"; "upload"] /\ url_to DashboardDataRoute = Some "/dashboard/data" /\ dispatch "GET" "/traces//1" = DRedirect.
Proof.
  split; [by apply plain_spec|]. split; [apply A_static|]. split; [by apply plain_spec|]. by vm_compute.
Qed.
