(** Property C105 (the tables of the trace pages). *)
From Verif Require Import Base StrOrder TimeModel ReflModel EventModel DisplayModel.
From Coq Require Import ssreflect.
Local Open Scope general_if_scope.

(** A name that pages show: not empty, not starting with an underscore. *)
Definition showable (k : string) : Prop := exists c r, k = String c r /\ c <> "_"%char.

Lemma shown_iff k : shown_key k = true <-> showable k.
Proof.
  rewrite /shown_key /showable. destruct k as [|c r].
  - rewrite bool_decide_eq_true_2; [done|]. split; [done|]. by intros (c & r & ? & _).
  - rewrite bool_decide_eq_false_2; [done|]. cbn [negb andb has_prefix]. destruct (Ascii.eqb_spec "_" c) as [<-|Hne]; cbn [andb negb].
    + split; [done|]. intros (c & r' & [= <- <-] & H). done.
    + split; [|done]. intros _. exists c, r. split; [done|congruence].
Qed.
Lemma filter_in anns a : In a (filter_annotations anns) <-> In a anns /\ showable (ann_key a).
Proof.
  induction anns as [|b anns IH]; [cbn; tauto|]. cbn [filter_annotations In]. rewrite -shown_iff in IH |- *.
  destruct (shown_key (ann_key b)) eqn:E; cbn [In]; rewrite IH; split; intros H; intuition (subst; auto); congruence.
Qed.
Lemma important_iff reg a : important reg a = true <-> exists ks, In (Some ks) reg /\ In (ann_key a) ks.
Proof.
  induction reg as [|[ks|] reg IH]; cbn [important].
  - split; [done|]. by intros (ks & [] & _).
  - destruct (existsb (String.eqb (ann_key a)) ks) eqn:E.
    + split; [|done]. intros _. exists ks. split; [by left|]. apply existsb_exists in E as (k & Hk & ->%String.eqb_eq). done.
    + rewrite IH. split; intros (ks' & Hin & Hk); [exists ks'; split; [by right|done]|].
      destruct Hin as [[= <-]|Hin]; [|by exists ks']. exfalso. apply Bool.not_true_iff_false in E. apply E.
      apply existsb_exists. exists (ann_key a). split; [done|]. apply String.eqb_refl.
  - rewrite IH. split; intros (ks' & Hin & Hk); exists ks'; (split; [|done]); [by right|]. by destruct Hin.
Qed.

(** The keys of a flattened struct start with its field names. *)
Lemma cat_opt_in {A} (l : list (option (list A))) r x : cat_opt l = Some r -> In x r -> exists y, In (Some y) l /\ In x y.
Proof.
  revert r. induction l as [|[a|] l IH]; intros r; cbn [cat_opt fold_right]; [by intros [= <-]| |done].
  fold (cat_opt l). destruct (cat_opt l) as [b|]; [|done]. intros [= <-] [H|H]%in_app_iff.
  - exists a. split; [by left|done].
  - destruct (IH b eq_refl H) as (y & Hy & Hx). exists y. split; [by right|done].
Qed.
Lemma showable_app k r : showable k -> showable (k +:+ r).
Proof. intros (c & r' & -> & H). exists c, (r' +:+ r)%string. done. Qed.
Lemma nest_showable p n : showable p -> showable (nest p n).
Proof. intros H. pose proof H as (c & r & -> & _). cbn [nest]. by apply (showable_app (String c r)). Qed.
Lemma flatten_showable x : forall prefix fl kv, showable prefix -> flatten x prefix = Some fl -> In kv fl -> showable (fst kv).
Proof.
  assert (forall x, (forall prefix fl kv, showable prefix -> flatten x prefix = Some fl -> In kv fl -> showable (fst kv))) as H; [|apply H].
  fix F 1. intros [b|z|n|s|f32|f64|d|t|[y|]|fs|[kvs|]|[l|]|l] prefix fl kv Hp; cbn [flatten]; try (by intros [= <-] [<-|[]]); try (by intros [= <-] []); try done.
  - intros E Hin. assert (flatten y prefix = Some fl \/ exists s, fl = [(prefix, s)]) as [E'|[s ->]].
    { clear -E. destruct y; try (by left); right; injection E as <-; by eexists. }
    { exact (F y _ _ _ Hp E' Hin). }
    { by destruct Hin as [<-|[]]. }
  - intros E Hin. destruct (cat_opt_in _ _ _ E Hin) as (y & Hy & Hkv). clear E Hin. revert Hy.
    induction fs as [|[n v] fs IH]; cbn [map In]; [done|]. intros [Hy|Hy]; [|by apply IH].
    cbn [fst snd] in Hy. exact (F v _ _ _ (nest_showable _ _ Hp) Hy Hkv).
  - intros E Hin. destruct (cat_opt_in _ _ _ E Hin) as (y & Hy & Hkv). clear E Hin. revert Hy.
    induction kvs as [|[n v] kvs IH]; cbn [map In]; [done|]. intros [Hy|Hy]; [|by apply IH].
    cbn [fst snd] in Hy. exact (F v _ _ _ (nest_showable _ _ Hp) Hy Hkv).
  - intros E Hin. destruct (cat_opt_in _ _ _ E Hin) as (y & Hy & Hkv). clear E Hin. revert Hy.
    pose (g := fun i : nat => nest prefix (fmt_int (Z.of_nat i))).
    assert (forall i, showable (g i)) as Hg by (intros i; by apply nest_showable).
    change (In (Some y) (imap (fun i f => f (g i)) (map (fun x => flatten x) l)) -> showable (fst kv)).
    clearbody g. revert g Hg. induction l as [|v l IH]; cbn [map imap In]; [done|]. intros g Hg [Hy|Hy].
    + exact (F v _ _ _ (Hg O) Hy Hkv).
    + apply (IH (fun i => g (S i)) (fun i => Hg (S i))). exact Hy.
  - intros E Hin. destruct (cat_opt_in _ _ _ E Hin) as (y & Hy & Hkv). clear E Hin. revert Hy.
    pose (g := fun i : nat => nest prefix (fmt_int (Z.of_nat i))).
    assert (forall i, showable (g i)) as Hg by (intros i; by apply nest_showable).
    change (In (Some y) (imap (fun i f => f (g i)) (map (fun x => flatten x) l)) -> showable (fst kv)).
    clearbody g. revert g Hg. induction l as [|v l IH]; cbn [map imap In]; [done|]. intros g Hg [Hy|Hy].
    + exact (F v _ _ _ (Hg O) Hy Hkv).
    + apply (IH (fun i => g (S i)) (fun i => Hg (S i))). exact Hy.
Qed.

Lemma filter_app a b : filter_annotations (a ++ b) = filter_annotations a ++ filter_annotations b.
Proof. induction a as [|x a IH]; [done|]. cbn [filter_annotations app]. destruct (shown_key (ann_key x)); by rewrite IH. Qed.
Lemma filter_all anns : (forall a, In a anns -> showable (ann_key a)) -> filter_annotations anns = anns.
Proof.
  intros H. induction anns as [|a anns IH]; [done|]. cbn [filter_annotations]. rewrite (proj2 (shown_iff _) (H a (or_introl eq_refl))).
  f_equal. apply IH. intros b Hb. apply H. by right.
Qed.
Lemma marker_hidden s : filter_annotations [schema_ann s] = [].
Proof. reflexivity. Qed.

(** C105, what holds: of a span on which events with showable field names were recorded, the verbose table
    shows exactly the events' data, in the order of the annotations, and none of the schema markers... *)
Theorem C105_verbose_partial : forall evs, 
  (forall et fs anns, In (et, fs, anns) evs -> ev_marshaler et = None /\ marshal et (VStruct fs) anns /\ forall f, In f fs -> showable (fst f)) ->
  exists data, Forall2 (fun e rows => exists fl, flatten (VStruct (snd (fst e))) "" = Some fl /\ Permutation fl rows) evs data /\
    verbose_rows (concat (map snd evs)) = concat data.
Proof.
  induction evs as [|[[et fs] anns] evs IH]; intros H; [exists []; split; [constructor|done]|].
  destruct IH as (data & Hd & E); [intros et' fs' anns' Hin; apply (H et' fs' anns'); by right|].
  destruct (H et fs anns (or_introl eq_refl)) as (Hm & Hmar & Hfs).
  inversion Hmar as [f anns' Hc|fl fl' _ Hfl Hp]; [congruence|]; subst.
  exists (fl' :: data). split; [constructor; [exists fl; done|done]|].
  rewrite /verbose_rows in E |- *. cbn [map snd concat]. rewrite !filter_app marker_hidden app_nil_r map_app E. f_equal.
  rewrite filter_all.
  - intros a (kv & <- & Hkv)%in_map_iff. cbn [ann_key ann_of]. apply (Permutation_in _ (Permutation_sym Hp)) in Hkv.
    cbn [flatten] in Hfl. destruct (cat_opt_in _ _ _ Hfl Hkv) as (y & Hy & Hin). apply in_map_iff in Hy as (f & Hy & Hf).
    apply (flatten_showable (snd f) (nest "" (fst f)) y kv); [|done..]. cbn [nest]. by apply Hfs.
  - rewrite map_map. clear. induction fl' as [|[k v] fl' IH]; [done|]. cbn [map]. by rewrite IH.
Qed.
Print Assumptions C105_verbose_partial.

(** ... and the default table shows of it, in the same order, exactly the rows whose key a registered event
    type calls important. *)
Theorem C105_default : forall reg anns, default_rows reg anns =
  List.filter (fun r => existsb (fun o => match o with Some ks => existsb (String.eqb (fst r)) ks | None => false end) reg) (verbose_rows anns).
Proof.
  intros reg anns. rewrite /default_rows /verbose_rows. induction (filter_annotations anns) as [|a l IH]; [done|]. cbn [default_rows_of map List.filter].
  replace (existsb _ reg) with (important reg a); [by destruct (important reg a); rewrite IH|].
  cbn [row fst]. clear. induction reg as [|[ks|] reg IH]; [done| |]; cbn [important existsb]; [|by rewrite IH].
  destruct (existsb (String.eqb (ann_key a)) ks); cbn [orb]; [done|by rewrite IH].
Qed.
Print Assumptions C105_default.

(** So the statement of every recorded SQL event and the status code of every recorded HTTP event are on the page. *)
Theorem C105_sql : forall fs anns before after sql tag, marshal sql_event (VStruct fs) anns ->
  In ("SQL"%string, VString sql) fs -> In ("Tag"%string, VString tag) fs ->
  In ("SQL"%string, sql) (default_rows builtin_importance (before ++ anns ++ after)) /\
  In ("Tag"%string, tag) (default_rows builtin_importance (before ++ anns ++ after)).
Proof.
  intros fs anns before after sql tag Hm H1 H2.
  assert (forall k v, In (k, VString v) fs -> showable k -> In (k, v) (verbose_rows (before ++ anns ++ after))) as Hk.
  { intros k v Hin Hs. rewrite /verbose_rows !filter_app !map_app. apply in_app_iff. right. apply in_app_iff. left.
    inversion Hm as [f anns' Hc|fl fl' _ Hfl Hp]; [discriminate|]; subst. change (k, v) with (row (ann_of (k, v))). apply in_map.
    apply filter_in. split; [|done]. apply in_app_iff. left. apply in_map. apply (Permutation_in _ Hp). cbn [flatten] in Hfl.
    clear -Hin Hfl. revert fl Hfl. induction fs as [|f fs IH]; [done|]. intros fl. cbn [map cat_opt fold_right].
    destruct (flatten (snd f) (nest "" (fst f))) as [a|] eqn:Ef; [|done]. fold (cat_opt (map (fun f => flatten (snd f) (nest "" (fst f))) fs)).
    destruct (cat_opt _) as [b|] eqn:E; [|done]. intros [= <-]. apply in_app_iff. destruct Hin as [->|Hin]; [left|right; by apply IH].
    cbn [fst snd flatten nest] in Ef. injection Ef as <-. by left. }
  rewrite C105_default. split; apply filter_In; (split; [apply Hk; [done|]|done]).
  - eexists _, _. split; [reflexivity|done].
  - eexists _, _. split; [reflexivity|done].
Qed.
Print Assumptions C105_sql.
Lemma flat_in fs n x prefix fl y kv : cat_opt (map (fun f => flatten (snd f) (nest prefix (fst f))) fs) = Some fl ->
  In (n, x) fs -> flatten x (nest prefix n) = Some y -> In kv y -> In kv fl.
Proof.
  revert fl. induction fs as [|f fs IH]; [done|]. intros fl. cbn [map cat_opt fold_right].
  destruct (flatten (snd f) (nest prefix (fst f))) as [a|] eqn:Ef; [|done]. fold (cat_opt (map (fun f => flatten (snd f) (nest prefix (fst f))) fs)).
  destruct (cat_opt _) as [b|] eqn:E; [|done]. intros [= <-] [->|Hin] Hx Hkv; apply in_app_iff; [left|right; by apply IH].
  cbn [fst snd] in Ef. rewrite Ef in Hx. by injection Hx as ->.
Qed.
Lemma flat_some fs n x prefix fl : cat_opt (map (fun f => flatten (snd f) (nest prefix (fst f))) fs) = Some fl ->
  In (n, x) fs -> exists y, flatten x (nest prefix n) = Some y.
Proof.
  revert fl. induction fs as [|f fs IH]; [done|]. intros fl. cbn [map cat_opt fold_right].
  destruct (flatten (snd f) (nest prefix (fst f))) as [a|] eqn:Ef; [|done]. fold (cat_opt (map (fun f => flatten (snd f) (nest prefix (fst f))) fs)).
  destruct (cat_opt _) as [b|] eqn:E; [|done]. intros [= <-] [->|Hin]; [by exists a|]. by apply (IH b).
Qed.
Theorem C105_http : forall (server : bool) fs rs anns before after code,
  marshal (if server then server_event else client_event) (VStruct fs) anns ->
  In ((if server then "Server.Response" else "Client.Response")%string, VStruct rs) fs -> In ("StatusCode"%string, VInt code) rs ->
  In ((if server then "Server.Response.StatusCode" else "Client.Response.StatusCode")%string, fmt_int code)
    (default_rows builtin_importance (before ++ anns ++ after)).
Proof.
  intros server fs rs anns before after code Hm H1 H2. rewrite C105_default. apply filter_In. split; [|by destruct server].
  rewrite /verbose_rows !filter_app !map_app. apply in_app_iff. right. apply in_app_iff. left.
  inversion Hm as [f anns' Hc|fl fl' _ Hfl Hp]; [by destruct server|]; subst.
  set (k := (if server then "Server.Response.StatusCode" else "Client.Response.StatusCode")%string). change (k, fmt_int code) with (row (ann_of (k, fmt_int code))). apply in_map.
  apply filter_in. split; [|exists (if server then "S" else "C")%char; subst k; destruct server; eexists; (split; [reflexivity|done])].
  apply in_app_iff. left. apply in_map. apply (Permutation_in _ Hp). cbn [flatten] in Hfl.
  destruct (flat_some _ _ _ _ _ Hfl H1) as [y Hy]. apply (flat_in _ _ _ _ _ _ _ Hfl H1 Hy). cbn [flatten] in Hy.
  apply (flat_in _ _ _ _ _ [(k, fmt_int code)] _ Hy H2); [|by left]. subst k. by destruct server.
Qed.
Print Assumptions C105_http.

(** C105 is false: a field that its tag, or a map entry that its key, gives a name starting with an underscore is
    recorded but never shown. *)
Theorem C105_refuted : exists et fs anns fl, marshal et (VStruct fs) anns /\ flatten (VStruct fs) "" = Some fl /\ fl <> [] /\ verbose_rows anns = [].
Proof.
  exists (plain_event "job" [("_queue", tstring)]), [("_queue"%string, VString "mail")], [Ann "_queue" (Some "mail"%string); schema_ann "job"], [("_queue", "mail")]%string.
  split_and!; [|done..]. by apply (marshal_plain (plain_event "job" [("_queue", tstring)]) (VStruct [("_queue"%string, VString "mail")]) [("_queue", "mail")]%string [("_queue", "mail")]%string).
Qed.
Print Assumptions C105_refuted.
Example C105_nonvacuous : exists anns, 
  marshal sql_event (VStruct [("SQL", VString "SELECT 1"); ("Tag", VString "t")]%string) anns /\
  default_rows builtin_importance (Ann "Name" (Some "q"%string) :: anns) = [("SQL", "SELECT 1"); ("Tag", "t")]%string /\
  verbose_rows (Ann "Name" (Some "q"%string) :: anns) = [("Name", "q"); ("SQL", "SELECT 1"); ("Tag", "t")]%string.
Proof.
  eexists. split; [eapply (marshal_plain _ _ [("SQL", "SELECT 1"); ("Tag", "t")]%string); reflexivity|]. split; vm_compute; reflexivity.
Qed.
