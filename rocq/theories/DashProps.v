(** Properties C137 and C138 (the dashboard). *)
From Verif Require Import Base IdModel IdSpec IdProofs ReflModel ReflProofs IdJsonModel JsonModel JsonSpec JsonProofs JsonGramSpec JsonGramProofs WebModel WebSpec WebProofs WebProps RouteModel HrefModel ExportModel ExportProps ModeModel ModeProps DashModel.
From Coq Require Import ssreflect DecimalFacts DecimalN DecimalString.
Local Open Scope general_if_scope.
Local Open Scope Z_scope.

(** ** Integers as JSON numbers *)

Lemma digits_of d : Forall digit (Base.bytes (NilEmpty.string_of_uint d)).
Proof. induction d; cbn; constructor; try done; unfold digit; vm_compute; intuition congruence. Qed.
Lemma head_of d : Decimal.nzhead d = d -> d <> Decimal.Nil -> exists c l, Base.bytes (NilEmpty.string_of_uint d) = c :: l /\ digit c /\ c <> "0"%char /\ Forall digit l.
Proof.
  intros Hn Hd. destruct d as [|d|d|d|d|d|d|d|d|d|d]; try done.
  { exfalso. clear Hd. cbn in Hn. assert (forall e : Decimal.uint, Decimal.nzhead e <> Decimal.D0 d) as H. { induction e; cbn; congruence || done. } by apply (H d). }
  all: eexists _, _; split; [reflexivity|]; split; [unfold digit; vm_compute; intuition congruence|]; split; [done|apply digits_of].
Qed.
Lemma fmt_uint_shape n : exists int, Base.bytes (fmt_uint n) = int /\ (int = ["0"%char] \/ exists c d, int = c :: d /\ digit c /\ c <> "0"%char /\ Forall digit d).
Proof.
  eexists. split; [reflexivity|]. rewrite /fmt_uint. assert (Decimal.unorm (N.to_uint n) = N.to_uint n) as E.
  { pose proof (DecimalN.Unsigned.to_of (N.to_uint n)) as H. rewrite DecimalN.Unsigned.of_to in H. done. }
  set (d := N.to_uint n) in *. assert (d = Decimal.zero \/ (Decimal.nzhead d = d /\ d <> Decimal.Nil)) as [-> | [H1 H2]]; [|by left|].
  { rewrite /Decimal.unorm in E. destruct (Decimal.nzhead d) eqn:En; [by left|right; rewrite -E; split; [congruence|done]..]. }
  right. destruct (head_of d H1 H2) as (c & l & El & Hr). exists c, l. split; [|done]. rewrite -El. by destruct d.
Qed.
Lemma fmt_int_number z : number (Base.bytes (fmt_int z)).
Proof.
  rewrite /fmt_int. destruct (z <? 0).
  - destruct (fmt_uint_shape (Z.to_N (- z))) as (int & E & H). change (Base.bytes (String "-" (fmt_uint (Z.to_N (- z))))) with (["-"%char] ++ Base.bytes (fmt_uint (Z.to_N (- z)))). rewrite E.
    rewrite -(List.app_nil_r int). apply (Number ["-"%char] int [] []); [by right|done|by left|by left].
  - destruct (fmt_uint_shape (Z.to_N z)) as (int & -> & H). rewrite -(List.app_nil_r int). apply (Number [] int [] []); [by left|done|by left|by left].
Qed.

(** ** C137: the slider *)

(** "a-b hours ago", as a window in nanoseconds from now. *)
Definition hour : Z := 3600000000000.
Definition hours_ago (a b from until : Z) : Prop := from = - (b * hour) /\ until = - (a * hour).

Lemma digits_free c z : 0 <= z -> ~ digit c -> ~ In c (Base.bytes (fmt_int z)).
Proof.
  intros Hz Hc Hin. rewrite /fmt_int in Hin. destruct (Z.ltb_spec z 0) as [Hlt|_]; [lia|]. destruct (fmt_uint_shape (Z.to_N z)) as (int & E & H). rewrite E in Hin.
  destruct H as [-> | (d & l & -> & Hd & _ & Hl)].
  - destruct Hin as [<-|[]]. apply Hc. unfold digit. vm_compute. intuition congruence.
  - destruct Hin as [<-|Hin]; [done|]. rewrite List.Forall_forall in Hl. by apply Hc, Hl.
Qed.
Lemma slider_parts a b : 0 <= a -> 0 <= b -> query_get (slider_query a b) "start" = fmt_int a /\ query_get (slider_query a b) "end" = fmt_int b.
Proof.
  intros Ha Hb. assert (forall z c, 0 <= z -> In c ["%"; "+"; "&"; "="]%char -> free c (Base.bytes (fmt_int z))) as Hf.
  { intros z c Hz Hc. apply digits_free; [done|]. intros [H1 H2]. destruct Hc as [<-|[<-|[<-|[<-|[]]]]]; vm_compute in H1, H2; congruence. }
  assert (forall z, 0 <= z -> query_unescape (Base.bytes (fmt_int z)) = Some (Base.bytes (fmt_int z))) as Hu.
  { intros z Hz. apply unescape_plain. split; apply Hf; try done; vm_compute; by eauto 10. }
  rewrite /query_get /slider_query !bytes_app.
  assert (Base.bytes "start=" ++ Base.bytes (fmt_int a) ++ Base.bytes "&end=" ++ Base.bytes (fmt_int b) =
          (Base.bytes "start=" ++ Base.bytes (fmt_int a)) ++ "&"%char :: (Base.bytes "end=" ++ Base.bytes (fmt_int b))) as -> by (by rewrite -List.app_assoc).
  rewrite split_on_app; [apply free_app; split; [vm_compute; intuition discriminate|apply Hf; [done|vm_compute; by eauto 10]]|].
  rewrite split_on_none; [apply free_app; split; [vm_compute; intuition discriminate|apply Hf; [done|vm_compute; by eauto 10]]|].
  cbn [get_part].
  change (param (Base.bytes "start=" ++ Base.bytes (fmt_int a))) with (k ← query_unescape (Base.bytes "start"); v ← query_unescape (Base.bytes (fmt_int a)); Some (k, v)).
  change (param (Base.bytes "end=" ++ Base.bytes (fmt_int b))) with (k ← query_unescape (Base.bytes "end"); v ← query_unescape (Base.bytes (fmt_int b)); Some (k, v)).
  rewrite !Hu //. change (query_unescape (Base.bytes "start")) with (Some (Base.bytes "start")). change (query_unescape (Base.bytes "end")) with (Some (Base.bytes "end")). cbn [mbind option_bind].
  split.
  - destruct (decide _) as [_|H]; [|done]. apply unbytes_bytes.
  - destruct (decide _) as [H|_]; [vm_compute in H; congruence|]. destruct (decide _) as [_|H]; [|done]. apply unbytes_bytes.
Qed.
(** What the server asks the Aggregator for. *)
Definition asks (query : list ascii) (from until : Z) : Prop :=
  forall bf agg, dashboard_data bf (Some agg) query =
    match agg from until with Some rs => DData (print_compact bf (JArr (map (row_json "/traces") rs))) | None => DError end.
(** C137 (proved part): for every position of the slider the Aggregator is asked for one window; it is the one in the heading
    exactly if the positions are symmetrical. *)
Theorem C137_partial : forall a b, slider a b -> exists from until, asks (slider_query a b) from until /\ (hours_ago a b from until <-> a + b = 72).
Proof.
  intros a b [Ha Hb]. exists ((a - 72) * hour), ((b - 72) * hour). split.
  - intros bf agg. rewrite /dashboard_data. destruct (slider_parts a b) as [-> ->]; [lia..|].
    rewrite !C100_window_partial; [lia..|]. reflexivity.
  - rewrite /hours_ago /hour. lia.
Qed.
Print Assumptions C137_partial.
(** C137 is false: for the heading "Timeline: 0-24 hours ago" the first of the last three days is shown, and not the last. *)
Theorem C137_refuted : exists a b, slider a b /\ slider_label a b = "Timeline: 0-24 hours ago" /\
  asks (slider_query a b) (- (72 * hour)) (- (48 * hour)) /\ ~ hours_ago a b (- (72 * hour)) (- (48 * hour)).
Proof.
  exists 0, 24. split; [rewrite /slider; lia|]. split; [by vm_compute|]. split; [|rewrite /hours_ago /hour; lia].
  intros bf agg. reflexivity.
Qed.
Print Assumptions C137_refuted.
(** As loaded, and with both ends moved alike, the heading is right. *)
Example C137_nonvacuous : slider 0 72 /\ 0 + 72 = 72 /\ slider 24 48 /\ slider_label 0 72 = "Timeline: 0-72 hours ago" /\ unbytes (slider_query 0 72) = "start=0&end=72".
Proof. rewrite /slider. split_and!; try lia; by vm_compute. Qed.

(** ** C138: the rows *)

(** [m] is the time [d] in whole milliseconds. *)
Definition whole_ms (d m : Z) : Prop := Z.abs (m * 1000000) <= Z.abs d < Z.abs (m * 1000000) + 1000000 /\ 0 <= m * d.
Definition number_is (j : json) (z : Z) : Prop := exists s, j = JNum (Base.bytes s) /\ parse_int s = Some z.
(** The columns of a row; texts that are not UTF-8 have replacement characters. *)
Inductive row_of (r : result) : json -> Prop :=
| Row javg jmin jmax jstd jsamples avg min max std link :
    number_is javg avg -> whole_ms (ar_avg r) avg -> number_is jmin min -> whole_ms (ar_min r) min -> number_is jmax max -> whole_ms (ar_max r) max ->
    number_is jstd std -> whole_ms (ar_std r) std -> number_is jsamples (ar_samples r) ->
    query_of link = Base.bytes "show=" ++ Base.bytes (row_show (ar_slowest r)) -> path_of link = Base.bytes "/traces" ->
    row_of r (JObj [(Base.bytes "Name", JStr (sanitize (Base.bytes (ar_name r)))); (Base.bytes "Average", javg); (Base.bytes "Min", jmin); (Base.bytes "Max", jmax);
                    (Base.bytes "StdDev", jstd); (Base.bytes "Timespans", jsamples); (Base.bytes "URL", JStr link)]).
Definition int64_range (z : Z) : Prop := - 9223372036854775808 <= z < 9223372036854775808.
Definition result_ok (r : result) : Prop :=
  int64_range (ar_avg r) /\ int64_range (ar_min r) /\ int64_range (ar_max r) /\ int64_range (ar_std r) /\ int64_range (ar_samples r) /\ Forall is_id (ar_slowest r).
Lemma quot_ms d : whole_ms d (Z.quot d 1000000).
Proof. rewrite /whole_ms. pose proof (Z.quot_rem' d 1000000). pose proof (Z.rem_bound_abs d 1000000 ltac:(lia)). pose proof (Z.rem_sign_nz d 1000000).
  destruct (Z.lt_trichotomy d 0) as [H2|[->|H2]].
  - pose proof (Z.rem_nonpos d 1000000). pose proof (Z.quot_opp_l d 1000000). assert (Z.quot d 1000000 <= 0) by (apply Z.quot_le_upper_bound in H2 || (rewrite -(Z.opp_involutive d) Z.quot_opp_l; [lia|]; pose proof (Z.quot_pos (- d) 1000000); lia)). split; [lia|nia].
  - cbn. lia.
  - pose proof (Z.rem_nonneg d 1000000). pose proof (Z.quot_pos d 1000000). split; [lia|nia].
Qed.
Lemma int_is z : int64_range z -> number_is (json_int z) z.
Proof. intros H. exists (fmt_int z). split; [done|]. by apply parse_fmt_int. Qed.
Lemma quot_range d : int64_range d -> int64_range (Z.quot d 1000000).
Proof. rewrite /int64_range. intros H. destruct (quot_ms d) as [H1 _]. lia. Qed.
Lemma row_ascii l : Forall is_id l -> Forall (fun c => (N_of_ascii c < 128)%N) (Base.bytes (row_show l)).
Proof.
  intros Hl. assert (forall v, is_id v -> Forall (fun c => (N_of_ascii c < 128)%N) (Base.bytes (id_string v))) as Hid.
  { intros v Hv. apply List.Forall_forall. intros c Hc. destruct (id_string_shape v Hv) as [_ H]. specialize (H c Hc). vm_compute in H. intuition subst; vm_compute; reflexivity. }
  induction Hl as [|v l Hv Hl IH]; [constructor|]. rewrite /row_show in IH |- *. cbn [map join]. destruct l as [|w l]; [by apply Hid|].
  cbn [map] in *. rewrite !bytes_app. apply List.Forall_app. split; [by apply Hid|]. apply List.Forall_app. split; [|done]. repeat constructor.
Qed.
Lemma row_reads r : result_ok r -> nums (row_json "/traces" r) /\ row_of r (san (row_json "/traces" r)).
Proof.
  intros (H1 & H2 & H3 & H4 & H5 & H6). split.
  - cbn. repeat (split; [apply fmt_int_number || done|]). done.
  - set (link := Base.bytes ("/traces" +:+ "?show=" +:+ row_show (ar_slowest r))). assert (sanitize link = link) as El.
    { apply sanitize_utf8, ascii_utf8. rewrite /link !bytes_app. apply List.Forall_app. split; [repeat constructor|]. apply List.Forall_app. split; [repeat constructor|]. by apply row_ascii. }
    assert (san (row_json "/traces" r) = JObj [(Base.bytes "Name", JStr (sanitize (Base.bytes (ar_name r)))); (Base.bytes "Average", json_int (Z.quot (ar_avg r) 1000000)); (Base.bytes "Min", json_int (Z.quot (ar_min r) 1000000));
      (Base.bytes "Max", json_int (Z.quot (ar_max r) 1000000)); (Base.bytes "StdDev", json_int (Z.quot (ar_std r) 1000000)); (Base.bytes "Timespans", json_int (ar_samples r)); (Base.bytes "URL", JStr (sanitize link))]) as -> by reflexivity.
    rewrite El. apply (Row r _ _ _ _ _ (Z.quot (ar_avg r) 1000000) (Z.quot (ar_min r) 1000000) (Z.quot (ar_max r) 1000000) (Z.quot (ar_std r) 1000000));
      try apply quot_ms; try (by apply int_is); try (by apply int_is, quot_range).
    + rewrite /link !bytes_app /query_of. rewrite (cut_none "#").
      { apply free_app. split; [vm_compute; intuition discriminate|]. apply free_app. split; [vm_compute; intuition discriminate|]. apply row_free; [done|vm_compute; by eauto 10]. }
      reflexivity.
    + reflexivity.
Qed.
Lemma compact_document bf j : nums j -> document false (print_compact bf j) (san j).
Proof. intros H. apply document_of. rewrite /print_compact go_print. apply print_value; [apply go_quotes|constructor|constructor|done]. Qed.
(** C138: for every window, a result of the Aggregator is a row of the table that the browser reads, with its name, its times
    in whole milliseconds and its number of samples; in order, and there are no others. *)
Theorem C138 : forall bf agg query from until rs,
  window_bound (query_get query "start") = Some from -> window_bound (query_get query "end") = Some until ->
  agg from until = Some rs -> Forall result_ok rs ->
  exists body rows, dashboard_data bf (Some agg) query = DData body /\ document false body (JArr rows) /\ Forall2 row_of rs rows.
Proof.
  intros bf agg query from until rs Hs He Ha Hok. rewrite /dashboard_data Hs He Ha. exists (print_compact bf (JArr (map (row_json "/traces") rs))), (map (fun r => san (row_json "/traces" r)) rs).
  split; [done|]. split.
  - rewrite -(map_map (row_json "/traces") san rs). change (JArr (map san (map (row_json "/traces") rs))) with (san (JArr (map (row_json "/traces") rs))). apply compact_document. cbn [nums].
    clear Ha; induction Hok as [|r rs Hr _ IH]; [done|]. split; [by apply row_reads|done].
  - clear Ha; induction Hok as [|r rs Hr _ IH]; [constructor|]. constructor; [by apply row_reads|done].
Qed.
Print Assumptions C138.
(** C138: the link of a row shows just the slowest traces of its result, if there are any. *)
Theorem C138_link : forall r j kvs link, result_ok r -> row_of r j -> j = JObj kvs -> In (Base.bytes "URL", JStr link) kvs -> ar_slowest r <> [] ->
  dispatch "GET" (unbytes (path_of link)) = DRoute TracesRoute [] /\ show_just (query_get (query_of link) "show") = ar_slowest r.
Proof.
  intros r j kvs link (_ & _ & _ & _ & _ & Hids) [javg jmin jmax jstd jsamples avg mn mx std lk H1 _ H2 _ H3 _ H4 _ H5 Hq Hp] [= <-] Hin Hne.
  assert (lk = link) as ->. { cbn in Hin. destruct Hin as [E|[E|[E|[E|[E|[E|[E|[]]]]]]]]; try discriminate. by injection E. }
  rewrite Hp Hq. split; [by vm_compute|]. 
  assert (query_get (Base.bytes "show=" ++ Base.bytes (row_show (ar_slowest r))) "show" = row_show (ar_slowest r)) as ->; [|by apply C98_row_partial].
  rewrite /query_get split_on_none.
  { apply free_app. split; [vm_compute; intuition discriminate|]. apply row_free; [done|vm_compute; by eauto 10]. }
  cbn [get_part]. change (param (Base.bytes "show=" ++ Base.bytes (row_show (ar_slowest r)))) with (k ← query_unescape (Base.bytes "show"); v ← query_unescape (Base.bytes (row_show (ar_slowest r))); Some (k, v)).
  rewrite (unescape_plain (Base.bytes (row_show (ar_slowest r)))); [split; apply row_free; try done; vm_compute; by eauto 10|].
  change (query_unescape (Base.bytes "show")) with (Some (Base.bytes "show")). cbn [mbind option_bind]. destruct (decide _) as [_|H]; [|done]. apply unbytes_bytes.
Qed.
Print Assumptions C138_link.
(** C138: windows that are no integers, and errors of the Aggregator, are errors. *)
Theorem C138_errors : forall bf agg query,
  (dashboard_data bf agg query = DDisabled <-> agg = None) /\
  (forall f, agg = Some f -> window_bound (query_get query "start") = None \/ window_bound (query_get query "end") = None \/
     (exists from until, window_bound (query_get query "start") = Some from /\ window_bound (query_get query "end") = Some until /\ f from until = None) -> dashboard_data bf agg query = DError).
Proof.
  intros bf agg query. split.
  - rewrite /dashboard_data. destruct agg as [f|]; [|done]. split; [|done]. destruct (window_bound _); [|done]. destruct (window_bound _); [|done]. by destruct (f _ _).
  - intros f -> [H|[H|(s & e & Hs & He & Hf)]]; rewrite /dashboard_data.
    + by rewrite H.
    + rewrite H. by destruct (window_bound (query_get query "start")).
    + by rewrite Hs He Hf.
Qed.
Print Assumptions C138_errors.
Example C138_nonvacuous : let r := MkResult "a<b" 1999999 0 5000000 1 3 [255%N; 1%N] in
  result_ok r /\ dashboard_data true (Some (fun _ _ => Some [r])) (slider_query 0 72) =
  DData (Base.bytes "[{""Name"":""a\u003cb"",""Average"":1,""Min"":0,""Max"":5,""StdDev"":0,""Timespans"":3,""URL"":""/traces?show=00000000000000ff,0000000000000001""}]").
Proof. cbv zeta. split; [rewrite /result_ok /int64_range; cbn; split_and!; try lia; apply List.Forall_forall; intros x [<-|[<-|[]]]; vm_compute; reflexivity|vm_compute; reflexivity]. Qed.
