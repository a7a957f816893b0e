(** Property C117: the fields of an OpenTracing log and its message. *)
From Verif Require Import Base StrOrder TimeModel ReflModel ReflProofs EventModel EventSpec TraceModel OtModel OtSpec OtProps JsonModel JsonSpec JsonProofs TraceJsonProps FieldsModel.
From stdpp Require Import sorting.
From Coq Require Import ssreflect.

(** The pairs that were set are all UTF-8. *)
Definition all_utf8 (ps : list (string * string)) : Prop := forall k v, (k, v) ∈ ps -> utf8_string k /\ utf8_string v.
(** Only the field "event" was set. *)
Definition event_only (ps : list (string * string)) : Prop := ps <> [] /\ forall f, f ∈ ps -> fst f = "event"%string.
(** The JSON object with these members, read from a message. *)
Definition reads_as (msg : string) (kvs : list (string * string)) : Prop :=
  parse_all (Base.bytes msg) = Some (JObj (map (fun kv => (Base.bytes (fst kv), JStr (Base.bytes (snd kv)))) kvs)).

(** The pairs that a list of fields sets, in order: a lazy logger's fields in its place. *)
Inductive sets : list field -> list (string * string) -> Prop :=
| sets_nil : sets [] []
| sets_string k v fs ps : sets fs ps -> sets (FString k v :: fs) ((k, v) :: ps)
| sets_text k v fs ps : sets fs ps -> sets (FText k v :: fs) ((k, v) :: ps)
| sets_bool k (b : bool) fs ps : sets fs ps -> sets (FBool k b :: fs) ((k, if b then "true" else "false")%string :: ps)
| sets_int k z fs ps : sets fs ps -> sets (FInt k z :: fs) ((k, fmt_int z) :: ps)
| sets_uint k n fs ps : sets fs ps -> sets (FUint k n :: fs) ((k, fmt_uint n) :: ps)
| sets_lazy inner ps1 fs ps2 : sets inner ps1 -> sets fs ps2 -> sets (FLazy inner :: fs) (ps1 ++ ps2).
Lemma sets_emitted fs ps : sets fs ps -> emitted fs = ps.
Proof.
  induction 1 as [|k v fs ps _ IH|k v fs ps _ IH|k b fs ps _ IH|k z fs ps _ IH|k n fs ps _ IH|inner ps1 fs ps2 _ IH1 _ IH2]; [done|..];
    unfold emitted in *; cbn [flat_map emitted1 app]; rewrite ?IH ?IH1 ?IH2 //.
Qed.
Lemma emitted_sets : forall fs, sets fs (emitted fs).
Proof.
  assert (forall f fs ps, sets fs ps -> sets (f :: fs) (emitted1 f ++ ps)) as H.
  { fix go 1. intros [k v|k b|k z|k n|k v|inner] fs ps Hs; cbn [emitted1 app]; try by constructor.
    constructor; [|done]. clear -go. induction inner as [|f l IH]; [constructor|]. cbn [flat_map]. apply go. exact IH. }
  induction fs as [|f fs IH]; [constructor|]. unfold emitted in *. cbn [flat_map]. apply H. exact IH.
Qed.

Lemma kvs_perm m : Permutation (map_to_kvs m) (map_to_list m).
Proof. rewrite /map_to_kvs. apply merge_sort_Permutation. Qed.
Lemma utf8_clean s : utf8_string s -> sanitize (Base.bytes s) = Base.bytes s.
Proof. intros H. apply sanitize_utf8. by apply utf8_bytes_utf8. Qed.
Lemma marshal_reads bf (m : gmap string string) : (forall k v, m !! k = Some v -> utf8_string k /\ utf8_string v) ->
  reads_as (marshal_map bf m) (map_to_kvs m).
Proof.
  intros H. rewrite /reads_as /marshal_map bytes_unbytes. rewrite /print_compact -(app_nil_r (print_json _ _ _ _ _)).
  rewrite (parse_all_print bf (fun _ => []) []); [by intros; constructor|by constructor| |by constructor|].
  { cbn [plain]. apply forallb_forall. intros kv Hin. apply in_map_iff in Hin as (x & <- & _). done. }
  cbn [san]. do 2 f_equal. rewrite map_map. apply map_ext_in. intros [k v] Hin. apply elem_of_list_In in Hin. rewrite kvs_perm in Hin.
  apply elem_of_map_to_list, H in Hin as [H1 H2]. cbn [fst snd san]. by rewrite !utf8_clean.
Qed.
Lemma last_value_in ps k v : last_value ps k = Some v -> (k, v) ∈ ps.
Proof.
  rewrite /last_value. destruct (last _) as [[k' v']|] eqn:E; cbn; [|done]. intros [= ->]. apply last_Some_elem_of, elem_of_list_filter in E as [<- E]. exact E.
Qed.
Lemma text_reads bf ps text : all_utf8 ps -> ~ event_only ps -> log_text (marshal_map bf) ps text ->
  exists kvs, reads_as text kvs /\ NoDup (map fst kvs) /\ forall k v, (k, v) ∈ kvs <-> last_value ps k = Some v.
Proof.
  intros Hu Hne [[Hall Hev]|(_ & m & -> & Hm)].
  - destruct Hne. split; [|exact Hall]. intros ->. done.
  - exists (map_to_kvs m). split.
    + apply marshal_reads. intros k v E. rewrite Hm in E. by apply Hu, last_value_in.
    + split; [rewrite kvs_perm; apply NoDup_fst_map_to_list|]. intros k v. by rewrite kvs_perm elem_of_map_to_list Hm.
Qed.

(** C117: unless "event" is the only field, the message is the JSON text of an object with exactly the fields set, each with
    its last value, if all of them are UTF-8. *)
Theorem C117_fields_partial : forall bf fs ps, sets fs ps -> all_utf8 ps -> ~ event_only ps ->
  exists kvs, reads_as (message bf fs) kvs /\ NoDup (map fst kvs) /\ forall k v, (k, v) ∈ kvs <-> last_value ps k = Some v.
Proof. intros bf fs ps <-%sets_emitted Hu Hne. apply (text_reads bf); [exact Hu|exact Hne|]. apply materialize_text. Qed.
Print Assumptions C117_fields_partial.

(** The message of a log with "event" only is its payload. *)
Theorem C117_event : forall bf fs ps, sets fs ps -> event_only ps -> last_value ps "event" = Some (message bf fs).
Proof.
  intros bf fs ps <-%sets_emitted [Hn Hall]. destruct (materialize_text (marshal_map bf) (emitted fs)) as [[_ H]|(H & _)]; [exact H|]. by destruct H.
Qed.
Print Assumptions C117_event.

(** The texts of booleans and integers are read back by Go's parsers. *)
Theorem C117_values : forall k,
  (forall b, exists s, emitted1 (FBool k b) = [(k, s)] /\ parse_bool s = Some b) /\
  (forall z, (- 2 ^ 63 <= z < 2 ^ 63)%Z -> exists s, emitted1 (FInt k z) = [(k, s)] /\ parse_int s = Some z) /\
  (forall n : N, (n < two64)%N -> exists s, emitted1 (FUint k n) = [(k, s)] /\ parse_uint s = Some n).
Proof.
  intros k. split_and!.
  - intros b. eexists. split; [reflexivity|]. apply parse_fmt_bool.
  - intros z Hz. eexists. split; [reflexivity|]. apply parse_fmt_int. lia.
  - intros n Hn. eexists. split; [reflexivity|]. by apply parse_fmt_uint.
Qed.
Print Assumptions C117_values.
(** Texts are taken as they are; what a lazy logger emits is logged in its place, however deep. *)
Theorem C117_lazy :
  (forall k v, emitted1 (FString k v) = [(k, v)] /\ emitted1 (FText k v) = [(k, v)]) /\
  forall before fs after, emitted (before ++ FLazy fs :: after) = emitted (before ++ fs ++ after).
Proof.
  split; [done|]. intros before fs after. unfold emitted. rewrite !flat_map_app. simpl. by rewrite app_assoc.
Qed.
Print Assumptions C117_lazy.

(** Every list of fields sets one list of pairs. *)
Theorem C117_sets : forall fs, exists ps, sets fs ps /\ forall ps', sets fs ps' -> ps' = ps.
Proof. intros fs. exists (emitted fs). split; [apply emitted_sets|]. by intros ps' <-%sets_emitted. Qed.
Print Assumptions C117_sets.

(** Together with C87: the fields of a span's last log are read back from the collected annotations. *)
Theorem C117_span_partial : forall bf sp r os r' before t fs ps, sets fs ps -> sp_sampled sp = true -> record_span (marshal_map bf) sp r os r' -> all_accepted os ->
  sp_logs sp = before ++ [(t, emitted fs)] -> valid_time t -> free sp "Msg" -> free sp "Time" ->
  all_utf8 ps -> ~ event_only ps ->
  exists text kvs, unmarshal log_event (collected os) (zero (ev_ty log_event)) = EDone (VStruct [("Msg", VString text); ("Time", VTime t)]) /\
    reads_as text kvs /\ forall k v, (k, v) ∈ kvs <-> last_value ps k = Some v.
Proof.
  intros bf sp r os r' before t fs ps <-%sets_emitted Hs H Hok Hl Hv Hm Ht Hu Hne.
  destruct (C87_logs_partial _ _ _ _ _ _ _ _ Hs H Hok Hl Hv Hm Ht) as (text & Htext & Hread).
  destruct (text_reads bf _ _ Hu Hne Htext) as (kvs & H1 & _ & H2). by exists text, kvs.
Qed.
Print Assumptions C117_span_partial.

(** C117 is false as stated: an event whose payload is such a text cannot be told from fields; nor can values that are not
    UTF-8 from others. *)
Theorem C117_refuted : forall bf,
  (exists fs1 fs2, all_utf8 (emitted fs1) /\ all_utf8 (emitted fs2) /\ message bf fs1 = message bf fs2 /\
     last_value (emitted fs1) "a" = Some "b"%string /\ last_value (emitted fs2) "a" = None) /\
  (exists fs1 fs2, ~ event_only (emitted fs1) /\ ~ event_only (emitted fs2) /\ message bf fs1 = message bf fs2 /\
     last_value (emitted fs1) "a" <> last_value (emitted fs2) "a").
Proof.
  assert (forall s, Forall (fun c => (N_of_ascii c < 128)%N) (Base.bytes s) -> utf8_string s) as Hascii.
  { intros s. rewrite /utf8_string. induction 1 as [|c l Hc _ IH]; [constructor|]. change (c :: l) with ([c] ++ l). econstructor; [by constructor|done]. }
  intros bf. split.
  - exists [FString "a" "b"], [FString "event" "{""a"":""b""}"]. split_and!; try done.
    + intros k v [= -> ->]%elem_of_list_singleton. split; apply Hascii; by repeat constructor.
    + intros k v [= -> ->]%elem_of_list_singleton. split; apply Hascii; by repeat constructor.
  - exists [FString "a" (String "255" "")], [FString "a" (String "254" "")]. split_and!.
    + intros [_ H]. by specialize (H ("a", String "255" "")%string (elem_of_list_here _ _)).
    + intros [_ H]. by specialize (H ("a", String "254" "")%string (elem_of_list_here _ _)).
    + by destruct bf; vm_compute.
    + done.
Qed.
Print Assumptions C117_refuted.

Definition some_fields : list field := [FString "event" "x"; FLazy [FInt "n" (-5); FBool "ok" true]; FString "event" "<y>"; FUint "u" 7].
Example C117_nonvacuous : sets some_fields (emitted some_fields) /\ ~ event_only (emitted some_fields) /\ all_utf8 (emitted some_fields) /\
  last_value (emitted some_fields) "event" = Some "<y>"%string /\ last_value (emitted some_fields) "n" = Some "-5"%string /\
  message true some_fields = "{""event"":""\u003cy\u003e"",""n"":""-5"",""ok"":""true"",""u"":""7""}"%string.
Proof.
  split; [apply emitted_sets|]. split_and!; try (vm_compute; reflexivity).
  - intros [_ H]. specialize (H ("n", "-5")%string). by discriminate H; right; left.
  - assert (forall s, Forall (fun c => (N_of_ascii c < 128)%N) (Base.bytes s) -> utf8_string s) as Hascii.
    { intros s. rewrite /utf8_string. induction 1 as [|c l Hc _ IH]; [constructor|]. change (c :: l) with ([c] ++ l). econstructor; [by constructor|done]. }
    intros k v Hin. cbn in Hin. apply elem_of_list_In in Hin. cbn in Hin.
    repeat (destruct Hin as [[= <- <-]|Hin]; [split; apply Hascii; by repeat constructor|]). done.
Qed.
