(** Property C133: what the script of the trace page gets. *)
From Verif Require Import Base IdModel ReflModel ReflProofs IdJsonModel EventModel JsonModel JsonSpec JsonProofs JsonGramSpec JsonGramProofs TraceModel UploadModel ProfModel VisModel EscModel ExportProps DashModel DashProps.
From Coq Require Import ssreflect.
Local Open Scope general_if_scope.

(** The object that stands for a timespan, and for a span.  In texts that are not UTF-8 there are replacement characters. *)
Definition text_is (j : json) (s : string) : Prop := j = JStr (sanitize (Base.bytes s)).
Inductive bar_object (b : bar) : json -> Prop :=
| Bar_object label start stop duration : text_is label (b_label b) -> number_is start (b_start b) -> number_is stop (b_end b) -> number_is duration (b_duration b) ->
    bar_object b (JObj [(Base.bytes "label", label); (Base.bytes "starting_time", start); (Base.bytes "ending_time", stop); (Base.bytes "duration", duration)]).
Inductive item_object (o : item) : json -> Prop :=
| Item_object label full times raw span parent url :
    text_is label (it_label o) -> text_is full (it_full o) -> Forall2 bar_object (it_times o) times ->
    (exists data, Permutation data (map_to_list (it_data o)) /\ Forall2 (fun kv m => fst m = sanitize (Base.bytes (fst kv)) /\ text_is (snd m) (snd kv)) data raw) ->
    text_is span (it_span o) -> text_is parent (it_parent o) -> text_is url (it_url o) ->
    item_object o (JObj [(Base.bytes "label", label); (Base.bytes "fullLabel", full); (Base.bytes "times", JArr times); (Base.bytes "rawData", JObj raw);
                         (Base.bytes "spanID", span); (Base.bytes "parentSpanID", parent); (Base.bytes "url", url); (Base.bytes "visible", JBool (it_visible o))]).
Definition bar_ok (b : bar) : Prop := int64_range (b_start b) /\ int64_range (b_end b) /\ int64_range (b_duration b).
(** C133: the value in the script is a JSON text of the list of the spans, each with its texts, times and data; null if there are none. *)
Theorem C133_data : forall bf items j, vis_data items j -> Forall (fun o => Forall bar_ok (it_times o)) items ->
  exists v, document false (script_value bf j) v /\ (items = [] /\ v = JNull \/ exists l, v = JArr l /\ Forall2 item_object items l).
Proof.
  intros bf items j Hj Hok. exists (san j). assert (nums j /\ (items = [] /\ san j = JNull \/ exists l, san j = JArr l /\ Forall2 item_object items l)) as [Hn Hs].
  2:{ split; [by apply compact_document|done]. }
  destruct Hj as [[-> ->]|(l & Hl & ->)]; [by split; [|left]|].
  assert (nums (JArr l) /\ Forall2 item_object items (map san l)) as [H1 H2]; [|split; [done|right; by exists (map san l)]].
  cbn [nums]. induction Hl as [|o x items l (data & Hd & ->) _ IH]; [split; [done|constructor]|]. apply Forall_cons in Hok as [Ho Hok]. destruct (IH Hok) as [IH1 IH2].
  assert (nums (JArr (map enc_bar (it_times o))) /\ Forall2 bar_object (it_times o) (map san (map enc_bar (it_times o)))) as [Ht1 Ht2].
  { clear -Ho. cbn [nums]. induction Ho as [|b bs (Hb1 & Hb2 & Hb3) _ [IH1 IH2]]; [split; [done|constructor]|]. split.
    - split; [|done]. cbn. split; [done|]. repeat (split; [apply fmt_int_number|]). done.
    - constructor; [|done]. by apply Bar_object; [|apply int_is..]. }
  assert (nums (JObj (map (fun kv => (Base.bytes (fst kv), JStr (Base.bytes (snd kv)))) data))) as Hd1.
  { cbn [nums]. clear. by induction data as [|kv data IH]. }
  split.
  - split; [|done]. cbn [nums enc_item]. repeat (split; [done|]). done.
  - constructor; [|done]. change (san (enc_item o data)) with (JObj [(Base.bytes "label", JStr (sanitize (Base.bytes (it_label o)))); (Base.bytes "fullLabel", JStr (sanitize (Base.bytes (it_full o))));
      (Base.bytes "times", JArr (map san (map enc_bar (it_times o)))); (Base.bytes "rawData", san (JObj (map (fun kv => (Base.bytes (fst kv), JStr (Base.bytes (snd kv)))) data)));
      (Base.bytes "spanID", JStr (sanitize (Base.bytes (it_span o)))); (Base.bytes "parentSpanID", JStr (sanitize (Base.bytes (it_parent o))));
      (Base.bytes "url", JStr (sanitize (Base.bytes (it_url o)))); (Base.bytes "visible", JBool (it_visible o))]).
    cbn [san]. rewrite !map_map. rewrite map_map in Ht2. apply Item_object; [reflexivity|reflexivity|exact Ht2| |reflexivity|reflexivity|reflexivity]. exists data. split; [done|]. clear. induction data as [|kv data IH]; [constructor|]. by constructor.
Qed.
Print Assumptions C133_data.
Example C133_data_nonvacuous : let o := MkItem "GET /" "GET /" [MkBar "GET / (5 ms)" 1000 1005 5] {["Name" := "GET /"%string]} "0000000000000001" "" "/traces/1" true in
  exists j, vis_data [o] j /\ Forall bar_ok (it_times o) /\ script_value false j =
    Base.bytes "[{""label"":""GET /"",""fullLabel"":""GET /"",""times"":[{""label"":""GET / (5 ms)"",""starting_time"":1000,""ending_time"":1005,""duration"":5}],""rawData"":{""Name"":""GET /""},""spanID"":""0000000000000001"",""parentSpanID"":"""",""url"":""/traces/1"",""visible"":true}]".
Proof.
  intros o. exists (JArr [enc_item o [("Name", "GET /")]%string]). split.
  - right. eexists. split; [|reflexivity]. constructor; [|constructor]. eexists. split; [|reflexivity]. by rewrite /o /= map_to_list_singleton.
  - split; [repeat constructor; rewrite /=; lia|]. by vm_compute.
Qed.
