(** Proofs about the timeline. *)
From Verif Require Import Base FloatModel IdModel TimeModel ReflModel EventModel TraceModel TraceSpec ProfModel VisModel VisSpec.
From Coq Require Import ssreflect.
Local Open Scope Z_scope.
Local Open Scope general_if_scope.
Local Opaque instant unix_nano epoch_ms.

(** ** The timespans *)
Definition times_step (parent : N) (times : list bar) (x : string * time * time) : list bar :=
  let '(schema, s, r) := x in
  if N.eqb parent 0 then times ++ [MkBar schema (epoch_ms s) (epoch_ms r) 0]
  else match times with
       | [] => [MkBar "" (epoch_ms s) (epoch_ms r) 0]
       | b :: bs => MkBar (b_label b) (if epoch_ms s <? b_start b then epoch_ms s else b_start b)
                          (if b_end b <? epoch_ms r then epoch_ms r else b_end b) (b_duration b) :: bs
       end.
Definition pick_timed (e : string * val) : option (string * time * time) :=
  match as_timespan e with
  | Some (s, r) => if decide (s = time_zero \/ r = time_zero) then None else Some (fst e, s, r)
  | None => None
  end.
Lemma times_timed parent events acc :
  fold_left (times_iter parent) events acc = fold_left (times_step parent) (omap pick_timed events) acc.
Proof.
  revert acc. induction events as [|e events IH]=> acc; first done.
  assert (omap pick_timed (e :: events) = match pick_timed e with Some y => y :: omap pick_timed events | None => omap pick_timed events end) as -> by done.
  cbn [fold_left]. rewrite IH /times_iter /pick_timed. destruct (as_timespan e) as [[s r]|]; [|done].
  destruct (decide (s = time_zero \/ r = time_zero)); done.
Qed.
Lemma step_root l acc : fold_left (times_step 0) l acc = acc ++ map (fun e => MkBar (fst (fst e)) (epoch_ms (snd (fst e))) (epoch_ms (snd e)) 0) l.
Proof.
  revert acc. induction l as [|[[sc s] r] l IH]=> acc; cbn [fold_left map]; first by rewrite app_nil_r.
  rewrite IH. cbn [times_step N.eqb fst snd]. by rewrite -app_assoc.
Qed.
Lemma step_child parent l b : parent <> 0%N ->
  exists b', fold_left (times_step parent) l [b] = [b'] /\ b_label b' = b_label b /\ b_duration b' = b_duration b /\
    earliest (b_start b :: map (fun e => epoch_ms (snd (fst e))) l) (b_start b') /\
    latest (b_end b :: map (fun e => epoch_ms (snd e)) l) (b_end b').
Proof.
  intros Hp. revert b. induction l as [|[[sc s] r] l IH]=> b; cbn [fold_left map].
  { exists b. do 3 (split; [done|]). split; (split; [left|]); intros x ->%elem_of_list_singleton; lia. }
  assert (times_step parent [b] (sc, s, r) = [MkBar (b_label b) (if epoch_ms s <? b_start b then epoch_ms s else b_start b)
                          (if b_end b <? epoch_ms r then epoch_ms r else b_end b) (b_duration b)]) as ->.
  { rewrite /times_step. by apply N.eqb_neq in Hp as ->. }
  destruct (IH (MkBar (b_label b) (if epoch_ms s <? b_start b then epoch_ms s else b_start b)
                          (if b_end b <? epoch_ms r then epoch_ms r else b_end b) (b_duration b))) as (b' & H1 & H2 & H3 & H4 & H5).
  exists b'. cbn [b_label b_duration b_start b_end] in *. do 3 (split; [done|]). cbn [fst snd]. split.
  - destruct H4 as [H4 H4']. pose proof (H4' _ ltac:(left)) as Hle. split.
    + apply elem_of_cons in H4 as [->|H4]; [destruct (Z.ltb_spec (epoch_ms s) (b_start b)); [right; left|left]|right; by right].
    + intros x [->|[->|Hx]%elem_of_cons]%elem_of_cons; [destruct (Z.ltb_spec (epoch_ms s) (b_start b)); lia..|]. apply H4'. by right.
  - destruct H5 as [H5 H5']. pose proof (H5' _ ltac:(left)) as Hle. split.
    + apply elem_of_cons in H5 as [->|H5]; [destruct (Z.ltb_spec (b_end b) (epoch_ms r)); [right; left|left]|right; by right].
    + intros x [->|[->|Hx]%elem_of_cons]%elem_of_cons; [destruct (Z.ltb_spec (b_end b) (epoch_ms r)); lia..|]. apply H5'. by right.
Qed.
Lemma step_first parent x l : parent <> 0%N ->
  exists b', fold_left (times_step parent) (x :: l) [] = [b'] /\ b_label b' = ""%string /\ b_duration b' = 0 /\
    earliest (map (fun e => epoch_ms (snd (fst e))) (x :: l)) (b_start b') /\
    latest (map (fun e => epoch_ms (snd e)) (x :: l)) (b_end b').
Proof.
  destruct x as [[sc s] r]. intros Hp. cbn [fold_left].
  assert (times_step parent [] (sc, s, r) = [MkBar "" (epoch_ms s) (epoch_ms r) 0]) as ->.
  { rewrite /times_step. by apply N.eqb_neq in Hp as ->. }
  pose proof (step_child parent l (MkBar "" (epoch_ms s) (epoch_ms r) 0) Hp) as H. cbn [b_label b_duration b_start b_end] in H. cbn [map fst snd]. exact H.
Qed.
(** The length of a bar, and the bar with its length. *)
Definition length_of (b : bar) : Z := int64 (int64 (b_end b - b_start b) * 1000000).
Definition with_length (fmt : Z -> string) (label : string) (msec : Z) (b : bar) : bar :=
  if 0 <? msec then MkBar (label +:+ " (" +:+ fmt msec +:+ ")")%string (b_start b) (b_end b) msec else b.
Lemma durations_cons fmt label b bs : durations fmt label (b :: bs) = map (with_length fmt label (length_of b)) (b :: bs).
Proof. done. Qed.
Lemma durations_nil fmt label times : durations fmt label times = [] <-> times = [].
Proof. by destruct times. Qed.
Lemma with_length_se fmt label ms b : b_start (with_length fmt label ms b) = b_start b /\ b_end (with_length fmt label ms b) = b_end b.
Proof. rewrite /with_length. by destruct (0 <? ms). Qed.
Lemma durations_se fmt label times : map (fun b => (b_start b, b_end b)) (durations fmt label times) = map (fun b => (b_start b, b_end b)) times.
Proof.
  destruct times as [|b bs]; first done. rewrite durations_cons. generalize (length_of b). intros ms. generalize (b :: bs). intros l. rewrite map_map. apply map_ext.
  intros x. by destruct (with_length_se fmt label ms x) as [-> ->].
Qed.

(** The bars of a span. *)
Definition bars (reg : registry) (fmt : Z -> string) (t : tree) : list bar :=
  durations fmt (span_name (tr_anns t)) (fold_left (times_step (sp_parent (tr_id t))) (timed reg t) []).
Lemma bars_nil reg fmt t : bars reg fmt t = [] <-> timed reg t = [].
Proof.
  rewrite /bars durations_nil. split; [|by intros ->]. destruct (timed reg t) as [|x l]; [done|].
  destruct (decide (sp_parent (tr_id t) = 0%N)) as [->|Hp]; [by rewrite step_root|].
  by destruct (step_first _ x l Hp) as (b' & -> & _).
Qed.

(** ** d3timelineInner *)
Section loop.
  Context (f : tree -> res (list item)).
  Fixpoint tloop (subs : list tree) (items : list item) : res (list item) :=
    match subs with
    | [] => ROk items
    | c :: subs => match f c with ROk its => tloop subs (items ++ its) | RErr => RErr | RPanic => RPanic end
    end.
End loop.
Definition item_of (reg : registry) (us : urls) (fmt : Z -> string) (x : nat * tree) : item :=
  let t := snd x in
  MkItem (span_name (tr_anns t)) (span_name (tr_anns t)) (bars reg fmt t) (string_map (tr_anns t)) (id_string (sp_span (tr_id t)))
    (if N.eqb (sp_parent (tr_id t)) 0 then "" else id_string (sp_parent (tr_id t)))%string (default ""%string (url_of us (tr_id t))) (Nat.leb (fst x) 1).
Lemma timeline_unfold reg us fmt depth i anns subs : timeline reg us fmt depth (Tree i anns subs) =
  let t := Tree i anns subs in
  match snd (unmarshal_events reg anns) with
  | EsErr => RErr
  | EsPanic => RPanic
  | EsOk =>
      match url_of us i with
      | None => RErr
      | Some u =>
          if decide (span_name anns = ""%string) then RErr
          else match timed reg t with
               | [] => ROk []
               | _ => tloop (timeline reg us fmt (S depth)) subs [item_of reg us fmt (depth, t)]
               end
      end
  end.
Proof.
  cbn zeta. cbn [timeline]. destruct (unmarshal_events reg anns) as [events [| |]] eqn:Hu; cbn [snd]; try done.
  destruct (url_of us i) as [u|] eqn:Hurl; [|done]. destruct (decide (span_name anns = ""%string)); [done|].
  assert (durations fmt (span_name anns) (fold_left (times_iter (sp_parent i)) events []) = bars reg fmt (Tree i anns subs)) as ->.
  { rewrite /bars times_timed /timed. cbn [tr_anns tr_id]. by rewrite Hu. }
  pose proof (bars_nil reg fmt (Tree i anns subs)) as Hb.
  destruct (timed reg (Tree i anns subs)) as [|x l] eqn:Ht.
  - by rewrite (proj2 Hb eq_refl).
  - rewrite /item_of. cbn [snd fst tr_anns tr_id]. rewrite Hurl. cbn [default].
    destruct (bars reg fmt (Tree i anns subs)) as [|b bs]; [by discriminate (proj1 Hb eq_refl)|]. reflexivity.
Qed.

Definition sound (reg : registry) (us : urls) (t : tree) : Prop :=
  snd (unmarshal_events reg (tr_anns t)) = EsOk /\ is_Some (url_of us (tr_id t)) /\ span_name (tr_anns t) <> ""%string.
Lemma shown_unfold reg depth i anns subs : shown reg depth (Tree i anns subs) =
  match timed reg (Tree i anns subs) with [] => [] | _ => (depth, Tree i anns subs) :: concat (map (shown reg (S depth)) subs) end.
Proof. done. Qed.
Lemma visited_unfold reg i anns subs : visited reg (Tree i anns subs) =
  Tree i anns subs :: match timed reg (Tree i anns subs) with [] => [] | _ => concat (map (visited reg) subs) end.
Proof. done. Qed.
Lemma tloop_spec f (g : tree -> list item) (v : tree -> Prop) subs :
  Forall (fun c => forall its, f c = ROk its <-> v c /\ its = g c) subs ->
  forall items r, tloop f subs items = ROk r <-> Forall v subs /\ r = items ++ concat (map g subs).
Proof.
  induction 1 as [|c subs Hc _ IH]=> items r; cbn [tloop map concat].
  - rewrite app_nil_r. split; [intros [= <-]; by split; [constructor|]|by intros [_ ->]].
  - split.
    + destruct (f c) as [| |its] eqn:Hf; try done. destruct (proj1 (Hc its) eq_refl) as [Hv ->].
      intros [Hvs ->]%IH. split; [by constructor|]. by rewrite app_assoc.
    + intros [[Hv Hvs]%Forall_cons ->]. rewrite (proj2 (Hc (g c)) (conj Hv eq_refl)). apply IH. by rewrite app_assoc.
Qed.
Lemma timeline_spec reg us fmt depth t items :
  timeline reg us fmt depth t = ROk items <-> Forall (sound reg us) (visited reg t) /\ items = map (item_of reg us fmt) (shown reg depth t).
Proof.
  revert depth items. induction t as [i anns subs IH] using tree_ind'. intros depth items.
  rewrite timeline_unfold shown_unfold visited_unfold Forall_cons. cbn zeta. rewrite {1}/sound. cbn [tr_anns tr_id].
  destruct (snd (unmarshal_events reg anns)) eqn:Hu; [|by split; [|intros [[[? _] _] _]]..].
  destruct (url_of us i) as [u|] eqn:Hurl; [|by split; [|intros [[[_ [[? ?] _]] _] _]]].
  destruct (decide (span_name anns = ""%string)) as [Hn|Hn]; [by split; [|intros [[[_ [_ ?]] _] _]]|].
  destruct (timed reg (Tree i anns subs)) as [|x l] eqn:Ht.
  { split; [intros [= <-]|by intros [_ ->]]. split; [|done]. split; [split; [done|split; [by exists u|done]]|by apply Forall_nil]. }
  assert (Forall (fun c => forall its, timeline reg us fmt (S depth) c = ROk its <-> Forall (sound reg us) (visited reg c) /\ its = map (item_of reg us fmt) (shown reg (S depth) c)) subs) as Hall.
  { eapply Forall_impl; [exact IH|]. intros c Hc its. apply Hc. }
  rewrite (tloop_spec (timeline reg us fmt (S depth)) (fun c => map (item_of reg us fmt) (shown reg (S depth) c)) (fun c => Forall (sound reg us) (visited reg c)) subs Hall).
  assert (Forall (fun c => Forall (sound reg us) (visited reg c)) subs <-> Forall (sound reg us) (concat (map (visited reg) subs))) as ->.
  { rewrite Forall_concat Forall_map. done. }
  cbn [map]. rewrite concat_map map_map. cbn [app]. split.
  - intros [H ->]. split; [|done]. split; [|done]. split; [done|]. split; [by exists u|done].
  - intros [[_ H] ->]. by split.
Qed.
