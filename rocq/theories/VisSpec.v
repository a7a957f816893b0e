(** Specification for the timeline. *)
From Verif Require Import Base IdModel TimeModel ReflModel EventModel TraceModel TraceSpec ProfModel VisModel.
Local Open Scope Z_scope.

(** The timespan events of the span with times that are not zero: schema, start and end. *)
Definition timed (reg : registry) (t : tree) : list (string * time * time) :=
  omap (fun e => match as_timespan e with
                 | Some (s, r) => if decide (s = time_zero \/ r = time_zero) then None else Some (fst e, s, r)
                 | None => None
                 end) (fst (unmarshal_events reg (tr_anns t))).

(** The spans with a timed event whose ancestors all have one too, in depth-first order, with their depths. *)
Fixpoint shown (reg : registry) (depth : nat) (t : tree) : list (nat * tree) :=
  let 'Tree i anns subs := t in
  match timed reg (Tree i anns subs) with
  | [] => []
  | _ => (depth, t) :: concat (map (shown reg (S depth)) subs)
  end.

(** [ms] is the earliest of the starts / the latest of the ends, in milliseconds. *)
Definition earliest (l : list Z) (ms : Z) : Prop := ms ∈ l /\ forall x, x ∈ l -> ms <= x.
Definition latest (l : list Z) (ms : Z) : Prop := ms ∈ l /\ forall x, x ∈ l -> x <= ms.

(** Times within the range of time.Time.UnixNano. *)
Definition in_range (t : time) : Prop := - 2 ^ 63 <= instant t - unix_epoch < 2 ^ 63.

(** The spans that are looked at: those whose ancestors all have a timed event. *)
Fixpoint visited (reg : registry) (t : tree) : list tree :=
  let 'Tree i anns subs := t in
  t :: match timed reg (Tree i anns subs) with
       | [] => []
       | _ => concat (map (visited reg) subs)
       end.

(** The item describes the span at the depth. *)
Record describes (reg : registry) (us : urls) (x : nat * tree) (it : item) : Prop := {
  d_label : it_label it = span_name (tr_anns (snd x)) /\ it_full it = it_label it /\ it_label it <> ""%string;
  d_span : it_span it = id_string (sp_span (tr_id (snd x)));
  d_parent : sp_parent (tr_id (snd x)) <> 0%N -> it_parent it = id_string (sp_parent (tr_id (snd x)));
  d_root : sp_parent (tr_id (snd x)) = 0%N -> it_parent it = ""%string;
  d_url : Some (it_url it) = url_of us (tr_id (snd x));
  d_data : forall k v, it_data it !! k = Some v <->
    exists before a after, tr_anns (snd x) = before ++ a :: after /\ ann_key a = k /\ val_bytes (ann_val a) = v /\ Forall (fun b => ann_key b <> k) after;
  d_visible : it_visible it = true <-> (fst x <= 1)%nat;
  d_times : it_times it <> [];
  d_root_times : sp_parent (tr_id (snd x)) = 0%N ->
    map (fun b => (b_start b, b_end b)) (it_times it) = map (fun e => (epoch_ms (snd (fst e)), epoch_ms (snd e))) (timed reg (snd x));
  d_child_times : sp_parent (tr_id (snd x)) <> 0%N ->
    exists b, it_times it = [b] /\
      earliest (map (fun e => epoch_ms (snd (fst e))) (timed reg (snd x))) (b_start b) /\
      latest (map (fun e => epoch_ms (snd e)) (timed reg (snd x))) (b_end b) }.
