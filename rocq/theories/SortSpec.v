(** Specification for the buttons of the timeline. *)
From Verif Require Import Base IdModel TraceModel MemSpec VisModel MenuModel MenuSpec SortModel.
Local Open Scope Z_scope.

(** The order on lists of code units: that of dictionaries. *)
Inductive units_le : list N -> list N -> Prop :=
| UL_nil b : units_le [] b
| UL_lt x y a b : (x < y)%N -> units_le (x :: a) (y :: b)
| UL_eq x a b : units_le a b -> units_le (x :: a) (x :: b).
(** The span a is to be listed no later than b when the lines are sorted in ascending order: it starts no later, ends no
    later, takes no longer (the first bar's length), or its name comes no later in the dictionary, in lower case. *)
Definition no_later (low : string -> list N) (k : key) (a b : item) : Prop :=
  match k with
  | Label => units_le (low (it_label a)) (low (it_label b))
  | _ => exists x xs y ys, it_times a = x :: xs /\ it_times b = y :: ys /\
      match k with
      | StartTime => b_start x <= b_start y
      | EndTime => b_end x <= b_end y
      | _ => Z.max 0 (b_end x - b_start x) <= Z.max 0 (b_end y - b_start y)
      end
  end.
(** The button clicked last, and how often it has been clicked since another was. *)
Fixpoint clicks (last_first : list deed) : option (key * nat) :=
  match last_first with
  | [] => None
  | Menu _ _ :: ds => clicks ds
  | Click k :: ds => match clicks ds with Some (k', n) => if decide (k' = k) then Some (k, S n) else Some (k, 1%nat) | None => Some (k, 1%nat) end
  end.
(** Whether the span (with its depth and the item it has when the page is loaded) is to be visible after the deeds: at
    first if it is the root or a child of it, then as the last menu entry chosen for a span above it says. *)
Fixpoint seen (fuse : string -> gmap string string -> bool) (t : tree) (last_first : list deed) (x : nat * tree) (o : item) (v : bool) : Prop :=
  match last_first with
  | [] => v = true <-> (fst x <= 1)%nat
  | Click _ :: ds => seen fuse t ds x o v
  | Menu a id :: ds => exists q, In q (nodes t) /\ id_string (sp_span (tr_id q)) = id /\
      ((under t (sp_span (tr_id q)) (snd x) /\ wanted fuse a o v) \/ (~ under t (sp_span (tr_id q)) (snd x) /\ seen fuse t ds x o v))
  end.
(** No bar is longer than Go's durations can say (292 years). *)
Definition bars_fit (items : list item) : Prop :=
  forall o b bs, In o items -> it_times o = b :: bs -> Z.abs (b_end b - b_start b) * 1000000 < 2 ^ 63.
(** The menus are opened on spans of the page. *)
Definition on_spans (t : tree) (d : deed) : Prop :=
  match d with Click _ => True | Menu _ id => exists q, In q (nodes t) /\ id_string (sp_span (tr_id q)) = id end.
