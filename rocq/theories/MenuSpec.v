(** Specification for the context menu of the timeline. *)
From Verif Require Import Base IdModel TraceModel MemSpec VisModel MenuModel.

(** [under t s c]: in the tree, c is below a span with ID [s]: its child, or the child of a span below it. *)
Inductive under (t : tree) (s : N) : tree -> Prop :=
| U_child p c : In p (nodes t) -> sp_span (tr_id p) = s -> In c (tr_subs p) -> under t s c
| U_deeper p c : under t s p -> In c (tr_subs p) -> under t s c.
(** All spans of the tree have IDs, none has ID zero or that of another; each but the root has its own parent above
    it, and the root's parent is not in the tree. *)
Record proper (t : tree) : Prop := {
  p_ids : forall n, In n (nodes t) -> is_id (sp_span (tr_id n)) /\ is_id (sp_parent (tr_id n)) /\ sp_span (tr_id n) <> 0;
  p_once : List.NoDup (map (fun n => sp_span (tr_id n)) (nodes t));
  p_edge : forall p c, edge t p c -> sp_parent (tr_id c) = sp_span (tr_id p);
  p_root : forall n, In n (nodes t) -> sp_parent (tr_id t) <> sp_span (tr_id n) }.
(** The item is as before, but for its visibility. *)
Definition now (v : bool) (o o' : item) : Prop :=
  it_visible o' = v /\ it_label o' = it_label o /\ it_full o' = it_full o /\ it_times o' = it_times o /\ it_data o' = it_data o /\
  it_span o' = it_span o /\ it_parent o' = it_parent o /\ it_url o' = it_url o.
(** What the action does to an item below the span. *)
Definition wanted (fuse : string -> gmap string string -> bool) (a : action) (o : item) (v : bool) : Prop :=
  match a with
  | ShowChildren => v = true
  | HideChildren => v = false
  | Filter text =>
      (forall k x, ~ In ":"%char (bytes k) -> ~ In ":"%char (bytes x) -> text = (k +:+ ":""" +:+ x +:+ """")%string -> (v = true <-> it_data o !! k = Some x)) /\
      ((forall k x, text <> (k +:+ ":""" +:+ x +:+ """")%string /\ text <> (k +:+ ":""")%string) -> v = fuse text (it_data o))
  end.
