(** Specification of what a trace store shows, in terms of the history of calls only. *)
From Verif Require Import Base.

(** All nodes of a tree (itself included), in depth-first order. *)
Fixpoint nodes (t : tree) : list tree :=
  t :: (fix go (l : list tree) := match l with [] => [] | x :: l => nodes x ++ go l end) (tr_subs t).

(** [edge t p c]: somewhere in t, node c is a direct child of node p. *)
Definition edge (t p c : tree) : Prop := In p (nodes t) /\ In c (tr_subs p).

(** *** Histories *)

(** The Collect calls for trace t that are still in force: those after the last Delete that
    names t.  Oldest first. *)
Fixpoint live (t : N) (calls : list call) (acc : list (SpanID * list Annotation)) :
    list (SpanID * list Annotation) :=
  match calls with
  | [] => acc
  | CCollect id anns :: calls =>
      live t calls (if sp_trace id =? t then acc ++ [(id, anns)] else acc)
  | CDelete ts :: calls =>
      live t calls (if bool_decide (t ∈ ts) then [] else acc)
  end.

(** The span IDs of a trace: for each Span, the SpanID of its first call. *)
Fixpoint first_ids (seen : list N) (l : list (SpanID * list Annotation)) : list SpanID :=
  match l with
  | [] => []
  | (id, _) :: l =>
      if bool_decide (sp_span id ∈ seen) then first_ids seen l
      else id :: first_ids (sp_span id :: seen) l
  end.
Definition spans_of (l : list (SpanID * list Annotation)) : list SpanID := first_ids [] l.

(** The annotations of span s: all of its calls' annotations, in call order. *)
Definition anns_of (s : N) (l : list (SpanID * list Annotation)) : list Annotation :=
  concat (map snd (filter (fun c => sp_span (fst c) = s) l)).

(** No parent cycle among the collected spans: some ranking decreases from child to parent. *)
Definition acyclic (ids : list SpanID) : Prop :=
  exists rank : N -> nat, forall c p, In c ids -> In p ids -> sp_parent c = sp_span p ->
    (rank (sp_span p) < rank (sp_span c))%nat.

(** The displayed root: the first span; replaced by a newly seen span that has no parent or
    that is the current root's parent. *)
Fixpoint root_from (r : SpanID) (ids : list SpanID) : SpanID :=
  match ids with
  | [] => r
  | s :: ids => root_from (if (sp_parent s =? 0) || (sp_span s =? sp_parent r) then s else r) ids
  end.
Definition root_of (ids : list SpanID) : option SpanID :=
  match ids with [] => None | s :: ids => Some (root_from s ids) end.

(** A span of [ids] is anchored if following parents from it, within [ids], ends at a span
    whose parent is not in [ids], or at [root]: it is not caught in a parent cycle. *)
Inductive anchored (ids : list SpanID) (root : SpanID) : SpanID -> Prop :=
| anch_root : In root ids -> anchored ids root root
| anch_orphan s : In s ids -> (forall q, In q ids -> sp_span q <> sp_parent s) -> anchored ids root s
| anch_child s p : In s ids -> In p ids -> sp_parent s = sp_span p -> anchored ids root p ->
    anchored ids root s.

(** The tree [tr] displays the calls [l] faithfully: the displayed root is as specified, only
    collected spans appear, none of them twice, each with its annotations, and every span but
    the root is a direct child of its own parent if that has been collected, and of the
    displayed root otherwise. *)
Record displays (l : list (SpanID * list Annotation)) (tr : tree) : Prop := {
  d_root  : root_of (spans_of l) = Some (tr_id tr);
  d_once  : List.NoDup (map tr_id (nodes tr));
  d_from  : forall n, In n (nodes tr) -> In (tr_id n) (spans_of l);
  d_anns  : forall n, In n (nodes tr) -> tr_anns n = anns_of (sp_span (tr_id n)) l;
  d_edge  : forall p c, edge tr p c ->
              sp_parent (tr_id c) = sp_span (tr_id p) \/
              (p = tr /\ ~ exists q, In q (spans_of l) /\ sp_span q = sp_parent (tr_id c))
}.

(** One complete tree of spans: exactly one root, no span ID zero, every other span's parent
    is present, no parent cycle. *)
Record complete (ids : list SpanID) (root : SpanID) : Prop := {
  co_root   : In root ids /\ sp_parent root = 0;
  co_one    : forall s, In s ids -> sp_parent s = 0 -> s = root;
  co_span   : forall s, In s ids -> sp_span s <> 0;
  co_parent : forall s, In s ids -> s <> root -> exists p, In p ids /\ sp_parent s = sp_span p;
  co_acyclic : acyclic ids
}.

(** The call mentions trace t. *)
Definition touches (c : call) (t : N) : Prop :=
  match c with CCollect id _ => sp_trace id = t | CDelete ts => In t ts end.

(** The call is a Collect into trace t. *)
Definition collects (c : call) (t : N) : Prop :=
  match c with CCollect id _ => sp_trace id = t | CDelete _ => False end.
