(** First-in-first-out window of traces. *)
From Verif Require Import Base LimitModel.

(** The window: traces, oldest first, each with what was collected for it since it entered (or
    was last deleted). *)
Definition window := list (N * list (SpanID * list Annotation)).

Definition win_op (max : nat) (w : window) (op : lop) : window :=
  match op with
  | LCollect id a _ =>
      if bool_decide (sp_trace id ∈ map fst w)
      then map (fun '(t, l) => if t =? sp_trace id then (t, l ++ [(id, a)]) else (t, l)) w
      else (if (length w <? max)%nat then w else tl w) ++ [(sp_trace id, [(id, a)])]
  | LDelete ts => map (fun '(t, l) => if bool_decide (t ∈ ts) then (t, []) else (t, l)) w
  end.
Definition win (max : nat) (ops : list lop) : window := fold_left (win_op max) ops [].

Fixpoint content (t : N) (w : window) : list (SpanID * list Annotation) :=
  match w with [] => [] | (u, l) :: w => if u =? t then l else content t w end.

(** No trace ID zero is collected; underlying deletes succeed. *)
Definition nonzero (op : lop) : Prop := match op with LCollect id _ _ => sp_trace id <> 0 | LDelete _ => True end.
Definition succeeds (op : lop) : Prop := match op with LCollect _ _ ok => ok = true | LDelete _ => True end.
