(** Specification for C19 and C157: traces that agree but for values that are present and empty in one and absent in the other. *)
From Verif Require Import Base.

Definition like_val (v w : option string) : Prop := w = v \/ (v = Some ""%string /\ w = None).
Definition like_ann (a b : Annotation) : Prop := ann_key b = ann_key a /\ like_val (ann_val a) (ann_val b).
(** The same spans in the same places, with the same annotations in the same order. *)
Inductive like_tree : tree -> tree -> Prop :=
| Like i a b ts us : Forall2 like_ann a b -> Forall2 like_tree ts us -> like_tree (Tree i a ts) (Tree i b us).
