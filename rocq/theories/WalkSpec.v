(** What a reader may be shown of a trace that grows meanwhile. *)
From Verif Require Import Base MemSpec.

(** [t'] has all that [t] has, in the same places: the same span, its annotations and perhaps further ones, its children, grown themselves, and perhaps
    further ones after them. *)
Inductive grows : tree -> tree -> Prop :=
| Grows id a a' ts ts' more : Forall2 grows ts ts' -> grows (Tree id a ts) (Tree id (a ++ a') (ts' ++ more)).
(** The root comes first, and every other span after its parent. *)
Definition parents_first (ids : list SpanID) : Prop := exists root rest, ids = root :: rest /\ sp_parent root = 0 /\
  forall before s after, rest = before ++ s :: after -> sp_span s <> 0 /\ sp_parent s <> 0 /\ exists p, In p (root :: before) /\ sp_span p = sp_parent s.
(** The calls made before the first that deletes the trace [t]. *)
Fixpoint until (t : N) (ops : list call) : list call :=
  match ops with
  | [] => []
  | CDelete ts :: ops => if in_dec N.eq_dec t ts then [] else CDelete ts :: until t ops
  | c :: ops => c :: until t ops
  end.
