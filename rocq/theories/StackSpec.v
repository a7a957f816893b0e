(** What users expect of a RecentStore and a LimitStore wrapped in one another. *)
From Verif Require Import Base RecentModel.
Local Open Scope N_scope.

(** The spans of trace t, in the order of l. *)
Definition of_trace (t : N) (l : list (SpanID * list Annotation)) : list (SpanID * list Annotation) :=
  List.filter (fun x => sp_trace (fst x) =? t) l.
(** Since the first span of trace t, spans of fewer than max other traces have come. *)
Definition newest (max : nat) (t : N) (arr : list (SpanID * list Annotation)) : Prop :=
  exists pre x post, arr = pre ++ x :: post /\ of_trace t pre = [] /\ sp_trace (fst x) = t /\
    forall others, List.NoDup others -> (forall u, In u others -> u <> t /\ exists y, In y post /\ sp_trace (fst y) = u) -> (length others < max)%nat.
(** No span of trace t was older than the age when an eviction was decided. *)
Definition stays_young (age : Z) (h : list revent) (t : N) : Prop :=
  forall e0 e, In e0 h -> In e h -> sp_trace (re_id e0) = t -> (ck_now (re_clock e) - age <= ck_seen (re_clock e0))%Z.
