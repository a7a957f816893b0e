(** What the callers of the shared cache of field names expect. *)
From Verif Require Import Base CacheModel.

(** The fields that are recorded, with their positions and names: the exported ones, under the tag if there is one. *)
Fixpoint recorded_fields (i : nat) (fs : list sfield) : list (nat * string) :=
  match fs with
  | [] => []
  | MkField false _ _ :: fs => recorded_fields (S i) fs
  | MkField true name "" :: fs => (i, name) :: recorded_fields (S i) fs
  | MkField true _ tag :: fs => (i, tag) :: recorded_fields (S i) fs
  end.

(** The Go map a goroutine uses in its next step, and whether it writes: None is the cache, Some a map of names. *)
Definition uses (p : cpc) : option (option nat * bool) :=
  match p with
  | CReading _ => Some (None, false)
  | CFull _ _ => Some (None, true)
  | CFilling _ a _ => Some (Some a, true)
  | CRange _ a _ => Some (Some a, false)
  | _ => None
  end.
(** Two goroutines use a map at the same time, and one of them writes: Go's runtime ends the process. *)
Definition race (s : CS) : Prop :=
  exists g h p q m w w', g <> h /\ cs_calls s !! g = Some p /\ cs_calls s !! h = Some q /\
    uses p = Some (m, w) /\ uses q = Some (m, w') /\ (w = true \/ w' = true).

(** Steps of calls that have begun. *)
Inductive runs_on (tys : N -> list sfield) : nat -> CS -> CS -> Prop :=
| ro_none s : runs_on tys 0 s s
| ro_step n s s1 evs s2 : runs_on tys n s s1 -> c_step tys s1 evs s2 -> dom (cs_calls s2) ⊆ dom (cs_calls s1) -> runs_on tys (S n) s s2.
