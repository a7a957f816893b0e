(** Model of reflect.go:312-353: the cache of field names that all goroutines share. *)
From Verif Require Import Base.

(** What fieldNames sees of one field of a struct type: whether it is exported (fld.PkgPath == ""), its name and its "trace" tag
    ("" if there is none). *)
Record sfield := MkField { sf_exported : bool; sf_name : string; sf_tag : string }.
(** reflect.go:340-348 fieldName *)
Definition field_name (f : sfield) : string := match sf_tag f with "" => sf_name f | tag => tag end.

(** Where a call of fieldNames for the type [t] is, and then its caller, which ranges over the map. *)
Inductive cpc :=
| CStart (t : N)
| CReading (t : N)                            (* holds the read lock (reflect.go:316) *)
| CGot (t : N) (a : option nat)               (* has read the cache (317), still holds the read lock *)
| CMissed (t : N)                             (* has released it (318), not found *)
| CLocked (t : N)                             (* holds the lock (325) *)
| CFilling (t : N) (a i : nat)                (* made the map a (326), at field i of the loop (327) *)
| CFull (t : N) (a : nat)                       (* the loop is over, before 335 *)
| CStored (t : N) (a : nat)                   (* cached it (335), still holds the lock *)
| CRange (t : N) (a : nat) (seen : list (nat * string)).   (* has returned a; the caller has been given [seen] *)

(** What a caller of fieldNames has been given in the end. *)
Inductive cevent := CNames (g : nat) (t : N) (l : list (nat * string)).

(** reflect.go:350-353: the cache, and the RWMutex: the goroutine that holds it and those that hold it for reading.  Maps are
    references into a heap. *)
Record CS := MkCS { cs_cache : gmap N nat; cs_heap : gmap nat (gmap nat string); cs_writer : option nat; cs_readers : gset nat;
  cs_calls : gmap nat cpc }.
Definition cs_new : CS := MkCS ∅ ∅ None ∅ ∅.
Definition c_at (s : CS) (g : nat) (p : cpc) : CS := MkCS (cs_cache s) (cs_heap s) (cs_writer s) (cs_readers s) (<[g := p]> (cs_calls s)).

(** One step of one goroutine: one operation on the mutex or on a map.  [tys]: the fields of each struct type.  Go's RWMutex also makes
    new readers wait for a waiting writer, which leaves out some of these interleavings. *)
Inductive c_step (tys : N -> list sfield) : CS -> list cevent -> CS -> Prop :=
| cs_call s g t : cs_calls s !! g = None -> c_step tys s [] (c_at s g (CStart t))
| cs_rlock s g t : cs_calls s !! g = Some (CStart t) -> cs_writer s = None ->
    c_step tys s [] (MkCS (cs_cache s) (cs_heap s) None ({[g]} ∪ cs_readers s) (<[g := CReading t]> (cs_calls s)))
| cs_read s g t : cs_calls s !! g = Some (CReading t) -> c_step tys s [] (c_at s g (CGot t (cs_cache s !! t)))
| cs_runlock s g t o : cs_calls s !! g = Some (CGot t o) ->
    c_step tys s [] (MkCS (cs_cache s) (cs_heap s) (cs_writer s) (cs_readers s ∖ {[g]})
      (<[g := match o with Some a => CRange t a [] | None => CMissed t end]> (cs_calls s)))
| cs_lock s g t : cs_calls s !! g = Some (CMissed t) -> cs_writer s = None -> cs_readers s = ∅ ->
    c_step tys s [] (MkCS (cs_cache s) (cs_heap s) (Some g) (cs_readers s) (<[g := CLocked t]> (cs_calls s)))
| cs_make s g t a : cs_calls s !! g = Some (CLocked t) -> cs_heap s !! a = None ->
    c_step tys s [] (MkCS (cs_cache s) (<[a := ∅]> (cs_heap s)) (cs_writer s) (cs_readers s) (<[g := CFilling t a 0]> (cs_calls s)))
| cs_fill s g t a i f : cs_calls s !! g = Some (CFilling t a i) -> tys t !! i = Some f ->
    c_step tys s [] (MkCS (cs_cache s) (if sf_exported f then alter (<[i := field_name f]>) a (cs_heap s) else cs_heap s)
      (cs_writer s) (cs_readers s) (<[g := CFilling t a (S i)]> (cs_calls s)))
| cs_full s g t a i : cs_calls s !! g = Some (CFilling t a i) -> tys t !! i = None -> c_step tys s [] (c_at s g (CFull t a))
| cs_store s g t a : cs_calls s !! g = Some (CFull t a) ->
    c_step tys s [] (MkCS (<[t := a]> (cs_cache s)) (cs_heap s) (cs_writer s) (cs_readers s) (<[g := CStored t a]> (cs_calls s)))
| cs_unlock s g t a : cs_calls s !! g = Some (CStored t a) ->
    c_step tys s [] (MkCS (cs_cache s) (cs_heap s) None (cs_readers s) (<[g := CRange t a []]> (cs_calls s)))
(* range: some entry not given before; the end when there is none *)
| cs_next s g t a seen m i n : cs_calls s !! g = Some (CRange t a seen) -> cs_heap s !! a = Some m -> m !! i = Some n -> i ∉ seen.*1 ->
    c_step tys s [] (c_at s g (CRange t a (seen ++ [(i, n)])))
| cs_end s g t a seen m : cs_calls s !! g = Some (CRange t a seen) -> cs_heap s !! a = Some m ->
    (forall i n, m !! i = Some n -> i ∈ seen.*1) ->
    c_step tys s [CNames g t seen] (MkCS (cs_cache s) (cs_heap s) (cs_writer s) (cs_readers s) (delete g (cs_calls s))).

Inductive c_run (tys : N -> list sfield) : list cevent -> CS -> Prop :=
| c_init : c_run tys [] cs_new
| c_more log s evs s' : c_run tys log s -> c_step tys s evs s' -> c_run tys (log ++ evs) s'.

