(** Model of MemoryStore persistence: store.go:320-378. *)
From Verif Require Import Base MemModel.

(** store.go:320-323 memoryStoreData, as a value: what encoding/gob transmits.  gob follows
    pointers and transmits the pointed-to values, so sharing between the two maps is lost. *)
Record gob_data := GD { gd_trace : gmap N tree; gd_span : gmap N (gmap N tree) }.

(** store.go:327-333 Write.  The encoder walks every pointer in both maps; [ms_writes st d]
    says that the walk ends and transmits d.  Where a pointer cycle is reachable, the
    (recursive) encoder does not end and no d exists. *)
Definition ms_writes (st : MS) (d : gob_data) : Prop :=
  (forall t, option_Forall2 (reads (ms_heap st)) (ms_trace st !! t) (gd_trace d !! t)) /\
  (forall t, option_Forall2
     (fun S D => forall k, option_Forall2 (reads (ms_heap st)) (S !! k) (D !! k))
     (ms_span st !! t) (gd_span d !! t)).

(** encoding/gob does not transmit zero-length slices, so an empty annotation value is decoded as nil. *)
Definition gob_val (v : option string) : option string :=
  match v with Some EmptyString => None | _ => v end.
Definition gob_ann (a : Annotation) : Annotation := Ann (ann_key a) (gob_val (ann_val a)).
Fixpoint gob_tree (t : tree) : tree :=
  match t with Tree i a ts => Tree i (map gob_ann a) (map gob_tree ts) end.

(** The decoder allocates a fresh node for every transmitted node. *)
Fixpoint alloc (t : tree) (hn : gmap loc Node * loc) : loc * (gmap loc Node * loc) :=
  match t with
  | Tree i a ts =>
      let '(cs, hn) :=
        (fix go (ts : list tree) (hn : gmap loc Node * loc) :=
           match ts with
           | [] => ([], hn)
           | t :: ts => let '(c, hn) := alloc t hn in let '(cs, hn) := go ts hn in (c :: cs, hn)
           end) ts hn in
      (snd hn, (<[snd hn := MkNode i a cs]> (fst hn), snd hn + 1))
  end.

Definition alloc_map (d : gmap N tree) (hn : gmap loc Node * loc) : gmap N loc * (gmap loc Node * loc) :=
  map_fold (fun k t '(m, hn) => let '(l, hn) := alloc (gob_tree t) hn in (<[k := l]> m, hn)) (∅, hn) d.

Definition alloc_map2 (d : gmap N (gmap N tree)) (hn : gmap loc Node * loc) :
    gmap N (gmap N loc) * (gmap loc Node * loc) :=
  map_fold (fun k dm '(m, hn) => let '(lm, hn) := alloc_map dm hn in (<[k := lm]> m, hn)) (∅, hn) d.

(** store.go:337-348 ReadFrom, for well-formed input that decodes to [d]: both maps are
    replaced; the result is the number of traces.  (The old nodes stay in the heap: callers
    may still hold pointers to them.) *)
Definition ms_read_from (d : gob_data) (st : MS) : MS * nat :=
  let '(tm, hn) := alloc_map (gd_trace d) (ms_heap st, ms_next st) in
  let '(sm, hn) := alloc_map2 (gd_span d) hn in
  (MkMS (fst hn) (snd hn) tm sm, size tm).
