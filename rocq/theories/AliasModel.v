(** Model of the memory that recorders, collectors and stores share: Go's slices.  The other models treat a list of
    annotations as a value; in the code it is a slice, that is a reference to an array with a length, and Collect's variadic argument
    is passed on, kept and appended to without being copied. *)
From Verif Require Import Base.
Local Open Scope nat_scope.

(** ** Slices *)

(** A []Annotation: base array (None: nil) and length.  All slices here start at the array's first cell, and have
    its whole length as capacity, as no code slices them. *)
Record slice := Slice { s_base : option nat; s_len : nat }.
Definition nil_slice : slice := Slice None 0.
(** Arrays, by address.  None is ever freed. *)
Notation heap := (list (list Annotation)).
Definition array (h : heap) (s : slice) : list Annotation := match s_base s with Some b => default [] (h !! b) | None => [] end.
Definition read (h : heap) (s : slice) : list Annotation := take (s_len s) (array h s).
Definition blank : Annotation := Ann "" None.
(** Go's append(s, xs...): in place if the capacity suffices, otherwise into a new array; [grow cap need] is the capacity
    that the runtime chooses. *)
Definition append (grow : nat -> nat -> nat) (h : heap) (s : slice) (xs : list Annotation) : heap * slice :=
  match xs with
  | [] => (h, s)
  | _ =>
      let cap := length (array h s) in
      let need := s_len s + length xs in
      match s_base s with
      | Some b => if need <=? cap then (alter (list_inserts (s_len s) xs) b h, Slice (Some b) need)
                  else (h ++ [read h s ++ xs ++ replicate (grow cap need - need) blank], Slice (Some (length h)) need)
      | None => (h ++ [xs ++ replicate (grow cap need - need) blank], Slice (Some (length h)) need)
      end
  end.
(** A slice made by a caller: MarshalEvent's result (event.go:21-31), or the user's. *)
Definition new_slice (h : heap) (xs : list Annotation) (spare : nat) : heap * slice :=
  (h ++ [xs ++ replicate spare blank], Slice (Some (length h)) (length xs)).

(** ** Who holds slices *)

(** recorder.go:22 annotations of a recorder; collector.go:128 pendingBySpanID of a ChunkedCollector; store.go:127 Annotations of a
    span in a MemoryStore (by trace and span ID); the argument of a running Collect. *)
Definition slot : Type := (nat + nat * SpanID) + (nat * (N * N) + nat).
Definition SRec (r : nat) : slot := inl (inl r).
Definition SPend (j : nat) (id : SpanID) : slot := inl (inr (j, id)).
Definition SStore (i : nat) (k : N * N) : slot := inr (inl (i, k)).
Definition SCall (c : nat) : slot := inr (inr c).

(** Where a Collect goes: a MemoryStore, a ChunkedCollector or a RemoteCollector (which copies the annotations into a
    packet, collector.go:38-44).  A MultiStore goes to several, one after the other (multi.go:12-19; errors are not modelled). *)
Inductive target := TStore (i : nat) | TChunk (j : nat) | TRemote.
Record acfg := MkACfg {
  ac_grow : nat -> nat -> nat;
  ac_span : nat -> SpanID;          (* a recorder's span *)
  ac_to : nat -> list target;       (* a recorder's collector *)
  ac_below : nat -> list target     (* a ChunkedCollector's underlying collector *)
}.
Record ast := MkASt {
  a_heap : heap;
  a_refs : gmap slot slice;
  a_finished : gset nat;
  a_calls : gmap nat (SpanID * list target);   (* running Collects, and the targets they have not reached *)
  a_sent : list (SpanID * list Annotation)     (* what RemoteCollectors were given *)
}.
Definition a_init : ast := MkASt [] ∅ ∅ ∅ [].

(** Steps: one per critical section.  [c] names the new call. *)
Inductive label :=
| LEvent (r : nat) (xs : list Annotation)                     (* Event, xs being what MarshalEvent gives *)
| LFinish (r c : nat) (log : list Annotation) (spare : nat)   (* Finish; log: what r.error would record *)
| LAnnotate (r c : nat) (xs : list Annotation) (spare : nat)  (* Annotation(xs...) with a slice of the caller's *)
| LDeliver (c : nat)                                          (* the call reaches its next target *)
| LTake (j : nat) (id : SpanID) (c : nat)                     (* Flush of a pending entry begins its Collect below *)
| LDrop (j : nat) (id : SpanID).                              (* a pending entry is dropped *)

Definition store_key (id : SpanID) : N * N := (sp_trace id, sp_span id).
(** Collect of a MemoryStore or ChunkedCollector: store.go:124-137, collector.go:190-196. *)
Definition put (cfg : acfg) (x : slot) (sl : slice) (s : ast) : ast :=
  match a_refs s !! x with
  | Some old =>
      let '(h, new) := append (ac_grow cfg) (a_heap s) old (read (a_heap s) sl) in
      MkASt h (<[x := new]> (a_refs s)) (a_finished s) (a_calls s) (a_sent s)
  | None => MkASt (a_heap s) (<[x := sl]> (a_refs s)) (a_finished s) (a_calls s) (a_sent s)
  end.
Definition call (c : nat) (id : SpanID) (ts : list target) (sl : slice) (s : ast) : ast :=
  MkASt (a_heap s) (<[SCall c := sl]> (a_refs s)) (a_finished s) (<[c := (id, ts)]> (a_calls s)) (a_sent s).
Definition reach (cfg : acfg) (t : target) (id : SpanID) (sl : slice) (s : ast) : ast :=
  match t with
  | TStore i => put cfg (SStore i (store_key id)) sl s
  | TChunk j => put cfg (SPend j id) sl s
  | TRemote => MkASt (a_heap s) (a_refs s) (a_finished s) (a_calls s) (a_sent s ++ [(id, read (a_heap s) sl)])
  end.
(** None: the step cannot happen. *)
Definition astep (cfg : acfg) (l : label) (s : ast) : option ast :=
  match l with
  | LEvent r xs =>   (* recorder.go:75-82 *)
      let '(h, new) := append (ac_grow cfg) (a_heap s) (default nil_slice (a_refs s !! SRec r)) xs in
      Some (MkASt h (<[SRec r := new]> (a_refs s)) (a_finished s) (a_calls s) (a_sent s))
  | LFinish r c log spare =>   (* recorder.go:92-99; 123-127 *)
      if decide (c ∈ dom (a_calls s)) then None else
      if decide (r ∈ a_finished s) then
        let '(h, sl) := new_slice (a_heap s) log spare in
        Some (call c (ac_span cfg r) (ac_to cfg r) sl (MkASt h (a_refs s) (a_finished s) (a_calls s) (a_sent s)))
      else
        Some (call c (ac_span cfg r) (ac_to cfg r) (default nil_slice (a_refs s !! SRec r))
          (MkASt (a_heap s) (a_refs s) ({[r]} ∪ a_finished s) (a_calls s) (a_sent s)))
  | LAnnotate r c xs spare =>   (* recorder.go:102-111 *)
      if decide (c ∈ dom (a_calls s)) then None else
      let '(h, sl) := new_slice (a_heap s) xs spare in
      Some (call c (ac_span cfg r) (ac_to cfg r) sl (MkASt h (a_refs s) (a_finished s) (a_calls s) (a_sent s)))
  | LDeliver c =>
      match a_calls s !! c, a_refs s !! SCall c with
      | Some (id, t :: ts), Some sl =>
          let s := reach cfg t id sl s in
          Some match ts with
          | [] => MkASt (a_heap s) (delete (SCall c) (a_refs s)) (a_finished s) (delete c (a_calls s)) (a_sent s)
          | _ => MkASt (a_heap s) (a_refs s) (a_finished s) (<[c := (id, ts)]> (a_calls s)) (a_sent s)
          end
      | _, _ => None
      end
  | LTake j id c =>   (* collector.go:210-224: all pending entries leave the map at once; each is then one LTake *)
      if decide (c ∈ dom (a_calls s)) then None else
      match a_refs s !! SPend j id with
      | Some sl => Some (call c id (ac_below cfg j) sl (MkASt (a_heap s) (delete (SPend j id) (a_refs s)) (a_finished s) (a_calls s) (a_sent s)))
      | None => None
      end
  | LDrop j id =>   (* collector.go:182, 226-234 *)
      Some (MkASt (a_heap s) (delete (SPend j id) (a_refs s)) (a_finished s) (a_calls s) (a_sent s))
  end.
Fixpoint arun (cfg : acfg) (tr : list label) (s : ast) : option ast :=
  match tr with [] => Some s | l :: tr => match astep cfg l s with Some s => arun cfg tr s | None => None end end.
(** What store [i] has of a span. *)
Definition contents (s : ast) (i : nat) (k : N * N) : option (list Annotation) := read (a_heap s) <$> a_refs s !! SStore i k.

(** Go's capacities (growslice up to 256 cells, without the rounding to size classes). *)
Definition go_grow (cap need : nat) : nat := if 2 * cap <? need then need else 2 * cap.
