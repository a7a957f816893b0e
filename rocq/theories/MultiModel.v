(** Model of MultiStore and MultiQueryer: multi.go.  The underlying stores are arbitrary: [coll i]
    is the behaviour of the i-th store's Collect on its state. *)
From Verif Require Import Base.

Section Multi.
Context {St Err Opts : Type}.

(** multi.go:12-19.  Result: new states, the calls made (store number, span, annotations), the error. *)
Fixpoint multi_collect (coll : nat -> SpanID -> list Annotation -> St -> St * option Err)
    (i : nat) (stores : list St) (id : SpanID) (anns : list Annotation) :
    list St * list (nat * SpanID * list Annotation) * option Err :=
  match stores with
  | [] => ([], [], None)
  | s :: rest =>
      match coll i id anns s with
      | (s', Some err) => (s' :: rest, [(i, id, anns)], Some err)
      | (s', None) =>
          let '(rest', calls, r) := multi_collect coll (S i) rest id anns in
          (s' :: rest', (i, id, anns) :: calls, r)
      end
  end.

(** The answer of a store's Trace method. *)
Inductive tresult := TFound (tr : tree) | TNotFound | TError (e : Err).

(** multi.go:23-34: [asked i] is the answer of the i-th store; the second component is the
    number of stores asked. *)
Fixpoint multi_trace (asked : list tresult) : tresult :=
  match asked with
  | [] => TNotFound
  | TNotFound :: rest => multi_trace rest
  | TError e :: _ => TError e
  | TFound tr :: _ => TFound tr
  end.

(** multi.go:56-74: [union] and [all] are the local variables; a queryer is a function from the
    options to a list of traces or an error. [no_opts] is TracesOpts{}. *)
Fixpoint add_new (union : gset N) (all traces : list tree) : gset N * list tree :=
  match traces with
  | [] => (union, all)
  | t :: traces =>
      if bool_decide (sp_trace (tr_id t) ∈ union) then add_new union all traces
      else add_new ({[sp_trace (tr_id t)]} ∪ union) (all ++ [t]) traces
  end.
Fixpoint multi_traces_loop (no_opts : Opts) (qs : list (Opts -> list tree + Err)) (union : gset N) (all : list tree) : list tree + Err :=
  match qs with
  | [] => inl all
  | q :: qs =>
      match q no_opts with
      | inr e => inr e
      | inl traces => let '(union, all) := add_new union all traces in multi_traces_loop no_opts qs union all
      end
  end.
Definition multi_traces (no_opts : Opts) (qs : list (Opts -> list tree + Err)) (opts : Opts) : list tree + Err :=
  multi_traces_loop no_opts qs ∅ [].
End Multi.
Arguments tresult : clear implicits.
