(** Specification for C149 and C150. *)
From Verif Require Import Base LockModel.

(** The objects with a mutex that an object consists of, itself among them; and their mutexes. *)
Fixpoint parts (c : coll) : list coll :=
  match c with
  | CMem _ | CRemote _ _ => [c]
  | CLimit _ c' | CRecent _ c' | CChunked _ c' => c :: parts c'
  | CMulti cs => flat_map parts cs
  end.
Definition mutex (c : coll) : option N :=
  match c with CMem m | CLimit m _ | CRecent m _ | CChunked m _ | CRemote m _ => Some m | CMulti _ => None end.
(** Objects may share objects; each object has mutexes of its own. *)
Record own_mutexes (objs : list coll) : Prop := {
  om_mutex : forall a b, In a (flat_map parts objs) -> In b (flat_map parts objs) -> mutex a = mutex b -> a = b;
  om_log : forall m lm b, In (CRemote m lm) (flat_map parts objs) -> In b (flat_map parts objs) -> mutex b <> Some lm
}.

(** Programs: goroutines that hold nothing at first. *)
Definition program (wmem wnet : bool) (objs : list coll) (scripts : list (list act)) : Prop := Forall (prog wmem wnet objs) scripts.
Definition start (scripts : list (list act)) : list thread := map (fun s => ([], s)) scripts.
(** No goroutine can go on. *)
Definition at_rest (st : list thread) : Prop := forall st', ~ step st st'.

(** Recording: calls of Collect and Stop on ChunkedCollectors, and sections of mutexes that are no store's or collector's. *)
Inductive records (wmem wnet : bool) (objs : list coll) : list act -> Prop :=
| Rc_end : records wmem wnet objs []
| Rc_call m c me s k : In (CChunked m c) (flat_map parts objs) -> In me [MCollect; MStop] -> runs wmem wnet (CChunked m c) me s -> records wmem wnet objs k ->
    records wmem wnet objs (s ++ k)
| Rc_section m k : (forall c, In c (flat_map parts objs) -> mutex c <> Some m) -> records wmem wnet objs k -> records wmem wnet objs (section m ++ k)
| Rc_act k : records wmem wnet objs k -> records wmem wnet objs (Act :: k).
