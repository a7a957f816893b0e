(** Model of MemoryStore, store.go:78-289.  Trace nodes live in an explicit heap, so that
    pointer identity, sharing and aliasing of nodes are visible. *)
From Verif Require Import Base.

(** A *Trace pointer. *)
Notation loc := N (only parsing).

(** trace.go:14-17 type Trace struct { Span; Sub []*Trace } with span.go:138-151
    type Span struct { ID SpanID; Annotations }. *)
Record Node := MkNode { nd_id : SpanID; nd_ann : list Annotation; nd_sub : list loc }.

(** store.go:88-95 type MemoryStore, plus the heap and the allocator.  The mutex makes each
    exported method atomic; the log flag only produces log output. *)
Record MS := MkMS {
  ms_heap  : gmap loc Node;
  ms_next  : loc;
  ms_trace : gmap N loc;            (* trace map[ID]*Trace *)
  ms_span  : gmap N (gmap N loc)    (* span map[ID]map[ID]*Trace *)
}.

(** store.go:79-84 NewMemoryStore *)
Definition ms_init : MS := MkMS ∅ 0 ∅ ∅.

(** p.Sub = f(p.Sub); [None] is a nil/dangling dereference (a panic). *)
Definition upd_sub (f : list loc -> list loc) (l : loc) (h : gmap loc Node) : option (gmap loc Node) :=
  n ← h !! l; Some (<[l := MkNode (nd_id n) (nd_ann n) (f (nd_sub n))]> h).

(** The loop over a Sub slice that separates the children satisfying a test on their own
    SpanID.Parent (store.go:227-236 and 173-182); only Sub fields are written inside these
    loops, never the IDs the tests read, so the appends can be done after the loop. *)
Fixpoint split_children (h : gmap loc Node) (test : N -> bool) (cs : list loc) : option (list loc * list loc) :=
  match cs with
  | [] => Some ([], [])
  | c :: cs =>
      n ← h !! c;
      '(yes, no) ← split_children h test cs;
      Some (if test (sp_parent (nd_id n)) then (c :: yes, no) else (yes, c :: no))
  end.

(** store.go:222-238 reattachChildren; [None] is panic("dst == src") or a nil dereference. *)
Definition reattach_children (dst src : loc) (h : gmap loc Node) : option (gmap loc Node) :=
  if dst =? src then None
  else
    d ← h !! dst;
    s ← h !! src;
    '(moved, kept) ← split_children h (fun p => p =? sp_span (nd_id d)) (nd_sub s);
    h ← upd_sub (fun sub => sub ++ moved) dst h;
    upd_sub (fun _ => kept) src h.

(** store.go:203-218 insert *)
Definition ms_insert (spans : gmap N (gmap N loc)) (root t : loc) (h : gmap loc Node) : option (gmap loc Node) :=
  n ← h !! t;
  match spans !! sp_trace (nd_id n) ≫= (.!! sp_parent (nd_id n)) with
  | Some p => upd_sub (fun sub => sub ++ [t]) p h
  | None => upd_sub (fun sub => sub ++ [t]) root h
  end.

(** store.go:170-183: the old root's temporary children move to the new root. *)
Definition move_temp_children (root oldRoot : loc) (h : gmap loc Node) : option (gmap loc Node) :=
  o ← h !! oldRoot;
  '(moved, kept) ← split_children h (fun p => negb (p =? sp_span (nd_id o))) (nd_sub o);
  h ← upd_sub (fun sub => sub ++ moved) root h;
  upd_sub (fun _ => kept) oldRoot h.

(** store.go:105-199 Collect/collectNoLock.  The result is [None] on a panic; otherwise the
    call returns nil (there is no error return in the code). *)
Definition ms_collect (id : SpanID) (anns : list Annotation) (st : MS) : option MS :=
  (* store.go:117-120: initialise the span map *)
  let spans0 := match ms_span st !! sp_trace id with
                | Some _ => ms_span st
                | None => <[sp_trace id := ∅]> (ms_span st)
                end in
  S0 ← spans0 !! sp_trace id;
  match S0 !! sp_span id with
  | Some s =>
      (* store.go:128-134: existing span, append the annotations *)
      n ← ms_heap st !! s;
      Some (MkMS (<[s := MkNode (nd_id n) (nd_ann n ++ anns) (nd_sub n)]> (ms_heap st))
                 (ms_next st) (ms_trace st) spans0)
  | None =>
      (* store.go:125-126: new span *)
      let s := ms_next st in
      let h := <[s := MkNode id anns []]> (ms_heap st) in
      let spans := <[sp_trace id := <[sp_span id := s]> S0]> spans0 in
      (* store.go:138-151: temporary root *)
      let root := match ms_trace st !! sp_trace id with Some r => r | None => s end in
      let tr := match ms_trace st !! sp_trace id with
                | Some _ => ms_trace st
                | None => <[sp_trace id := s]> (ms_trace st)
                end in
      rn ← h !! root;
      (* store.go:156 *)
      let isRoot := sp_parent id =? 0 in
      let isTempRootParent := sp_parent (nd_id rn) =? sp_span id in
      '(h, tr, root) ←
        (if negb (s =? root) && (isRoot || isTempRootParent) then
           (* store.go:157-183 *)
           let oldRoot := root in
           let root := s in
           let tr := <[sp_trace id := root]> tr in
           h ← reattach_children root oldRoot h;
           h ← ms_insert spans root oldRoot h;
           h ← move_temp_children root oldRoot h;
           Some (h, tr, root)
         else Some (h, tr, root));
      (* store.go:188-190 *)
      h ← (if negb isRoot && negb (s =? root) then ms_insert spans root s h else Some h);
      (* store.go:194-196 *)
      h ← (if negb (s =? root) then reattach_children s root h else Some h);
      Some (MkMS h (s + 1) tr spans)
  end.

(** store.go:250-256 traceNoLock; [None] is ErrTraceNotFound. *)
Definition ms_trace_of (st : MS) (t : N) : option loc := ms_trace st !! t.

(** store.go:276-289 Delete *)
Definition ms_delete (ts : list N) (st : MS) : MS :=
  fold_left (fun st t => MkMS (ms_heap st) (ms_next st) (delete t (ms_trace st)) (delete t (ms_span st))) ts st.

(** store.go:259-272 Traces; [order] is the map iteration order chosen by the runtime, a
    permutation of the keys.  The options are ignored, as in the code.
    [None] is an error return. *)
Definition ms_traces (st : MS) (timespan : Z * Z) (trace_ids : list N) (order : list N) : option (list loc) :=
  mapM (ms_trace_of st) order.

(** Possible orders of a range loop over the trace map. *)
Definition iteration_order (st : MS) (order : list N) : Prop :=
  order ≡ₚ (map_to_list (ms_trace st)).*1.

(** One client call on the store. *)
Definition ms_step (o : call) (st : MS) : option MS :=
  match o with
  | CCollect id anns => ms_collect id anns st
  | CDelete ts => Some (ms_delete ts st)
  end.

(** A history of calls, oldest first; [None] if some call panics. *)
Fixpoint ms_run (ops : list call) (st : MS) : option MS :=
  match ops with
  | [] => Some st
  | o :: ops => st ← ms_step o st; ms_run ops st
  end.

(** What a reader following the pointers from [l] sees.  No finite tree is read from a
    node from which a pointer cycle is reachable. *)
Inductive reads (h : gmap loc Node) : loc -> tree -> Prop :=
| Reads l n ts : h !! l = Some n -> Forall2 (reads h) (nd_sub n) ts ->
    reads h l (Tree (nd_id n) (nd_ann n) ts).

(** [shows st t tr]: Trace(t) succeeds and its caller sees the tree tr. *)
Definition shows (st : MS) (t : N) (tr : tree) : Prop :=
  exists l, ms_trace_of st t = Some l /\ reads (ms_heap st) l tr.
