(** Model of reading a trace while spans are being collected.  MemoryStore.Trace returns a pointer into the store (store.go:243-256), and the
    pages follow it without the store's lock (traceapp/app.go:135-222), so they see every single write of a Collect that goes on at the same time.
    A read of a field (Annotations, Sub) sees one of the values written to it; the words of a slice header are not torn apart. *)
From Verif Require Import Base MemModel.

Notation heap := (gmap loc Node) (only parsing).
(** The heaps that a piece of code leaves behind, one for each of its writes; the present heap is the last of them. *)
Definition now (h : heap) (hs : list heap) : heap := default h (last hs).
(** store.go:229, 178: dst.Sub = append(dst.Sub, c), one child at a time. *)
Fixpoint w_append (dst : loc) (cs : list loc) (h : heap) : option (list heap) :=
  match cs with
  | [] => Some []
  | c :: cs => h1 ← upd_sub (fun sub => sub ++ [c]) dst h; hs ← w_append dst cs h1; Some (h1 :: hs)
  end.
(** store.go:222-238 reattachChildren *)
Definition w_reattach (dst src : loc) (h : heap) : option (list heap) :=
  if dst =? src then None
  else
    d ← h !! dst;
    s ← h !! src;
    '(moved, kept) ← split_children h (fun p => p =? sp_span (nd_id d)) (nd_sub s);
    hs ← w_append dst moved h;
    h' ← upd_sub (fun _ => kept) src (now h hs);
    Some (hs ++ [h']).
(** store.go:203-218 insert *)
Definition w_insert (spans : gmap N (gmap N loc)) (root t : loc) (h : heap) : option (list heap) :=
  h' ← ms_insert spans root t h; Some [h'].
(** store.go:170-183 *)
Definition w_move (root oldRoot : loc) (h : heap) : option (list heap) :=
  o ← h !! oldRoot;
  '(moved, kept) ← split_children h (fun p => negb (p =? sp_span (nd_id o))) (nd_sub o);
  hs ← w_append root moved h;
  h' ← upd_sub (fun _ => kept) oldRoot (now h hs);
  Some (hs ++ [h']).
(** store.go:105-199 Collect, as in ms_collect, with all writes to the nodes. *)
Definition w_collect (id : SpanID) (anns : list Annotation) (st : MS) : option (list heap) :=
  let spans0 := match ms_span st !! sp_trace id with
                | Some _ => ms_span st
                | None => <[sp_trace id := ∅]> (ms_span st)
                end in
  S0 ← spans0 !! sp_trace id;
  match S0 !! sp_span id with
  | Some s => n ← ms_heap st !! s; Some [<[s := MkNode (nd_id n) (nd_ann n ++ anns) (nd_sub n)]> (ms_heap st)]
  | None =>
      let s := ms_next st in
      let h0 := <[s := MkNode id anns []]> (ms_heap st) in
      let spans := <[sp_trace id := <[sp_span id := s]> S0]> spans0 in
      let root := match ms_trace st !! sp_trace id with Some r => r | None => s end in
      rn ← h0 !! root;
      let isRoot := sp_parent id =? 0 in
      let isTempRootParent := sp_parent (nd_id rn) =? sp_span id in
      '(hs, root) ←
        (if negb (s =? root) && (isRoot || isTempRootParent) then
           h1 ← w_reattach s root h0;
           h2 ← w_insert spans s root (now h0 h1);
           h3 ← w_move s root (now (now h0 h1) h2);
           Some (h1 ++ h2 ++ h3, s)
         else Some ([], root));
      hs1 ← (if negb isRoot && negb (s =? root) then w_insert spans root s (now h0 hs) else Some []);
      hs2 ← (if negb (s =? root) then w_reattach s root (now (now h0 hs) hs1) else Some []);
      Some (h0 :: hs ++ hs1 ++ hs2)
  end.
(** A history of calls (store.go:276-289 Delete writes to no node). *)
Fixpoint w_run (ops : list call) (st : MS) : option (list heap) :=
  match ops with
  | [] => Some []
  | o :: ops =>
      hs ← (match o with CCollect id anns => w_collect id anns st | CDelete _ => Some [] end);
      st' ← ms_step o st; hs' ← w_run ops st'; Some (hs ++ hs')
  end.

(** A reader follows the pointer l from time k on and is done by time k': it reads the annotations of the node at some time, its Sub slice at some time, and
    then its children, one after the other.  Times are positions in the sequence of heaps. *)
Inductive walk (hs : list heap) : nat -> loc -> nat -> tree -> Prop :=
| Walk k k' k1 a b l n n' ts : (k <= a)%nat -> (a <= k')%nat -> hs !! a ≫= (.!! l) = Some n -> (k <= b)%nat -> hs !! b ≫= (.!! l) = Some n' ->
    walks hs b (nd_sub n') k1 ts -> (k1 <= k')%nat -> walk hs k l k' (Tree (nd_id n) (nd_ann n) ts)
with walks (hs : list heap) : nat -> list loc -> nat -> list tree -> Prop :=
| Walks_nil k : walks hs k [] k []
| Walks_cons k k1 k2 l ls t ts : walk hs k l k1 t -> walks hs k1 ls k2 ts -> walks hs k (l :: ls) k2 (t :: ts).
