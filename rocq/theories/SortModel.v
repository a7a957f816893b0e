(** Model of the sort buttons of the timeline and of all that its buttons and menus do together: the scripts of
    traceapp/tmpl/data/trace.html. *)
From Verif Require Import Base IdModel TraceModel VisModel MenuModel.
Local Open Scope Z_scope.

(** JavaScript's numbers: the data of the page is JSON (trace.html:156), whose integers become the nearest binary64
    numbers, of 53 bits (ties to even).  Integers here, since no fractions arise. *)
Definition js_number (z : Z) : Z :=
  let e := Z.log2 (Z.abs z) - 52 in
  if e <=? 0 then z
  else let p := 2 ^ e in
       let q := z / p in
       let r := z mod p in
       p * (if 2 * r <? p then q else if p <? 2 * r then q + 1 else if Z.even q then q else q + 1).

(** The four buttons, trace.html:550-553. *)
Inductive key := StartTime | EndTime | Duration | Label.
Global Instance key_eq_dec : EqDecision key.
Proof. solve_decision. Defined.
(** The page's variables: data (156) and lastSort (456-474). *)
Record page := MkPage { pg_data : list item; pg_name : option key; pg_desc : bool }.
(** trace.html:459-473 lastSort.toggleOrder: whether the order is descending (-1), and the new lastSort. *)
Definition toggle_order (k : key) (name : option key) (desc : bool) : bool * option key * bool :=
  if bool_decide (name = Some k) then (negb desc, Some k, negb desc) else (false, Some k, false).

(** JavaScript's < on strings compares UTF-16 code units. *)
Fixpoint units_lt (a b : list N) : bool :=
  match a, b with
  | _, [] => false
  | [], _ :: _ => true
  | x :: a, y :: b => if N.ltb x y then true else if N.ltb y x then false else units_lt a b
  end.
(** trace.html:477-545: a's key is less than b's.  [low]: toLowerCase, as UTF-16 code units.  None: an item without
    times, which C62 excludes (480-481: -1 whatever the items). *)
Definition less (low : string -> list N) (k : key) (a b : item) : option bool :=
  match k with
  | Label => Some (units_lt (low (it_label a)) (low (it_label b)))
  | _ => match it_times a, it_times b with
         | x :: _, y :: _ =>
             let f := match k with StartTime => b_start | EndTime => b_end | _ => b_duration end in
             Some (js_number (f x) <? js_number (f y))
         | _, _ => None
         end
  end.
(** The comparison functions: trace.html:479-491 and the same for the other buttons; [desc]: sortOrder is -1. *)
Definition compare_items (low : string -> list N) (k : key) (desc : bool) (a b : item) : Z :=
  let sortOrder := if desc then -1 else 1 in
  match less low k a b, less low k b a with
  | Some true, _ => sortOrder * -1
  | Some false, Some true => sortOrder
  | Some false, _ => 0
  | None, _ => -1
  end.
(** ECMAScript's Array.prototype.sort, as the standard specifies it: some permutation, and if the comparison function is
    consistent, the stable one in ascending order. *)
Definition consistent (cmp : item -> item -> Z) (l : list item) : Prop :=
  (forall a, In a l -> cmp a a = 0) /\ (forall a b, In a l -> In b l -> (cmp a b < 0 <-> 0 < cmp b a)) /\
  (forall a b c, In a l -> In b l -> In c l -> cmp a b <= 0 -> cmp b c <= 0 -> cmp a c <= 0).
Definition js_sort (cmp : item -> item -> Z) (l l' : list item) : Prop :=
  exists p : list nat, Permutation p (seq 0 (length l)) /\ Forall2 (fun i o => l !! i = Some o) p l' /\
    (consistent cmp l -> forall i j a b m n, (i < j)%nat -> p !! i = Some m -> p !! j = Some n -> l !! m = Some a -> l !! n = Some b ->
      cmp a b < 0 \/ (cmp a b = 0 /\ (m < n)%nat)).

(** What the user does: a sort button, or an entry of the menu of an item. *)
Inductive deed := Click (k : key) | Menu (a : action) (span : string).
Inductive does (low : string -> list N) (fuse : string -> gmap string string -> bool) (p : page) : deed -> page -> Prop :=
| D_click k desc name' desc' data' : toggle_order k (pg_name p) (pg_desc p) = (desc, name', desc') ->
    js_sort (compare_items low k desc) (pg_data p) data' -> does low fuse p (Click k) (MkPage data' name' desc')
| D_menu a id fuel data' : menu fuel fuse a id (pg_data p) = Some data' ->
    does low fuse p (Menu a id) (MkPage data' (pg_name p) (pg_desc p)).
(** A session on the page. *)
Inductive session (low : string -> list N) (fuse : string -> gmap string string -> bool) (p : page) : list deed -> page -> Prop :=
| S_nil : session low fuse p [] p
| S_snoc ds p1 d p2 : session low fuse p ds p1 -> does low fuse p1 d p2 -> session low fuse p (ds ++ [d]) p2.
(** trace.html:453-456: the page as loaded. *)
Definition loaded (items : list item) : page := MkPage items None false.
(** trace.html:362-370: what is drawn, from top to bottom. *)
Definition drawn (p : page) : list item := List.filter it_visible (pg_data p).
