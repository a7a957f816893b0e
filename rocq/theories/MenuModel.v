(** Model of the context menu of the timeline: the scripts of traceapp/tmpl/data/trace.html. *)
From Verif Require Import Base IdModel TraceModel VisModel.
Local Open Scope string_scope.

Definition with_visible (v : bool) (o : item) : item :=
  MkItem (it_label o) (it_full o) (it_times o) (it_data o) (it_span o) (it_parent o) (it_url o) v.
(** trace.html:177-185 setChildrenVisible, 203-238 filterChildrenFuzzy and 254-286 filterChildren (strict search) are
    the same loop over the items: those whose parentSpanID is the given ID are marked ([f]: visible or not), and then
    the children of each of them.  The loop changes items in place, so an inner loop's marks stay.  [fuel] bounds the
    recursion; None: it is exhausted. *)
Fixpoint mark_children (fuel : nat) (f : item -> bool) (id : string) (data : list item) : option (list item) :=
  match fuel with
  | O => None
  | S fuel =>
      fold_left (fun acc i =>
        data ← acc;
        match data !! i with
        | None => Some data
        | Some other =>
            if String.eqb (it_parent other) id
            then mark_children fuel f (it_span other) (<[i := with_visible (f other) other]> data)
            else Some data
        end) (seq 0 (length data)) (Some data)
  end.

(** The filter field: trace.html:254-270.  JavaScript's split(":") with two results; v[0] and v[v.length-1] are quotes;
    slice(1, v.length-1) (which is "" for a single quote).  Otherwise the fuzzy search. *)
Inductive filter_kind := Strict (key value : string) | Fuzzy (text : string).
Definition parse_filter (text : string) : filter_kind :=
  match split_on ":" (bytes text) with
  | [k; v] =>
      match v with
      | [] => Fuzzy text
      | c :: _ =>
          if (Ascii.eqb c """" && Ascii.eqb (List.last v " "%char) """")%bool
          then Strict (unbytes k) (unbytes (removelast (drop 1 v))) else Fuzzy text
      end
  | _ => Fuzzy text
  end.
(** trace.html:279: other.rawData[k] == v.  (Keys of JavaScript's Object.prototype: not modelled.) *)
Definition strict_match (k v : string) (o : item) : bool :=
  match it_data o !! k with Some x => String.eqb x v | None => false end.
(** trace.html:297-298, 342: the two menu entries and the filter; [fuse] is the fuzzy search on an item's data. *)
Inductive action := ShowChildren | HideChildren | Filter (text : string).
Definition marker (fuse : string -> gmap string string -> bool) (a : action) (o : item) : bool :=
  match a with
  | ShowChildren => true
  | HideChildren => false
  | Filter text => match parse_filter text with Strict k v => strict_match k v o | Fuzzy t => fuse t (it_data o) end
  end.
(** The action on the item with span ID [id]. *)
Definition menu (fuel : nat) (fuse : string -> gmap string string -> bool) (a : action) (id : string) (data : list item) : option (list item) :=
  mark_children fuel (marker fuse a) id data.
