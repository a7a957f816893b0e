(** What a reader of TreeString sees of a trace. *)
From Verif Require Import Base.

(** The same annotations, a nil value being empty. *)
Definition same_annotations (a b : list Annotation) : Prop :=
  map (fun x => (ann_key x, val_bytes (ann_val x))) a = map (fun x => (ann_key x, val_bytes (ann_val x))) b.
(** Below the root: the same spans with the same parents and annotations, in the same places. *)
Inductive same_below : tree -> tree -> Prop :=
| same_below_intro id id' anns anns' subs subs' :
    sp_span id = sp_span id' -> sp_parent id = sp_parent id' -> same_annotations anns anns' ->
    Forall2 same_below subs subs' -> same_below (Tree id anns subs) (Tree id' anns' subs').
(** The same trace, except that the root's own span ID is not looked at. *)
Definition same_trace (t t' : tree) : Prop :=
  sp_trace (tr_id t) = sp_trace (tr_id t') /\ same_annotations (tr_anns t) (tr_anns t') /\ Forall2 same_below (tr_subs t) (tr_subs t').

(** Every annotation is one line, and its key has no "=". *)
Definition one_line (a : Annotation) : Prop :=
  ~ In "010"%char (bytes (ann_key a)) /\ ~ In "="%char (bytes (ann_key a)) /\ ~ In "010"%char (bytes (val_bytes (ann_val a))).
Inductive one_lines : tree -> Prop :=
| one_lines_intro id anns subs : Forall one_line anns -> Forall one_lines subs -> one_lines (Tree id anns subs).
