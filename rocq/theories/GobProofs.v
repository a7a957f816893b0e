(** Proofs about GobSpec.v and the model of gob in PersistModel.v. *)
From Verif Require Import Base MemModel MemSpec MemProofs PersistModel GobSpec.
From Coq Require Import ssreflect.
Local Open Scope general_if_scope.

Lemma like_val_trans u v w : like_val u v -> like_val v w -> like_val u w.
Proof. intros [->|[-> ->]] [->|[E ->]]; [by left|right; by split|by right|done]. Qed.
Lemma like_ann_trans a b c : like_ann a b -> like_ann b c -> like_ann a c.
Proof. intros [E1 H1] [E2 H2]. split; [congruence|exact (like_val_trans _ _ _ H1 H2)]. Qed.
Lemma like_anns_trans a b c : Forall2 like_ann a b -> Forall2 like_ann b c -> Forall2 like_ann a c.
Proof.
  intros H. revert c. induction H as [|x y a b Hx _ IH]=> c Hc; inversion Hc as [|? z ? c' Hz Hc']; subst; constructor; [exact (like_ann_trans _ _ _ Hx Hz)|by apply IH].
Qed.
Lemma like_anns_refl a : Forall2 like_ann a a.
Proof. induction a as [|x a IH]; constructor; [split; [done|by left]|done]. Qed.
Lemma gob_like_ann a : like_ann a (gob_ann a).
Proof. destruct a as [k [[|c s]|]]; split; try done; [by right|by left|by left]. Qed.
Lemma gob_like_anns a : Forall2 like_ann a (map gob_ann a).
Proof. induction a as [|x a IH]; constructor; [apply gob_like_ann|done]. Qed.
Lemma gob_like tr : like_tree tr (gob_tree tr).
Proof.
  induction tr as [i a ts IH] using tree_ind'. cbn [gob_tree]. constructor; [apply gob_like_anns|].
  induction IH as [|x ts Hx _ IHt]; constructor; done.
Qed.
