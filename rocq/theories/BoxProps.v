(** Property C139 (the selection on the list of traces). *)
From Verif Require Import Base BoxModel.
From Coq Require Import ssreflect.
Local Open Scope nat_scope.
Local Open Scope general_if_scope.

(** How often "Toggle Selection" was clicked, and how often the box [i] since then. *)
Definition toggles (ts : list touch) : nat := length (List.filter (fun t => match t with Toggle => true | Tick _ => false end) ts).
Inductive since (i : nat) : list touch -> nat -> Prop :=
| since_nil : since i [] 0
| since_toggle ts : since i (ts ++ [Toggle]) 0
| since_tick ts n : since i ts n -> since i (ts ++ [Tick i]) (S n)
| since_other ts j n : j <> i -> since i ts n -> since i (ts ++ [Tick j]) n.
(** Whether the line [i] is selected. *)
Definition ticked (p : list_page) (i : nat) (b : bool) : Prop := lp_boxes p !! i = Some b.

Lemma after_snoc n ts t : after n (ts ++ [t]) = touched (after n ts) t.
Proof. by rewrite /after fold_left_app. Qed.
Lemma toggles_snoc ts t : toggles (ts ++ [t]) = match t with Toggle => S (toggles ts) | Tick _ => toggles ts end.
Proof. rewrite /toggles List.filter_app app_length. cbn. destruct t; cbn; lia. Qed.
Lemma after_state n ts : length (lp_boxes (after n ts)) = n /\ lp_checked (after n ts) = Nat.even (toggles ts).
Proof.
  induction ts as [|t ts [IH1 IH2]] using rev_ind; [split; [apply replicate_length|done]|]. rewrite after_snoc toggles_snoc. destruct t as [i|]; cbn [touched lp_boxes lp_checked].
  - by rewrite alter_length.
  - rewrite map_length IH2 Nat.even_succ -Nat.negb_even. done.
Qed.
(** C139 (proved part): every line has its box; it is ticked exactly if an even number of clicks on "Toggle Selection" and on the box
    itself since the last of those were made.  So "Toggle Selection" selects all lines or none, alternately, starting with none. *)
Theorem C139_partial : forall n ts i k, i < n -> since i ts k -> ticked (after n ts) i (Nat.even (toggles ts + k)).
Proof.
  intros n ts i k Hi. revert k. rewrite /ticked. induction ts as [|t ts IH] using rev_ind; intros k Hk.
  - inversion Hk as [E|? E|? ? ? E|? ? ? ? ? E]; subst; try (by destruct ts). cbn. by apply lookup_replicate_2.
  - rewrite after_snoc toggles_snoc. destruct (after_state n ts) as [Hl Hc].
    inversion Hk as [E|? E|ts' m Hm E|ts' j m Hj Hm E]; subst; try (by destruct ts); apply app_inj_tail in E as [? ?]; subst.
    + cbn [touched lp_boxes]. rewrite Hc. destruct (lookup_lt_is_Some_2 (lp_boxes (after n ts)) i) as [b Hb]; [by rewrite Hl|].
      rewrite (list_lookup_fmap _ _ i) Hb. cbn [fmap option_fmap option_map]. f_equal. rewrite Nat.add_0_r Nat.even_succ -Nat.negb_even. done.
    + cbn [touched lp_boxes]. rewrite list_lookup_alter (IH m Hm). cbn [fmap option_fmap option_map]. f_equal. rewrite Nat.add_succ_r Nat.even_succ -Nat.negb_even. done.
    + cbn [touched lp_boxes]. rewrite list_lookup_alter_ne; [congruence|]. by apply IH.
Qed.
Print Assumptions C139_partial.
(** ... and no other boxes appear. *)
Theorem C139_lines : forall n ts, length (lp_boxes (after n ts)) = n.
Proof. intros n ts. apply after_state. Qed.
Print Assumptions C139_lines.
(** It is false that "Toggle Selection" selects or deselects: with boxes clicked by hand it can be without effect. *)
Theorem C139_refuted : exists n ts, 0 < n /\ lp_boxes (after n (ts ++ [Toggle])) = lp_boxes (after n ts) /\ Forall (fun b => b = false) (lp_boxes (after n ts)).
Proof. exists 2, [Tick 0; Tick 1]. split; [lia|]. split; [done|]. by repeat constructor. Qed.
Print Assumptions C139_refuted.
Example C139_nonvacuous : since 1 [Tick 1; Toggle; Tick 0; Tick 1] 1 /\ lp_boxes (after 3 [Tick 1; Toggle; Tick 0; Tick 1]) = [true; true; false].
Proof.
  split; [|done]. apply (since_tick 1 [Tick 1; Toggle; Tick 0] 0). apply (since_other 1 [Tick 1; Toggle] 0 0); [done|]. apply (since_toggle 1 [Tick 1]).
Qed.
