(** Property C48, continued (pointers to durations and times). *)
From Verif Require Import Base TimeModel NumModel ReflModel EventModel EventProps.
From Coq Require Import ssreflect.
Local Open Scope general_if_scope.
Local Open Scope string_scope.

Lemma digits_end s n k : dec_digits (s +:+ "s") n k = None.
Proof.
  revert n k. induction s as [|c s IH]; intros n k; [done|]. cbn [String.append dec_digits]. destruct (Ascii.eqb c "."); [by destruct k|].
  by destruct (digit_value c).
Qed.
Lemma lower_app a b : lower (a +:+ b) = lower a +:+ lower b.
Proof. induction a as [|c a IH]; [done|]. cbn. by rewrite IH. Qed.
Fixpoint last_char (s : string) : option ascii := match s with "" => None | String c "" => Some c | String _ s => last_char s end.
Lemma last_app a c : last_char (a +:+ String c "") = Some c.
Proof. induction a as [|x a IH]; [done|]. cbn [String.append last_char]. rewrite IH. by destruct a. Qed.
Lemma ends_in_s s : parse_duration (s +:+ "s") = None.
Proof.
  rewrite /parse_duration. enough (parse_float 53 1024 (s +:+ "s") = None) as -> by done. rewrite /parse_float.
  assert (special (s +:+ "s") = None) as ->.
  { rewrite /special lower_app. change (lower "s") with "s". pose proof (last_app (lower s) "s"%char) as HL. remember (lower s +:+ "s") as t eqn:Et. clear Et.
    rewrite (bool_decide_eq_false_2 (t ∈ ["inf"; "+inf"; "infinity"; "+infinity"])).
    { intros H. repeat (apply elem_of_cons in H as [->|H]; [done|]). by apply elem_of_nil in H. }
    rewrite (bool_decide_eq_false_2 (t ∈ ["-inf"; "-infinity"])).
    { intros H. repeat (apply elem_of_cons in H as [->|H]; [done|]). by apply elem_of_nil in H. }
    rewrite (bool_decide_eq_false_2 (t = "nan")); [by intros ->|done]. }
  rewrite /decimal. destruct s as [|c s]; [done|]. cbn [String.append].
  destruct (Ascii.eqb c "-"); [|destruct (Ascii.eqb c "+")].
  - by rewrite digits_end; destruct (bool_decide _).
  - by rewrite digits_end; destruct (bool_decide _).
  - change (String c (s +:+ "s")) with (String c s +:+ "s"). by rewrite digits_end; destruct (bool_decide _).
Qed.
Lemma duration_ends d : exists a, duration_string d = a +:+ "s".
Proof.
  rewrite /duration_string. cbv zeta.
  destruct (Z.abs d =? 0)%Z; [eexists ((if (d <? 0)%Z then "-" else "") +:+ "0"); by rewrite str_app_assoc|].
  destruct (Z.abs d <? 1000)%Z; [eexists ((if (d <? 0)%Z then "-" else "") +:+ unit_text (Z.abs d) 0 +:+ "n"); by rewrite !str_app_assoc|].
  destruct (Z.abs d <? 1000000)%Z; [eexists ((if (d <? 0)%Z then "-" else "") +:+ unit_text (Z.abs d) 3 +:+ "µ"); by rewrite !str_app_assoc|].
  destruct (Z.abs d <? 1000000000)%Z; [eexists ((if (d <? 0)%Z then "-" else "") +:+ unit_text (Z.abs d) 6 +:+ "m"); by rewrite !str_app_assoc|].
  rewrite -!str_app_assoc. by eexists.
Qed.
(** No duration behind a pointer can be read back: its text is not a number. *)
Lemma pointer_text d : parse_duration (duration_string d) = None.
Proof. destruct (duration_ends d) as [a ->]. apply ends_in_s. Qed.

Definition pointer_event : evtype := plain_event "T" [("P", TPtr (TScalar false KDuration)); ("Q", tstring)].
Definition time_event : evtype := plain_event "T" [("P", TPtr TTime); ("Q", tstring)].
(** Every event with a pointer to a duration loses it and the fields after it, in whatever order its fields were written; a pointer
    to a time is lost alone.  No error is reported. *)
Theorem C48_refuted_any_pointer :
  (forall d q, (exists anns, marshal pointer_event (VStruct [("P", VPtr (Some (VDuration d))); ("Q", VString q)]) anns) /\
    forall anns, marshal pointer_event (VStruct [("P", VPtr (Some (VDuration d))); ("Q", VString q)]) anns ->
      unmarshal pointer_event anns (zero (ev_ty pointer_event)) = EDone (VStruct [("P", VPtr None); ("Q", VString "")])) /\
  (forall t q, (exists anns, marshal time_event (VStruct [("P", VPtr (Some (VTime t))); ("Q", VString q)]) anns) /\
    forall anns, marshal time_event (VStruct [("P", VPtr (Some (VTime t))); ("Q", VString q)]) anns ->
      unmarshal time_event anns (zero (ev_ty time_event)) = EDone (VStruct [("P", VPtr None); ("Q", VString q)])).
Proof.
  split.
  - intros d q. split; [eexists; apply (marshal_plain pointer_event _ [("P", duration_string d); ("Q", q)] [("P", duration_string d); ("Q", q)]); done|].
    intros anns H. inversion H as [f a Hm|fl fl' _ Hf Hp]; subst; [done|].
    cbn [flatten cat_opt fold_right map fst snd nest app] in Hf. injection Hf as <-. pose proof (pointer_text d) as Hn. remember (duration_string d) as s eqn:Es. clear Es H.
    apply Permutation_length_2_inv in Hp as [-> | ->].
    + rewrite /unmarshal. case_bool_decide as Hb; [|exfalso; apply Hb; by left]. cbn [negb]. cbn [ev_unmarshaler pointer_event plain_event].
      assert (map_to_kvs (string_map (map ann_of [("P", s); ("Q", q)] ++ [schema_ann (ev_schema pointer_event)])) = [("P", s); ("Q", q); ("_schema:T", "")]) as -> by (vm_compute; reflexivity).
      cbv -[parse_duration]. rewrite Hn. done.
    + rewrite /unmarshal. case_bool_decide as Hb; [|exfalso; apply Hb; by left]. cbn [negb]. cbn [ev_unmarshaler pointer_event plain_event].
      assert (map_to_kvs (string_map (map ann_of [("Q", q); ("P", s)] ++ [schema_ann (ev_schema pointer_event)])) = [("P", s); ("Q", q); ("_schema:T", "")]) as -> by (vm_compute; reflexivity).
      cbv -[parse_duration]. rewrite Hn. done.
  - intros t q. split; [eexists; apply (marshal_plain time_event _ [("P", time_string t); ("Q", q)] [("P", time_string t); ("Q", q)]); done|].
    intros anns H. inversion H as [f a Hm|fl fl' _ Hf Hp]; subst; [done|].
    cbn [flatten cat_opt fold_right map fst snd nest app] in Hf. injection Hf as <-. remember (time_string t) as s eqn:Es. clear Es H.
    apply Permutation_length_2_inv in Hp as [-> | ->]; by vm_compute.
Qed.
Print Assumptions C48_refuted_any_pointer.
