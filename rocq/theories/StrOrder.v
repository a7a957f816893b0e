(** Go's byte-wise order on strings, prefixes, and facts about both. *)
From Verif Require Import Base.
From Coq Require Import ZifyBool ZifyNat ZifyN.

(** a < b on Go strings: byte by byte, a proper prefix is smaller. *)
Fixpoint slt (a b : string) : bool :=
  match a, b with
  | _, EmptyString => false
  | EmptyString, String _ _ => true
  | String x a, String y b => (N_of_ascii x <? N_of_ascii y) || ((N_of_ascii x =? N_of_ascii y) && slt a b)
  end.

(** strings.HasPrefix(s, p) *)
Fixpoint has_prefix (p s : string) : bool :=
  match p, s with
  | EmptyString, _ => true
  | String x p, String y s => Ascii.eqb x y && has_prefix p s
  | String _ _, EmptyString => false
  end.
(** strings.TrimPrefix(s, p) *)
Fixpoint trim_prefix (p s : string) : string :=
  match p, s with
  | EmptyString, _ => s
  | String x p', String y s' => if has_prefix p s then trim_prefix p' s' else s
  | String _ _, EmptyString => s
  end.

Lemma N_of_ascii_inj x y : N_of_ascii x = N_of_ascii y -> x = y.
Proof. intros H. by rewrite <- (ascii_N_embedding x), H, ascii_N_embedding. Qed.

Lemma slt_irrefl a : slt a a = false.
Proof. induction a as [|x a IH]; cbn; [done|]. rewrite IH. lia. Qed.
Lemma slt_trans a b c : slt a b = true -> slt b c = true -> slt a c = true.
Proof.
  revert b c. induction a as [|x a IH]; intros [|y b] [|z c]; cbn; try done.
  intros H1 H2. specialize (IH b c). destruct (slt a b), (slt b c), (slt a c); try (specialize (IH eq_refl eq_refl)); lia.
Qed.
Lemma slt_total a b : slt a b = true \/ a = b \/ slt b a = true.
Proof.
  revert b. induction a as [|x a IH]; intros [|y b]; cbn; try (by auto).
  destruct (N.lt_trichotomy (N_of_ascii x) (N_of_ascii y)) as [H|[H|H]]; [left; lia| |right; right; lia].
  apply N_of_ascii_inj in H as ->. destruct (IH b) as [H|[->|H]]; [left|by right; left|right; right]; rewrite H; lia.
Qed.
Lemma slt_asym a b : slt a b = true -> slt b a = false.
Proof. intros H. destruct (slt b a) eqn:E; [|done]. pose proof (slt_trans _ _ _ H E) as Hx. by rewrite slt_irrefl in Hx. Qed.

Lemma has_prefix_spec p s : has_prefix p s = true <-> exists r, s = (p +:+ r)%string.
Proof.
  revert s. induction p as [|x p IH]; intros s; cbn; [split; [by exists s|done]|]. destruct s as [|y s]; [split; [done|by intros [r ?]]|].
  rewrite andb_true_iff, IH. split.
  - intros [Hx [r ->]]. apply Ascii.eqb_eq in Hx as ->. by exists r.
  - intros [r [= -> ->]]. split; [apply Ascii.eqb_refl|by exists r].
Qed.
Lemma has_prefix_app p r : has_prefix p (p +:+ r) = true.
Proof. apply has_prefix_spec. by exists r. Qed.
Lemma has_prefix_refl p : has_prefix p p = true.
Proof. apply has_prefix_spec. exists ""%string. by rewrite str_app_nil_r. Qed.
Lemma has_prefix_trans a b c : has_prefix a b = true -> has_prefix b c = true -> has_prefix a c = true.
Proof. rewrite !has_prefix_spec. intros [r ->] [q ->]. exists (r +:+ q)%string. by rewrite str_app_assoc. Qed.
Lemma has_prefix_app_l p a b : has_prefix (p +:+ a) (p +:+ b) = has_prefix a b.
Proof. induction p as [|x p IH]; cbn; [done|]. by rewrite Ascii.eqb_refl, IH. Qed.
Lemma trim_prefix_app p r : trim_prefix p (p +:+ r) = r.
Proof. induction p as [|x p IH]; [by destruct r|]. cbn [trim_prefix String.append]. change (String x (p +:+ r)) with (String x p +:+ r)%string. by rewrite has_prefix_app. Qed.

Lemma slt_app_l p a b : slt (p +:+ a) (p +:+ b) = slt a b.
Proof. induction p as [|x p IH]; cbn; [done|]. rewrite IH. lia. Qed.
Lemma slt_prefix p c r : slt p (p +:+ String c r) = true.
Proof. rewrite <- (str_app_nil_r p) at 1. by rewrite slt_app_l. Qed.
(** A string with prefix p is p or larger than p. *)
Lemma prefix_le p s : has_prefix p s = true -> s = p \/ slt p s = true.
Proof. intros [[|c r] ->]%has_prefix_spec; [left; by rewrite str_app_nil_r|right; apply slt_prefix]. Qed.
(** Larger than p without having it as prefix: then larger than everything that extends p. *)
Lemma slt_noprefix p s r : slt p s = true -> has_prefix p s = false -> slt (p +:+ r) s = true /\ has_prefix (p +:+ r) s = false.
Proof.
  revert s. induction p as [|x p IH]; intros s; cbn; [done|]. destruct s as [|y s]; [done|]. cbn.
  destruct (Ascii.eqb x y) eqn:E.
  - apply Ascii.eqb_eq in E as ->. rewrite N.ltb_irrefl, N.eqb_refl. cbn. apply IH.
  - cbn. intros H _. assert (N_of_ascii x <> N_of_ascii y) by (intros ->%N_of_ascii_inj; by rewrite Ascii.eqb_refl in E). split; [lia|done].
Qed.
Lemma slt_noprefix2 p s r : slt s p = true -> has_prefix s p = false -> slt s (p +:+ r) = true.
Proof.
  revert s. induction p as [|x p IH]; intros s; cbn; [by destruct s|]. destruct s as [|y s]; [done|]. cbn.
  destruct (Ascii.eqb y x) eqn:E.
  - apply Ascii.eqb_eq in E as ->. rewrite N.ltb_irrefl, N.eqb_refl. cbn. intros H1 H2. by rewrite (IH s).
  - cbn. intros H _. assert (N_of_ascii y <> N_of_ascii x) by (intros ->%N_of_ascii_inj; by rewrite Ascii.eqb_refl in E). lia.
Qed.
Lemma has_prefix_both p s r : has_prefix p (s +:+ r) = true -> has_prefix p s = true \/ exists q, p = (s +:+ q)%string /\ has_prefix q r = true.
Proof.
  revert s. induction p as [|x p IH]; intros [|y s]; cbn; try (by left).
  - intros H. right. by exists (String x p).
  - intros [Hx H]%andb_true_iff. apply Ascii.eqb_eq in Hx as ->. rewrite Ascii.eqb_refl. cbn. destruct (IH _ H) as [?|(q & -> & ?)]; [by left|right; by exists q].
Qed.
