(** Property C70 (randomSplit). *)
From Verif Require Import Base SplitModel.
From Coq Require Import ssreflect.
Local Open Scope Z_scope.

(** What rand.Intn promises. *)
Definition fair (draw : Z -> Z -> Z) : Prop := forall i r, 0 < r -> 0 <= draw i r < r.
Definition total (l : list Z) : Z := fold_right Z.add 0 l.
Lemma total_app a b : total (a ++ b) = total a + total b.
Proof. rewrite /total fold_right_app. induction a as [|x a IH]; cbn [fold_right app]; lia. Qed.
Lemma wrap_small z : - 9223372036854775808 <= z < 9223372036854775808 -> wrap64 z = z.
Proof. intros H. rewrite /wrap64 Z.mod_small; lia. Qed.

Lemma loop_ok draw value n fuel : fair draw -> 0 <= value < 9223372036854775807 -> forall i sum segs,
  Z.of_nat fuel = n - i -> 0 <= sum <= value -> total segs = sum -> Forall (fun x => 0 <= x) segs ->
  exists l, split_loop draw value n fuel i sum segs = Some l /\ length l = (length segs + fuel + 1)%nat /\ total l = value /\ Forall (fun x => 0 <= x) l.
Proof.
  intros Hd Hv. induction fuel as [|fuel IH]; intros i sum segs Hf Hs Ht Hp; cbn [split_loop].
  - eexists. split; [reflexivity|]. rewrite wrap_small; [lia|]. split_and!.
    + rewrite app_length. cbn. lia.
    + rewrite total_app. cbn. lia.
    + apply Forall_app. split; [done|]. constructor; [lia|constructor].
  - assert (0 < n - i) as Hpos by lia.
    assert (0 <= (value - sum) ÷ (n - i) <= value - sum) as Hq.
    { rewrite Z.quot_div_nonneg; [lia|lia|]. split; [apply Z.div_pos; lia|]. apply Z.div_le_upper_bound; [lia|]. nia. }
    rewrite (wrap_small (value - sum)); [lia|]. rewrite (wrap_small (_ ÷ _)); [lia|]. rewrite (wrap_small (_ + 1)); [lia|].
    set (r := (value - sum) ÷ (n - i) + 1) in *. assert (r <=? 0 = false) as -> by lia.
    assert (0 < r) as Hr by lia. pose proof (Hd i r Hr) as Hs'. set (s := draw i r) in *. rewrite (wrap_small (sum + s)); [lia|].
    destruct (IH (i + 1) (sum + s) (segs ++ [s])) as (l & -> & Hlen & Htot & Hall).
    + lia.
    + lia.
    + rewrite total_app Ht. cbn. lia.
    + apply Forall_app. split; [done|]. constructor; [lia|constructor].
    + exists l. split; [done|]. split; [|done]. rewrite Hlen app_length. cbn. lia.
Qed.

(** C70 (proved part): every split of a value below the largest int, into one or more parts, returns that many
    non-negative numbers with that sum, whatever the random source returns; no range it asks for is empty. *)
Theorem C70_partial : forall draw value n, fair draw -> 1 <= n -> 0 <= value < 9223372036854775807 ->
  exists l, random_split draw value n = Some l /\ Z.of_nat (length l) = n /\ total l = value /\ Forall (fun x => 0 <= x) l.
Proof.
  intros draw value n Hd Hn Hv. rewrite /random_split. assert (n <? 0 = false) as -> by lia.
  destruct (loop_ok draw value n (Z.to_nat (n - 1)) Hd Hv 1 0 []) as (l & -> & Hlen & Htot & Hall); [lia|lia|done|constructor|].
  exists l. split; [done|]. split; [rewrite Hlen; cbn [length]; lia|done].
Qed.
Print Assumptions C70_partial.
Example C70_nonvacuous : fair (fun i r => r - 1) /\ random_split (fun i r => r - 1) 999 3 = Some [499; 500; 0] /\
  fair (fun i r => 0) /\ random_split (fun i r => 0) 7 4 = Some [0; 0; 0; 7].
Proof. rewrite /fair. split_and!; [lia|reflexivity|lia|reflexivity]. Qed.

(** C70 is false of the largest int: the range overflows and the random source panics. *)
Theorem C70_refuted : forall draw, random_split draw 9223372036854775807 2 = None.
Proof. reflexivity. Qed.
Print Assumptions C70_refuted.
