(** base64 decoding undoes encoding. *)
From Verif Require Import Base Base64Model.
From Coq Require Import ssreflect.
Local Open Scope general_if_scope.

(** What the two alphabets have in common: each character has its own place, and none is the padding. *)
Definition alpha_ok (alpha : list ascii) : Prop :=
  forall n, n < 64 -> b64_val alpha (b64_char alpha n) = Some n /\ b64_char alpha n <> "="%char.
Lemma below_64 (P : N -> bool) : forallb (fun n => P (N.of_nat n)) (seq 0 64) = true -> forall n, n < 64 -> P n = true.
Proof.
  intros H n Hn. rewrite forallb_forall in H. rewrite -(N2Nat.id n). apply H. apply in_seq. lia.
Qed.
Lemma alpha_ok_check alpha : forallb (fun n => bool_decide (b64_val alpha (b64_char alpha (N.of_nat n)) = Some (N.of_nat n)) && negb (Ascii.eqb (b64_char alpha (N.of_nat n)) "=")) (seq 0 64) = true ->
  alpha_ok alpha.
Proof.
  intros H n Hn. pose proof (below_64 (fun n => bool_decide (b64_val alpha (b64_char alpha n) = Some n) && negb (Ascii.eqb (b64_char alpha n) "=")) H n Hn) as [H1 H2]%andb_prop.
  apply bool_decide_eq_true in H1. split; [done|]. intros E. rewrite E in H2. done.
Qed.
Lemma alpha_std : alpha_ok alphabet_std. Proof. apply alpha_ok_check. vm_compute. reflexivity. Qed.
Lemma alpha_url : alpha_ok alphabet_url. Proof. apply alpha_ok_check. vm_compute. reflexivity. Qed.

Lemma byte_bound c : N_of_ascii c < 256. Proof. apply N_ascii_bounded. Qed.
Lemma byte_back n c : n = N_of_ascii c -> ascii_of_N n = c. Proof. intros ->. apply ascii_N_embedding. Qed.

Lemma list_ind3 {A} (P : list A -> Prop) : P [] -> (forall a, P [a]) -> (forall a b, P [a; b]) ->
  (forall a b c l, P l -> P (a :: b :: c :: l)) -> forall l, P l.
Proof.
  intros H0 H1 H2 H3. fix IH 1. intros [|a [|b [|c l]]]; [apply H0|apply H1|apply H2|apply H3, IH].
Qed.

Ltac bnd := repeat match goal with
  | |- context [N_of_ascii ?c] => lazymatch goal with H : N_of_ascii c < 256 |- _ => fail | _ => pose proof (byte_bound c) end
  end; repeat match goal with c : ascii |- _ => revert c end.

Section roundtrip.
  Context (alpha : list ascii) (Hok : alpha_ok alpha).
  Lemma val_char n : n < 64 -> b64_val alpha (b64_char alpha n) = Some n. Proof. intros H. by destruct (Hok n H). Qed.
  Lemma char_pad n : n < 64 -> Ascii.eqb (b64_char alpha n) "=" = false.
  Proof. intros H. destruct (Hok n H) as [_ Hne]. by apply Ascii.eqb_neq. Qed.
  Lemma r1 a : a < 256 -> a / 4 < 64. Proof. intros. apply N.div_lt_upper_bound; lia. Qed.
  Lemma r2 a b : b < 256 -> (a mod 4) * 16 + b / 16 < 64.
  Proof. intros. pose proof (N.mod_lt a 4 ltac:(lia)). assert (b / 16 < 16) by (apply N.div_lt_upper_bound; lia). lia. Qed.
  Lemma r2' a : (a mod 4) * 16 < 64. Proof. pose proof (N.mod_lt a 4 ltac:(lia)). lia. Qed.
  Lemma r3 b c : c < 256 -> (b mod 16) * 4 + c / 64 < 64.
  Proof. intros. pose proof (N.mod_lt b 16 ltac:(lia)). assert (c / 64 < 4) by (apply N.div_lt_upper_bound; lia). lia. Qed.
  Lemma r3' b : (b mod 16) * 4 < 64. Proof. pose proof (N.mod_lt b 16 ltac:(lia)). lia. Qed.
  Lemma r4 c : c mod 64 < 64. Proof. apply N.mod_lt. lia. Qed.
  Lemma d1 a b : b < 256 -> a / 4 * 4 + ((a mod 4) * 16 + b / 16) / 16 = a.
  Proof.
    intros. assert (b / 16 < 16) by (apply N.div_lt_upper_bound; lia). rewrite N.div_add_l; [lia|]. rewrite (N.div_small (b / 16)); [done|].
    pose proof (N.div_mod a 4 ltac:(lia)). lia.
  Qed.
  Lemma d1' a : a / 4 * 4 + (a mod 4) * 16 / 16 = a.
  Proof. rewrite N.div_mul; [lia|]. pose proof (N.div_mod a 4 ltac:(lia)). lia. Qed.
  Lemma mod_low x y k : y < k -> (x * k + y) mod k = y.
  Proof. intros. rewrite N.add_comm N.mod_add; [lia|]. by apply N.mod_small. Qed.
  Lemma d2 a b c : b < 256 -> c < 256 -> ((a mod 4) * 16 + b / 16) mod 16 * 16 + ((b mod 16) * 4 + c / 64) / 4 = b.
  Proof.
    intros. assert (b / 16 < 16) by (apply N.div_lt_upper_bound; lia). assert (c / 64 < 4) by (apply N.div_lt_upper_bound; lia).
    rewrite (mod_low (a mod 4)); [done|]. rewrite N.div_add_l; [lia|]. rewrite (N.div_small (c / 64)); [done|].
    pose proof (N.div_mod b 16 ltac:(lia)). lia.
  Qed.
  Lemma d2' a b : b < 256 -> ((a mod 4) * 16 + b / 16) mod 16 * 16 + (b mod 16) * 4 / 4 = b.
  Proof.
    intros. assert (b / 16 < 16) by (apply N.div_lt_upper_bound; lia).
    rewrite (mod_low (a mod 4)); [done|]. rewrite N.div_mul; [lia|].
    pose proof (N.div_mod b 16 ltac:(lia)). lia.
  Qed.
  Lemma d3 b c : c < 256 -> ((b mod 16) * 4 + c / 64) mod 4 * 64 + c mod 64 = c.
  Proof.
    intros. assert (c / 64 < 4) by (apply N.div_lt_upper_bound; lia). rewrite (mod_low (b mod 16)); [done|].
    pose proof (N.div_mod c 64 ltac:(lia)). lia.
  Qed.

  Theorem b64_roundtrip pad l : b64_decode alpha pad (b64_encode alpha pad l) = Some l.
  Proof using Hok.
    induction l as [|a|a b|a b c l IH] using list_ind3.
    - done.
    - pose proof (byte_bound a). cbn [b64_encode]. destruct pad; cbn [b64_pad repeat app b64_decode].
      + rewrite !val_char; [by apply r2'|by apply r1|]. cbn [mbind option_bind]. cbn [andb Ascii.eqb Bool.eqb].
        rewrite bool_decide_true; [done|]. by rewrite d1' ascii_N_embedding.
      + rewrite !val_char; [by apply r2'|by apply r1|]. cbn [mbind option_bind]. by rewrite d1' ascii_N_embedding.
    - pose proof (byte_bound a). pose proof (byte_bound b). cbn [b64_encode]. destruct pad; cbn [b64_pad repeat app b64_decode].
      + rewrite (val_char (N_of_ascii a / 4)); [by apply r1|]. cbn [mbind option_bind]. rewrite (val_char (_ + _)); [by apply r2|]. cbn [mbind option_bind].
        change (Ascii.eqb "=" "=") with true. rewrite (char_pad _ (r3' _)). cbn [andb]. rewrite bool_decide_true; [done|].
        rewrite (val_char _ (r3' _)). cbn [mbind option_bind]. by rewrite d1 // d2' // !ascii_N_embedding.
      + rewrite (val_char (N_of_ascii a / 4)); [by apply r1|]. cbn [mbind option_bind]. rewrite (val_char (_ + _)); [by apply r2|]. cbn [mbind option_bind].
        rewrite (val_char _ (r3' _)). cbn [mbind option_bind]. by rewrite d1 // d2' // !ascii_N_embedding.
    - pose proof (byte_bound a). pose proof (byte_bound b). pose proof (byte_bound c). cbn [b64_encode b64_decode].
      rewrite (val_char (N_of_ascii a / 4)); [by apply r1|]. cbn [mbind option_bind]. rewrite (val_char (_ + N_of_ascii b / 16)); [by apply r2|]. cbn [mbind option_bind].
      rewrite (char_pad _ (r4 _)) andb_false_r. cbn [andb]. rewrite (val_char (_ + N_of_ascii c / 64)); [by apply r3|]. cbn [mbind option_bind].
      rewrite (val_char _ (r4 _)). cbn [mbind option_bind]. rewrite IH. cbn [mbind option_bind]. by rewrite d1 // d2 // d3 // !ascii_N_embedding.
  Qed.
  Theorem b64_inj pad l l' : b64_encode alpha pad l = b64_encode alpha pad l' -> l = l'.
  Proof using Hok. intros H. pose proof (b64_roundtrip pad l) as H1. rewrite H b64_roundtrip in H1. by injection H1. Qed.
End roundtrip.
