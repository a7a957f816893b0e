(** Proofs about IdModel.v. *)
From Verif Require Import Base IdModel IdSpec.
From Coq Require Import ZifyBool ZifyNat ZifyN.
Ltac Zify.zify_post_hook ::= Z.div_mod_to_equations.

(** ** Digit lists *)

Definition digits_val (ds : list N) : N := fold_left (fun a d => 16 * a + d) ds 0.

Lemma fold_digits ds a :
  fold_left (fun a d => 16 * a + d) ds a = a * 16 ^ N.of_nat (length ds) + digits_val ds.
Proof.
  unfold digits_val. revert a; induction ds as [|d ds IH]; intros a.
  - cbn [fold_left length]. change (16 ^ N.of_nat 0) with 1. lia.
  - cbn [fold_left length]. rewrite IH, (IH (16 * 0 + d)).
    replace (N.of_nat (S (length ds))) with (N.succ (N.of_nat (length ds))) by lia.
    rewrite N.pow_succ_r'. nia.
Qed.

Lemma digits_val_cons d ds : digits_val (d :: ds) = d * 16 ^ N.of_nat (length ds) + digits_val ds.
Proof. unfold digits_val at 1. cbn [fold_left]. rewrite fold_digits. lia. Qed.

Lemma digits_val_app ds es :
  digits_val (ds ++ es) = digits_val ds * 16 ^ N.of_nat (length es) + digits_val es.
Proof. unfold digits_val at 1. rewrite fold_left_app, fold_digits. reflexivity. Qed.

Lemma digits_val_bound ds : Forall (fun d => d < 16) ds -> digits_val ds < 16 ^ N.of_nat (length ds).
Proof.
  induction ds as [|d ds IH]; intros H.
  - cbn. lia.
  - apply Forall_cons in H as [Hd H]. specialize (IH H). rewrite digits_val_cons.
    cbn [length]. replace (N.of_nat (S (length ds))) with (N.succ (N.of_nat (length ds))) by lia.
    rewrite N.pow_succ_r'. nia.
Qed.

Lemma digits_val_zeros n : digits_val (replicate n 0) = 0.
Proof. induction n as [|n IH]; [done|]. cbn [replicate]. rewrite digits_val_cons, IH. lia. Qed.

Lemma below16 (P : N -> Prop) :
  P 0 -> P 1 -> P 2 -> P 3 -> P 4 -> P 5 -> P 6 -> P 7 ->
  P 8 -> P 9 -> P 10 -> P 11 -> P 12 -> P 13 -> P 14 -> P 15 -> forall d, d < 16 -> P d.
Proof.
  intros. assert (d = 0 \/ d = 1 \/ d = 2 \/ d = 3 \/ d = 4 \/ d = 5 \/ d = 6 \/ d = 7 \/
    d = 8 \/ d = 9 \/ d = 10 \/ d = 11 \/ d = 12 \/ d = 13 \/ d = 14 \/ d = 15) as Hd by lia.
  repeat (destruct Hd as [->|Hd]; [assumption|]). by subst.
Qed.

Lemma uint_digit_hex d : d < 16 -> uint_digit (hex_digit d) = Some d.
Proof. revert d. apply below16; vm_compute; reflexivity. Qed.

Lemma uint_digit_spec c d : (uint_digit c = Some d /\ d < 16) <-> hex_digit_value c d.
Proof.
  split.
  - intros [H Hd]. destruct c as [b0 b1 b2 b3 b4 b5 b6 b7].
    destruct b0, b1, b2, b3, b4, b5, b6, b7; vm_compute in H; try discriminate H;
      injection H as <-; try (exfalso; lia);
      first [ apply HD_lower; vm_compute; reflexivity | apply HD_upper; vm_compute; reflexivity ].
  - assert (forall s, s = bytes "0123456789abcdef" \/ s = bytes "0123456789ABCDEF" ->
      nth_error s (N.to_nat d) = Some c -> uint_digit c = Some d /\ d < 16) as H.
    { intros s Hs Hn.
      assert (d < 16) as Hd.
      { assert (N.to_nat d < length s)%nat as Hl by (apply nth_error_Some; congruence).
        destruct Hs as [->| ->]; cbn in Hl; lia. }
      split; [|exact Hd]. revert c Hn. pattern d.
      revert d Hd. apply below16; intros c Hn; destruct Hs as [->| ->];
        vm_compute in Hn; injection Hn as <-; vm_compute; reflexivity. }
    intros Hv. inversion Hv; subst; (eapply H; [|eassumption]); tauto.
Qed.

Lemma uint_digit_functional c d e : hex_digit_value c d -> hex_digit_value c e -> d = e.
Proof. rewrite <- !uint_digit_spec. intros [H1 _] [H2 _]. congruence. Qed.

(** ** Printing *)

Lemma hex_loop_fuel fuel v acc :
  (N.size_nat v < fuel)%nat ->
  exists ds, hex_loop fuel v acc = map hex_digit ds ++ acc /\ Forall (fun d => d < 16) ds /\
    digits_val ds = v /\ ds <> [] /\ (forall k, v < 16 ^ N.of_nat (S k) -> (length ds <= S k)%nat).
Proof.
  revert v acc; induction fuel as [|fuel IH]; intros v acc Hf; [lia|].
  cbn [hex_loop]. destruct (v <? 16) eqn:Hv.
  - exists [v]. repeat split; [by constructor; [lia|]|done|]. cbn; lia.
  - assert (N.size_nat (v / 16) < fuel)%nat as Hs.
    { assert (N.size (v / 16) < N.size v) as Hlt.
      { assert (2 ^ 4 <= v) as Hge by (cbn; lia).
        rewrite (N.size_log2 v) by lia.
        rewrite (N.size_log2 (v / 16)) by lia.
        replace (v / 16) with (N.shiftr v 4) by (rewrite N.shiftr_div_pow2; reflexivity).
        rewrite N.log2_shiftr.
        assert (4 <= N.log2 v) by (apply N.log2_le_pow2; lia). lia. }
      assert (forall n, N.of_nat (N.size_nat n) = N.size n) as E.
      { intros [|p]; [done|]. cbn. induction p as [p IHp|p IHp|]; cbn; rewrite ?IHp; lia. }
      pose proof (E v). pose proof (E (v / 16)). lia. }
    destruct (IH (v / 16) (hex_digit (v mod 16) :: acc) Hs) as (ds & Hl & Hall & Hval & Hne & Hlen).
    exists (ds ++ [v mod 16]). rewrite Hl. split_and!.
    + rewrite map_app. cbn. by rewrite <- app_assoc.
    + apply Forall_app; split; [done|]. constructor; [lia|done].
    + rewrite digits_val_app, Hval. cbn [length].
      change (16 ^ N.of_nat 1) with 16. change (digits_val [v mod 16]) with (v mod 16). lia.
    + destruct ds; done.
    + intros k Hk. rewrite app_length. cbn [length].
      destruct k as [|k].
      * change (16 ^ N.of_nat 1) with 16 in Hk. lia.
      * replace (N.of_nat (S (S k))) with (N.succ (N.of_nat (S k))) in Hk by lia.
        rewrite N.pow_succ_r' in Hk.
        assert (length ds <= S k)%nat; [|lia]. apply Hlen. lia.
Qed.

Lemma id_string_digits v : is_id v ->
  exists ds, id_string v = unbytes (map hex_digit ds) /\ Forall (fun d => d < 16) ds /\
    length ds = 16%nat /\ digits_val ds = v.
Proof.
  intros Hv. unfold id_string.
  destruct (hex_loop_fuel (S (N.size_nat v)) v [] ltac:(lia)) as (ds & Hl & Hall & Hval & Hne & Hlen).
  assert (length ds <= 16)%nat as H16.
  { apply (Hlen 15%nat). unfold is_id, two64 in Hv. exact Hv. }
  exists (replicate (16 - length ds) 0 ++ ds). split_and!.
  - rewrite Hl, app_nil_r. unfold pad_left. rewrite map_length, map_app. do 2 f_equal.
    generalize (16 - length ds)%nat. intros n; induction n as [|n IH]; [done|].
    cbn. by rewrite <- IH.
  - apply Forall_app; split; [|done]. apply Forall_replicate. lia.
  - rewrite app_length, replicate_length. lia.
  - rewrite digits_val_app, digits_val_zeros. lia.
Qed.

Lemma hex_digit_lower d : d < 16 -> In (hex_digit d) (bytes "0123456789abcdef").
Proof. revert d. apply below16; vm_compute; tauto. Qed.

Lemma id_string_shape v : is_id v -> String.length (id_string v) = 16%nat /\ lower_hex (id_string v).
Proof.
  intros Hv. destruct (id_string_digits v Hv) as (ds & -> & Hall & Hlen & _). split.
  - by rewrite unbytes_length, map_length.
  - intros c Hc. rewrite bytes_unbytes in Hc. apply in_map_iff in Hc as (d & <- & Hd).
    apply hex_digit_lower. rewrite Forall_forall in Hall. apply Hall. by apply elem_of_list_In.
Qed.

(** ** Parsing *)

Lemma parse_loop_spec l n v : is_id n ->
  parse_uint16_loop l n = inl v <->
  exists ds, Forall2 hex_digit_value l ds /\ v = n * 16 ^ N.of_nat (length ds) + digits_val ds /\ is_id v.
Proof.
  revert n; induction l as [|c l IH]; intros n Hn; cbn [parse_uint16_loop].
  - split.
    + intros [= <-]. exists []. split_and!; [constructor| |done]. cbn. lia.
    + intros (ds & H & -> & _). inversion H; subst. cbn. f_equal. lia.
  - destruct (uint_digit c) as [d|] eqn:Hd.
    2:{ split; [done|]. intros (ds & H & _). inversion H; subst.
        match goal with H : hex_digit_value _ _ |- _ => apply uint_digit_spec in H as [? _] end. congruence. }
    destruct (16 <=? d) eqn:H16.
    { split; [done|]. intros (ds & H & _). inversion H; subst.
      match goal with H : hex_digit_value _ _ |- _ => apply uint_digit_spec in H as [? ?] end.
      assert (y = d) by congruence. lia. }
    assert (hex_digit_value c d) as Hcd by (apply uint_digit_spec; split; [done|lia]).
    assert (forall ds, Forall2 hex_digit_value (c :: l) ds <->
              exists ds', ds = d :: ds' /\ Forall2 hex_digit_value l ds') as Hcons.
    { intros ds. split.
      - intros H. inversion H; subst. exists l'. split; [|done]. f_equal. by eapply uint_digit_functional.
      - intros (ds' & -> & H). by constructor. }
    assert (forall ds' : list N, 1 <= 16 ^ N.of_nat (length ds')) as Hpow.
    { intros ds'. assert (16 ^ N.of_nat (length (ds' : list N)) <> 0) by (apply N.pow_nonzero; lia). lia. }
    destruct ((two64 - 1) / 16 + 1 <=? n) eqn:Hcut.
    { split; [done|]. intros (ds & H & -> & Hid). apply Hcons in H as (ds' & -> & _).
      exfalso. unfold is_id, two64 in *. cbn [length] in Hid.
      replace (N.of_nat (S (length ds'))) with (N.succ (N.of_nat (length ds'))) in Hid by lia.
      rewrite N.pow_succ_r' in Hid. specialize (Hpow ds').
      assert (1152921504606846976 <= n) by (change ((18446744073709551616 - 1) / 16 + 1) with 1152921504606846976 in Hcut; lia).
      nia. }
    assert (n < 1152921504606846976) as Hnc.
    { unfold two64 in Hcut. change ((18446744073709551616 - 1) / 16 + 1) with 1152921504606846976 in Hcut. lia. }
    assert ((n * 16) mod two64 = n * 16) as Hm by (apply N.mod_small; unfold two64; lia).
    assert ((n * 16 + d) mod two64 = n * 16 + d) as Hm1 by (apply N.mod_small; unfold two64; lia).
    cbn zeta. rewrite Hm, Hm1.
    destruct ((n * 16 + d <? n * 16) || (two64 - 1 <? n * 16 + d)) eqn:Hov.
    { exfalso. unfold two64 in *. lia. }
    rewrite IH by (unfold is_id, two64 in *; lia).
    split.
    + intros (ds & H & -> & Hid). exists (d :: ds). split_and!; [by constructor| |done].
      rewrite digits_val_cons. cbn [length].
      replace (N.of_nat (S (length ds))) with (N.succ (N.of_nat (length ds))) by lia.
      rewrite N.pow_succ_r'. nia.
    + intros (ds & H & -> & Hid). apply Hcons in H as (ds' & -> & H). exists ds'. split_and!; [done| |done].
      rewrite digits_val_cons. cbn [length].
      replace (N.of_nat (S (length ds'))) with (N.succ (N.of_nat (length ds'))) by lia.
      rewrite N.pow_succ_r'. nia.
Qed.

Lemma hex_numeral_digits s v :
  hex_numeral s v <-> bytes s <> [] /\ exists ds, Forall2 hex_digit_value (bytes s) ds /\ v = digits_val ds.
Proof.
  split.
  - induction 1 as [c d Hcd|s v c d Hs [IHn (ds & IHd & ->)] Hcd].
    + split; [done|]. exists [d]. split; [by apply Forall2_cons; split|]. done.
    + rewrite bytes_app. split; [by destruct (bytes s)|].
      exists (ds ++ [d]). split.
      * apply Forall2_app; [done|]. by apply Forall2_cons; split.
      * rewrite digits_val_app. cbn [length]. change (16 ^ N.of_nat 1) with 16. change (digits_val [d]) with d. lia.
  - intros (Hne & ds & H & ->). rewrite <- (unbytes_bytes s).
    revert ds H Hne. generalize (bytes s). intros l.
    induction l as [|c l IH] using rev_ind; intros ds H Hne; [done|].
    apply Forall2_app_inv_l in H as (ds1 & ds2 & H1 & H2 & ->).
    inversion H2 as [|? d ? ? Hcd H3]; subst. inversion H3; subst.
    rewrite unbytes_app, digits_val_app. cbn [length unbytes].
    change (16 ^ N.of_nat 1) with 16. change (digits_val [d]) with d.
    destruct l as [|c' l].
    + inversion H1; subst. cbn. apply HN_one. exact Hcd.
    + rewrite (N.mul_comm _ 16). apply HN_snoc; [|done]. by apply IH.
Qed.

Lemma parse_id_spec s v : parse_id s = inl v <-> hex_numeral s v /\ is_id v.
Proof.
  rewrite hex_numeral_digits. unfold parse_id. destruct (bytes s) as [|c l] eqn:Hs.
  - split; [done|]. by intros ((? & _) & _).
  - rewrite parse_loop_spec by (unfold is_id, two64; lia). split.
    + intros (ds & H & -> & Hid). split; [|done]. split; [done|]. exists ds. split; [done|]. lia.
    + intros ((_ & ds & H & ->) & Hid). exists ds. split_and!; [done| |done]. lia.
Qed.

Lemma hex_digit_value_hex d : d < 16 -> hex_digit_value (hex_digit d) d.
Proof. intros H. apply uint_digit_spec. split; [by apply uint_digit_hex|done]. Qed.

Lemma id_string_numeral v : is_id v -> hex_numeral (id_string v) v.
Proof.
  intros Hv. destruct (id_string_digits v Hv) as (ds & -> & Hall & Hlen & Hval).
  apply hex_numeral_digits. rewrite bytes_unbytes. split.
  - destruct ds; done.
  - exists ds. split; [|done]. clear Hlen Hval. induction Hall as [|d ds Hd Hall IH]; cbn; constructor; [|done].
    by apply hex_digit_value_hex.
Qed.

Lemma parse_id_string v : is_id v -> parse_id (id_string v) = inl v.
Proof. intros Hv. apply parse_id_spec. split; [by apply id_string_numeral|done]. Qed.

Lemma hex_digit_mono d e : d < 16 -> e < 16 -> N_of_ascii (hex_digit d) < N_of_ascii (hex_digit e) <-> d < e.
Proof.
  intros Hd He. revert e He. pattern d. revert d Hd.
  apply below16; apply below16; vm_compute; intuition congruence.
Qed.

Lemma hex_digit_inj d e : d < 16 -> e < 16 -> hex_digit d = hex_digit e -> d = e.
Proof. intros Hd He H. pose proof (uint_digit_hex d Hd). rewrite H, uint_digit_hex in H0 by done. congruence. Qed.

Lemma digits_lt ds es : Forall (fun d => d < 16) ds -> Forall (fun d => d < 16) es ->
  length ds = length es ->
  str_lt (unbytes (map hex_digit ds)) (unbytes (map hex_digit es)) <-> digits_val ds < digits_val es.
Proof.
  intros Hds. revert es. induction Hds as [|d ds Hd Hds IH]; intros es Hes Hlen.
  - destruct es; [|done]. cbn. split; [inversion 1|lia].
  - destruct es as [|e es]; [done|]. injection Hlen as Hlen.
    apply Forall_cons in Hes as [He Hes]. specialize (IH es Hes Hlen).
    rewrite !digits_val_cons, Hlen. pose proof (digits_val_bound es Hes) as Be.
    pose proof (digits_val_bound ds Hds) as Bd. rewrite Hlen in Bd.
    cbn [map unbytes]. split.
    + intros H. inversion H as [|? ? ? ? Hlt|? ? ? Htl]; subst.
      * apply (hex_digit_mono d e Hd He) in Hlt. nia.
      * assert (d = e) as -> by (apply hex_digit_inj; done). apply IH in Htl. lia.
    + intros H. destruct (N.lt_trichotomy d e) as [Hlt|[->|Hgt]].
      * apply SL_head. by apply hex_digit_mono.
      * apply SL_tail, IH. lia.
      * exfalso. nia.
Qed.

Lemma id_string_lt a b : is_id a -> is_id b -> str_lt (id_string a) (id_string b) <-> a < b.
Proof.
  intros Ha Hb. destruct (id_string_digits a Ha) as (ds & -> & Hds & Hld & <-).
  destruct (id_string_digits b Hb) as (es & -> & Hes & Hle & <-).
  apply digits_lt; [done..|]. by rewrite Hld, Hle.
Qed.

Lemma id_string_inj a b : is_id a -> is_id b -> id_string a = id_string b -> a = b.
Proof. intros Ha Hb H. pose proof (parse_id_string a Ha). rewrite H, parse_id_string in H0 by done. congruence. Qed.

(** ** Split and join *)

Lemma split_on_nonempty c l : split_on c l <> [].
Proof. destruct l as [|x l]; cbn; [done|]. destruct (Ascii.eqb x c); [done|]. by destruct (split_on c l). Qed.

Lemma split_on_app c p l : ~ In c p ->
  split_on c (p ++ c :: l) = p :: split_on c l.
Proof.
  induction p as [|x p IH]; intros Hp; cbn.
  - by rewrite Ascii.eqb_refl.
  - destruct (Ascii.eqb x c) eqn:E.
    { apply Ascii.eqb_eq in E. subst. exfalso. apply Hp. by left. }
    rewrite IH; [done|]. intros H; apply Hp; by right.
Qed.

Lemma split_on_none c p : ~ In c p -> split_on c p = [p].
Proof.
  induction p as [|x p IH]; intros Hp; cbn; [done|].
  destruct (Ascii.eqb x c) eqn:E.
  { apply Ascii.eqb_eq in E. subst. exfalso. apply Hp. by left. }
  rewrite IH; [done|]. intros H; apply Hp; by right.
Qed.

Lemma split_on_inv c l ps p : split_on c l = p :: ps ->
  ~ In c p /\ match ps with [] => l = p | _ => exists l', l = p ++ c :: l' /\ split_on c l' = ps end.
Proof.
  revert p ps; induction l as [|x l IH]; intros p ps; cbn.
  - intros [= <- <-]. split; [intros []|done].
  - destruct (Ascii.eqb x c) eqn:E.
    + apply Ascii.eqb_eq in E; subst. intros [= <- <-]. split; [intros []|].
      pose proof (split_on_nonempty c l). destruct (split_on c l) eqn:Hq; [done|]. exists l; split; [done|exact Hq].
    + destruct (split_on c l) as [|q qs] eqn:Hq; [by apply split_on_nonempty in Hq|].
      intros [= <- <-]. destruct (IH q qs eq_refl) as [Hn Hps]. split.
      * intros [->|Hin]; [by rewrite Ascii.eqb_refl in E|done].
      * destruct qs; [by subst|]. destruct Hps as (l' & -> & Hl'). by exists l'.
Qed.

Lemma joined_split ps s : joined ps s <-> map unbytes (split_on delim (bytes s)) = ps.
Proof.
  split.
  - induction 1 as [p Hp|p ps s Hp Hj IH].
    + rewrite split_on_none by done. cbn. by rewrite unbytes_bytes.
    + rewrite bytes_app. cbn [bytes]. rewrite split_on_app by done. cbn [map]. rewrite unbytes_bytes. f_equal. exact IH.
  - intros H. rewrite <- (unbytes_bytes s). revert ps H. generalize (bytes s) as l.
    intros l ps H. remember (split_on delim l) as qs eqn:Hqs. symmetry in Hqs.
    revert l ps H Hqs. induction qs as [|q qs IH]; intros l ps H Hqs.
    + by apply split_on_nonempty in Hqs.
    + apply split_on_inv in Hqs as [Hq Hr]. destruct qs as [|q' qs].
      * subst. cbn. apply J_one. by rewrite bytes_unbytes.
      * destruct Hr as (l' & -> & Hl'). subst ps. rewrite unbytes_app. cbn [unbytes map].
        apply J_cons; [by rewrite bytes_unbytes|]. eapply (IH l' _ eq_refl). done.
Qed.

Lemma parse_spanid_spec s r :
  parse_spanid s = Some r <->
  is_id (sp_trace r) /\ is_id (sp_span r) /\ is_id (sp_parent r) /\ span_parse_ok s r.
Proof.
  unfold span_parse_ok. setoid_rewrite joined_split.
  unfold parse_spanid. set (ps := map unbytes (split_on delim (bytes s))). clearbody ps.
  assert (forall a v, parse_id a = inl v -> hex_numeral a v /\ is_id v) as P1 by (intros; by apply parse_id_spec).
  assert (forall a v, hex_numeral a v -> is_id v -> parse_id a = inl v) as P2 by (intros; by apply parse_id_spec).
  split.
  - destruct ps as [|a [|b [|c [|? ?]]]]; try done.
    + destruct (parse_id a) as [t|] eqn:Ha; [|done]. destruct (parse_id b) as [i|] eqn:Hb; [|done].
      intros [= <-]. apply P1 in Ha, Hb. destruct Ha, Hb. cbn. split_and!; try done.
      left. by exists a, b.
    + destruct (parse_id a) as [t|] eqn:Ha; [|done]. destruct (parse_id b) as [i|] eqn:Hb; [|done].
      destruct (parse_id c) as [p|] eqn:Hc; [|done].
      intros [= <-]. apply P1 in Ha, Hb, Hc. destruct Ha, Hb, Hc. cbn. split_and!; try done.
      right. by exists a, b, c.
  - destruct r as [t i p]; cbn. intros (Ht & Hi & Hp & [(a & b & -> & Ha & Hb & ->)|(a & b & c & -> & Ha & Hb & Hc)]).
    + by rewrite (P2 _ _ Ha), (P2 _ _ Hb).
    + by rewrite (P2 _ _ Ha), (P2 _ _ Hb), (P2 _ _ Hc).
Qed.

Lemma id_string_no_slash v : is_id v -> ~ In "/"%char (bytes (id_string v)).
Proof.
  intros Hv H. destruct (id_string_shape v Hv) as [_ Hl]. apply Hl in H.
  vm_compute in H. intuition discriminate.
Qed.

Lemma parse_spanid_string s : is_id (sp_trace s) -> is_id (sp_span s) -> is_id (sp_parent s) ->
  parse_spanid (spanid_string s) = Some s.
Proof.
  intros Ht Hs Hp. apply parse_spanid_spec. split_and!; try done.
  unfold span_parse_ok, spanid_string. destruct (N.eqb_spec (sp_parent s) 0) as [E|E].
  - left. exists (id_string (sp_trace s)), (id_string (sp_span s)). split_and!.
    + apply (J_cons (id_string (sp_trace s)) [id_string (sp_span s)] (id_string (sp_span s)));
        [by apply id_string_no_slash|]. apply J_one. by apply id_string_no_slash.
    + by apply id_string_numeral.
    + by apply id_string_numeral.
    + done.
  - right. exists (id_string (sp_trace s)), (id_string (sp_span s)), (id_string (sp_parent s)). split_and!.
    + apply (J_cons (id_string (sp_trace s)) [id_string (sp_span s); id_string (sp_parent s)]);
        [by apply id_string_no_slash|].
      apply (J_cons (id_string (sp_span s)) [id_string (sp_parent s)]); [by apply id_string_no_slash|].
      apply J_one. by apply id_string_no_slash.
    + by apply id_string_numeral.
    + by apply id_string_numeral.
    + by apply id_string_numeral.
Qed.
