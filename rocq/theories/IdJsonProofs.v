(** Proofs about the JSON form of IDs. *)
From Verif Require Import Base IdModel IdSpec IdProofs ReflModel ReflProofs IdJsonModel IdJsonSpec.
From Coq Require DecimalFacts.
From Coq Require Import DecimalString DecimalN ssreflect.
Local Open Scope char_scope.

Lemma json_ws_spec c : json_ws c = true <-> In c [" "; "009"; "010"; "013"].
Proof.
  rewrite /json_ws !orb_true_iff !Ascii.eqb_eq /=. split; intros; intuition.
Qed.
Lemma skip_ws_app ws l : white ws -> skip_ws (bytes ws ++ l) = skip_ws l.
Proof.
  induction ws as [|c ws IH]=> H; first done. cbn. assert (json_ws c = true) as -> by (apply json_ws_spec, H; by left).
  apply IH. intros d Hd. apply H. by right.
Qed.
Lemma skip_ws_id c l : json_ws c = false -> skip_ws (c :: l) = c :: l.
Proof. intros H. cbn. by rewrite H. Qed.
Lemma skip_ws_split l : exists ws, white ws /\ l = bytes ws ++ skip_ws l.
Proof.
  induction l as [|c l (ws & Hws & IH)]; first (exists ""%string; split; [by intros ? []|done]).
  cbn. destruct (json_ws c) eqn:Hc; last (exists ""%string; split; [by intros ? []|done]).
  exists (String c ws). split; last by cbn; rewrite {1}IH.
  intros d [<-|Hd]; [by apply json_ws_spec|by apply Hws].
Qed.
Lemma json_end_spec {A} r (x y : A) : json_end r x = Some y <-> x = y /\ exists ws, white ws /\ r = bytes ws.
Proof.
  rewrite /json_end. destruct (skip_ws_split r) as (ws & Hws & Hr). split.
  - destruct (skip_ws r); last done. intros [= ->]. split; first done. exists ws. by rewrite app_nil_r in Hr.
  - intros (-> & ws' & Hws' & ->). rewrite -(app_nil_r (bytes ws')) skip_ws_app //.
Qed.

(** ** String literals *)
Lemma snoc_inj s t (c d : ascii) : (s +:+ String c "")%string = (t +:+ String d "")%string -> s = t /\ c = d.
Proof.
  intros H. apply (f_equal bytes) in H. rewrite !bytes_app in H. cbn in H. apply app_inj_tail in H as [H ->].
  split; last done. by apply bytes_inj.
Qed.
Lemma hex_nonempty s v : hex_numeral s v -> s <> ""%string.
Proof. destruct 1 as [|s v c d]; first done. by destruct s. Qed.
Lemma hex_snoc_inv s c v : s <> ""%string -> hex_numeral (s +:+ String c "") v ->
  exists v' d, hex_numeral s v' /\ hex_digit_value c d /\ v = (16 * v' + d)%N.
Proof.
  intros Hs H. remember (s +:+ String c "")%string as t eqn:Ht. destruct H as [c' d Hd|s' v' c' d H Hd].
  - exfalso. destruct s as [|x [|y s]]; done.
  - apply snoc_inj in Ht as [-> ->]. eauto.
Qed.
Lemma hex_one_inv c v : hex_numeral (String c "") v -> hex_digit_value c v.
Proof.
  intros H. remember (String c "")%string as t eqn:Ht. destruct H as [c' d Hd|s' v' c' d H Hd].
  - injection Ht as ->. done.
  - exfalso. apply hex_nonempty in H. destruct s' as [|x [|y s]]; done.
Qed.
Lemma hex4_spec a b c d v : hex4 a b c d = Some v <-> hex_numeral (String a (String b (String c (String d "")))) v.
Proof.
  rewrite /hex4. split.
  - pose proof (uint_digit_spec a) as Ha. pose proof (uint_digit_spec b) as Hb.
    pose proof (uint_digit_spec c) as Hc. pose proof (uint_digit_spec d) as Hd.
    destruct (uint_digit a) as [va|]; last done. destruct (uint_digit b) as [vb|]; last done.
    destruct (uint_digit c) as [vc|]; last done. destruct (uint_digit d) as [vd|]; last done.
    destruct (_ && _) eqn:Hlt; last done. rewrite !andb_true_iff !N.ltb_lt in Hlt. destruct Hlt as [[[??]?]?].
    intros [= <-].
    replace (((va * 16 + vb) * 16 + vc) * 16 + vd)%N with (16 * (16 * (16 * va + vb) + vc) + vd)%N by lia.
    apply (HN_snoc (String a (String b (String c "")))); last by apply Hd.
    apply (HN_snoc (String a (String b ""))); last by apply Hc.
    apply (HN_snoc (String a "")); last by apply Hb. constructor. by apply Ha.
  - intros H.
    destruct (hex_snoc_inv (String a (String b (String c ""))) d v) as (v3 & d3 & H3 & Hd3 & ->); [done..|]. clear H.
    destruct (hex_snoc_inv (String a (String b "")) c v3) as (v2 & d2 & H2 & Hd2 & ->); [done..|]. clear H3.
    destruct (hex_snoc_inv (String a "") b v2) as (v1 & d1 & H1 & Hd1 & ->); [done..|]. clear H2.
    apply hex_one_inv in H1.
    destruct (proj2 (uint_digit_spec _ _) H1) as [-> ?]. destruct (proj2 (uint_digit_spec _ _) Hd1) as [-> ?].
    destruct (proj2 (uint_digit_spec _ _) Hd2) as [-> ?]. destruct (proj2 (uint_digit_spec _ _) Hd3) as [-> ?].
    replace (_ && _) with true; last by symmetry; rewrite !andb_true_iff !N.ltb_lt. f_equal. lia.
Qed.

Lemma json_escape_spec e c : json_escape e = Some c <->
  In (e, c) [("""", """"); ("\", "\"); ("/", "/"); ("b", "008"); ("f", "012"); ("n", "010"); ("r", "013"); ("t", "009")].
Proof.
  rewrite /json_escape /quote. split.
  - repeat (match goal with |- context[Ascii.eqb e ?x] => destruct (Ascii.eqb_spec e x); [subst e|] end; cbn [orb]);
      intros; simplify_eq; cbn; tauto.
  - cbn. intros H. repeat (destruct H as [[= <- <-]|H]; first reflexivity). done.
Qed.
Lemma json_escape_u e c : json_escape e = Some c -> e <> "u".
Proof. intros H ->. done. Qed.

Definition lit_rest (l : list ascii) (s : list ascii) (rest : list ascii) : Prop :=
  exists src, l = bytes src ++ quote :: rest /\ json_chars src (unbytes s).
Lemma lit_more a c r s rest : json_char a c -> lit_rest r s rest -> lit_rest (bytes a ++ r) (c :: s) rest.
Proof.
  intros Ha (src & -> & Hs). exists (a +:+ src)%string. rewrite bytes_app -app_assoc. split; first done.
  cbn. by constructor.
Qed.
Lemma decoded_high v : (128 <= v)%N -> decoded v = "255".
Proof. intros H. rewrite /decoded. by destruct (N.ltb_spec v 128); first lia. Qed.
Lemma decoded_low v : (v < 128)%N -> decoded v = ascii_of_N v.
Proof. intros H. rewrite /decoded. by destruct (N.ltb_spec v 128); last lia. Qed.

Lemma json_string_sound n l s rest : (length l <= n)%nat -> json_string l = Some (s, rest) -> lit_rest l s rest.
Proof.
  revert l s. induction n as [|n IH]=> l s Hn; first by destruct l; [|cbn in Hn; lia].
  destruct l as [|c r]; first done. cbn in Hn. cbn [json_string].
  destruct (Ascii.eqb_spec c quote) as [->|Hq].
  { intros [= <- <-]. exists ""%string. split; first done. constructor. }
  destruct (Ascii.eqb_spec c "\") as [->|Hb].
  - destruct r as [|e r]; first done. cbn in Hn. destruct (Ascii.eqb_spec e "u") as [->|Hu].
    + destruct r as [|h1 [|h2 [|h3 [|h4 r]]]]; try done. cbn in Hn.
      destruct (hex4 h1 h2 h3 h4) as [v|] eqn:Hv; last done. apply hex4_spec in Hv.
      destruct (json_string r) as [[s' rest']|] eqn:Hr; last done. intros [= <- <-].
      apply IH in Hr; last lia.
      apply (lit_more (String "\" (String "u" (String h1 (String h2 (String h3 (String h4 ""))))))); last done.
      destruct (decide (v < 128)%N).
      * rewrite decoded_low //. by apply (JC_ascii (String h1 (String h2 (String h3 (String h4 ""))))).
      * assert (128 <= v)%N by lia. rewrite decoded_high //. apply (JC_code (String h1 (String h2 (String h3 (String h4 "")))) v); done.
    + destruct (json_escape e) as [c|] eqn:He; last done. apply json_escape_spec in He.
      destruct (json_string r) as [[s' rest']|] eqn:Hr; last done. intros [= <- <-].
      apply IH in Hr; last lia. apply (lit_more (String "\" (String e ""))); last done. by constructor.
  - destruct (N.ltb_spec (N_of_ascii c) 32) as [|H32]; first done.
    destruct (json_string r) as [[s' rest']|] eqn:Hr; last done. intros [= <- <-].
    apply IH in Hr; last lia. apply (lit_more (String c "")); last done.
    destruct (decide (N_of_ascii c < 128)%N).
    + rewrite decoded_low // ascii_N_embedding. by constructor.
    + assert (128 <= N_of_ascii c)%N by lia. rewrite decoded_high //. by constructor.
Qed.

Lemma json_string_complete src s rest : json_chars src s -> json_string (bytes src ++ quote :: rest) = Some (bytes s, rest).
Proof.
  induction 1 as [|a c s t Ha _ IH]; first done.
  rewrite bytes_app -app_assoc. destruct Ha as [c H H1 H2|c H|e c H|h v H H1 H2|h v H H1 H2].
  - cbn. destruct (Ascii.eqb_spec c quote); first done. destruct (Ascii.eqb_spec c "\"); first done.
    destruct (N.ltb_spec (N_of_ascii c) 32); first lia. assert (N_of_ascii c < 128)%N by lia. rewrite IH decoded_low //. by rewrite ascii_N_embedding.
  - cbn. destruct (Ascii.eqb_spec c quote); first by subst c; vm_compute in H.
    destruct (Ascii.eqb_spec c "\"); first by subst c; vm_compute in H.
    destruct (N.ltb_spec (N_of_ascii c) 32); first lia. rewrite IH decoded_high //.
  - apply json_escape_spec in H. cbn. destruct (Ascii.eqb_spec e "u") as [->|]; first done. by rewrite H IH.
  - destruct h as [|h1 [|h2 [|h3 [|h4 [|]]]]]; try done. cbn. rewrite (proj2 (hex4_spec _ _ _ _ _) H1) IH decoded_low //.
  - destruct h as [|h1 [|h2 [|h3 [|h4 [|]]]]]; try done. cbn. rewrite (proj2 (hex4_spec _ _ _ _ _) H1) IH decoded_high //.
Qed.

(** ** null *)
Lemma json_null_spec l r : json_null l = Some r <-> l = bytes "null" ++ r.
Proof.
  split.
  - destruct l as [|a [|b [|c [|d l]]]]; try done. cbn. destruct (_ && _) eqn:H; last done. intros [= ->].
    rewrite !andb_true_iff !Ascii.eqb_eq in H. destruct H as [[[-> ->] ->] ->]. done.
  - intros ->. done.
Qed.
Lemma unmarshal_string_spec data s : unmarshal_string data = Some s <->
  exists ws1 lit ws2, data = (ws1 +:+ lit +:+ ws2)%string /\ white ws1 /\ white ws2 /\
    ((lit = "null" /\ s = "")%string \/ exists src, lit = ("""" +:+ src +:+ """")%string /\ json_chars src s).
Proof.
  rewrite /unmarshal_string. split.
  - destruct (skip_ws_split (bytes data)) as (ws1 & Hws1 & Hd).
    remember (skip_ws (bytes data)) as l. destruct (json_null l) as [r|] eqn:Hn.
    + apply json_null_spec in Hn. intros (<- & ws2 & Hws2 & ->)%json_end_spec.
      exists ws1, "null"%string, ws2. split_and!; try done; last by left.
      apply bytes_inj. by rewrite !bytes_app Hd Hn.
    + destruct l as [|c r]; first done. destruct (Ascii.eqb_spec c quote) as [->|]; last done.
      destruct (json_string r) as [[s' rest]|] eqn:Hr; last done.
      apply (json_string_sound (length r)) in Hr as (src & -> & Hsrc); last done.
      intros (<- & ws2 & Hws2 & ->)%json_end_spec.
      exists ws1, ("""" +:+ src +:+ """")%string, ws2. split_and!; try done; last by right; exists src.
      apply bytes_inj. rewrite !bytes_app Hd /= -app_assoc //.
  - intros (ws1 & lit & ws2 & -> & Hws1 & Hws2 & Hlit). rewrite !bytes_app skip_ws_app //.
    destruct Hlit as [[-> ->]|(src & -> & Hsrc)].
    + cbn. apply json_end_spec. eauto.
    + rewrite !bytes_app /=. cbn [Ascii.eqb]. rewrite -app_assoc /=. rewrite (json_string_complete src s) //.
      rewrite unbytes_bytes. assert (json_end (bytes ws2) s = Some s) as -> by (apply json_end_spec; eauto).
      by destruct (bytes src ++ _) as [|? [|? [|? ?]]].
Qed.

(** ** Integers *)
Lemma take_digits_spec l d r : take_digits l = (d, r) ->
  l = d ++ r /\ Forall (fun c => is_digit c = true) d /\ match r with c :: _ => is_digit c = false | [] => True end.
Proof.
  revert d. induction l as [|c l IH]=> d; cbn; first by intros [= <- <-].
  destruct (is_digit c) eqn:Hc; last by intros [= <- <-].
  destruct (take_digits l) as [d' r']. intros [= <- <-]. destruct (IH d' eq_refl) as (-> & ? & ?).
  split; first done. split; last done. by constructor.
Qed.
Lemma take_digits_app d r : Forall (fun c => is_digit c = true) d -> match r with c :: _ => is_digit c = false | [] => True end ->
  take_digits (d ++ r) = (d, r).
Proof.
  induction 1 as [|c d Hc _ IH]=> Hr; cbn; last by rewrite Hc IH.
  destruct r as [|c r]; first done. cbn. by rewrite Hr.
Qed.
Lemma uint_digits u : Forall (fun c => is_digit c = true) (bytes (NilZero.string_of_uint u)).
Proof.
  assert (Forall (fun c => is_digit c = true) (bytes (NilEmpty.string_of_uint u))) as H.
  { induction u; cbn; constructor; done. }
  destruct u; try done. by repeat constructor.
Qed.
Definition leading_zero (d : list ascii) : bool := match d with c :: _ :: _ => Ascii.eqb c "0" | _ => false end.
Lemma string_of_uint_nonnil u : u <> Decimal.Nil -> NilZero.string_of_uint u = NilEmpty.string_of_uint u.
Proof. by destruct u. Qed.
Lemma unorm_leading u : u <> Decimal.Nil -> leading_zero (bytes (NilZero.string_of_uint u)) = false -> Decimal.unorm u = u.
Proof.
  destruct u as [|u|u|u|u|u|u|u|u|u|u]; try done. intros _.
  destruct u; done.
Qed.
Lemma unorm_no_leading u : leading_zero (bytes (NilZero.string_of_uint (Decimal.unorm u))) = false.
Proof.
  assert (forall v, Decimal.nzhead v = Decimal.Nil \/ exists w, Decimal.nzhead v = w /\ (forall x, w <> Decimal.D0 x) /\ w <> Decimal.Nil) as H.
  { intros v. destruct (Decimal.nzhead v) eqn:E; [by left|..]; right; eexists; split_and!; try done.
    by intros x [= ->]; destruct (DecimalFacts.nzhead_nonzero v x). }
  rewrite /Decimal.unorm. destruct (H u) as [->|(w & -> & Hw & Hn)]; first done.
  destruct w as [|w|w|w|w|w|w|w|w|w|w]; try done; [by destruct (Hw w)|..]; cbn; by destruct (bytes _).
Qed.
Lemma fmt_uint_digits n : Forall (fun c => is_digit c = true) (bytes (fmt_uint n)) /\ leading_zero (bytes (fmt_uint n)) = false.
Proof.
  split; first apply uint_digits. rewrite /fmt_uint. rewrite -(DecimalN.Unsigned.of_to n).
  rewrite DecimalN.Unsigned.to_of. apply unorm_no_leading.
Qed.
Lemma parse_uint_canonical s n : parse_uint s = Some n -> leading_zero (bytes s) = false -> s = fmt_uint n /\ is_id n.
Proof.
  rewrite /parse_uint. destruct (NilZero.uint_of_string s) as [u|] eqn:Hu; last done.
  destruct (N.ltb_spec (N.of_uint u) two64); last done. intros [= <-] Hz. split; last done.
  pose proof (NilZero.sus _ _ Hu) as Hs. rewrite -Hs in Hz |- *. rewrite /fmt_uint DecimalN.Unsigned.to_of.
  rewrite unorm_leading //. intros ->. by apply (NilZero.uint_of_string_nonnil s).
Qed.

Lemma white_digit ws : white ws -> match bytes ws with c :: _ => is_digit c = false | [] => True end.
Proof.
  destruct ws as [|c ws]; first done. intros H. assert (In c [" "; "009"; "010"; "013"]) as Hc by (apply H; by left).
  cbn in Hc. repeat (destruct Hc as [<-|Hc]; first done). done.
Qed.
Lemma digit_no_ws c : is_digit c = true -> json_ws c = false.
Proof.
  intros H. destruct (json_ws c) eqn:Hc; last done. apply json_ws_spec in Hc. cbn in Hc.
  repeat (destruct Hc as [<-|Hc]; first done). done.
Qed.
Lemma unmarshal_uint64_spec data v : unmarshal_uint64 data = Some v <->
  exists ws1 lit ws2, data = (ws1 +:+ lit +:+ ws2)%string /\ white ws1 /\ white ws2 /\
    ((lit = "null"%string /\ v = 0%N) \/ (lit = fmt_uint v /\ is_id v)).
Proof.
  rewrite /unmarshal_uint64. split.
  - destruct (skip_ws_split (bytes data)) as (ws1 & Hws1 & Hd).
    remember (skip_ws (bytes data)) as l. destruct (json_null l) as [r|] eqn:Hn.
    + apply json_null_spec in Hn. intros (<- & ws2 & Hws2 & ->)%json_end_spec.
      exists ws1, "null"%string, ws2. split_and!; try done; last by left.
      apply bytes_inj. by rewrite !bytes_app Hd Hn.
    + destruct (take_digits l) as [d r] eqn:Ht. apply take_digits_spec in Ht as (-> & Hdig & _).
      fold (leading_zero d). destruct (leading_zero d) eqn:Hz; first done.
      destruct (json_end r tt) as [[]|] eqn:He; last done. apply json_end_spec in He as (_ & ws2 & Hws2 & ->).
      intros Hp. apply parse_uint_canonical in Hp as [Hp Hid]; last by rewrite bytes_unbytes.
      exists ws1, (fmt_uint v), ws2. split_and!; try done; last by right.
      apply bytes_inj. by rewrite !bytes_app Hd -Hp bytes_unbytes.
  - intros (ws1 & lit & ws2 & -> & Hws1 & Hws2 & Hlit). rewrite !bytes_app skip_ws_app //.
    destruct Hlit as [[-> ->]|[-> Hid]].
    + cbn. apply json_end_spec. eauto.
    + destruct (fmt_uint_digits v) as [Hdig Hz].
      assert (bytes (fmt_uint v) <> []) as Hne.
      { intros H. pose proof (parse_fmt_uint v Hid) as Hp. apply (f_equal unbytes) in H. rewrite unbytes_bytes in H. by rewrite H in Hp. }
      assert (skip_ws (bytes (fmt_uint v) ++ bytes ws2) = bytes (fmt_uint v) ++ bytes ws2) as ->.
      { destruct (bytes (fmt_uint v)) as [|c d]; first done. apply skip_ws_id, digit_no_ws. by inversion Hdig. }
      assert (json_null (bytes (fmt_uint v) ++ bytes ws2) = None) as ->.
      { destruct (json_null _) as [r|] eqn:Hn; last done. apply json_null_spec in Hn.
        destruct (bytes (fmt_uint v)) as [|c d]; first done. injection Hn as -> _. by inversion Hdig. }
      rewrite (take_digits_app _ _ Hdig (white_digit _ Hws2)). fold (leading_zero (bytes (fmt_uint v))). rewrite Hz.
      assert (json_end (bytes ws2) tt = Some tt) as -> by (apply json_end_spec; eauto).
      by rewrite unbytes_bytes parse_fmt_uint.
Qed.
