(** The JSON parser accepts exactly the JSON texts. *)
From Verif Require Import Base IdModel IdSpec IdJsonModel IdJsonSpec IdJsonProofs JsonSpec JsonModel JsonProofs TraceJsonProps JsonGramSpec.
From Coq Require Import ssreflect.
Local Open Scope general_if_scope.
Local Open Scope N_scope.
Local Open Scope char_scope.

Lemma spaces_blank w : spaces w <-> blank w.
Proof. rewrite /spaces /blank. split; intros H; apply (Forall_impl _ _ _ H); intros c Hc; by apply json_ws_spec. Qed.
Lemma skip_split l : exists w, spaces w /\ l = w ++ skip_ws l.
Proof.
  induction l as [|c l (w & Hw & E)]; [by exists []; split; [constructor|]|]. cbn [skip_ws]. destruct (json_ws c) eqn:Ec.
  - exists (c :: w). split; [constructor; [by apply json_ws_spec|done]|]. cbn [app]. by rewrite -E.
  - exists []. split; [constructor|done].
Qed.

(** * Strings *)
Lemma decode_utf8 l x bs rest : decode_rune l = Some (x, bs, rest) -> utf8_char x bs.
Proof.
  destruct l as [|a r]; [done|]. cbn [decode_rune]. pose proof (bn_bound a).
  destruct (N.ltb_spec (bn a) 128) as [Ha|Ha]; [intros [= <- <- <-]; by constructor|].
  destruct ((194 <=? bn a)%N && (bn a <=? 223)%N) eqn:E2.
  { destruct r as [|b r]; [done|]. destruct (within 128 191 b) eqn:Eb; [|done]. intros [= <- <- <-].
    rewrite /within in Eb. apply andb_true_iff in E2 as [?%N.leb_le ?%N.leb_le], Eb as [?%N.leb_le ?%N.leb_le].
    apply Utf8_2; rewrite ?/continues; try done; lia. }
  destruct ((224 <=? bn a)%N && (bn a <=? 239)%N) eqn:E3.
  { destruct r as [|b [|c r]]; [done..|]. destruct (within _ _ b && within 128 191 c) eqn:Eb; [|done]. intros [= <- <- <-].
    rewrite /within in Eb. apply andb_true_iff in E3 as [?%N.leb_le ?%N.leb_le], Eb as [[?%N.leb_le ?%N.leb_le]%andb_true_iff [?%N.leb_le ?%N.leb_le]%andb_true_iff].
    assert (128 <= bn b <= 191) as Hb. { destruct (N.eqb_spec (bn a) 224), (N.eqb_spec (bn a) 237); lia. }
    apply Utf8_3; rewrite ?/continues; try lia; destruct (N.eqb_spec (bn a) 224), (N.eqb_spec (bn a) 237); lia. }
  destruct ((240 <=? bn a)%N && (bn a <=? 244)%N) eqn:E4; [|done].
  destruct r as [|b [|c [|d r]]]; [done..|]. destruct (within _ _ b && within 128 191 c && within 128 191 d) eqn:Eb; [|done]. intros [= <- <- <-].
  rewrite /within in Eb. apply andb_true_iff in E4 as [?%N.leb_le ?%N.leb_le], Eb as [[[?%N.leb_le ?%N.leb_le]%andb_true_iff [?%N.leb_le ?%N.leb_le]%andb_true_iff]%andb_true_iff [?%N.leb_le ?%N.leb_le]%andb_true_iff].
  assert (128 <= bn b <= 191) as Hb. { destruct (N.eqb_spec (bn a) 240), (N.eqb_spec (bn a) 244); lia. }
  apply Utf8_4; rewrite ?/continues; try lia; destruct (N.eqb_spec (bn a) 240), (N.eqb_spec (bn a) 244); lia.
Qed.
Lemma encode_utf8 x : scalar x -> utf8_char x (encode_rune x).
Proof. intros H. apply (decode_utf8 (encode_rune x ++ []) x _ []). by apply decode_encode. Qed.
Lemma scalar_or v : v < 65536 -> surrogate v = false -> scalar v.
Proof. rewrite /surrogate /scalar. intros H1 H2. apply andb_false_iff in H2 as [H2|H2]; apply N.leb_gt in H2; lia. Qed.
Lemma surrogate_spec v : surrogate v = true <-> 55296 <= v < 57344.
Proof. rewrite /surrogate andb_true_iff !N.leb_le. lia. Qed.
Lemma hex4_of h x : four_hex h x <-> exists a b c d, h = [a; b; c; d] /\ hex4 a b c d = Some x.
Proof.
  rewrite /four_hex. split.
  - intros [Hl Hx]. destruct h as [|a [|b [|c [|d [|]]]]]; try done. exists a, b, c, d. split; [done|]. by apply hex4_spec.
  - intros (a & b & c & d & -> & H). split; [done|]. by apply hex4_spec in H.
Qed.
Lemma hex4_bound a b c d x : hex4 a b c d = Some x -> x < 65536.
Proof.
  rewrite /hex4. repeat (case_match; try done). intros [= <-].
  repeat match goal with H : andb _ _ = true |- _ => apply andb_true_iff in H as [? ?] | H : (_ <? _)%N = true |- _ => apply N.ltb_lt in H end. lia.
Qed.
Lemma utf8_first x a bs : utf8_char x (a :: bs) -> (x < 128 /\ x = bn a /\ bs = []) \/ (128 <= x /\ 128 <= bn a).
Proof. intros H. inversion H; subst; unfold continues in *; [left|right..]; split; try done; lia. Qed.
Lemma step_char a bs n tail : string_char false a bs -> unquote_fuel (S n) (a ++ tail) = before bs (unquote_fuel n tail).
Proof.
  intros H. destruct H as [x bs Hx H1 H2 H3|e c H|h x bs H Hx|h l hi lo bs Hh Hl H1 H2 Hx|h x H|c H]; try done.
  - destruct (utf8_char_encode x bs Hx) as [Hs E]. destruct bs as [|a bs]; [by destruct (encode_nonempty x Hs)|].
    destruct (utf8_first x a bs Hx) as [(Ha & -> & ->)|[Ha Hb]].
    + cbn [app unquote_fuel]. destruct (Ascii.eqb_spec a quote) as [->|]; [done|]. destruct (Ascii.eqb_spec a "\") as [->|]; [done|].
      destruct (N.ltb_spec (bn a) 32); [lia|]. change (a :: tail) with ([a] ++ tail). by rewrite E decode_encode.
    + cbn [app unquote_fuel]. destruct (Ascii.eqb_spec a quote) as [->|]; [by vm_compute in Hb|]. destruct (Ascii.eqb_spec a "\") as [->|]; [by vm_compute in Hb|].
      destruct (N.ltb_spec (bn a) 32); [lia|]. change (a :: bs ++ tail) with ((a :: bs) ++ tail). by rewrite E decode_encode.
  - cbn [In] in H. repeat destruct H as [[= <- <-]|H]; try done.
  - apply hex4_of in H as (a & b & c & d & -> & H). destruct (utf8_char_encode x bs Hx) as [Hs E]. cbn [app unquote_fuel].
    replace (Ascii.eqb "\" quote) with false by done. rewrite !Ascii.eqb_refl H. destruct (surrogate x) eqn:Ex; [|by rewrite -E].
    apply surrogate_spec in Ex. destruct Hs. lia.
  - apply hex4_of in Hh as (a & b & c & d & -> & H). apply hex4_of in Hl as (a' & b' & c' & d' & -> & H'). destruct (utf8_char_encode _ bs Hx) as [Hs E].
    cbn [app unquote_fuel]. replace (Ascii.eqb "\" quote) with false by done. rewrite !Ascii.eqb_refl H.
    assert (surrogate hi = true) as -> by (apply surrogate_spec; lia). cbn [andb]. rewrite H'. rewrite /utf16_pair.
    destruct (N.leb_spec 55296 hi); [|lia]. destruct (N.ltb_spec hi 56320); [|lia]. destruct (N.leb_spec 56320 lo); [|lia]. destruct (N.ltb_spec lo 57344); [|lia].
    cbn [andb]. replace ((hi - 55296) * 1024 + (lo - 56320) + 65536) with (65536 + (hi - 55296) * 1024 + (lo - 56320)) by lia. by rewrite -E.
Qed.
Lemma char_nonempty lax a bs : string_char lax a bs -> (1 <= length a)%nat.
Proof. intros H. destruct H as [x bs H| | | | |]; cbn [length]; try lia. destruct H; cbn; lia. Qed.
Lemma chars_fuel s t : string_chars false s t -> forall n rest, (length s < n)%nat -> unquote_fuel n (s ++ quote :: rest) = Some (t, rest).
Proof.
  induction 1 as [|a bs s t Ha _ IH]; intros n rest Hn; (destruct n as [|n]; [lia|]); [reflexivity|].
  rewrite -app_assoc (step_char _ _ _ _ Ha) IH; [|done]. rewrite app_length in Hn. pose proof (char_nonempty _ _ _ Ha). lia.
Qed.
Lemma chars_complete s t rest : string_chars false s t -> unquote (s ++ quote :: rest) = Some (t, rest).
Proof. intros H. rewrite /unquote. apply (chars_fuel _ _ H). rewrite app_length. cbn [length]. lia. Qed.

Lemma chars_sound n : forall l t rest, unquote_fuel n l = Some (t, rest) -> exists s, l = s ++ quote :: rest /\ string_chars true s t.
Proof.
  induction n as [|n IH]; intros l t rest; [done|]. cbn [unquote_fuel].
  assert (forall a bs l', string_char true a bs -> match unquote_fuel n l' with Some (s, rest) => Some (bs ++ s, rest) | None => None end = Some (t, rest) ->
    exists s, a ++ l' = s ++ quote :: rest /\ string_chars true s t) as more.
  { intros a bs l' Ha H. destruct (unquote_fuel n l') as [[t' rest']|] eqn:E; [|done]. injection H as <- ->. destruct (IH _ _ _ E) as (s & -> & Hs).
    exists (a ++ s). split; [by rewrite app_assoc|by constructor]. }
  destruct l as [|c r]; [done|]. destruct (Ascii.eqb_spec c quote) as [->|Hq]; [intros [= <- <-]; exists []; split; [done|constructor]|].
  destruct (Ascii.eqb_spec c "\") as [->|Hb].
  - destruct r as [|e r]; [done|]. destruct (Ascii.eqb_spec e "u") as [->|Hu].
    + destruct r as [|h1 [|h2 [|h3 [|h4 r]]]]; try done. destruct (hex4 h1 h2 h3 h4) as [v|] eqn:Ev; [|done].
      assert (four_hex [h1; h2; h3; h4] v) as Hv by (apply hex4_of; by exists h1, h2, h3, h4).
      destruct (surrogate v) eqn:Es.
      * assert (string_char true ("\" :: "u" :: [h1; h2; h3; h4]) replacement) as Hrep. { apply (SC_half _ _ v); [done..|]. by apply surrogate_spec. }
        destruct r as [|b [|u [|g1 [|g2 [|g3 [|g4 r2]]]]]]; try (apply (more _ _ _ Hrep)).
        destruct (Ascii.eqb_spec b "\") as [->|]; [|apply (more _ _ _ Hrep)]. destruct (Ascii.eqb_spec u "u") as [->|]; [|apply (more _ _ _ Hrep)]. cbn [andb].
        destruct (hex4 g1 g2 g3 g4) as [w|] eqn:Ew; [|apply (more _ _ _ Hrep)]. destruct (utf16_pair v w) as [x|] eqn:Ex; [|apply (more _ _ _ Hrep)].
        rewrite /utf16_pair in Ex. destruct (_ && _) eqn:Eb in Ex; [|done]. injection Ex as <-.
        apply andb_true_iff in Eb as [[[?%N.leb_le ?%N.ltb_lt]%andb_true_iff ?%N.leb_le]%andb_true_iff ?%N.ltb_lt].
        replace ((v - 55296) * 1024 + (w - 56320) + 65536) with (65536 + (v - 55296) * 1024 + (w - 56320)) by lia.
        intros Hr2. destruct (more ("\" :: "u" :: [h1; h2; h3; h4] ++ "\" :: "u" :: [g1; g2; g3; g4]) (encode_rune (65536 + (v - 55296) * 1024 + (w - 56320))) r2) as (s & E & Hs); [|exact Hr2|].
        { apply (SC_pair _ [h1; h2; h3; h4] [g1; g2; g3; g4] v w); [done|apply hex4_of; by exists g1, g2, g3, g4|lia|lia|]. apply encode_utf8. rewrite /scalar. lia. }
        exists s. split; [exact E|exact Hs].
      * apply (more ("\" :: "u" :: [h1; h2; h3; h4]) _ r). apply (SC_code _ _ v); [done|]. apply encode_utf8, scalar_or; [exact (hex4_bound _ _ _ _ _ Ev)|done].
    + destruct (json_escape e) as [d|] eqn:Ee; [|done]. apply (more ["\"; e] [d] r). apply SC_escape. by apply json_escape_spec.
  - destruct (N.ltb_spec (bn c) 32) as [|H32]; [done|]. destruct (decode_rune (c :: r)) as [[[v bs] rest']|] eqn:Ed.
    + destruct (decode_some _ _ _ _ Ed) as (El & Ee & Hne & _). rewrite El Ee. apply more. pose proof (decode_utf8 _ _ _ _ Ed) as Hv.
      destruct bs as [|a bs]; [done|]. injection El as <- _. apply (SC_plain _ v); [done|..]; destruct (utf8_first _ _ _ Hv) as [(?&?&?)|[??]]; try lia; subst v.
      * intros E. apply Hq. rewrite -(ascii_N_embedding c) E. done.
      * intros E. apply Hb. rewrite -(ascii_N_embedding c) E. done.
    + apply (more [c] replacement r). apply SC_invalid; [done|]. cbn [decode_rune] in Ed.
      destruct (N.ltb_spec (bn c) 128); [done|lia].
Qed.

(** * Numbers *)
Lemma digit_spec c : is_digit c = true <-> digit c.
Proof. rewrite /is_digit /digit andb_true_iff !N.leb_le. done. Qed.
Lemma digits_spec d : Forall (fun c => is_digit c = true) d <-> Forall digit d.
Proof. split; intros H; apply (Forall_impl _ _ _ H); intros c Hc; by apply digit_spec. Qed.
(** What may follow a number *)
Definition stops (l : text) : Prop := match l with [] => True | c :: _ => is_digit c = false /\ ~ In c ["."; "e"; "E"] end.
Lemma stop_digit l : stops l -> match l with c :: _ => is_digit c = false | [] => True end.
Proof. destruct l; [done|]. by intros [? _]. Qed.
Lemma exp_complete exp r : exp = [] \/ (exists e s d, exp = e :: s ++ d /\ In e ["e"; "E"] /\ In s [[]; ["+"]; ["-"]] /\ digits d) -> stops r -> num_exp (exp ++ r) = Some (exp, r).
Proof.
  intros [->|(e & s & d & -> & He & Hs & Hne & Hd)] Hr.
  - cbn [app]. destruct r as [|c r]; [done|]. destruct Hr as [_ Hr]. cbn [num_exp].
    destruct (Ascii.eqb_spec c "e") as [->|]; [by destruct Hr; right; left|]. destruct (Ascii.eqb_spec c "E") as [->|]; [by destruct Hr; right; right; left|]. done.
  - cbn [app num_exp]. assert (Ascii.eqb e "e" || Ascii.eqb e "E" = true) as ->. { destruct He as [<-|[<-|[]]]; done. }
    assert (take_digits (d ++ r) = (d, r)) as Ht. { apply take_digits_app; [by apply digits_spec|by apply stop_digit]. }
    destruct d as [|x d]; [done|]. assert (digit x) as Hx by (by inversion Hd).
    destruct Hs as [<-|[<-|[<-|[]]]]; cbn [app] in *.
    + assert (Ascii.eqb x "+" || Ascii.eqb x "-" = false) as ->.
      { destruct (Ascii.eqb_spec x "+") as [->|]; [destruct Hx as [Hx _]; by destruct Hx|]. destruct (Ascii.eqb_spec x "-") as [->|]; [destruct Hx as [Hx _]; by destruct Hx|]. done. }
      by rewrite Ht.
    + cbn [Ascii.eqb Bool.eqb orb]. by rewrite Ht.
    + cbn [Ascii.eqb Bool.eqb orb]. by rewrite Ht.
Qed.
Lemma frac_complete frac r : frac = [] \/ (exists d, frac = "." :: d /\ digits d) -> match r with c :: _ => is_digit c = false /\ c <> "." | [] => True end -> num_frac (frac ++ r) = Some (frac, r).
Proof.
  intros [->|(d & -> & Hne & Hd)] Hr.
  - cbn [app]. destruct r as [|c r]; [done|]. destruct Hr as [_ Hr]. cbn [num_frac]. by destruct (Ascii.eqb_spec c ".") as [->|].
  - cbn [app num_frac]. rewrite Ascii.eqb_refl take_digits_app; [by apply digits_spec|by destruct r; [|destruct Hr]|]. by destruct d.
Qed.
Lemma digit_zero c : digit c -> c <> "-".
Proof. intros [H _] ->. by vm_compute in H. Qed.
Lemma number_complete s r : number s -> stops r -> take_number (s ++ r) = Some (s, r).
Proof.
  intros [sign int frac exp Hs Hi Hf He] Hr. rewrite -!app_assoc. rewrite /take_number.
  pose proof (exp_complete _ _ He Hr) as Hexp.
  assert (match exp ++ r with c :: _ => is_digit c = false /\ c <> "." | [] => True end) as Hr1.
  { destruct He as [->|(e & sg & d & -> & He & _)].
    - cbn [app]. destruct r as [|c r]; [done|]. destruct Hr as [H1 H2]. split; [done|]. intros ->. apply H2. by left.
    - cbn [app]. destruct He as [<-|[<-|[]]]; done. }
  pose proof (frac_complete _ _ Hf Hr1) as Hfrac.
  assert (match frac ++ exp ++ r with c :: _ => is_digit c = false | [] => True end) as Hr2.
  { destruct Hf as [->|(d & -> & _)]; [|done]. cbn [app]. by destruct (exp ++ r); [|destruct Hr1]. }
  assert (exists c d, int = c :: d /\ digit c /\ Forall digit d /\ (c = "0" -> d = [])) as (c & d & -> & Hc & Hd & Hz).
  { destruct Hi as [->|(c & d & -> & Hc & Hz & Hd)]; [exists "0", []|exists c, d]; split_and!; try done. }
  assert (take_digits ((c :: d) ++ frac ++ exp ++ r) = (c :: d, frac ++ exp ++ r)) as Ht.
  { apply take_digits_app; [|done]. apply digits_spec. by constructor. }
  assert (match sign ++ (c :: d) ++ frac ++ exp ++ r with [] => ([], []) | x :: r0 => if Ascii.eqb x "-" then ([x], r0) else ([], sign ++ (c :: d) ++ frac ++ exp ++ r) end
    = (sign, (c :: d) ++ frac ++ exp ++ r)) as ->.
  { destruct Hs as [-> | ->]; [|done]. cbn [app]. destruct (Ascii.eqb_spec c "-") as [E|]; [by destruct (digit_zero c Hc)|done]. }
  rewrite Ht. assert ((if Ascii.eqb c "0" then ([c], d ++ frac ++ exp ++ r) else (c :: d, frac ++ exp ++ r)) = (c :: d, frac ++ exp ++ r)) as ->.
  { destruct (Ascii.eqb_spec c "0") as [E|]; [|done]. by rewrite (Hz E). }
  by rewrite Hfrac Hexp.
Qed.
Lemma take_digits_sound l d r : take_digits l = (d, r) -> l = d ++ r /\ Forall digit d.
Proof. intros H. apply take_digits_spec in H as (-> & H & _). split; [done|]. by apply digits_spec. Qed.
Lemma exp_sound l e r : num_exp l = Some (e, r) -> l = e ++ r /\ (e = [] \/ (exists x s d, e = x :: s ++ d /\ In x ["e"; "E"] /\ In s [[]; ["+"]; ["-"]] /\ digits d)).
Proof.
  destruct l as [|c l]; [intros [= <- <-]; auto|]. cbn [num_exp]. destruct (Ascii.eqb c "e" || Ascii.eqb c "E") eqn:Ec; [|intros [= <- <-]; auto].
  assert (In c ["e"; "E"]) as Hc. { apply orb_true_iff in Ec as [Ec|Ec]; apply Ascii.eqb_eq in Ec as ->; cbn; auto. }
  assert (forall s l', In s [[]; ["+"]; ["-"]] -> match take_digits l' with ([], _) => None | (d, r) => Some (c :: s ++ d, r) end = Some (e, r) -> c :: s ++ l' = e ++ r /\
    (e = [] \/ (exists x s d, e = x :: s ++ d /\ In x ["e"; "E"] /\ In s [[]; ["+"]; ["-"]] /\ digits d))) as Hgo.
  { intros s l' Hs H. destruct (take_digits l') as [[|a d] r'] eqn:E; [done|]. injection H as <- <-. apply take_digits_sound in E as [-> Hd]. split.
    - cbn [app]. by rewrite -app_assoc.
    - right. exists c, s, (a :: d). split_and!; try done. }
  destruct l as [|x l]; [done|]. destruct (Ascii.eqb x "+" || Ascii.eqb x "-") eqn:Ex.
  - apply (Hgo [x]). apply orb_true_iff in Ex as [Ex|Ex]; apply Ascii.eqb_eq in Ex as ->; cbn; auto.
  - apply (Hgo []). by left.
Qed.
Lemma frac_sound l f r : num_frac l = Some (f, r) -> l = f ++ r /\ (f = [] \/ (exists d, f = "." :: d /\ digits d)).
Proof.
  destruct l as [|c l]; [intros [= <- <-]; auto|]. cbn [num_frac]. destruct (Ascii.eqb_spec c ".") as [->|]; [|intros [= <- <-]; auto].
  destruct (take_digits l) as [[|a d] r'] eqn:E; [done|]. intros [= <- <-]. apply take_digits_sound in E as [-> Hd]. split; [done|]. right. by exists (a :: d).
Qed.
Lemma number_sound l s r : take_number l = Some (s, r) -> l = s ++ r /\ number s.
Proof.
  rewrite /take_number. set (p := match l with [] => _ | _ => _ end).
  assert (l = fst p ++ snd p /\ (fst p = [] \/ fst p = ["-"])) as [El Hs].
  { subst p. destruct l as [|x l]; [by split; [|left]|]. destruct (Ascii.eqb_spec x "-") as [->|]; cbn; auto. }
  clearbody p. destruct p as [sign l']. cbn [fst snd] in *. subst l. destruct (take_digits l') as [[|c d] r1] eqn:E; [done|]. apply take_digits_sound in E as [-> Hd]. inversion Hd as [|? ? Hc Hd']; subst.
  set (q := if Ascii.eqb c "0" then _ else _).
  assert ((c :: d) ++ r1 = fst q ++ snd q /\ (fst q = ["0"] \/ (exists c d, fst q = c :: d /\ digit c /\ c <> "0" /\ Forall digit d))) as [Eq Hq].
  { subst q. destruct (Ascii.eqb_spec c "0") as [->|]; cbn [fst snd]; [by split; [|left]|]. split; [done|]. right. by exists c, d. }
  clearbody q. destruct q as [int r2]. cbn [fst snd] in *. rewrite Eq. destruct (num_frac r2) as [[f r3]|] eqn:Ef; [|done]. apply frac_sound in Ef as [-> Hf].
  destruct (num_exp r3) as [[e r4]|] eqn:Ee; [|done]. apply exp_sound in Ee as [-> He]. intros [= <- <-]. split; [by rewrite -!app_assoc|]. by constructor.
Qed.
