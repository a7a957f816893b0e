(** Proofs about reading events with simple fields. *)
From Verif Require Import Base StrOrder ReflModel TimeModel NumModel ReflProofs ReflProofs2 ReflProofs3 EventModel EventSpec EventProofs PyProps FlatSpec.
From Coq Require Import ssreflect Sorted DecimalString DecimalFacts DecimalPos DecimalN.
Local Open Scope general_if_scope.
Local Open Scope N_scope.

(** * Numerals *)
Lemma of_acc u : forall acc, Npos (Pos.of_uint_acc u acc) = Npos acc * 10 ^ N.of_nat (Decimal.nb_digits u) + N.of_uint u.
Proof.
  induction u as [|u IH|u IH|u IH|u IH|u IH|u IH|u IH|u IH|u IH|u IH]; intros acc; cbn [Pos.of_uint_acc Decimal.nb_digits];
    [cbn; lia|..]; rewrite IH Nat2N.inj_succ N.pow_succ_r'; try (rewrite /N.of_uint /Pos.of_uint; fold Pos.of_uint; fold (Pos.of_uint u); fold (N.of_uint u)).
  1: { change (N.of_uint u) with (Pos.of_uint u). lia. }
  all: rewrite ?IH; change (Pos.of_uint u) with (N.of_uint u); lia.
Qed.
Lemma of_digit d u : (d < 10)%N -> forall f, (f = Decimal.D0 /\ d = 0) \/ (f = Decimal.D1 /\ d = 1) \/ (f = Decimal.D2 /\ d = 2) \/ (f = Decimal.D3 /\ d = 3) \/ (f = Decimal.D4 /\ d = 4) \/
  (f = Decimal.D5 /\ d = 5) \/ (f = Decimal.D6 /\ d = 6) \/ (f = Decimal.D7 /\ d = 7) \/ (f = Decimal.D8 /\ d = 8) \/ (f = Decimal.D9 /\ d = 9) ->
  N.of_uint (f u) = d * 10 ^ N.of_nat (Decimal.nb_digits u) + N.of_uint u.
Proof.
  intros _ f H. repeat destruct H as [[-> ->]|H]; [..|destruct H as [-> ->]]; [done|..]; rewrite {1}/N.of_uint /Pos.of_uint; fold Pos.of_uint; by rewrite of_acc.
Qed.
Lemma char_digit c u v : uint_of_char c (Some u) = Some v -> exists d, digit_is c d /\ N.of_uint v = d * 10 ^ N.of_nat (Decimal.nb_digits u) + N.of_uint u /\ Decimal.nb_digits v = S (Decimal.nb_digits u).
Proof.
  intros H. assert (forall d f, v = f u -> digit_is c d -> ((f = Decimal.D0 /\ d = 0) \/ (f = Decimal.D1 /\ d = 1) \/ (f = Decimal.D2 /\ d = 2) \/ (f = Decimal.D3 /\ d = 3) \/ (f = Decimal.D4 /\ d = 4) \/
    (f = Decimal.D5 /\ d = 5) \/ (f = Decimal.D6 /\ d = 6) \/ (f = Decimal.D7 /\ d = 7) \/ (f = Decimal.D8 /\ d = 8) \/ (f = Decimal.D9 /\ d = 9)) ->
    exists d, digit_is c d /\ N.of_uint v = d * 10 ^ N.of_nat (Decimal.nb_digits u) + N.of_uint u /\ Decimal.nb_digits v = S (Decimal.nb_digits u)) as K.
  { intros d f -> Hd Hf. exists d. split; [done|]. split; [apply of_digit; [by destruct Hd|done]|]. repeat destruct Hf as [[-> ->]|Hf]; try done. by destruct Hf as [-> ->]. }
  cbn in H. destruct c as [[] [] [] [] [] [] [] []]; try discriminate H; injection H as <-;
  first [solve [apply (K 0 Decimal.D0); [reflexivity|split; reflexivity|tauto]]|solve [apply (K 1 Decimal.D1); [reflexivity|split; reflexivity|tauto]]|solve [apply (K 2 Decimal.D2); [reflexivity|split; reflexivity|tauto]]|solve [apply (K 3 Decimal.D3); [reflexivity|split; reflexivity|tauto]]|solve [apply (K 4 Decimal.D4); [reflexivity|split; reflexivity|tauto]]|solve [apply (K 5 Decimal.D5); [reflexivity|split; reflexivity|tauto]]|solve [apply (K 6 Decimal.D6); [reflexivity|split; reflexivity|tauto]]|solve [apply (K 7 Decimal.D7); [reflexivity|split; reflexivity|tauto]]|solve [apply (K 8 Decimal.D8); [reflexivity|split; reflexivity|tauto]]|solve [apply (K 9 Decimal.D9); [reflexivity|split; reflexivity|tauto]]].
Qed.
Lemma digit_char c d u : digit_is c d -> exists v, uint_of_char c (Some u) = Some v.
Proof.
  intros [H1 H2]. assert (c = ascii_of_N (48 + d)) as -> by (by rewrite -H2 ascii_N_embedding).
  assert (d = 0 \/ d = 1 \/ d = 2 \/ d = 3 \/ d = 4 \/ d = 5 \/ d = 6 \/ d = 7 \/ d = 8 \/ d = 9) as Hd by lia.
  repeat destruct Hd as [-> | Hd]; [by eexists..|]. subst. by eexists.
Qed.
Lemma digit_det c d d' : digit_is c d -> digit_is c d' -> d = d'.
Proof. intros [_ H1] [_ H2]. lia. Qed.
Lemma empty_digits s u : NilEmpty.uint_of_string s = Some u -> Decimal.nb_digits u = String.length s /\ (s = ""%string \/ decimal_text s (N.of_uint u)).
Proof.
  revert u. induction s as [|c s IH]; intros u; cbn [NilEmpty.uint_of_string].
  - intros [= <-]. split; [done|by left].
  - destruct (NilEmpty.uint_of_string s) as [v|] eqn:E; [|by destruct c as [[] [] [] [] [] [] [] []]].
    intros H. destruct (char_digit _ _ _ H) as (d & Hd & E1 & E2). destruct (IH v eq_refl) as [L Hs]. split; [by rewrite E2 L|]. right. rewrite E1.
    destruct Hs as [-> | Hs]; [|rewrite L; by constructor]. injection E as <-. cbn. replace (d * 1 + 0) with d by lia. by constructor.
Qed.
Lemma digits_empty s n : decimal_text s n -> exists u, NilEmpty.uint_of_string s = Some u /\ N.of_uint u = n.
Proof.
  induction 1 as [c d Hd|c d s n Hd Hs (u & E & En)]; cbn [NilEmpty.uint_of_string].
  - destruct (digit_char c d Decimal.Nil Hd) as [v E]. exists v. split; [done|]. destruct (char_digit _ _ _ E) as (d' & Hd' & -> & _).
    rewrite (digit_det _ _ _ Hd Hd'). cbn. lia.
  - destruct (digit_char c d u Hd) as [v Ev]. exists v. rewrite E. split; [done|]. destruct (char_digit _ _ _ Ev) as (d' & Hd' & -> & _).
    rewrite (digit_det _ _ _ Hd Hd') En. by destruct (empty_digits _ _ E) as [-> _].
Qed.
Lemma parse_uint_digits s n : parse_uint s = Some n <-> decimal_text s n /\ n < 2 ^ 64.
Proof.
  rewrite /parse_uint. change (2 ^ 64) with two64. destruct s as [|c s]; [split; [done|]; intros [H _]; inversion H|].
  change (NilZero.uint_of_string (String c s)) with (NilEmpty.uint_of_string (String c s)).
  destruct (NilEmpty.uint_of_string (String c s)) as [u|] eqn:E.
  - destruct (empty_digits _ _ E) as [_ [? | Hd]]; [done|]. split.
    + destruct (N.ltb_spec (N.of_uint u) two64) as [Hlt|]; [|done]. by intros [= <-].
    + intros [H Hn]. destruct (digits_empty _ _ H) as (u' & E' & <-). assert (u' = u) as -> by congruence.
      destruct (N.ltb_spec (N.of_uint u) two64); [done|lia].
  - split; [done|]. intros [H _]. destruct (digits_empty _ _ H) as (u' & E' & _). congruence.
Qed.
Lemma digits_head c s n : decimal_text (String c s) n -> c <> "+"%char /\ c <> "-"%char.
Proof. intros H. assert (exists d, digit_is c d) as (d & H1 & H2) by (inversion H; subst; eauto). split; intros ->; [change (N_of_ascii "+"%char) with 43 in H2|change (N_of_ascii "-"%char) with 45 in H2]; lia. Qed.
Lemma parse_int_text s z : parse_int s = Some z <-> int_text s z /\ (- 2 ^ 63 <= z < 2 ^ 63)%Z.
Proof.
  change (2 ^ 63)%Z with 9223372036854775808%Z. rewrite /parse_int. destruct s as [|c s].
  { split; [done|]. intros [H _]. inversion H as [? ? Hd| |]; inversion Hd. }
  destruct (Ascii.eqb_spec c "-") as [->|Hm].
  - split.
    + destruct (parse_uint s) as [n|] eqn:E; [|done]. apply parse_uint_digits in E as [E _]. destruct (N.leb_spec n 9223372036854775808) as [Hle|]; [|done].
      intros [= <-]. split; [by constructor|lia].
    + intros [H Hz]. inversion H as [? n Hd| |? n Hd]; subst; [by destruct (digits_head _ _ _ Hd)|].
      assert (n < 2 ^ 64) as Hn by (change (2 ^ 64) with 18446744073709551616; lia). rewrite (proj2 (parse_uint_digits _ _) (conj Hd Hn)). destruct (N.leb_spec n 9223372036854775808) as [|]; [done|lia].
  - destruct (Ascii.eqb_spec c "+") as [->|Hp].
    + split.
      * destruct (parse_uint s) as [n|] eqn:E; [|done]. apply parse_uint_digits in E as [E _]. destruct (N.ltb_spec n 9223372036854775808) as [Hle|]; [|done].
        intros [= <-]. split; [by constructor|lia].
      * intros [H Hz]. inversion H as [? n Hd|? n Hd|]; subst; [by destruct (digits_head _ _ _ Hd)|].
        assert (n < 2 ^ 64) as Hn by (change (2 ^ 64) with 18446744073709551616; lia). rewrite (proj2 (parse_uint_digits _ _) (conj Hd Hn)). destruct (N.ltb_spec n 9223372036854775808) as [|]; [done|lia].
    + split.
      * destruct (parse_uint (String c s)) as [n|] eqn:E; [|done]. apply parse_uint_digits in E as [E _]. destruct (N.ltb_spec n 9223372036854775808) as [Hle|]; [|done].
        intros [= <-]. split; [by constructor|lia].
      * intros [H Hz]. inversion H as [? n Hd|? n Hd|]; subst; [|done..].
        assert (n < 2 ^ 64) as Hn by (change (2 ^ 64) with 18446744073709551616; lia). rewrite (proj2 (parse_uint_digits _ _) (conj Hd Hn)). destruct (N.ltb_spec n 9223372036854775808) as [|]; [done|lia].
Qed.
Lemma wrap_int_spec b z w : 0 < b -> wrap_int b z = w <-> (- 2 ^ (Z.of_N b - 1) <= w < 2 ^ (Z.of_N b - 1))%Z /\ (exists q, z = w + q * 2 ^ Z.of_N b)%Z.
Proof.
  intros Hb. rewrite /wrap_int. set (B := Z.of_N b). assert (2 ^ B = 2 * 2 ^ (B - 1))%Z as Hp by (rewrite -Z.pow_succ_r; [lia|f_equal; lia]).
  assert (0 < 2 ^ (B - 1))%Z as H0 by (apply Z.pow_pos_nonneg; lia).
  pose proof (Z.mod_pos_bound z (2 ^ B) ltac:(lia)) as Hm. pose proof (Z.div_mod z (2 ^ B) ltac:(lia)) as Hd.
  set (m := (z mod 2 ^ B)%Z) in *. set (q0 := (z / 2 ^ B)%Z) in *. split.
  - destruct (Z.ltb_spec m (2 ^ (B - 1))); intros <-; (split; [lia|]); [exists q0; lia|exists (q0 + 1)%Z; lia].
  - intros [Hr [q E]]. assert (2 ^ B * (q0 - q) + (m - w) = 0)%Z as HE by lia. set (P := (2 ^ (B - 1))%Z) in *. rewrite Hp in Hm, HE |- *.
    set (k := (q0 - q)%Z) in *. assert (k = 0 \/ k = -1)%Z as [Hk | Hk] by nia; rewrite Hk in HE; destruct (Z.ltb_spec m P); lia.
Qed.
Lemma wrap_uint_spec b n w : wrap_uint b n = w <-> (w < 2 ^ b) /\ (exists q, n = w + q * 2 ^ b).
Proof.
  rewrite /wrap_uint. assert (2 ^ b <> 0) as H0 by (by apply N.pow_nonzero). split.
  - intros <-. split; [by apply N.mod_lt|]. exists (n / 2 ^ b). pose proof (N.div_mod n (2 ^ b) H0). lia.
  - intros [Hw [q ->]]. rewrite N.mod_add; [done|]. by apply N.mod_small.
Qed.

(** * One field *)
Definition pv (t : ty) (s : string) : option val := match parse_value t s with POk v => Some v | _ => None end.
Lemma pv_text t s v : simple_field t -> pv t s = Some v <-> text_value t s v.
Proof.
  rewrite /pv. destruct t as [[] k| | | | | |]; try done; intros Hs; cbn [parse_value text_value].
  - destruct k; cbn [parse_scalar]; cbn in Hs.
    + rewrite /parse_bool. destruct (bool_decide_reflect (s ∈ ["1"; "t"; "T"; "true"; "TRUE"; "True"]%string)) as [H|H].
      * cbn. rewrite elem_of_list_In in H. split; [intros [= <-]; by left|]. intros [[_ ->]|[H2 _]]; [done|]. exfalso. cbn in H, H2. intuition congruence.
      * rewrite elem_of_list_In in H. destruct (bool_decide_reflect (s ∈ ["0"; "f"; "F"; "false"; "FALSE"; "False"]%string)) as [H1|H1]; rewrite elem_of_list_In in H1; cbn [fmap option_fmap option_map opt_res].
        -- split; [intros [= <-]; by right|]. intros [[? _]|[_ ->]]; done.
        -- split; [done|]. intros [[? _]|[? _]]; done.
    + destruct (parse_int s) as [z|] eqn:E; cbn.
      * apply parse_int_text in E as [E Hz]. split.
        -- intros [= <-]. exists z, (wrap_int bits z). split; [done|]. split; [done|]. split; [done|]. apply wrap_int_spec; [lia|done].
        -- intros (z' & w & Hz' & Hr & -> & Hw). assert (z' = z) as ->.
           { assert (parse_int s = Some z) as K1 by (by apply parse_int_text). assert (parse_int s = Some z') as K2 by (by apply parse_int_text). congruence. }
           f_equal. f_equal. apply wrap_int_spec; [lia|done].
      * split; [done|]. intros (z & w & H1 & H2 & _). rewrite (proj2 (parse_int_text s z)) // in E.
    + destruct (parse_uint s) as [n|] eqn:E; cbn.
      * apply parse_uint_digits in E as [E Hz]. split.
        -- intros [= <-]. exists n, (wrap_uint bits n). split; [done|]. split; [done|]. split; [done|]. by apply wrap_uint_spec.
        -- intros (n' & w & Hz' & Hr & -> & Hw). assert (n' = n) as ->.
           { assert (parse_uint s = Some n) as K1 by (by apply parse_uint_digits). assert (parse_uint s = Some n') as K2 by (by apply parse_uint_digits). congruence. }
           f_equal. f_equal. by apply wrap_uint_spec.
      * split; [done|]. intros (n & w & H1 & H2 & _). rewrite (proj2 (parse_uint_digits s n)) // in E.
    + cbn. split; [by intros [= <-]|by intros ->].
    + destruct (parse_float32 s) as [x|]; cbn; (split; [try done; intros [= <-]; by exists x|]); intros (x' & E & ->); congruence.
    + destruct (parse_float64 s) as [x|]; cbn; (split; [try done; intros [= <-]; by exists x|]); intros (x' & E & ->); congruence.
    + destruct (parse_duration s) as [x|]; cbn; (split; [try done; intros [= <-]; by exists x|]); intros (x' & E & ->); congruence.
  - destruct (parse_time s) as [x|]; cbn; (split; [try done; intros [= <-]; by exists x|]); intros (x' & E & ->); congruence.
Qed.
Lemma pv_err t s : simple_field t -> pv t s = None -> parse_value t s = PErr.
Proof.
  rewrite /pv. destruct t as [[] k| | | | | |]; try done; intros _; cbn [parse_value].
  - by destruct (parse_scalar k s).
  - by destruct (parse_time s).
Qed.
Lemma simple_py t : simple_field t -> PyProps.simple t.
Proof. by destruct t. Qed.

(** * All fields *)
Section fields.
  Context (M : gmap string string).
  Fixpoint result (fs : list (string * ty)) (l : list (string * val)) : list (string * val) :=
    match fs with
    | [] => l
    | (n, t) :: fs => match M !! n ≫= pv t with Some v => result fs (set_field n v l) | None => l end
    end.
  Lemma set_names n v l : map fst (set_field n v l) = map fst l.
  Proof. rewrite /set_field map_map. apply map_ext. intros [m x]. cbn. by destruct (String.eqb_spec m n). Qed.
  Lemma run_empty fs l : (forall f, f ∈ fs -> fst f ∈ map fst l /\ simple_field (snd f)) -> NoDup (map fst l) -> run_fields "" (map (fun f => (fst f, unflat (snd f))) fs) l [] = (l, Some [], false).
  Proof using.
    induction fs as [|[n t] fs IH]; intros Hf Hnd; [done|]. destruct (Hf (n, t) ltac:(left)) as [H1 H2]. cbn [fst snd] in *. destruct (get_field_elem n l H1) as [x Hx].
    cbn [map run_fields fst snd]. rewrite Hx. replace (unflat t (nest "" n) x []) with (UOk x []) by (by destruct t). rewrite (set_get n l x Hnd Hx). apply IH; [|done].
    intros f Hff. apply Hf. by right.
  Qed.
  Lemma run_flat fs : StronglySorted (fun a b : string * ty => slt (fst a) (fst b) = true) fs -> forall l kv, NoDup (map fst l) -> ssorted kv ->
    (forall f, f ∈ fs -> fst f ∈ map fst l /\ simple_field (snd f)) ->
    (forall f s, f ∈ fs -> M !! fst f = Some s <-> (fst f, s) ∈ kv) ->
    (forall f e, f ∈ fs -> M !! fst f = None -> e ∈ kv -> has_prefix (fst f) (fst e) = false) ->
    exists o, run_fields "" (map (fun f => (fst f, unflat (snd f))) fs) l kv = (result fs l, o, false).
  Proof using.
    induction 1 as [|[n t] fs Hs IH Hlt]; intros l kv Hnd Hkv Hf Hm Hno; [by eexists|]. destruct (Hf (n, t) ltac:(left)) as [H1 H2]. cbn [fst snd] in *.
    destruct (get_field_elem n l H1) as [x Hx]. cbn [map run_fields fst snd result]. rewrite Hx. cbn [nest]. destruct (M !! n) as [s|] eqn:En.
    - cbn [mbind option_bind]. apply (Hm (n, t) s ltac:(left)) in En as Hin. destruct (pv t s) as [v|] eqn:Ep.
      + assert (parse_value t s = POk v) as Hp. { rewrite /pv in Ep. destruct (parse_value t s); congruence. }
        destruct (drop_until_exact n s kv Hkv Hin) as (r & Hd & Hsuf & Hk).
        assert (unflat t n x kv = UOk v r) as ->.
        { destruct kv as [|e kv]; [by apply elem_of_nil in Hin|]. destruct t; try done; cbn [unflat]; rewrite (ssorted_is_sorted _ Hkv); cbn [negb]; rewrite Hd Hp; done. }
        assert (forall e, e ∈ r -> e ∈ kv) as Hsub. { intros e He. destruct Hsuf as [k ->]. apply elem_of_app. by right. }
        rewrite Forall_forall in Hlt.
        apply IH.
        * by rewrite set_names.
        * exact (ssorted_suffix _ _ Hsuf Hkv).
        * intros f Hff. rewrite set_names. apply Hf. by right.
        * intros f s' Hff. rewrite (Hm f s' ltac:(by right)). split; [|by apply Hsub]. intros He. apply Hk; [done|]. exact (Hlt f Hff).
        * intros f e Hff Hn He. apply Hno; [by right|done|by apply Hsub].
      + destruct (drop_until_exact n s kv Hkv Hin) as (r & Hd & _).
        assert (unflat t n x kv = UErr x) as ->.
        { pose proof (pv_err _ _ H2 Ep) as Hp. destruct kv as [|e kv]; [by apply elem_of_nil in Hin|]. destruct t; try done; cbn [unflat]; rewrite (ssorted_is_sorted _ Hkv); cbn [negb]; rewrite Hd Hp; done. }
        rewrite (set_get n l x Hnd Hx). by eexists.
    - cbn [mbind option_bind]. assert (unflat t n x kv = UOk x []) as ->.
      { apply unflat_unread; [by destruct t|by apply ssorted_is_sorted|]. intros e He. apply (Hno (n, t) e); [left|done|done]. }
      rewrite (set_get n l x Hnd Hx). rewrite run_empty; [intros f Hff; apply Hf; by right|done|by eexists].
  Qed.
  Definition upto (fs : list (string * ty)) (n : string) : Prop :=
    forall m t, (m, t) ∈ fs -> (m = n \/ slt m n = true) -> exists s v, M !! m = Some s /\ pv t s = Some v.
  Lemma set_elem n v l m x : (m, x) ∈ set_field n v l -> (m <> n /\ (m, x) ∈ l) \/ (m = n /\ x = v).
  Proof using.
    intros ([m' x'] & E & H)%elem_of_list_fmap. cbn [fst] in E. destruct (String.eqb_spec m' n) as [->|Hne].
    - injection E as -> ->. by right.
    - injection E as -> ->. by left.
  Qed.
  Lemma elem_same {A} (l : list (string * A)) n x y : NoDup (map fst l) -> (n, x) ∈ l -> (n, y) ∈ l -> x = y.
  Proof using.
    intros Hnd [i Hi]%elem_of_list_lookup [j Hj]%elem_of_list_lookup. assert (i = j) as ->.
    { eapply (NoDup_lookup (map fst l)); [done|rewrite list_lookup_fmap Hi; reflexivity|rewrite list_lookup_fmap Hj; reflexivity]. }
    congruence.
  Qed.
  Lemma result_spec fs : StronglySorted (fun a b : string * ty => slt (fst a) (fst b) = true) fs -> forall l, NoDup (map fst l) ->
    map fst (result fs l) = map fst l /\
    forall n x x', (n, x) ∈ l -> (n, x') ∈ result fs l ->
      (n ∉ map fst fs -> x' = x) /\
      forall t, (n, t) ∈ fs -> (upto fs n -> exists s, M !! n = Some s /\ pv t s = Some x') /\ (~ upto fs n -> x' = x).
  Proof using.
    induction 1 as [|[m t0] fs Hs IH Hlt]; intros l Hnd; cbn [result].
    { split; [done|]. intros n x x' H1 H2. split; [intros _; exact (elem_same l n x' x Hnd H2 H1)|]. by intros t ?%elem_of_nil. }
    rewrite Forall_forall in Hlt.
    destruct (M !! m ≫= pv t0) as [v|] eqn:E.
    - destruct (M !! m) as [s|] eqn:Em; [|done]. cbn [mbind option_bind] in E.
      destruct (IH (set_field m v l) ltac:(by rewrite set_names)) as [I1 I2]. split; [by rewrite I1 set_names|].
      assert (m ∉ map fst fs) as Hmf. { intros ([m' t'] & -> & Hin)%elem_of_list_fmap. apply Hlt in Hin. cbn in Hin. by rewrite slt_irrefl in Hin. }
      intros n x x' H1 H2. destruct (decide (n = m)) as [->|Hne].
      + assert ((m, v) ∈ set_field m v l) as Hv. { apply elem_of_list_fmap. exists (m, x). cbn. by rewrite String.eqb_refl. }
        destruct (I2 m v x' Hv H2) as [J1 _]. specialize (J1 Hmf) as ->. split; [intros Hn; exfalso; apply Hn; left|].
        intros t Ht. assert (t = t0) as ->. { apply elem_of_cons in Ht as [[= ->]|Ht]; [done|]. exfalso. apply Hmf. apply elem_of_list_fmap. by exists (m, t). }
        split; [intros _; by exists s|]. intros Hno. exfalso. apply Hno. intros m' t' Hin Hle. apply elem_of_cons in Hin as [[= -> ->]|Hin]; [by exists s, v|].
        exfalso. apply Hlt in Hin. cbn in Hin. destruct Hle as [->|Hle]; [by rewrite slt_irrefl in Hin|]. apply slt_asym in Hle. congruence.
      + assert ((n, x) ∈ set_field m v l) as Hv. { apply elem_of_list_fmap. exists (n, x). cbn [fst]. by rewrite (proj2 (String.eqb_neq n m) Hne). }
        destruct (I2 n x x' Hv H2) as [J1 J2]. split; [intros Hn; apply J1; intros Hn'; apply Hn; by right|].
        intros t Ht. apply elem_of_cons in Ht as [[= -> _]|Ht]; [done|]. destruct (J2 t Ht) as [K1 K2]. split.
        * intros Hu. apply K1. intros m' t' Hin. apply Hu. by right.
        * intros Hu. apply K2. intros Hu'. apply Hu. intros m' t' Hin Hle. apply elem_of_cons in Hin as [[= -> ->]|Hin]; [by exists s, v|by apply Hu'].
    - split; [done|]. intros n x x' H1 H2. assert (x' = x) as -> by exact (elem_same l n x' x Hnd H2 H1). split; [done|]. intros t Ht.
      assert (~ upto ((m, t0) :: fs) n) as Hnu; [|by split].
      intros Hu. destruct (Hu m t0 ltac:(left)) as (s & v & E1 & E2); [|rewrite E1 /= E2 in E; done].
      apply elem_of_cons in Ht as [[= -> _]|Ht]; [by left|]. right. exact (Hlt _ Ht).
  Qed.
End fields.

(** * Annotations *)
Lemma last_text_map anns k s : last_text anns k s <-> string_map anns !! k = Some s.
Proof.
  induction anns as [|a anns IH] using rev_ind.
  - split; [|done]. intros (b & v & c & E & _). by destruct b.
  - rewrite string_map_app. cbn [fold_left]. destruct a as [k' v']. cbn [ann_key ann_val]. destruct (decide (k' = k)) as [->|Hne].
    + rewrite lookup_insert. split.
      * intros (b & v & c & E & -> & Hno). destruct (list_eq_nil_dec c) as [->|Hc].
        -- apply app_inj_tail in E as [_ [= ->]]. done.
        -- exfalso. destruct (exists_last Hc) as (c' & a & ->). rewrite app_comm_cons app_assoc in E. apply app_inj_tail in E as [_ <-].
           apply (Hno (Ann k v')); [apply in_app_iff; right; by left|done].
      * intros [= <-]. exists anns, v', []. split_and!; [done|by destruct v'|done].
    + rewrite lookup_insert_ne // -IH. split.
      * intros (b & v & c & E & -> & Hno). destruct (list_eq_nil_dec c) as [->|Hc].
        -- apply app_inj_tail in E as [_ [= -> _]]. done.
        -- destruct (exists_last Hc) as (c' & a & ->). rewrite app_comm_cons app_assoc in E. apply app_inj_tail in E as [-> _].
           exists b, v, c'. split_and!; [done|done|]. intros a' Ha'. apply Hno, in_app_iff. by left.
      * intros (b & v & c & -> & -> & Hno). exists b, v, (c ++ [Ann k' v']). split_and!; [by rewrite -app_assoc|done|].
        intros a' [Ha'|[<-|[]]]%in_app_iff; [by apply Hno|done].
Qed.
Lemma starts_prefix p k : has_prefix p k = true <-> exists r, k = (p +:+ r)%string.
Proof. apply has_prefix_spec. Qed.
Lemma ltb_slt a b : String.ltb a b = slt a b.
Proof.
  rewrite /String.ltb. revert b. induction a as [|x a IH]; intros [|y b]; try done. cbn [String.compare slt]. rewrite /Ascii.compare.
  destruct (N.compare_spec (N_of_ascii x) (N_of_ascii y)) as [E|E|E].
  - rewrite E N.ltb_irrefl N.eqb_refl. cbn. apply IH.
  - by rewrite (proj2 (N.ltb_lt _ _) E).
  - destruct (N.ltb_spec (N_of_ascii x) (N_of_ascii y)); [lia|]. destruct (N.eqb_spec (N_of_ascii x) (N_of_ascii y)); [lia|done].
Qed.
