(** Properties C01-C07 (text form of IDs and span IDs, span derivation, ID generation). *)
From Verif Require Import Base IdModel IdSpec IdProofs IdGenModel IdGenSpec IdGenProofs.

(** C01: ParseID inverts String on every 64-bit ID; String is 16 lower-case hex digits that
    denote the ID. *)
Theorem C01_id_text_roundtrip : forall i, is_id i ->
  parse_id (id_string i) = inl i /\
  String.length (id_string i) = 16%nat /\ lower_hex (id_string i) /\ hex_numeral (id_string i) i.
Proof.
  exact (fun i H => conj (parse_id_string i H)
    (conj (proj1 (id_string_shape i H)) (conj (proj2 (id_string_shape i H)) (id_string_numeral i H)))).
Qed.
Print Assumptions C01_id_text_roundtrip.
Example C01_nonvacuous : is_id 0 /\ is_id 18446744073709551615 /\
  id_string 18446744073709551615 = "ffffffffffffffff"%string /\ id_string 255 = "00000000000000ff"%string.
Proof. vm_compute. auto. Qed.

(** C02: ParseID accepts exactly the hexadecimal numerals below 2^64 and returns their value. *)
Theorem C02_parse_id_exact : forall s v, parse_id s = inl v <-> hex_numeral s v /\ is_id v.
Proof. exact parse_id_spec. Qed.
Print Assumptions C02_parse_id_exact.
Example C02_nonvacuous :
  parse_id "00000000000000000fF" = inl 255 /\ parse_id "10000000000000000" = inr ErrRange /\
  parse_id "" = inr ErrSyntax /\ parse_id "0x1" = inr ErrSyntax /\ parse_id "+1" = inr ErrSyntax.
Proof. vm_compute. auto. Qed.

(** C03: string order is numeric order; strings of distinct IDs are distinct. *)
Theorem C03_id_order : forall a b, is_id a -> is_id b ->
  (str_lt (id_string a) (id_string b) <-> a < b) /\ (id_string a = id_string b -> a = b).
Proof. exact (fun a b Ha Hb => conj (id_string_lt a b Ha Hb) (id_string_inj a b Ha Hb)). Qed.
Print Assumptions C03_id_order.
Example C03_nonvacuous : is_id 9 /\ is_id 10 /\ 9 < 10 /\ id_string 9 <> id_string 10.
Proof. vm_compute. intuition discriminate. Qed.

(** C04: ParseSpanID inverts String. *)
Theorem C04_spanid_text_roundtrip : forall s,
  is_id (sp_trace s) -> is_id (sp_span s) -> is_id (sp_parent s) ->
  parse_spanid (spanid_string s) = Some s.
Proof. exact parse_spanid_string. Qed.
Print Assumptions C04_spanid_text_roundtrip.
Example C04_nonvacuous :
  parse_spanid (spanid_string (MkSpanID 1 2 0)) = Some (MkSpanID 1 2 0) /\
  spanid_string (MkSpanID 1 2 0) = "0000000000000001/0000000000000002"%string /\
  parse_spanid (spanid_string (MkSpanID 1 2 3)) = Some (MkSpanID 1 2 3).
Proof. vm_compute. auto. Qed.

(** C05: ParseSpanID accepts exactly two or three slash-separated numerals below 2^64
    (every other string gives [None], i.e. ErrBadSpanID). *)
Theorem C05_parse_spanid_exact : forall s r,
  parse_spanid s = Some r <->
  is_id (sp_trace r) /\ is_id (sp_span r) /\ is_id (sp_parent r) /\ span_parse_ok s r.
Proof. exact parse_spanid_spec. Qed.
Print Assumptions C05_parse_spanid_exact.
Example C05_nonvacuous :
  parse_spanid "a/B/00c" = Some (MkSpanID 10 11 12) /\ parse_spanid "1/2" = Some (MkSpanID 1 2 0) /\
  parse_spanid "1" = None /\ parse_spanid "1/2/" = None /\ parse_spanid "1/2/3/4" = None /\
  parse_spanid "1/g" = None.
Proof. vm_compute. auto 10. Qed.

(** C06: in every program that makes roots and children, each span has its root's trace,
    its parent is the span it was derived from, IsRoot holds exactly of roots (and of children of a
    span whose ID is 0), and distinct generated IDs give distinct spans. *)
Theorem C06_span_derivation : forall gen kinds, valid_kinds kinds ->
  let made := mk_run gen kinds in
  length made = length kinds /\
  (forall n i s, kinds !! n = Some (Some i) -> made !! n = Some s ->
     exists p, made !! i = Some p /\ sp_trace s = sp_trace p /\ sp_parent s = sp_span p) /\
  (forall n r s t, descends kinds n r -> made !! n = Some s -> made !! r = Some t ->
     sp_trace s = sp_trace t) /\
  (forall n s, made !! n = Some s ->
     is_root s = true <->
     (kinds !! n = Some None \/
      exists i p, kinds !! n = Some (Some i) /\ made !! i = Some p /\ sp_span p = 0)) /\
  ((forall a b, gen a = gen b -> a = b) -> NoDup (map sp_span made)).
Proof. exact mk_run_props. Qed.
Print Assumptions C06_span_derivation.
Example C06_nonvacuous :
  let kinds := [None; Some 0%nat; Some 1%nat; None; Some 3%nat] in
  valid_kinds kinds /\ descends kinds 2 0 /\
  mk_run (fun k => N.of_nat k + 100) kinds =
    [MkSpanID 100 101 0; MkSpanID 100 102 101; MkSpanID 100 103 102; MkSpanID 104 105 0; MkSpanID 104 106 105].
Proof. exact mk_run_example. Qed.

(** C07: for every cipher, initial counter and order in which goroutines get the lock, the IDs
    handed out are the successive halves of the AES-CTR key stream, each used exactly once. *)
Theorem C07_generator_follows_keystream : forall E ctr0 sched,
  is_block ctr0 -> (forall c, length (E c) = 16%nat) ->
  gen_run E (gen_init ctr0) sched =
  zip sched (map (keystream_id E (be_value ctr0)) (seq 0 (length sched))).
Proof. exact gen_run_keystream. Qed.
Print Assumptions C07_generator_follows_keystream.

(** ... and, the cipher being a permutation of blocks, no two of the first 2^128 consecutive
    pairs of IDs handed out are equal. *)
Theorem C07_pairs_never_repeat : forall E ctr0 sched ids i j,
  is_block ctr0 -> (forall c, length (E c) = 16%nat) ->
  (forall c, is_block c -> is_block (E c)) ->
  (forall c d, is_block c -> is_block d -> E c = E d -> c = d) ->
  ids = map snd (gen_run E (gen_init ctr0) sched) ->
  N.of_nat i < 2 ^ 128 -> N.of_nat j < 2 ^ 128 -> (2 * i + 1 < length ids)%nat -> (2 * j + 1 < length ids)%nat ->
  ids !! (2 * i)%nat = ids !! (2 * j)%nat -> ids !! (2 * i + 1)%nat = ids !! (2 * j + 1)%nat -> i = j.
Proof.
  intros E ctr0 sched ids i j Hb Hlen HE Hinj -> Hi Hj Li Lj H1 H2. rewrite (gen_run_keystream _ _ _ Hb Hlen) in *.
  change (map snd (zip sched (map (keystream_id E (be_value ctr0)) (seq 0 (length sched))))) with ((zip sched (map (keystream_id E (be_value ctr0)) (seq 0 (length sched)))).*2) in *.
  rewrite snd_zip in * by (rewrite map_length, seq_length; lia). rewrite map_length, seq_length in Li, Lj.
  assert (forall k, (k < length sched)%nat -> map (keystream_id E (be_value ctr0)) (seq 0 (length sched)) !! k = Some (keystream_id E (be_value ctr0) k)) as L.
  { intros k Hk. change (map ?f ?l) with (f <$> l). by rewrite list_lookup_fmap, lookup_seq_lt. }
  rewrite !L in H1, H2 by lia. injection H1 as H1. injection H2 as H2. exact (keystream_pairs_distinct E (be_value ctr0) i j HE Hinj Hi Hj H1 H2).
Qed.
Print Assumptions C07_pairs_never_repeat.
(** A cipher meeting the hypotheses (the identity on blocks); the counter wraps around 2^128. *)
Definition plain_cipher (c : list N) : list N := take 16 (c ++ replicate 16 0).
Example C07_nonvacuous :
  is_block (replicate 16 255) /\ (forall c, length (plain_cipher c) = 16%nat) /\ (forall c, is_block c -> is_block (plain_cipher c)) /\ (forall c d, is_block c -> is_block d -> plain_cipher c = plain_cipher d -> c = d) /\ gen_run plain_cipher (gen_init (replicate 16 255)) [3; 1; 4; 1]%nat =
    [(3%nat, 18446744073709551615); (1%nat, 18446744073709551615); (4%nat, 0); (1%nat, 0)].
Proof.
  assert (forall c, is_block c -> plain_cipher c = c) as H by (intros c [Hl _]; unfold plain_cipher; rewrite take_app_alt by done; done).
  split; [split; [reflexivity|repeat constructor]|]. split; [intros c; unfold plain_cipher; rewrite take_length, app_length, replicate_length; lia|].
  split; [intros c Hc; by rewrite H|]. split; [intros c d Hc Hd; by rewrite !H|]. vm_compute; reflexivity.
Qed.
