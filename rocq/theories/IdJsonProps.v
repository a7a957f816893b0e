(** C08, C82: IDs in JSON. *)
From Verif Require Import Base IdModel IdSpec IdProofs ReflModel ReflProofs IdJsonModel IdJsonSpec IdJsonProofs.
From Coq Require Import ssreflect.

(** Hexadecimal digits stand for themselves in a JSON string. *)
Lemma lower_hex_plain s : lower_hex s -> json_chars s s.
Proof.
  induction s as [|c s IH]=> H; first constructor.
  apply (JCs_cons (String c "") c s s); last by apply IH; intros d Hd; apply H; right.
  assert (In c (bytes "0123456789abcdef")) as Hc by (apply H; by left).
  cbn in Hc. repeat (destruct Hc as [<-|Hc]; first (constructor; done)). done.
Qed.

(** What UnmarshalJSON accepts, exactly: white space around an ID literal, or around null, which gives 0. *)
Lemma unmarshal_json_spec data v : unmarshal_json data = Some v <->
  exists ws1 lit ws2, data = (ws1 +:+ lit +:+ ws2)%string /\ white ws1 /\ white ws2 /\
    (id_literal lit v \/ (lit = "null"%string /\ v = 0)).
Proof.
  rewrite /unmarshal_json /parse_json_string. split.
  - destruct (unmarshal_string data) as [s|] eqn:Hs.
    + destruct (parse_id s) as [i|] eqn:Hp.
      * intros [= ->]. apply unmarshal_string_spec in Hs as (ws1 & lit & ws2 & -> & Hw1 & Hw2 & Hl).
        exists ws1, lit, ws2. split_and!; try done. destruct Hl as [[-> ->]|(src & -> & Hsrc)]; first done.
        apply parse_id_spec in Hp as [Hp Hid]. left. by apply (IL_string src s).
      * intros (ws1 & lit & ws2 & -> & Hw1 & Hw2 & Hl)%unmarshal_uint64_spec.
        exists ws1, lit, ws2. split_and!; try done. destruct Hl as [[-> ->]|[-> Hid]]; first by right. left. by constructor.
    + intros (ws1 & lit & ws2 & -> & Hw1 & Hw2 & Hl)%unmarshal_uint64_spec.
      exists ws1, lit, ws2. split_and!; try done. destruct Hl as [[-> ->]|[-> Hid]]; first by right. left. by constructor.
  - intros (ws1 & lit & ws2 & Hd & Hw1 & Hw2 & Hl). destruct Hl as [Hl|[-> ->]].
    + destruct Hl as [src s v Hsrc Hhex Hid|v Hid].
      * assert (unmarshal_string data = Some s) as ->.
        { apply unmarshal_string_spec. exists ws1, ("""" +:+ src +:+ """")%string, ws2. split; [done|split; [done|split; [done|]]]. right. by exists src. }
        by rewrite (proj2 (parse_id_spec s v)).
      * assert (unmarshal_uint64 data = Some v) as Hu.
        { apply unmarshal_uint64_spec. exists ws1, (fmt_uint v), ws2. split; [done|split; [done|split; [done|]]]. by right. }
        destruct (unmarshal_string data) as [s|] eqn:Hs; last done. exfalso.
        (* a string or null is no integer *)
        apply unmarshal_string_spec in Hs as (ws1' & lit' & ws2' & Hd' & Hw1' & Hw2' & Hl'). rewrite Hd' in Hd.
        apply (f_equal bytes) in Hd. rewrite !bytes_app in Hd. apply (f_equal skip_ws) in Hd.
        rewrite (skip_ws_app ws1' _ Hw1') (skip_ws_app ws1 _ Hw1) in Hd.
        destruct (fmt_uint_digits v) as [Hdig _].
        assert (bytes (fmt_uint v) <> []) as Hne.
        { intros H. pose proof (parse_fmt_uint v Hid) as Hp. apply (f_equal unbytes) in H. rewrite unbytes_bytes in H. by rewrite H in Hp. }
        destruct (bytes (fmt_uint v)) as [|c d]; first done.
        assert (is_digit c = true) as Hc by by inversion Hdig.
        rewrite -app_comm_cons (skip_ws_id c _ (digit_no_ws c Hc)) in Hd.
        destruct Hl' as [[-> _]|(src & -> & _)]; cbn in Hd; injection Hd as <-; done.
    + assert (unmarshal_string data = Some ""%string) as ->.
      { apply unmarshal_string_spec. exists ws1, "null"%string, ws2. split; [done|split; [done|split; [done|]]]. by left. }
      cbn. apply unmarshal_uint64_spec. exists ws1, "null"%string, ws2. split; [done|split; [done|split; [done|]]]. by left.
Qed.

(** C08: unmarshalling what MarshalJSON writes gives the ID back. *)
Theorem C08_round_trip id : is_id id -> unmarshal_json (marshal_json id) = Some id.
Proof.
  intros Hid. apply unmarshal_json_spec. exists ""%string, (marshal_json id), ""%string.
  rewrite str_app_nil_r. split_and!; [done|by intros ? []|by intros ? []|]. left.
  apply (IL_string (id_string id) (id_string id)); [|by apply id_string_numeral|done].
  apply lower_hex_plain. by apply id_string_shape.
Qed.
Print Assumptions C08_round_trip.
(** C08: unmarshalling an integer literal below 2^64 gives that integer. *)
Theorem C08_integer v : is_id v -> unmarshal_json (fmt_uint v) = Some v.
Proof.
  intros Hid. apply unmarshal_json_spec. exists ""%string, (fmt_uint v), ""%string.
  rewrite str_app_nil_r. split_and!; [done|by intros ? []|by intros ? []|]. left. by constructor.
Qed.
Print Assumptions C08_integer.
(** C08: MarshalJSON's output is a JSON string of sixteen digits, whatever the ID. *)
Theorem C08_shape id : is_id id ->
  exists s, marshal_json id = ("""" +:+ s +:+ """")%string /\ String.length s = 16%nat /\ lower_hex s.
Proof. intros Hid. exists (id_string id). split; first done. by apply id_string_shape. Qed.
Print Assumptions C08_shape.
Example C08_nonvacuous :
  is_id 16 /\ marshal_json 16 = """0000000000000010"""%string /\ unmarshal_json """0000000000000010""" = Some 16 /\
  unmarshal_json " 16 " = Some 16 /\ unmarshal_json """10""" = Some 16 /\ unmarshal_json """\u00310""" = Some 16 /\
  fmt_uint 16 = "16"%string /\ unmarshal_json "016" = None /\ unmarshal_json "18446744073709551616" = None /\
  unmarshal_json "{}" = None.
Proof. done. Qed.

(** C82: "UnmarshalJSON accepts hexadecimal strings and integers only" is false: null is read as the ID 0. *)
Theorem C82_refuted : exists data v, unmarshal_json data = Some v /\
  forall ws1 lit ws2, data = (ws1 +:+ lit +:+ ws2)%string -> white ws1 -> white ws2 -> ~ id_literal lit v.
Proof.
  exists "null"%string, 0. split; first done. intros ws1 lit ws2 Hd Hw1 Hw2 Hl.
  assert (exists c r, lit = String c r /\ (c = """"%char \/ is_digit c = true)) as (c & r & -> & Hc).
  { destruct Hl as [src s v _ _ _|v Hid]; first by eexists _, _; split; [reflexivity|left].
    destruct (fmt_uint_digits v) as [Hdig _]. pose proof (parse_fmt_uint v Hid) as Hp.
    destruct (fmt_uint v) as [|c r]; first done. exists c, r. split; first done. right. by inversion Hdig. }
  destruct ws1 as [|d ws1].
  - injection Hd as <- _. by destruct Hc.
  - injection Hd as <- _. assert (In "n"%char [" "; "009"; "010"; "013"]%char) as Hn by (apply Hw1; by left).
    cbn in Hn. repeat (destruct Hn as [Hn|Hn]; first done). done.
Qed.
Print Assumptions C82_refuted.
(** C82, partial: apart from null it accepts exactly the literals of IDs, with the ID that they denote. *)
Theorem C82_accepted_partial data v :
  (forall ws1 ws2, data = (ws1 +:+ "null" +:+ ws2)%string -> white ws1 -> ~ white ws2) ->
  unmarshal_json data = Some v <->
  exists ws1 lit ws2, data = (ws1 +:+ lit +:+ ws2)%string /\ white ws1 /\ white ws2 /\ id_literal lit v.
Proof.
  intros Hn. rewrite unmarshal_json_spec. split.
  - intros (ws1 & lit & ws2 & Hd & Hw1 & Hw2 & [Hl|[-> _]]); last by destruct (Hn ws1 ws2). eauto 10.
  - intros (ws1 & lit & ws2 & Hd & Hw1 & Hw2 & Hl). eauto 10.
Qed.
Print Assumptions C82_accepted_partial.
Example C82_nonvacuous :
  (forall ws1 ws2, " 7"%string = (ws1 +:+ "null" +:+ ws2)%string -> white ws1 -> ~ white ws2) /\ unmarshal_json " 7" = Some 7.
Proof.
  split; last done. intros ws1 ws2 H. exfalso. apply (f_equal String.length) in H. rewrite !str_length_app in H. cbn in H. lia.
Qed.
