(** C119 and C120: the texts of traces and annotations. *)
From Verif Require Import Base IdModel IdJsonModel JsonModel JsonSpec JsonProofs MemModel MemSpec MemProofs MemProofs2 UploadModel UploadProofs TraceJsonModel TraceJsonProofs TraceJsonProps
  TreeStringSpec AnnStringModel.
From Coq Require Import ssreflect ZifyBool ZifyNat ZifyN.
Local Open Scope general_if_scope.
Local Open Scope N_scope.

(** ** Traces *)
Lemma graft_no_null t : no_null (graft t) t.
Proof.
  induction t as [id anns subs IH] using tree_ind'. cbn [graft]. constructor. induction IH as [|t ts Ht _ IHts]; [constructor|]. cbn [map]. by constructor.
Qed.
(** C119 (proved part): encoding/json reads the trace from its text. *)
Theorem C119_partial : forall bf t j, ids64 t -> utf8_keys t -> encodes t j ->
  exists v g, parse_all (trace_string bf j) = Some v /\ dec_trace v = Some g /\ no_null g t.
Proof.
  intros bf t j Hid Hk He. exists (san j), (graft t). split; [apply parse_indented, (enc_plain t j He)|]. split.
  - rewrite (dec_enc t j He Hid). by rewrite (clean_id t Hk).
  - apply graft_no_null.
Qed.
Print Assumptions C119_partial.
(** C119 is false as stated: traces that differ in keys that are not UTF-8 have the same text. *)
Theorem C119_refuted : forall bf, exists t t' j j', ids64 t /\ ids64 t' /\ encodes t j /\ encodes t' j' /\ t <> t' /\ trace_string bf j = trace_string bf j'.
Proof.
  intros bf. set (tr c := Tree (MkSpanID 1 1 0) [Ann (String c "") None] []).
  set (js c := JObj [(Base.bytes "ID", enc_spanid (MkSpanID 1 1 0)); (Base.bytes "Annotations", JArr [enc_ann (Ann (String c "") None)]); (Base.bytes "Sub", JNull)]).
  exists (tr "255"%char), (tr "254"%char), (js "255"%char), (js "254"%char). split_and!.
  - intros n; cbn; intuition subst; vm_compute; done.
  - intros n; cbn; intuition subst; vm_compute; done.
  - apply (encodes_intro _ _ _ _ _ []); [by left|constructor|by right].
  - apply (encodes_intro _ _ _ _ _ []); [by left|constructor|by right].
  - discriminate.
  - by destruct bf.
Qed.
Print Assumptions C119_refuted.
(** The same for the text of a span (Span.String). *)
Theorem C119_span_partial : forall bf id anns j,
  is_id (sp_trace id) -> is_id (sp_span id) -> is_id (sp_parent id) -> Forall (fun a => utf8_string (ann_key a)) anns ->
  encodes_span id anns j ->
  exists v, parse_all (span_string bf j) = Some v /\ dec_span v = Some (id, anns).
Proof.
  intros bf id anns j H1 H2 H3 Hk [ja Ha]. eexists. split.
  - apply parse_indented. cbn [plain forallb snd enc_spanid enc_id andb]. destruct Ha as [-> |[_ ->]]; [|done]. cbn [plain].
    clear. rewrite andb_true_r. induction anns as [|[k [v|]] anns IH]; done.
  - cbn [san map fst snd dec_span fold_opt].
    change (names (sanitize (Base.bytes "ID")) "ID") with true. cbn iota.
    match goal with |- context [dec_spanid ?c ?x] => change x with (san (enc_spanid id)) end. rewrite (dec_enc_spanid id) //.
    change (names (sanitize (Base.bytes "Annotations")) "ID") with false. change (names (sanitize (Base.bytes "Annotations")) "Annotations") with true. cbn iota.
    rewrite (dec_enc_anns anns ja Ha). do 2 f_equal. clear Ha. induction Hk as [|[k v] anns Ha _ IH]; [done|]. cbn [map]. rewrite IH. f_equal.
    rewrite /clean_ann /clean_key. cbn [ann_key ann_val] in *. rewrite sanitize_utf8 ?unbytes_bytes //. by apply utf8_bytes_utf8.
Qed.
Print Assumptions C119_span_partial.
Example C119_nonvacuous : encodes json_wit json_wit_j /\ ids64 json_wit /\ utf8_keys json_wit.
Proof. destruct C106_nonvacuous as (H1 & H2 & H3 & _). done. Qed.
Example C119_span_nonvacuous : encodes_span (MkSpanID 1 2 3) [Ann "k" (Some "v"); Ann "" None]
  (JObj [(Base.bytes "ID", enc_spanid (MkSpanID 1 2 3)); (Base.bytes "Annotations", JArr [enc_ann (Ann "k" (Some "v")); enc_ann (Ann "" None)])]).
Proof. apply (encodes_span_intro _ [Ann "k" (Some "v"); Ann "" None]). by left. Qed.

(** ** Quoted strings *)
Definition exact_piece (p : piece) : Prop := good_piece p /\ match p with inl _ => True | inr a => 128 <= bn a end.
Definition piece_bytes (p : piece) : text := match p with inl (_, bs) => bs | inr a => [a] end.
Lemma pieces_exact l : Forall exact_piece (pieces l) /\ concat (map piece_bytes (pieces l)) = l.
Proof.
  rewrite /pieces. assert (forall n l, (length l <= n)%nat -> Forall exact_piece (pieces_fuel n l) /\ concat (map piece_bytes (pieces_fuel n l)) = l) as H; [|by apply H].
  clear l. intros n. induction n as [|n IH]; intros [|a r] Hn; [by split; [constructor|]|cbn in Hn; lia|by split; [constructor|]|]. cbn [pieces_fuel].
  destruct (decode_rune (a :: r)) as [[[x bs] rest]|] eqn:E.
  - destruct (decode_some _ _ _ _ E) as (H0 & H1 & H2 & H3). destruct (IH rest) as [IH1 IH2].
    { apply (f_equal length) in H0. rewrite app_length in H0. destruct bs; [done|]. cbn in *. lia. }
    split; [by constructor|]. cbn [map concat piece_bytes]. by rewrite IH2.
  - destruct (IH r) as [IH1 IH2]; [cbn in Hn; lia|]. split; [|cbn [map concat piece_bytes app]; by rewrite IH2]. constructor; [|done]. split; [done|].
    cbn [decode_rune] in E. destruct (N.ltb_spec (bn a) 128); [done|lia].
Qed.

(** A reader of the pieces of a quoted string. *)
Definition hex_val (c : ascii) : N := if bn c <? 58 then bn c - 48 else bn c - 87.
Lemma hex_val_low n : n < 16 -> hex_val (hex_low n) = n.
Proof. intros H. rewrite /hex_val /hex_low. destruct (N.ltb_spec n 10); rewrite bn_ascii; try lia; [destruct (N.ltb_spec (48 + n) 58); lia|destruct (N.ltb_spec (87 + n) 58); lia]. Qed.
Definition read2 (l : text) : option (N * text) := match l with a :: b :: r => Some (16 * hex_val a + hex_val b, r) | _ => None end.
Definition read4 (l : text) : option (N * text) :=
  match read2 l with Some (x, r) => match read2 r with Some (y, r) => Some (256 * x + y, r) | None => None end | None => None end.
Lemma read2_hex2 x r : x < 256 -> read2 (hex2 x ++ r) = Some (x, r).
Proof. intros H. rewrite /read2 /hex2. cbn [app]. rewrite !hex_val_low; [apply N.div_lt_upper_bound; lia|by apply N.mod_lt|]. f_equal. f_equal. pose proof (N.div_mod x 16). lia. Qed.
Lemma read4_hex4 x r : x < 65536 -> read4 (hex4_low x ++ r) = Some (x, r).
Proof.
  intros H. rewrite /read4 /hex4_low -app_assoc read2_hex2; [apply N.div_lt_upper_bound; lia|]. rewrite read2_hex2; [by apply N.mod_lt|].
  f_equal. f_equal. pose proof (N.div_mod x 256). lia.
Qed.
(** The next rune or byte. *)
Definition read_piece (l : text) : option (N + N) * text :=
  match l with
  | "\"%char :: c :: r =>
      if Ascii.eqb c "x" then match read2 r with Some (x, r) => (Some (if x <? 128 then inl x else inr x), r) | None => (None, r) end
      else if Ascii.eqb c "u" then match read4 r with Some (x, r) => (Some (inl x), r) | None => (None, r) end
      else if Ascii.eqb c "U" then
        match read4 r with Some (x, r) => match read4 r with Some (y, r) => (Some (inl (65536 * x + y)), r) | None => (None, r) end | None => (None, r) end
      else if Ascii.eqb c "a" then (Some (inl 7), r) else if Ascii.eqb c "b" then (Some (inl 8), r) else if Ascii.eqb c "f" then (Some (inl 12), r)
      else if Ascii.eqb c "n" then (Some (inl 10), r) else if Ascii.eqb c "r" then (Some (inl 13), r) else if Ascii.eqb c "t" then (Some (inl 9), r)
      else if Ascii.eqb c "v" then (Some (inl 11), r) else (Some (inl (bn c)), r)
  | _ => match decode_rune l with Some (x, _, r) => (if x =? 34 then None else Some (inl x), r) | None => (None, l) end
  end.
Definition piece_key (p : piece) : N + N := match p with inl (x, _) => inl x | inr a => inr (bn a) end.
Lemma piece_key_inj p q : exact_piece p -> exact_piece q -> piece_key p = piece_key q -> p = q.
Proof.
  intros [Hp _] [Hq _] E. destruct p as [[x bs]|a], q as [[y cs]|b]; try done.
  - injection E as ->. destruct Hp as (<- & _), Hq as (<- & _). done.
  - injection E as E. f_equal. by rewrite -(ascii_N_embedding a) E ascii_N_embedding.
Qed.
Lemma rune_bound x bs : good_piece (inl (x, bs)) -> x <= 1114111.
Proof.
  intros (E & _ & H). destruct (N.ltb_spec 1114111 x) as [Hx|]; [|done]. exfalso. rewrite /encode_rune in E.
  destruct (N.ltb_spec x 128); [lia|]. destruct (N.ltb_spec x 2048); [lia|]. destruct (N.ltb_spec 1114111 x); [|lia]. rewrite orb_true_r in E.
  subst bs. specialize (H []). vm_compute in H. injection H as H. lia.
Qed.
Lemma read_quoted printable del p r : exact_piece p -> read_piece (go_quote_piece printable del p ++ r) = (Some (piece_key p), r).
Proof.
  intros [Hg Hb]. destruct p as [[x bs]|a].
  - pose proof (rune_bound x bs Hg) as Hx. cbn [go_quote_piece piece_key].
    destruct (N.eqb_spec x 34) as [->|H34]; [done|]. destruct (N.eqb_spec x 92) as [->|H92]; [done|]. cbn [orb].
    destruct (printable x).
    { destruct Hg as (Hbs & Hne & Hd). assert (read_piece (bs ++ r) = match decode_rune (bs ++ r) with Some (x, _, r) => (if x =? 34 then None else Some (inl x), r) | None => (None, bs ++ r) end) as ->.
      { destruct bs as [|c bs]; [done|]. cbn [app]. assert (c <> "\"%char) as Hc.
        { intros ->. specialize (Hd []). apply (f_equal (fun o : option (N * text * text) => match o with Some (v, _, _) => v | None => 0 end)) in Hd. cbn in Hd. by symmetry in Hd. }
        rewrite /read_piece. destruct c as [[] [] [] [] [] [] [] []]; done. }
      rewrite Hd. by destruct (N.eqb_spec x 34). }
    destruct (N.eqb_spec x 7) as [->|]; [done|]. destruct (N.eqb_spec x 8) as [->|]; [done|]. destruct (N.eqb_spec x 12) as [->|]; [done|].
    destruct (N.eqb_spec x 10) as [->|]; [done|]. destruct (N.eqb_spec x 13) as [->|]; [done|]. destruct (N.eqb_spec x 9) as [->|]; [done|]. destruct (N.eqb_spec x 11) as [->|]; [done|].
    destruct ((x <? 32) || del && (x =? 127)) eqn:E.
    { assert (x < 128). { apply orb_true_iff in E as [E%N.ltb_lt|[_ E%N.eqb_eq]%andb_true_iff]; lia. }
      rewrite -app_assoc. cbn [app read_piece]. change (Ascii.eqb "x" "x") with true. cbn iota. rewrite read2_hex2; [lia|]. by destruct (N.ltb_spec x 128); [|lia]. }
    destruct (N.ltb_spec x 65536) as [H16|H16].
    + rewrite -app_assoc. cbn [app read_piece]. change (Ascii.eqb "u" "x") with false. change (Ascii.eqb "u" "u") with true. cbn iota. by rewrite read4_hex4.
    + rewrite -!app_assoc. cbn [app read_piece]. change (Ascii.eqb "U" "x") with false. change (Ascii.eqb "U" "u") with false. change (Ascii.eqb "U" "U") with true. cbn iota.
      rewrite read4_hex4; [apply N.div_lt_upper_bound; lia|]. rewrite read4_hex4; [by apply N.mod_lt|]. do 3 f_equal. pose proof (N.div_mod x 65536). lia.
  - cbn [go_quote_piece piece_key]. rewrite -app_assoc. cbn [app read_piece]. change (Ascii.eqb "x" "x") with true. cbn iota. pose proof (bn_bound a).
    rewrite read2_hex2; [lia|]. destruct (N.ltb_spec (bn a) 128); [lia|done].
Qed.
Lemma quoted_pieces_inj printable del ps : forall qs x y, Forall exact_piece ps -> Forall exact_piece qs ->
  concat (map (go_quote_piece printable del) ps) ++ quote :: x = concat (map (go_quote_piece printable del) qs) ++ quote :: y -> ps = qs /\ x = y.
Proof.
  assert (forall p r z, exact_piece p -> go_quote_piece printable del p ++ r <> quote :: z) as Hend.
  { intros p r z Hp E. pose proof (read_quoted printable del p r Hp) as H. rewrite E in H. done. }
  induction ps as [|p ps IH]; intros [|q qs] x y Hps Hqs E; cbn [map concat app] in E.
  - by injection E as ->.
  - inversion_clear Hqs. rewrite -app_assoc in E. symmetry in E. by apply Hend in E.
  - inversion_clear Hps. rewrite -app_assoc in E. by apply Hend in E.
  - inversion_clear Hps. inversion_clear Hqs. rewrite -!app_assoc in E. pose proof (f_equal read_piece E) as E'. rewrite !read_quoted in E'; [done|done|].
    injection E' as E1 E2. apply piece_key_inj in E1 as ->; [|done..]. apply IH in E2 as [-> ->]; done.
Qed.
Lemma quoted_inj printable del s s' x y : go_quote printable del s ++ x = go_quote printable del s' ++ y -> s = s' /\ x = y.
Proof.
  rewrite /go_quote. cbn [app]. intros [= E]. rewrite -!app_assoc in E. cbn [app] in E. destruct (pieces_exact s) as [H1 H2], (pieces_exact s') as [H3 H4].
  apply quoted_pieces_inj in E as [E ->]; [|done..]. split; [|done]. by rewrite -H2 E H4.
Qed.
Lemma cut_list (c : ascii) a b x y : ~ In c a -> ~ In c b -> a ++ c :: x = b ++ c :: y -> a = b /\ x = y.
Proof.
  revert b. induction a as [|d a IH]; intros [|e b] Ha Hb E; cbn [app] in E.
  - by injection E as ->.
  - injection E as <- _. exfalso. apply Hb. by left.
  - injection E as -> _. exfalso. apply Ha. by left.
  - injection E as -> E. apply IH in E as [-> ->]; [done|..]; intros H; [apply Ha|apply Hb]; by right.
Qed.

(** C120 (proved part): if no key has a "=", the text shows the annotations: keys and bytes, in order.  (A nil value is shown as an empty one.) *)
Theorem C120_partial : forall printable del anns anns',
  Forall (fun a => ~ In "="%char (Base.bytes (ann_key a))) anns -> Forall (fun a => ~ In "="%char (Base.bytes (ann_key a))) anns' ->
  anns_string printable del anns = anns_string printable del anns' <-> same_annotations anns anns'.
Proof.
  intros printable del anns anns' H H'. split.
  - intros E. revert anns' H' E. induction H as [|a l Ha Hl IH]; intros [|b l'] H' E; [done|..].
    + exfalso. rewrite /anns_string in E. cbn [map concat] in E. by destruct (Base.bytes (ann_key b)).
    + exfalso. rewrite /anns_string in E. cbn [map concat] in E. by destruct (Base.bytes (ann_key a)).
    + inversion_clear H' as [|? ? Hb Hl']. rewrite /anns_string in E. cbn [map concat] in E. rewrite -!app_assoc in E. cbn [app] in E.
      apply cut_list in E as [E1 E]; [|done..]. apply quoted_inj in E as [E2 E]. injection E as E.
      apply (IH l' Hl') in E. rewrite /same_annotations. cbn [map]. rewrite (bytes_inj _ _ E1) (bytes_inj _ _ E2). by f_equal.
  - intros E. rewrite /anns_string. f_equal. clear H H'. revert anns' E. induction anns as [|a l IH]; intros [|b l'] E; try done.
    injection E as E1 E2 E3. cbn [map]. rewrite E1 E2. f_equal. by apply IH.
Qed.
Print Assumptions C120_partial.
(** C120 is false of keys with "=". *)
Theorem C120_refuted : forall printable del, exists anns anns', anns_string printable del anns = anns_string printable del anns' /\ ~ same_annotations anns anns'.
Proof.
  intros printable del.
  exists [Ann "a" None; Ann "b" None], [Ann (String "a" (String "=" (String """" (String """" (String "010" "b"))))) None].
  split; [done|]. done.
Qed.
Print Assumptions C120_refuted.
Example C120_nonvacuous :
  let anns := [Ann "Name" (Some (String "233" (String "010" (String """" "x")))); Ann "_schema:name" None]%string in
  Forall (fun a => ~ In "="%char (Base.bytes (ann_key a))) anns /\
  unbytes (anns_string (fun x => (32 <=? x) && (x <? 127)) true anns) = ("Name=""\xe9\n\""x""" +:+ String "010" ("_schema:name=""""" +:+ String "010" ""))%string.
Proof. split; [|vm_compute; reflexivity]. repeat constructor; cbn; intuition discriminate. Qed.
