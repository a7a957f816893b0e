From Verif Require Import Base WireModel WireSpec.
From Coq Require Import ZifyBool ZifyNat ZifyN.

(** ** Varints *)
Lemma N_ascii n : n < 256 -> N_of_ascii (ascii_of_N n) = n.
Proof. apply N_ascii_embedding. Qed.
Lemma N_of_ascii_lt b : N_of_ascii b < 256.
Proof. apply N_ascii_bounded. Qed.

Lemma get_put_varint fuel n r : (0 < fuel)%nat -> n < 128 ^ N.of_nat fuel -> get_varint fuel (put_varint fuel n ++ r) = Some (n, r).
Proof.
  revert n. induction fuel as [|fuel IH]; intros n H0 Hn; [lia|]. cbn [put_varint].
  assert (n mod 128 < 128) by (by apply N.mod_lt). pose proof (N.div_mod n 128).
  destruct (n <? 128) eqn:E; cbn [app get_varint].
  - rewrite N_ascii by lia. by rewrite E.
  - rewrite N_ascii by lia. replace (n mod 128 + 128 <? 128) with false by lia.
    rewrite Nat2N.inj_succ, N.pow_succ_r in Hn by lia. assert (n / 128 < 128 ^ N.of_nat fuel) by (apply N.div_lt_upper_bound; lia).
    assert (1 <= n / 128) by (apply N.div_le_lower_bound; lia). rewrite IH; [|destruct fuel; [cbn in *; lia|lia]|done].
    f_equal. f_equal. lia.
Qed.

Lemma get_varint_prefix fuel n fuel' k : (k < length (put_varint fuel n))%nat -> get_varint fuel' (take k (put_varint fuel n)) = None.
Proof.
  revert n fuel' k. induction fuel as [|fuel IH]; intros n fuel' k; cbn [put_varint]; [cbn; lia|].
  assert (n mod 128 < 128) by (by apply N.mod_lt).
  destruct (n <? 128); cbn [length]; intros Hk.
  - replace k with 0%nat by lia. by destruct fuel'.
  - destruct k as [|k]; [by destruct fuel'|]. cbn [take]. destruct fuel' as [|fuel']; [done|]. cbn [get_varint].
    rewrite N_ascii by lia. replace (n mod 128 + 128 <? 128) with false by lia. rewrite IH by lia. done.
Qed.

Lemma varint_bound n : n < two64 -> n < 128 ^ N.of_nat 10.
Proof. intros H. eapply N.lt_trans; [exact H|]. reflexivity. Qed.
Lemma dec_varint_enc n r : n < two64 -> dec_varint (varint n ++ r) = Some (n, r).
Proof. intros H. unfold dec_varint, varint. rewrite get_put_varint by (lia || by apply varint_bound). by rewrite N.mod_small. Qed.
Lemma varint_nonempty n : (0 < length (varint n))%nat.
Proof. unfold varint. cbn [put_varint]. destruct (n <? 128); cbn; lia. Qed.

Lemma get_tag_enc f wt r : f * 8 + wt < two64 -> wt < 8 -> get_tag (tag f wt ++ r) = Some (f, wt, r).
Proof.
  intros H Hw. unfold get_tag, tag. rewrite dec_varint_enc by done. 
  replace ((f * 8 + wt) / 8) with f by (rewrite N.div_add_l, N.div_small by lia; lia).
  replace ((f * 8 + wt) mod 8) with wt by (rewrite N.add_comm, N.mod_add, N.mod_small by lia; lia). done.
Qed.

Lemma get_put_le k n r : n < 256 ^ N.of_nat k -> get_le k (put_le k n ++ r) = Some (n, r).
Proof.
  revert n. induction k as [|k IH]; intros n Hn; [cbn in *; repeat f_equal; lia|]. cbn [put_le get_le app].
  assert (n mod 256 < 256) by (by apply N.mod_lt). pose proof (N.div_mod n 256).
  rewrite IH.
  - rewrite N_ascii by lia. repeat f_equal. lia.
  - rewrite Nat2N.inj_succ, N.pow_succ_r in Hn by lia. apply N.div_lt_upper_bound; lia.
Qed.
Lemma put_le_length k n : length (put_le k n) = k.
Proof. revert n. induction k as [|k IH]; intros n; cbn; [done|]. by rewrite IH. Qed.
Lemma get_le8 n r : is_id n -> get_le 8 (put_le 8 n ++ r) = Some (n, r).
Proof. intros H. apply get_put_le. exact H. Qed.

Lemma length_las s : length (list_ascii_of_string s) = String.length s.
Proof. induction s; cbn; [done|]. by rewrite IHs. Qed.
Lemma get_put_bytes s r : N.of_nat (String.length s) < two64 -> get_bytes (put_bytes s ++ r) = Some (s, r).
Proof.
  intros H. unfold get_bytes, put_bytes. rewrite <- app_assoc, dec_varint_enc by done.
  rewrite app_length, length_las. replace (N.of_nat (String.length s) <=? N.of_nat (String.length s + length r)) with true by lia.
  rewrite Nat2N.id. rewrite take_app_alt, drop_app_alt by (by rewrite length_las). by rewrite string_of_list_ascii_of_string.
Qed.
Lemma put_bytes_nonempty s : (0 < length (put_bytes s))%nat.
Proof. unfold put_bytes. rewrite app_length. pose proof (varint_nonempty (N.of_nat (String.length s))). lia. Qed.

(** ** Packets *)
Lemma get_varint_enc n r : n < two64 -> get_varint 10 (varint n ++ r) = Some (n, r).
Proof. intros H. apply get_put_varint; [lia|]. by apply varint_bound. Qed.

Local Opaque get_tag tag get_le put_le get_bytes put_bytes varint.
Ltac tags := rewrite get_tag_enc by reflexivity.
Lemma tag_nonempty f w : (0 < length (tag f w))%nat.
Proof. Local Transparent tag. apply varint_nonempty. Qed.
Local Opaque tag.

Lemma dec_span_enc L fuel id r : is_id (sp_trace id) -> is_id (sp_span id) -> is_id (sp_parent id) -> (4 <= fuel)%nat ->
  dec_span L fuel (enc_span (span_wire id) ++ tag 1 4 ++ r) (WSpan None None None) = Some (span_wire id, r).
Proof.
  intros H1 H2 H3 Hf. destruct fuel as [|[|[|[|fuel]]]]; try lia. unfold enc_span, span_wire, put_opt. cbn [ws_trace ws_span ws_parent].
  rewrite <- !app_assoc.
  cbn [dec_span]. tags. cbn. rewrite get_le8 by done. tags. cbn. rewrite get_le8 by done. tags. cbn. rewrite get_le8 by done. tags. cbn.
  by destruct (lib_strict L).
Qed.

Lemma dec_ann_enc L fuel a r : N.of_nat (String.length (ann_key a)) < two64 -> N.of_nat (String.length (val_bytes (ann_val a))) < two64 ->
  (3 <= fuel)%nat ->
  dec_ann L fuel (enc_ann (ann_wire a) ++ tag 5 4 ++ r) (WAnn None None) = Some (ann_wire a, r).
Proof.
  intros H1 H2 Hf. destruct fuel as [|[|[|fuel]]]; try lia. destruct a as [k v]. unfold enc_ann, ann_wire, put_opt. cbn [wa_key wa_val ann_key ann_val] in *.
  rewrite <- !app_assoc. cbn [dec_ann]. tags. cbn. rewrite get_put_bytes by done. destruct v as [v|].
  - rewrite <- app_assoc. tags. cbn. rewrite get_put_bytes by done. tags. cbn. by destruct (lib_strict L).
  - cbn [app]. tags. cbn. by destruct (lib_strict L).
Qed.

Lemma app_nonempty {A} (a b : list A) : (0 < length a)%nat -> exists x l, a ++ b = x :: l.
Proof. destruct a; cbn; [lia|]. eauto. Qed.

Lemma enc_span_length id : (27 <= length (enc_span (span_wire id)))%nat.
Proof.
  unfold enc_span, span_wire, put_opt. cbn [ws_trace ws_span ws_parent]. rewrite !app_length, !put_le_length.
  pose proof (tag_nonempty 2 1). pose proof (tag_nonempty 3 1). pose proof (tag_nonempty 4 1). lia.
Qed.
Lemma enc_ann_length a : (2 <= length (enc_ann (ann_wire a)))%nat.
Proof.
  unfold enc_ann, ann_wire, put_opt. cbn [wa_key wa_val]. rewrite !app_length.
  pose proof (tag_nonempty 6 2). pose proof (put_bytes_nonempty (ann_key a)). lia.
Qed.

Definition enc_anns (l : list wann) : bytes := flat_map (fun a => tag 5 3 ++ enc_ann a ++ tag 5 4) l.
Lemma dec_packet_anns L fuel s done anns :
  (forall a, In a anns -> N.of_nat (String.length (ann_key a)) < two64 /\ N.of_nat (String.length (val_bytes (ann_val a))) < two64) ->
  (length anns <= fuel)%nat ->
  dec_packet L fuel (enc_anns (map ann_wire anns)) (WPacket (Some s) done) = Some (WPacket (Some s) (done ++ map ann_wire anns)).
Proof.
  revert fuel done. induction anns as [|a anns IH]; intros fuel done Hv Hf.
  { cbn. destruct fuel; by rewrite app_nil_r. }
  cbn [map enc_anns flat_map]. fold (enc_anns (map ann_wire anns)). rewrite <- !app_assoc.
  destruct (app_nonempty (tag 5 3) (enc_ann (ann_wire a) ++ tag 5 4 ++ enc_anns (map ann_wire anns)) (tag_nonempty 5 3)) as (x & l & E).
  destruct fuel as [|fuel]; [cbn in Hf; lia|]. cbn [dec_packet].
  rewrite E, <- E. tags. cbn [N.eqb Pos.eqb negb].
  destruct (Hv a) as [Hk Hval]; [by left|]. rewrite dec_ann_enc; [|done|done|].
  - cbn [wp_span wp_anns]. rewrite IH; [by rewrite <- app_assoc| |cbn in Hf; lia]. intros b Hb. apply Hv. by right.
  - rewrite !app_length. pose proof (enc_ann_length a). pose proof (tag_nonempty 5 4). lia.
Qed.

Lemma enc_anns_length anns : (length anns <= length (enc_anns (map ann_wire anns)))%nat.
Proof. induction anns as [|a anns IH]; cbn; [lia|]. fold (enc_anns (map ann_wire anns)). rewrite !app_length. pose proof (tag_nonempty 5 3). lia. Qed.

Lemma unmarshal_enc L c : valid_call c -> unmarshal L (call_body c) = Some (new_packet (fst c) (snd c)).
Proof.
  destruct c as [id anns]. intros (H1 & H2 & H3 & H4). cbn [fst snd] in *. unfold unmarshal, call_body, enc_packet, new_packet. cbn [fst snd wp_span wp_anns].
  fold (enc_anns (map ann_wire anns)). rewrite <- !app_assoc.
  set (rest := enc_anns (map ann_wire anns)).
  destruct (app_nonempty (tag 1 3) (enc_span (span_wire id) ++ tag 1 4 ++ rest) (tag_nonempty 1 3)) as (x & l & E).
  assert (exists n, length (tag 1 3 ++ enc_span (span_wire id) ++ tag 1 4 ++ rest) = S n /\ (length rest <= n)%nat) as (n & -> & Hn).
  { rewrite !app_length. pose proof (tag_nonempty 1 3). eexists (_ - 1)%nat. split; [|shelve]. instantiate (1 := (length (tag 1 3) + (length (enc_span (span_wire id)) + (length (tag 1 4) + length rest)))%nat). lia. Unshelve. pose proof (tag_nonempty 1 4). lia. }
  cbn [dec_packet]. rewrite E, <- E. tags. cbn [N.eqb Pos.eqb negb wp_span default from_option].
  rewrite dec_span_enc by (done || (rewrite !app_length; pose proof (enc_span_length id); lia)).
  cbn [wp_anns]. unfold rest. rewrite dec_packet_anns; [done|done|]. pose proof (enc_anns_length anns). unfold rest in Hn. lia.
Qed.

Lemma from_wire_new id anns : span_from_wire (wp_span (new_packet id anns)) = Some id /\ anns_from_wire (wp_anns (new_packet id anns)) = Some anns.
Proof.
  split; [by destruct id|]. cbn. induction anns as [|[k v] anns IH]; [done|]. cbn. by rewrite IH.
Qed.

(** ** Frames *)
Lemma two64_max : max_message = 1048576 /\ 1048576 < two64.
Proof. by split. Qed.
Lemma read_frame L c rest : valid_call c -> fits c -> read_msg L (call_frame c ++ rest) = RMsg (new_packet (fst c) (snd c)) rest.
Proof.
  intros Hv Hf. unfold call_frame, frame. fold (call_body c). unfold fits in Hf. pose proof two64_max as Hm.
  set (n := N.of_nat (length (call_body c))) in *. rewrite <- app_assoc.
  destruct (app_nonempty (varint n) (call_body c ++ rest) (varint_nonempty n)) as (x & l & E).
  unfold read_msg. rewrite E, <- E. Local Transparent varint. unfold varint at 1. Local Opaque varint.
  rewrite get_put_varint by (lia || (apply varint_bound; lia)).
  replace (two64 <=? n) with false by lia. replace (max_message <? n) with false by lia.
  replace (N.of_nat (length (call_body c ++ rest)) <? n) with false by (rewrite app_length; lia).
  rewrite take_app_alt, drop_app_alt by (unfold n; lia). by rewrite unmarshal_enc.
Qed.

Lemma read_short L c k p r : N.of_nat (length (call_body c)) < two64 -> (k < length (call_frame c))%nat -> read_msg L (take k (call_frame c)) <> RMsg p r.
Proof.
  unfold call_frame, frame. fold (call_body c). intros Hb Hk. set (n := N.of_nat (length (call_body c))) in *. rewrite app_length in Hk.
  destruct (decide (k < length (varint n))%nat) as [Hlt|Hge].
  - rewrite take_app_le by lia. unfold read_msg. Local Transparent varint. unfold varint. rewrite get_varint_prefix by done.
    destruct (take k (put_varint 10 n)); [done|]. by destruct (lib_prefix_eof L && _). Local Opaque varint.
  - rewrite take_app_ge by lia.
    destruct (app_nonempty (varint n) (take (k - length (varint n)) (call_body c)) (varint_nonempty n)) as (x & l & E).
    unfold read_msg. rewrite E, <- E. Local Transparent varint. unfold varint at 1. Local Opaque varint.
    rewrite get_put_varint by (lia || (apply varint_bound; lia)).
    destruct (two64 <=? n); [done|]. destruct (max_message <? n); [done|].
    replace (N.of_nat (length (take (k - length (varint n)) (call_body c))) <? n) with true by (rewrite take_length; lia).
    by destruct (take (k - length (varint n)) (call_body c)).
Qed.

Lemma frame_nonempty c : (0 < length (call_frame c))%nat.
Proof. unfold call_frame, frame. rewrite app_length. pose proof (varint_nonempty (N.of_nat (length (enc_packet (new_packet (fst c) (snd c)))))). lia. Qed.

Lemma handle_stream L coll cs : Forall valid_call cs -> Forall fits cs -> forall fuel done n,
  (length (take n (stream cs)) < fuel)%nat ->
  fst (handle L coll fuel done (take n (stream cs))) = done ++ until_fail coll done (complete n cs) /\
  snd (handle L coll fuel done (take n (stream cs))) <> HPanic /\
  (some_fail coll done (complete n cs) = true -> snd (handle L coll fuel done (take n (stream cs))) = HError) /\
  (some_fail coll done (complete n cs) = false -> complete n cs = cs -> snd (handle L coll fuel done (take n (stream cs))) = HClosed).
Proof.
  intros Hv Hf. induction cs as [|c cs IH]; intros fuel done n Hfuel.
  { cbn. rewrite take_nil. destruct fuel as [|fuel]; [cbn in Hfuel; lia|]. cbn. by rewrite app_nil_r. }
  inversion Hv as [|? ? Hvc Hvcs]; subst. inversion Hf as [|? ? Hfc Hfcs]; subst.
  destruct fuel as [|fuel]; [lia|]. cbn [stream flat_map complete] in *. fold (stream cs) in *.
  destruct (length (call_frame c) <=? n)%nat eqn:E.
  - rewrite take_app_ge in Hfuel |- * by lia. cbn [handle]. rewrite read_frame by done.
    destruct (from_wire_new (fst c) (snd c)) as [-> ->]. rewrite <- surjective_pairing. cbn [until_fail some_fail].
    rewrite app_length in Hfuel. pose proof (frame_nonempty c).
    destruct (coll done c) eqn:Ec; [|done].
    destruct (IH Hvcs Hfcs fuel (done ++ [c]) (n - length (call_frame c))%nat) as (H1 & H2 & H3 & H4); [lia|].
    rewrite H1, <- app_assoc. split; [done|]. split; [done|]. split; [done|]. intros Hs Hc. apply H4; [done|]. by injection Hc.
  - rewrite take_app_le in Hfuel |- * by lia. cbn [until_fail some_fail handle]. rewrite app_nil_r.
    destruct (read_msg L (take n (call_frame c))) as [p r| |] eqn:Er; [|done|done].
    exfalso. eapply read_short; [| |exact Er]; [unfold fits in Hfc; pose proof two64_max; lia|lia].
Qed.

Lemma conn_stream L coll cs n : Forall valid_call cs -> Forall fits cs ->
  fst (handle_conn L coll (take n (stream cs))) = until_fail coll [] (complete n cs) /\
  snd (handle_conn L coll (take n (stream cs))) <> HPanic /\
  (some_fail coll [] (complete n cs) = true -> snd (handle_conn L coll (take n (stream cs))) = HError) /\
  (some_fail coll [] (complete n cs) = false -> complete n cs = cs -> snd (handle_conn L coll (take n (stream cs))) = HClosed).
Proof. intros Hv Hf. exact (handle_stream L coll cs Hv Hf _ [] n (Nat.lt_succ_diag_r _)). Qed.

(** ** Oversized messages *)
Lemma handle_oversized L coll c rest : max_message < N.of_nat (length (call_body c)) -> N.of_nat (length (call_body c)) < two64 ->
  handle_conn L coll (call_frame c ++ rest) = ([], HError).
Proof.
  intros H H2. unfold handle_conn. cbn [handle].
  assert (read_msg L (call_frame c ++ rest) = RErr) as ->; [|done].
  unfold read_msg. assert (get_varint 10 (call_frame c ++ rest) = Some (N.of_nat (length (call_body c)), call_body c ++ rest)) as Hg.
  { unfold call_frame, frame. rewrite <- app_assoc. by apply get_varint_enc. }
  destruct (call_frame c ++ rest) as [|b l] eqn:E; [apply (f_equal length) in E; pose proof (frame_nonempty c); rewrite app_length in E; cbn in E; lia|].
  rewrite Hg. replace (two64 <=? _) with false by lia. by replace (max_message <? _) with true by lia.
Qed.
Lemma body_ge_val id k v : (String.length v < length (call_body (id, [Ann k (Some v)])))%nat.
Proof.
  unfold call_body, enc_packet. cbn [fst snd new_packet wp_span wp_anns flat_map map]. rewrite !app_length.
  unfold enc_ann. cbn [ann_wire wa_key wa_val ann_key ann_val put_opt]. Local Transparent put_bytes. unfold put_bytes. Local Opaque put_bytes.
  rewrite !app_length, !length_las. cbn [length]. pose proof (tag_nonempty 5 3). lia.
Qed.

(** ** When the server panics *)
Lemma span_from_wire_none p : span_from_wire (wp_span p) = None -> incomplete p.
Proof. unfold span_from_wire, incomplete. by destruct (wp_span p) as [[[t|] [s|] [q|]]|]. Qed.
Lemma anns_from_wire_none l : anns_from_wire l = None -> exists a, In a l /\ wa_key a = None.
Proof.
  induction l as [|[[k|] v] l IH]; cbn [anns_from_wire]; [done| |intros _; eexists; split; [by left|done]].
  destruct (anns_from_wire l); [done|]. intros _. destruct (IH eq_refl) as (x & ? & ?). exists x. split; [by right|done].
Qed.
Lemma anns_none_incomplete p : anns_from_wire (wp_anns p) = None -> incomplete p.
Proof. intros H%anns_from_wire_none. unfold incomplete. by destruct (wp_span p) as [[[t|] [s|] [q|]]|]. Qed.

Lemma get_varint_suffix fuel : forall bs n r, get_varint fuel bs = Some (n, r) -> exists pre, bs = pre ++ r.
Proof.
  induction fuel as [|fuel IH]; intros bs n r; [done|]. destruct bs as [|b bs]; cbn [get_varint]; [done|].
  destruct (N_of_ascii b <? 128); [intros [= _ <-]; by exists [b]|].
  destruct (get_varint fuel bs) as [[h r']|] eqn:E; [|done]. intros [= _ <-]. destruct (IH _ _ _ E) as [pre ->]. by exists (b :: pre).
Qed.
Lemma read_suffix L bs p rest : read_msg L bs = RMsg p rest -> exists pre, bs = pre ++ rest.
Proof.
  unfold read_msg. destruct bs as [|b bs]; [done|]. destruct (get_varint 10 (b :: bs)) as [[n r]|] eqn:E; [|by destruct (_ && _)].
  destruct (two64 <=? n); [done|]. destruct (max_message <? n); [done|]. destruct (N.of_nat (length r) <? n); [by destruct r|].
  destruct (unmarshal L _); [|done]. intros [= _ <-]. destruct (get_varint_suffix _ _ _ _ E) as [pre ->].
  exists (pre ++ take (N.to_nat n) r). by rewrite <- app_assoc, take_drop.
Qed.

Lemma handle_panic L coll fuel : forall done bs, snd (handle L coll fuel done bs) = HPanic ->
  exists pre bs' p rest, bs = pre ++ bs' /\ read_msg L bs' = RMsg p rest /\ incomplete p.
Proof.
  induction fuel as [|fuel IH]; intros dn bs; [done|]. cbn [handle]. destruct (read_msg L bs) as [p rest| |] eqn:Er; try done.
  destruct (span_from_wire (wp_span p)) as [id|] eqn:Es.
  2: { intros _. exists [], bs, p, rest. split_and!; auto. by apply span_from_wire_none. }
  destruct (anns_from_wire (wp_anns p)) as [anns|] eqn:Ea.
  2: { intros _. exists [], bs, p, rest. split_and!; auto. by apply anns_none_incomplete. }
  destruct (coll dn (id, anns)); [|done]. intros H. destruct (IH _ _ H) as (pre & bs' & q & rest' & -> & ? & ?).
  destruct (read_suffix _ _ _ _ Er) as [pre' ->]. exists (pre' ++ pre), bs', q, rest'. by rewrite app_assoc.
Qed.

Lemma dec_span_strict L fuel : lib_strict L = true -> forall bs w w' r, dec_span L fuel bs w = Some (w', r) -> is_Some (ws_trace w') /\ is_Some (ws_span w').
Proof.
  intros HL. induction fuel as [|fuel IH]; intros bs w w' r; [done|]. cbn [dec_span]. destruct (get_tag bs) as [[[f wt] r0]|]; [|done].
  destruct (wt =? 4).
  { rewrite HL. cbn [andb]. destruct (bool_decide (is_Some (ws_trace w))) eqn:E1; [|done]. destruct (bool_decide (is_Some (ws_span w))) eqn:E2; [|done].
    intros [= <- <-]. split; by eapply bool_decide_eq_true. }
  destruct (f =? 0); [done|]. destruct ((2 <=? f) && (f <=? 4)).
  - destruct (negb _); [done|]. destruct (get_le 8 r0) as [[v r1]|]; [|done]. apply IH.
  - destruct (skip _ _ _); [|done]. apply IH.
Qed.
Lemma dec_ann_strict L fuel : lib_strict L = true -> forall bs w w' r, dec_ann L fuel bs w = Some (w', r) -> is_Some (wa_key w').
Proof.
  intros HL. induction fuel as [|fuel IH]; intros bs w w' r; [done|]. cbn [dec_ann]. destruct (get_tag bs) as [[[f wt] r0]|]; [|done].
  destruct (wt =? 4).
  { rewrite HL. cbn [andb]. destruct (bool_decide (is_Some (wa_key w))) eqn:E1; [|done]. intros [= <- <-]. by eapply bool_decide_eq_true. }
  destruct (f =? 0); [done|]. destruct ((f =? 6) || (f =? 7)).
  - destruct (negb _); [done|]. destruct (get_bytes r0) as [[v r1]|]; [|done]. apply IH.
  - destruct (skip _ _ _); [|done]. apply IH.
Qed.
Definition strict_ok (p : wpacket) : Prop :=
  (forall s, wp_span p = Some s -> is_Some (ws_trace s) /\ is_Some (ws_span s)) /\ Forall (fun a => is_Some (wa_key a)) (wp_anns p).
Lemma dec_packet_strict L fuel : lib_strict L = true -> forall bs w p, strict_ok w -> dec_packet L fuel bs w = Some p -> strict_ok p /\ is_Some (wp_span p).
Proof.
  intros HL. induction fuel as [|fuel IH]; intros bs w p Hw.
  { destruct bs; cbn [dec_packet]; [|done]. destruct (wp_span w) eqn:E; [|done]. intros [= <-]. rewrite E. eauto. }
  destruct bs as [|b bs]; cbn [dec_packet]. { destruct (wp_span w) eqn:E; [|done]. intros [= <-]. rewrite E. eauto. }
  destruct (get_tag (b :: bs)) as [[[f wt] r0]|]; [|done]. destruct (wt =? 4); [done|]. destruct (f =? 0); [done|]. destruct (f =? 1).
  - destruct (negb _); [done|]. destruct (dec_span L (length r0) r0 _) as [[s r1]|] eqn:E; [|done]. apply IH.
    split; [|apply Hw]. cbn. intros s' [= <-]. by eapply dec_span_strict.
  - destruct (f =? 5).
    + destruct (negb _); [done|]. destruct (dec_ann L (length r0) r0 _) as [[a r1]|] eqn:E; [|done]. apply IH.
      split; [apply Hw|]. cbn. apply Forall_app. split; [apply Hw|]. constructor; [|constructor]. by eapply dec_ann_strict.
    + destruct (skip _ _ _); [|done]. by apply IH.
Qed.
Lemma read_unmarshal L bs p rest : read_msg L bs = RMsg p rest -> exists body, unmarshal L body = Some p.
Proof.
  unfold read_msg. destruct bs as [|b bs]; [done|]. destruct (get_varint 10 (b :: bs)) as [[n r]|] eqn:E; [|by destruct (_ && _)].
  destruct (two64 <=? n); [done|]. destruct (max_message <? n); [done|]. destruct (N.of_nat (length r) <? n); [by destruct r|].
  destruct (unmarshal L _) eqn:Eu; [|done]. intros [= <- _]. eauto.
Qed.
Lemma strict_incomplete L bs p rest : lib_strict L = true -> read_msg L bs = RMsg p rest -> incomplete p -> no_parent p.
Proof.
  intros HL (body & Hb)%read_unmarshal Hi. apply (dec_packet_strict L) in Hb as [[Hs Ha] [s Hp]]; [|done|split; [done|constructor]].
  unfold no_parent. rewrite Hp in *. destruct (Hs _ eq_refl) as [[t Ht] [sp Hsp]]. destruct s as [t' sp' q]; cbn in *. subst.
  destruct q as [q|]; [|eauto]. exfalso. unfold incomplete in Hi. rewrite Hp in Hi. destruct Hi as (a & Hin & Hk).
  rewrite Forall_forall in Ha. apply elem_of_list_In in Hin. apply Ha in Hin as [? Hin]. congruence.
Qed.

(** ** When the server takes a stream for cleanly closed *)
Lemma read_cut L c k : N.of_nat (length (call_body c)) <= max_message -> (length (varint (N.of_nat (length (call_body c)))) < k < length (call_frame c))%nat ->
  read_msg L (take k (call_frame c)) = RErr.
Proof.
  intros Hm Hk. unfold read_msg. unfold call_frame, frame in *. change (enc_packet (new_packet (fst c) (snd c))) with (call_body c) in *.
  set (h := varint (N.of_nat (length (call_body c)))) in *. rewrite app_length in Hk. pose proof two64_max.
  rewrite take_app_ge by lia.
  assert (get_varint 10 (h ++ take (k - length h) (call_body c)) = Some (N.of_nat (length (call_body c)), take (k - length h) (call_body c))) as Hg.
  { apply get_varint_enc. lia. }
  pose proof (varint_nonempty (N.of_nat (length (call_body c)))) as Hne. fold h in Hne.
  destruct (h ++ take (k - length h) (call_body c)) as [|b l] eqn:E; [apply (f_equal length) in E; rewrite app_length in E; cbn in E; lia|].
  rewrite Hg. replace (two64 <=? _) with false by lia. replace (max_message <? _) with false by lia.
  rewrite take_length. replace (N.of_nat _ <? _) with true by lia.
  destruct (take (k - length h) (call_body c)) eqn:E2; [|done]. apply (f_equal length) in E2. rewrite take_length in E2. cbn [length] in E2. lia.
Qed.

Definition prefix_len (c : wcall) : nat := length (varint (N.of_nat (length (call_body c)))).
Lemma handle_closed L coll cs : Forall valid_call cs -> Forall fits cs -> (forall h c, coll h c = true) -> forall fuel done n,
  (length (complete n cs) < fuel)%nat ->
  snd (handle L coll fuel done (take n (stream cs))) = HClosed ->
  complete n cs = cs \/ exists c cs', cs = complete n cs ++ c :: cs' /\ (n <= length (stream (complete n cs)) + prefix_len c)%nat.
Proof.
  intros Hv Hf Hcoll. induction cs as [|c cs IH]; intros fuel dn n Hfu; [by left|]. cbn [complete] in *.
  inversion Hv; inversion Hf; subst. destruct fuel as [|fuel]; [lia|]. cbn [stream flat_map]. fold (stream cs).
  destruct (length (call_frame c) <=? n)%nat eqn:E.
  - rewrite take_app_ge by lia. cbn [handle]. rewrite read_frame by done.
    destruct (from_wire_new (fst c) (snd c)) as [-> ->]. rewrite Hcoll. rewrite <- surjective_pairing in *. intros H. cbn [length] in Hfu.
    destruct (IH ltac:(done) ltac:(done) fuel (dn ++ [c]) (n - length (call_frame c))%nat) as [Hc|(c' & cs' & Hc & Hn)]; [lia| |left; by rewrite Hc|].
    { rewrite <- H. by destruct c. }
    right. exists c', cs'. split; [by rewrite Hc at 1|]. cbn [stream flat_map]. fold (stream (complete (n - length (call_frame c)) cs)). rewrite app_length. lia.
  - intros H. right. exists c, cs. split; [done|]. cbn [stream flat_map length]. cbn. destruct (decide (n <= prefix_len c)%nat); [done|]. exfalso.
    rewrite take_app_le in H by lia. cbn [handle] in H. rewrite read_cut in H; [done|done|]. unfold prefix_len in *. lia.
Qed.

(** ** Bounds *)
Lemma put_varint_length fuel n : (length (put_varint fuel n) <= fuel)%nat.
Proof. revert n. induction fuel as [|fuel IH]; intros n; cbn [put_varint length]; [lia|]. destruct (n <? 128); cbn [length]; [lia|]. specialize (IH (n / 128)). lia. Qed.
Lemma varint_length n : (length (varint n) <= 10)%nat.
Proof. Local Transparent varint. apply put_varint_length. Local Opaque varint. Qed.
Lemma tag_length f w : (length (tag f w) <= 10)%nat.
Proof. Local Transparent tag. apply varint_length. Local Opaque tag. Qed.
Lemma body_le id k v : (length (call_body (id, [Ann k (Some v)])) <= 200 + String.length k + String.length v)%nat.
Proof.
  unfold call_body, enc_packet. cbn [fst snd new_packet wp_span wp_anns flat_map map]. rewrite !app_length.
  unfold enc_ann, enc_span. cbn [ann_wire wa_key wa_val ann_key ann_val put_opt span_wire ws_trace ws_span ws_parent].
  Local Transparent put_bytes. unfold put_bytes. Local Opaque put_bytes.
  rewrite !app_length, !length_las, !put_le_length. cbn [length].
  pose proof (tag_length 1 3). pose proof (tag_length 1 4). pose proof (tag_length 2 1). pose proof (tag_length 3 1). pose proof (tag_length 4 1).
  pose proof (tag_length 5 3). pose proof (tag_length 5 4). pose proof (tag_length 6 2). pose proof (tag_length 7 2).
  pose proof (varint_length (N.of_nat (String.length k))). pose proof (varint_length (N.of_nat (String.length v))). lia.
Qed.
Lemma length_sol l : String.length (string_of_list_ascii l) = length l.
Proof. induction l; cbn; [done|]. by rewrite IHl. Qed.

(** A call that is too large by the length of its value alone. *)
Definition big_call : wcall := (MkSpanID 1 1 0, [Ann "k" (Some (string_of_list_ascii (repeat "a"%char (N.to_nat 1048576))))]).
Lemma big_len : String.length (string_of_list_ascii (repeat "a"%char (N.to_nat 1048576))) = N.to_nat 1048576.
Proof. rewrite length_sol. apply repeat_length. Qed.
Lemma big_valid : valid_call big_call.
Proof.
  assert (forall v, N.of_nat (String.length v) < two64 -> valid_call (MkSpanID 1 1 0, [Ann "k" (Some v)])) as H.
  { intros v Hv. split_and!; try done. intros a [<-|[]]. split; [done|exact Hv]. }
  apply H. rewrite big_len. unfold two64. lia.
Qed.
Lemma big_call_len : max_message < N.of_nat (length (call_body big_call)) /\ N.of_nat (length (call_body big_call)) < two64.
Proof.
  pose proof (body_le (MkSpanID 1 1 0) "k" (string_of_list_ascii (repeat "a"%char (N.to_nat 1048576)))) as H2.
  rewrite big_len in H2. fold big_call in H2. 
  assert (N.to_nat 1048576 < length (call_body big_call))%nat as H1.
  { pose proof (body_ge_val (MkSpanID 1 1 0) "k" (string_of_list_ascii (repeat "a"%char (N.to_nat 1048576)))) as H1.
    rewrite big_len in H1. unfold big_call. exact H1. }
  unfold max_message, two64. split; [lia|]. cbn [String.length] in H2. lia.
Qed.

(** ** Packets and boundaries *)
Lemma complete_split n cs : exists cs2, cs = complete n cs ++ cs2 /\ (length (stream (complete n cs)) <= n)%nat /\
  (forall c cs3, cs2 = c :: cs3 -> (n < length (stream (complete n cs ++ [c])))%nat).
Proof.
  revert n. induction cs as [|c cs IH]; intros n; [by exists []; split_and!; [|cbn; lia|]|]. cbn [complete].
  destruct (length (call_frame c) <=? n)%nat eqn:E.
  - destruct (IH (n - length (call_frame c))%nat) as (cs2 & H1 & H2 & H3). exists cs2. split; [cbn [app]; by f_equal|].
    cbn [stream flat_map app]. fold (stream (complete (n - length (call_frame c)) cs)). rewrite app_length. split; [lia|].
    intros c' cs3 Hc. specialize (H3 _ _ Hc). cbn [stream flat_map app] in *. unfold stream in H3. rewrite app_length. lia.
  - exists (c :: cs). split; [done|]. cbn [stream flat_map app length]. split; [lia|]. intros ? ? [= <- <-]. rewrite app_nil_r. lia.
Qed.
Lemma complete_all n cs : (length (stream cs) <= n)%nat -> complete n cs = cs.
Proof.
  revert n. induction cs as [|c cs IH]; intros n; [done|]. cbn [stream flat_map complete]. fold (stream cs). rewrite app_length. intros H.
  replace (length (call_frame c) <=? n)%nat with true by lia. f_equal. apply IH. lia.
Qed.
Lemma complete_prefix n cs1 cs2 : (length (stream cs1) <= n)%nat -> exists cs3, complete n (cs1 ++ cs2) = cs1 ++ cs3.
Proof.
  revert n. induction cs1 as [|c cs IH]; intros n; [by eexists|]. cbn [stream flat_map complete app]. fold (stream cs). rewrite app_length. intros H.
  replace (length (call_frame c) <=? n)%nat with true by lia. destruct (IH (n - length (call_frame c))%nat) as [cs3 ->]; [lia|]. by exists cs3.
Qed.
Lemma until_fail_stop coll c cs3 : forall cs1 before, some_fail coll before cs1 = false -> coll (before ++ cs1) c = false ->
  until_fail coll before (cs1 ++ c :: cs3) = cs1 ++ [c] /\ some_fail coll before (cs1 ++ c :: cs3) = true.
Proof.
  induction cs1 as [|d cs1 IH]; intros before Hs Hc; cbn [until_fail some_fail app] in *.
  - rewrite app_nil_r in Hc. by rewrite Hc.
  - destruct (coll before d) eqn:E; [|done]. destruct (IH (before ++ [d]) Hs) as [-> ->]; [by rewrite <- app_assoc|done].
Qed.
Lemma until_fail_ok coll before cs : (forall h c, coll h c = true) -> until_fail coll before cs = cs.
Proof. intros H. revert before. induction cs as [|c cs IH]; intros before; [done|]. cbn. by rewrite H, IH. Qed.

Lemma complete_fuel n cs : (length (complete n cs) < S (length (take n (stream cs))))%nat.
Proof.
  destruct (complete_split n cs) as (cs2 & H1 & H2 & _). rewrite take_length.
  assert (forall l, length l <= length (stream l))%nat as Hl.
  { induction l as [|c l IH]; [done|]. cbn [stream flat_map length]. fold (stream l). rewrite app_length. pose proof (frame_nonempty c). lia. }
  assert (length (stream (complete n cs)) <= length (stream cs))%nat.
  { rewrite H1 at 2. unfold stream. rewrite flat_map_app, app_length. lia. }
  specialize (Hl (complete n cs)). lia.
Qed.
