(** The server and clients with a later version of the protocol. *)
From Verif Require Import Base WireModel WireSpec WireProofs WireExtSpec.
From stdpp Require Import list.
Local Open Scope N_scope.

Local Opaque tag varint put_bytes put_le.
(** ** Unknown fields are skipped *)
Lemma ufield_ind' (P : ufield -> Prop) : (forall num n, P (UVarint num n)) -> (forall num n, P (UFixed64 num n)) -> (forall num s, P (UBytes num s)) ->
  (forall num fs, Forall P fs -> P (UGroup num fs)) -> (forall num n, P (UFixed32 num n)) -> forall u, P u.
Proof.
  intros H1 H2 H3 H4 H5. fix IH 1. intros [num n|num n|num s|num fs|num n]; [apply H1|apply H2|apply H3|apply H4|apply H5].
  induction fs as [|u fs IHfs]; constructor; [apply IH|apply IHfs].
Qed.
Definition uwt (u : ufield) : N := match u with UVarint _ _ => 0 | UFixed64 _ _ => 1 | UBytes _ _ => 2 | UGroup _ _ => 3 | UFixed32 _ _ => 5 end.
Definition ubody (u : ufield) : bytes :=
  match u with
  | UVarint _ n => varint n
  | UFixed64 _ n => put_le 8 n
  | UBytes _ s => put_bytes s
  | UGroup num fs => flat_map enc_ufield fs ++ tag num 4
  | UFixed32 _ n => put_le 4 n
  end.
Lemma enc_ufield_split u : enc_ufield u = tag (unum u) (uwt u) ++ ubody u.
Proof. by destruct u. Qed.
Lemma uwt_lt u : uwt u < 8.
Proof. destruct u; cbn; lia. Qed.
Lemma uwt_4 u : (uwt u =? 4) = false.
Proof. by destruct u. Qed.
Lemma tag_bound num wt : 0 < num < 536870912 -> wt < 8 -> num * 8 + wt < two64.
Proof. unfold two64. lia. Qed.
Lemma ufield_num u : ufield_ok u -> 0 < unum u < 536870912.
Proof. by destruct u; intros []. Qed.
Lemma get_tag_u u r : ufield_ok u -> get_tag (enc_ufield u ++ r) = Some (unum u, uwt u, ubody u ++ r).
Proof. intros H%ufield_num. rewrite enc_ufield_split, <- app_assoc. apply get_tag_enc; [apply tag_bound; [done|apply uwt_lt]|apply uwt_lt]. Qed.
Lemma group_all fs : (fix all (l : list ufield) : Prop := match l with [] => True | u :: l => ufield_ok u /\ all l end) fs <-> Forall ufield_ok fs.
Proof. induction fs as [|u fs IH]; [done|]. rewrite Forall_cons, IH. done. Qed.
Lemma enc_ufield_length u : (1 <= length (enc_ufield u))%nat.
Proof. rewrite enc_ufield_split, app_length. pose proof (tag_nonempty (unum u) (uwt u)). lia. Qed.
Fixpoint skip_group (fuel : nat) (fuel' : nat) (bs : bytes) : option bytes :=
  match fuel' with
  | O => None
  | S fuel' => match get_tag bs with
               | Some (_, w, r) => if w =? 4 then Some r else
                   match skip fuel w r with Some r => skip_group fuel fuel' r | None => None end
               | None => None
               end
  end.
Lemma skip_3 fuel bs : skip (S fuel) 3 bs = skip_group fuel fuel bs.
Proof.
  cbn [skip]. change (3 =? 0) with false. change (3 =? 1) with false. change (3 =? 2) with false. change (3 =? 3) with true. cbv iota.
  generalize fuel at 2 4. intros f'. revert bs. induction f' as [|f' IH]; intros bs; [done|]. cbn [skip_group].
  destruct (get_tag bs) as [[[n w] r]|]; [|done]. destruct (w =? 4); [done|]. destruct (skip fuel w r) as [r'|]; [|done]. apply IH.
Qed.
Lemma skip_u u : ufield_ok u -> forall fuel r, (length (ubody u ++ r) < fuel)%nat -> skip fuel (uwt u) (ubody u ++ r) = Some r.
Proof.
  induction u as [num n|num n|num s|num fs IH|num n] using ufield_ind'; intros Hok fuel r Hf; (destruct fuel as [|fuel]; [lia|]).
  - destruct Hok as [_ Hn]. cbn [uwt ubody skip N.eqb]. by rewrite dec_varint_enc.
  - cbn [uwt ubody skip N.eqb Pos.eqb]. rewrite app_length, put_le_length. replace (8 <=? 8 + length r)%nat with true by (symmetry; apply Nat.leb_le; lia).
    by rewrite drop_app_alt by by rewrite put_le_length.
  - destruct Hok as [_ Hn]. cbn [uwt ubody skip N.eqb Pos.eqb]. by rewrite get_put_bytes.
  - destruct Hok as [Hn Hall%group_all]. cbn [uwt unum] in *. rewrite skip_3. cbn [ubody] in *. rewrite <- app_assoc in Hf |- *.
    assert (forall f', (length fs < f')%nat -> skip_group fuel f' (flat_map enc_ufield fs ++ tag num 4 ++ r) = Some r) as Hg.
    { assert (length (flat_map enc_ufield fs ++ tag num 4 ++ r) <= fuel)%nat as Hf' by lia. clear Hf.
      revert IH Hall Hf'. induction fs as [|u fs IHfs]; intros IH Hall Hf' f' Hl; (destruct f' as [|f']; [cbn in Hl; lia|]).
      - cbn [flat_map app skip_group]. by rewrite get_tag_enc by (lia || (apply tag_bound; lia)).
      - apply Forall_cons in IH as [IHu IH], Hall as [Hu Hall]. cbn [flat_map skip_group] in *. rewrite <- app_assoc in *. rewrite get_tag_u by done. rewrite uwt_4.
        rewrite IHu; [apply IHfs; [done|done| |cbn in Hl; lia]|done|].
        + rewrite app_length in Hf'. lia.
        + rewrite enc_ufield_split, <- app_assoc, app_length in Hf'. pose proof (tag_nonempty (unum u) (uwt u)). lia. }
    apply Hg. rewrite app_length in Hf. assert (length fs <= length (flat_map enc_ufield fs))%nat.
    { clear. induction fs as [|u fs IH]; cbn [flat_map length]; [lia|]. rewrite app_length. pose proof (enc_ufield_length u). lia. }
    rewrite app_length in Hf. pose proof (tag_nonempty num 4). lia.
  - cbn [uwt ubody skip N.eqb Pos.eqb]. rewrite app_length, put_le_length. replace (4 <=? 4 + length r)%nat with true by (symmetry; apply Nat.leb_le; lia).
    by rewrite drop_app_alt by by rewrite put_le_length.
Qed.

(** ** Groups *)
Definition set_span (w : wspan) (f : N * N) : wspan :=
  if fst f =? 2 then WSpan (Some (snd f)) (ws_span w) (ws_parent w)
  else if fst f =? 3 then WSpan (ws_trace w) (Some (snd f)) (ws_parent w) else WSpan (ws_trace w) (ws_span w) (Some (snd f)).
Definition set_ann (w : wann) (f : N * string) : wann :=
  if fst f =? 6 then WAnn (Some (snd f)) (wa_val w) else WAnn (wa_key w) (Some (snd f)).
Lemma items_tail {A} nums (i : item A) l : items_ok nums (i :: l) -> items_ok nums l.
Proof. intros H u Hu. apply H. by right. Qed.
Lemma dec_span_items L (x : xspan) : forall fuel w w' r, items_ok [2; 3; 4] x -> (forall f, f ∈ knowns x -> (fst f = 2 \/ fst f = 3 \/ fst f = 4) /\ is_id (snd f)) ->
  (length x < fuel)%nat -> fold_left set_span (knowns x) w = w' -> is_Some (ws_trace w') -> is_Some (ws_span w') ->
  dec_span L fuel (enc_xspan x ++ tag 1 4 ++ r) w = Some (w', r).
Proof.
  induction x as [|i x IH]; intros fuel w w' r Hok Hk Hf Hw Ht Hs; (destruct fuel as [|fuel]; [cbn in Hf; lia|]).
  - cbn in Hw. subst w'. cbn [enc_xspan enc_items flat_map app dec_span]. rewrite get_tag_enc by (done || (apply tag_bound; lia)). cbn [N.eqb Pos.eqb].
    rewrite !bool_decide_eq_true_2 by done. by rewrite andb_false_r.
  - assert (length x < fuel)%nat as Hf' by (cbn in Hf; lia). destruct i as [[f v]|u].
    + change (enc_xspan (Known (f, v) :: x)) with ((tag f 1 ++ put_le 8 v) ++ enc_xspan x). rewrite <- !app_assoc. cbn [dec_span].
      destruct (Hk (f, v)) as [Hn Hv]; [by left|]. cbn [fst snd] in Hn, Hv.
      rewrite get_tag_enc by (lia || (apply tag_bound; lia)). cbn [N.eqb Pos.eqb]. replace (f =? 0) with false by lia.
      replace ((2 <=? f) && (f <=? 4)) with true by lia. cbn [orb negb]. rewrite get_le8 by done. apply IH; try done.
      * by eapply items_tail.
      * intros g Hg. apply Hk. by right.
    + change (enc_xspan (Unknown u :: x)) with (enc_ufield u ++ enc_xspan x). rewrite <- app_assoc. cbn [dec_span].
      destruct (Hok u) as [Hu Hnum]; [by left|]. rewrite get_tag_u by done. rewrite uwt_4. pose proof (ufield_num u Hu).
      replace (unum u =? 0) with false by lia. replace ((2 <=? unum u) && (unum u <=? 4)) with false.
      2:{ symmetry. rewrite andb_false_iff. destruct (N.leb_spec 2 (unum u)), (N.leb_spec (unum u) 4); auto. exfalso. apply Hnum.
          assert (unum u = 2 \/ unum u = 3 \/ unum u = 4) as [->|[->| ->]] by lia; rewrite !elem_of_cons; auto. }
      rewrite skip_u by (done || lia). apply IH; try done; by eapply items_tail.
Qed.
Lemma dec_ann_items L (x : xann) : forall fuel w w' r, items_ok [6; 7] x -> (forall f, f ∈ knowns x -> (fst f = 6 \/ fst f = 7) /\ N.of_nat (String.length (snd f)) < two64) ->
  (length x < fuel)%nat -> fold_left set_ann (knowns x) w = w' -> is_Some (wa_key w') ->
  dec_ann L fuel (enc_xann x ++ tag 5 4 ++ r) w = Some (w', r).
Proof.
  induction x as [|i x IH]; intros fuel w w' r Hok Hk Hf Hw Ht; (destruct fuel as [|fuel]; [cbn in Hf; lia|]).
  - cbn in Hw. subst w'. cbn [enc_xann enc_items flat_map app dec_ann]. rewrite get_tag_enc by (done || (apply tag_bound; lia)). cbn [N.eqb Pos.eqb].
    rewrite !bool_decide_eq_true_2 by done. by rewrite andb_false_r.
  - assert (length x < fuel)%nat as Hf' by (cbn in Hf; lia). destruct i as [[f v]|u].
    + change (enc_xann (Known (f, v) :: x)) with ((tag f 2 ++ put_bytes v) ++ enc_xann x). rewrite <- !app_assoc. cbn [dec_ann].
      destruct (Hk (f, v)) as [Hn Hv]; [by left|]. cbn [fst snd] in Hn, Hv.
      rewrite get_tag_enc by (lia || (apply tag_bound; lia)). cbn [N.eqb Pos.eqb]. replace (f =? 0) with false by lia.
      replace ((f =? 6) || (f =? 7)) with true by lia. cbn [orb negb]. rewrite get_put_bytes by done. apply IH; try done.
      * by eapply items_tail.
      * intros g Hg. apply Hk. by right.
    + change (enc_xann (Unknown u :: x)) with (enc_ufield u ++ enc_xann x). rewrite <- app_assoc. cbn [dec_ann].
      destruct (Hok u) as [Hu Hnum]; [by left|]. rewrite get_tag_u by done. rewrite uwt_4. pose proof (ufield_num u Hu).
      replace (unum u =? 0) with false by lia. replace ((unum u =? 6) || (unum u =? 7)) with false.
      2:{ symmetry. rewrite orb_false_iff. rewrite !not_elem_of_cons in Hnum. lia. }
      rewrite skip_u by (done || lia). apply IH; try done; by eapply items_tail.
Qed.
(** The order of the fields does not matter. *)
Lemma span_fields l t s p : l ≡ₚ [(2, t); (3, s); (4, p)] -> fold_left set_span l (WSpan None None None) = WSpan (Some t) (Some s) (Some p).
Proof.
  intros H. assert (forall x, x ∈ l -> x = (2, t) \/ x = (3, s) \/ x = (4, p)) as Hin by (intros x; rewrite H, !elem_of_cons, elem_of_nil; naive_solver).
  pose proof (Permutation_length H) as Hl. destruct l as [|a [|b [|c [|]]]]; try done.
  assert (NoDup [a; b; c].*1) as Hnd. { rewrite H. cbn. repeat constructor; rewrite ?elem_of_cons, ?elem_of_nil; lia. }
  cbn in Hnd. rewrite !NoDup_cons, !elem_of_cons, !elem_of_nil in Hnd.
  destruct (Hin a) as [->|[->| ->]]; [by left| | |]; (destruct (Hin b) as [->|[->| ->]]; [by right; left| | |]); (destruct (Hin c) as [->|[->| ->]]; [by right; right; left| | |]); cbn in *; try done; naive_solver.
Qed.
Lemma ann_fields l a : l ≡ₚ (6, ann_key a) :: match ann_val a with Some v => [(7, v)] | None => [] end -> fold_left set_ann l (WAnn None None) = ann_wire a.
Proof.
  intros H. destruct a as [k [v|]]; cbn [ann_key ann_val] in *.
  - assert (forall x, x ∈ l -> x = (6, k) \/ x = (7, v)) as Hin by (intros x; rewrite H, !elem_of_cons, elem_of_nil; naive_solver).
    pose proof (Permutation_length H) as Hl. destruct l as [|a [|b [|]]]; try done.
    assert (NoDup [a; b].*1) as Hnd. { rewrite H. cbn. repeat constructor; rewrite ?elem_of_cons, ?elem_of_nil; lia. }
    cbn in Hnd. rewrite !NoDup_cons, !elem_of_cons, !elem_of_nil in Hnd.
    destruct (Hin a) as [->| ->]; [by left| |]; (destruct (Hin b) as [->| ->]; [by right; left| |]); cbn in *; try done; naive_solver.
  - apply Permutation_singleton_r in H. by subst l.
Qed.

(** ** Packets *)
Lemma enc_items_length {A} (enc : A -> bytes) l : (forall x, (1 <= length (enc x))%nat) -> (length l <= length (enc_items enc l))%nat.
Proof.
  intros H. induction l as [|[x|u] l IH]; [cbn; lia| |].
  - change (enc_items enc (Known x :: l)) with (enc x ++ enc_items enc l). rewrite app_length. cbn [length]. specialize (H x). lia.
  - change (enc_items enc (Unknown u :: l)) with (enc_ufield u ++ enc_items enc l). rewrite app_length. cbn [length]. pose proof (enc_ufield_length u). lia.
Qed.
Lemma xspan_length x : (length x <= length (enc_xspan x))%nat.
Proof. apply enc_items_length. intros f. rewrite app_length. pose proof (tag_nonempty (fst f) 1). lia. Qed.
Lemma xann_length x : (length x <= length (enc_xann x))%nat.
Proof. apply enc_items_length. intros f. rewrite app_length. pose proof (tag_nonempty (fst f) 2). lia. Qed.
Lemma group_length g : (1 <= length (enc_group g))%nat.
Proof. destruct g; cbn [enc_group]; rewrite app_length; [pose proof (tag_nonempty 1 3)|pose proof (tag_nonempty 5 3)]; lia. Qed.
Definition spans_of (p : xpacket) : list xspan := omap (fun g => match g with GSpan x => Some x | _ => None end) (knowns p).
Definition anns_of (p : xpacket) : list xann := omap (fun g => match g with GAnn x => Some x | _ => None end) (knowns p).
Lemma dec_items L (p : xpacket) id : forall fuel os done anns, xpacket_ok p -> is_id (sp_trace id) -> is_id (sp_span id) -> is_id (sp_parent id) ->
  (forall a, In a anns -> N.of_nat (String.length (ann_key a)) < two64 /\ N.of_nat (String.length (val_bytes (ann_val a))) < two64) ->
  (length p <= fuel)%nat ->
  (os = Some (span_wire id) /\ spans_of p = [] \/
   os = None /\ exists x, spans_of p = [x] /\ knowns x ≡ₚ [(2, sp_trace id); (3, sp_span id); (4, sp_parent id)]) ->
  Forall2 (fun x a => knowns x ≡ₚ (6, ann_key a) :: match ann_val a with Some v => [(7, v)] | None => [] end) (anns_of p) anns ->
  dec_packet L fuel (enc_xpacket p) (WPacket os done) = Some (WPacket (Some (span_wire id)) (done ++ map ann_wire anns)).
Proof.
  induction p as [|i p IH]; intros fuel os done anns [Hok Hg] H1 H2 H3 H4 Hf Hs Ha.
  - destruct Hs as [[-> _]|[_ (x & Hx & _)]]; [|done]. cbn in Ha. inversion Ha; subst. cbn. destruct fuel; by rewrite app_nil_r.
  - destruct fuel as [|fuel]; [cbn in Hf; lia|]. assert (length p <= fuel)%nat as Hf' by (cbn in Hf; lia).
    assert (xpacket_ok p) as Hp. { split; [by eapply items_tail|]. intros g Hin. apply Hg. by right. }
    destruct i as [[x|x]|u].
    + change (enc_xpacket (Known (GSpan x) :: p)) with ((tag 1 3 ++ enc_xspan x ++ tag 1 4) ++ enc_xpacket p). rewrite <- !app_assoc.
      destruct (app_nonempty (tag 1 3) (enc_xspan x ++ tag 1 4 ++ enc_xpacket p) (tag_nonempty 1 3)) as (b & l & E).
      cbn [dec_packet]. rewrite E, <- E. rewrite get_tag_enc by (done || (apply tag_bound; lia)). cbn [N.eqb Pos.eqb negb].
      destruct Hs as [[_ Hs]|[-> (y & Hs & Hy)]]; [done|]. change (spans_of (Known (GSpan x) :: p)) with (x :: spans_of p) in Hs. injection Hs as -> Hs.
      cbn [wp_span wp_anns default from_option]. rewrite (dec_span_items L y _ _ (span_wire id)).
      * apply IH; try done. by left.
      * apply (Hg (GSpan y)). by left.
      * intros f. rewrite Hy, !elem_of_cons, elem_of_nil. naive_solver.
      * rewrite !app_length. pose proof (xspan_length y). pose proof (tag_nonempty 1 4). lia.
      * by apply span_fields.
      * done.
      * done.
    + change (enc_xpacket (Known (GAnn x) :: p)) with ((tag 5 3 ++ enc_xann x ++ tag 5 4) ++ enc_xpacket p). rewrite <- !app_assoc.
      destruct (app_nonempty (tag 5 3) (enc_xann x ++ tag 5 4 ++ enc_xpacket p) (tag_nonempty 5 3)) as (b & l & E).
      cbn [dec_packet]. rewrite E, <- E. rewrite get_tag_enc by (done || (apply tag_bound; lia)). cbn [N.eqb Pos.eqb negb].
      change (anns_of (Known (GAnn x) :: p)) with (x :: anns_of p) in Ha. inversion Ha as [|? a ? anns' Hx Ha' E1 E2]; subst.
      destruct (H4 a) as [Hk Hv]; [by left|].
      cbn [wp_span wp_anns]. rewrite (dec_ann_items L x _ _ (ann_wire a)).
      * rewrite (IH fuel os (done ++ [ann_wire a]) anns'); try done.
        -- cbn [map]. by rewrite <- app_assoc.
        -- intros a' Hin. apply H4. by right.
      * apply (Hg (GAnn x)). by left.
      * intros f. rewrite Hx, elem_of_cons. intros [->|Hin]; [by auto|]. destruct (ann_val a) as [v|]; [|by apply elem_of_nil in Hin].
        apply elem_of_list_singleton in Hin as ->. by auto.
      * rewrite !app_length. pose proof (xann_length x). pose proof (tag_nonempty 5 4). lia.
      * by apply ann_fields.
      * done.
    + change (enc_xpacket (Unknown u :: p)) with (enc_ufield u ++ enc_xpacket p).
      destruct (app_nonempty (enc_ufield u) (enc_xpacket p) (enc_ufield_length u)) as (b & l & E).
      destruct (Hok u) as [Hu Hnum]; [by left|]. cbn [dec_packet]. rewrite E, <- E. rewrite get_tag_u by done. rewrite uwt_4. pose proof (ufield_num u Hu).
      rewrite !not_elem_of_cons in Hnum. replace (unum u =? 0) with false by lia. replace (unum u =? 1) with false by lia. replace (unum u =? 5) with false by lia.
      rewrite skip_u by (done || lia). by apply IH.
Qed.
Lemma unmarshal_x L p c : carries p c -> valid_call c -> unmarshal L (enc_xpacket p) = Some (new_packet (fst c) (snd c)).
Proof.
  intros (Hok & x & xs & Hs & <- & Hx & Ha) (H1 & H2 & H3 & H4). unfold unmarshal.
  rewrite (dec_items L p (fst c) _ None [] (snd c)); try done.
  - apply enc_items_length, group_length.
  - right. split; [done|]. by exists x.
Qed.
Lemma read_xframe L p c rest : carries p c -> valid_call c -> N.of_nat (length (enc_xpacket p)) <= 1048576 ->
  read_msg L (xframe p ++ rest) = RMsg (new_packet (fst c) (snd c)) rest.
Proof.
  intros Hc Hv Hf. unfold xframe. pose proof two64_max as Hm.
  set (n := N.of_nat (length (enc_xpacket p))) in *. rewrite <- app_assoc.
  destruct (app_nonempty (varint n) (enc_xpacket p ++ rest) (varint_nonempty n)) as (x & l & E).
  unfold read_msg. rewrite E, <- E. rewrite get_varint_enc by lia.
  replace (two64 <=? n) with false by lia. replace (max_message <? n) with false by lia.
  replace (N.of_nat (length (enc_xpacket p ++ rest)) <? n) with false by (rewrite app_length; lia).
  rewrite take_app_alt, drop_app_alt by (unfold n; lia). by rewrite (unmarshal_x L p c).
Qed.

(** ** C125: later versions of the protocol *)

(** Clients may write the fields of packets in any order and add fields that this server does not know, at any place and
    of any type: the server collects what the known fields say. *)
Theorem C125_newer_clients L coll ps cs : Forall2 carries ps cs -> Forall valid_call cs ->
  Forall (fun p => N.of_nat (length (enc_xpacket p)) <= 1048576) ps -> (forall h c, coll h c = true) ->
  handle_conn L coll (flat_map xframe ps) = (cs, HClosed).
Proof.
  intros Hc Hv Hf Hcoll. unfold handle_conn.
  assert (forall fuel done, (length ps < fuel)%nat -> handle L coll fuel done (flat_map xframe ps) = (done ++ cs, HClosed)) as H.
  { revert cs Hc Hv Hf. induction ps as [|p ps IH]; intros cs Hc Hv Hf fuel done Hl; (destruct fuel as [|fuel]; [cbn in Hl; lia|]).
    - inversion Hc; subst. cbn. by rewrite app_nil_r.
    - inversion Hc as [|? c ? cs' Hpc Hc' E1 E2]; subst. apply Forall_cons in Hv as [Hv1 Hv], Hf as [Hf1 Hf].
      cbn [flat_map handle]. rewrite (read_xframe L p c) by done. destruct (from_wire_new (fst c) (snd c)) as [-> ->]. rewrite Hcoll.
      rewrite (IH cs' Hc' Hv Hf) by (cbn in Hl; lia). rewrite <- app_assoc. by destruct c. }
  rewrite (H _ []); [done|]. assert (forall ps, (length ps <= length (flat_map xframe ps))%nat) as Hlen; [|specialize (Hlen ps); lia].
  clear. intros ps. induction ps as [|p ps IH]; cbn [flat_map length]; [lia|]. rewrite app_length. unfold xframe at 1. rewrite app_length.
  pose proof (varint_nonempty (N.of_nat (length (enc_xpacket p)))). lia.
Qed.
Print Assumptions C125_newer_clients.
(** In particular nothing that a client of this version writes is read in another way. *)
Theorem C125_this_version c : exists p, enc_xpacket p = call_body c /\ carries p c.
Proof.
  destruct c as [[t s pa] anns].
  exists (Known (GSpan [Known (2, t); Known (3, s); Known (4, pa)]) ::
    map (fun a => Known (GAnn (Known (6, ann_key a) :: match ann_val a with Some v => [Known (7, v)] | None => [] end))) anns).
  split.
  - unfold call_body, enc_packet, new_packet, enc_xpacket. cbn [fst snd wp_span wp_anns].
    unfold enc_items at 1. cbn [flat_map]. f_equal.
    induction anns as [|[k v] anns IH]; [done|]. cbn [map flat_map]. rewrite IH. f_equal. cbn [enc_group]. unfold enc_xann, enc_items, enc_ann, ann_wire, put_opt.
      cbn [flat_map fst snd wa_key wa_val ann_key ann_val]. destruct v; cbn [flat_map fst snd]; by rewrite ?app_nil_r, <- ?app_assoc.
  - split.
    + split.
      * intros u [[=]|(a & [=] & _)%elem_of_list_fmap]%elem_of_cons.
      * intros g [[= ->]|(a & [= ->] & _)%elem_of_list_fmap]%elem_of_cons.
        -- intros u Hu. by rewrite !elem_of_cons, elem_of_nil in Hu; destruct Hu as [|[|[|]]].
        -- intros u Hu. apply elem_of_cons in Hu as [|Hu]; [done|]. destruct (ann_val a); [by apply elem_of_list_singleton in Hu|by apply elem_of_nil in Hu].
    + exists [Known (2, t); Known (3, s); Known (4, pa)], (map (fun a => Known (6, ann_key a) :: match ann_val a with Some v => [Known (7, v)] | None => [] end) anns).
      split; [|split; [|split; [done|]]].
      * cbn. f_equal. induction anns as [|a anns IH]; [done|]. cbn. exact IH.
      * cbn. induction anns as [|a anns IH]; [done|]. cbn. by f_equal.
      * cbn [snd]. induction anns as [|a anns IH]; [constructor|]. constructor; [|done]. by destruct (ann_val a).
Qed.
Print Assumptions C125_this_version.
(** A packet with an empty unknown group at its end, an unknown field in the span and the annotation's value before
    its key. *)
Example C125_nonvacuous : let c := (MkSpanID 1 2 3, [Ann "k" (Some "v")]) in
  let p := [Known (GAnn [Known (7, "v"%string); Unknown (UBytes 9 "x"); Known (6, "k"%string)]); Unknown (UVarint 100 5);
            Known (GSpan [Known (4, 3); Known (2, 1); Unknown (UFixed32 1 7); Known (3, 2)]); Unknown (UGroup 8 [UFixed64 1 1; UGroup 2 []]); Unknown (UGroup 9 [])] in
  carries p c /\ valid_call c /\ N.of_nat (length (enc_xpacket p)) <= 1048576 /\
  handle_conn (MkLib true true) (fun _ _ => true) (xframe p) = ([c], HClosed).
Proof.
  cbv zeta. assert (Forall2 carries [[Known (GAnn [Known (7, "v"%string); Unknown (UBytes 9 "x"); Known (6, "k"%string)]); Unknown (UVarint 100 5);
            Known (GSpan [Known (4, 3); Known (2, 1); Unknown (UFixed32 1 7); Known (3, 2)]); Unknown (UGroup 8 [UFixed64 1 1; UGroup 2 []]); Unknown (UGroup 9 [])]]
     [(MkSpanID 1 2 3, [Ann "k" (Some "v")])]) as Hc.
  { constructor; [|constructor]. split.
    - split.
      + intros u Hu. rewrite !elem_of_cons, elem_of_nil in Hu. destruct Hu as [|[[= ->]|[|[[= ->]|[[= ->]|]]]]]; try done;
          (split; [cbn; unfold two64; lia|rewrite !not_elem_of_cons; cbn; split_and!; [lia|lia|apply not_elem_of_nil]]).
      + intros g Hg. rewrite !elem_of_cons, elem_of_nil in Hg. destruct Hg as [[= ->]|[|[[= ->]|[|[|]]]]]; try done;
          intros u Hu; rewrite !elem_of_cons, elem_of_nil in Hu.
        * destruct Hu as [|[[= ->]|[|]]]; try done. split; [cbn; unfold two64; lia|]. rewrite !not_elem_of_cons; cbn; split_and!; [lia|lia|apply not_elem_of_nil].
        * destruct Hu as [|[|[[= ->]|[|]]]]; try done. split; [cbn; unfold two64; lia|]. rewrite !not_elem_of_cons; cbn; split_and!; [lia|lia|lia|apply not_elem_of_nil].
    - do 2 eexists. split; [reflexivity|]. split; [reflexivity|]. split.
      + cbn. change (2 :: 3 :: 4 :: nil) with (2 :: 3 :: 4 :: nil). apply Permutation_sym. etrans; [apply perm_skip, perm_swap|]. etrans; [apply perm_swap|]. done.
      + constructor; [|constructor]. cbn. apply perm_swap. }
  assert (valid_call (MkSpanID 1 2 3, [Ann "k" (Some "v")])) as Hv.
  { unfold valid_call, is_id, two64. cbn. split_and!; try lia. intros a [<-|[]]. cbn. lia. }
  assert (N.of_nat (length (enc_xpacket [Known (GAnn [Known (7, "v"%string); Unknown (UBytes 9 "x"); Known (6, "k"%string)]); Unknown (UVarint 100 5);
            Known (GSpan [Known (4, 3); Known (2, 1); Unknown (UFixed32 1 7); Known (3, 2)]); Unknown (UGroup 8 [UFixed64 1 1; UGroup 2 []]); Unknown (UGroup 9 [])])) <= 1048576) as Hl by by vm_compute.
  split; [by inversion Hc|]. split; [done|]. split; [done|].
  pose proof (C125_newer_clients (MkLib true true) (fun _ _ => true) _ _ Hc ltac:(by constructor) ltac:(by constructor) ltac:(done)) as H.
  cbn [flat_map] in H. by rewrite app_nil_r in H.
Qed.
