From Verif Require Import Base StrOrder TimeModel TimeProofs ReflModel ReflSpec.
From Coq Require Import DecimalString DecimalN DecimalPos DecimalFacts ZifyBool ZifyNat ZifyN.
From stdpp Require Import sorting.
Local Open Scope N_scope.

(** ** Text of scalars *)
Lemma to_uint_nonnil n : N.to_uint n <> Decimal.Nil.
Proof. destruct n as [|p]; cbn; [done|]. apply DecimalPos.Unsigned.to_uint_nonnil. Qed.
Lemma parse_fmt_uint n : n < two64 -> parse_uint (fmt_uint n) = Some n.
Proof.
  intros H. unfold parse_uint, fmt_uint. rewrite NilZero.usu by (apply to_uint_nonnil).
  rewrite DecimalN.Unsigned.of_to. by replace (n <? two64) with true by lia.
Qed.
Lemma fmt_uint_digit n : exists c r, fmt_uint n = String c r /\ Ascii.eqb c "-" = false /\ Ascii.eqb c "+" = false.
Proof.
  unfold fmt_uint. pose proof (to_uint_nonnil n) as H. destruct (N.to_uint n); try done; cbn; eauto.
Qed.
Lemma parse_fmt_int z : (- 9223372036854775808 <= z < 9223372036854775808)%Z -> parse_int (fmt_int z) = Some z.
Proof.
  intros H. unfold fmt_int, parse_int. destruct (z <? 0)%Z eqn:E.
  - cbn [Ascii.eqb Bool.eqb]. rewrite parse_fmt_uint by (unfold two64; lia). replace (_ <=? _) with true by lia. f_equal. lia.
  - destruct (fmt_uint_digit (Z.to_N z)) as (c & r & Hr & H1 & H2). rewrite Hr, H1, H2, <- Hr. rewrite parse_fmt_uint by (unfold two64; lia).
    replace (_ <? _) with true by lia. f_equal. lia.
Qed.
Lemma parse_fmt_bool b : parse_bool (fmt_bool b) = Some b.
Proof. by destruct b. Qed.
Lemma wrap_uint_in b n : n < 2 ^ b -> wrap_uint b n = n.
Proof. apply N.mod_small. Qed.
Lemma wrap_int_in b z : int_width b -> (- 2 ^ (Z.of_N b - 1) <= z < 2 ^ (Z.of_N b - 1))%Z -> wrap_int b z = z.
Proof.
  intros Hw H. unfold wrap_int.
  assert (2 ^ Z.of_N b = 2 * 2 ^ (Z.of_N b - 1))%Z as Hp by (destruct Hw as [->|[->|[->| ->]]]; reflexivity).
  set (p := (2 ^ (Z.of_N b - 1))%Z) in *. rewrite Hp.
  destruct (Z.ltb_spec z 0).
  - assert (z mod (2 * p) = z + 2 * p)%Z as -> by (symmetry; apply (Z.mod_unique _ _ (-1)%Z); lia). destruct (Z.ltb_spec (z + 2 * p) p); lia.
  - rewrite Z.mod_small by lia. destruct (Z.ltb_spec z p); lia.
Qed.
Lemma int_range b z : int_width b -> (- 2 ^ (Z.of_N b - 1) <= z < 2 ^ (Z.of_N b - 1))%Z -> (- 9223372036854775808 <= z < 9223372036854775808)%Z.
Proof. intros [->|[->|[->| ->]]]; cbn; lia. Qed.
Lemma uint_range b n : int_width b -> n < 2 ^ b -> n < two64.
Proof. unfold two64. intros [->|[->|[->| ->]]]; cbn; lia. Qed.

Lemma scalar_text k x : scalar_in k x -> exists s, (forall P, flatten x P = Some [(P, s)]) /\ parse_scalar k s = Some x.
Proof.
  destruct k, x; cbn [scalar_in]; try done; cbn [flatten parse_scalar]; intros H; (eexists; split; [done|]).
  - by rewrite parse_fmt_bool.
  - rewrite parse_fmt_int by (by eapply int_range; apply H). cbn. destruct H. by rewrite wrap_int_in.
  - rewrite parse_fmt_uint by (by eapply uint_range; apply H). cbn. destruct H. by rewrite wrap_uint_in.
  - done.
  - by rewrite H.
  - by rewrite H.
  - by rewrite H.
Qed.
Lemma leaf_text t x : leaf t x -> exists s, (forall P, flatten x P = Some [(P, s)]) /\ parse_value t s = POk x.
Proof.
  destruct t as [[] k| |t| | | |]; cbn [leaf]; try done.
  - intros (s & H1 & H2)%scalar_text. exists s. split; [done|]. cbn. by rewrite H2.
  - destruct x; try done. intros H%parse_fmt_time. eexists. split; [done|]. cbn [parse_value]. by rewrite H.
  - destruct t as [[] k| | | | | |]; try done. destruct x as [| | | | | | | |[x|]| | | |]; try done.
    intros [Hd Hx]. pose proof Hx as (s & H1 & H2)%scalar_text. exists s. split; [|cbn; by rewrite H2].
    intros P. rewrite <- (H1 P). destruct x; try done; destruct k; done.
Qed.

(** ** Names *)
Definition under (P k : string) : Prop := k = P \/ has_prefix (P +:+ ".") k = true.
Lemma nest_pre P : exists pre, (forall n, nest P n = (pre +:+ n)%string) /\ (P = "" /\ pre = "" \/ P <> "" /\ pre = P +:+ ".")%string.
Proof.
  destruct P as [|c P]; [by exists ""%string; split; [|left]|]. exists (String c P +:+ ".")%string. split; [|by right].
  intros n. cbn [nest]. by rewrite str_app_assoc.
Qed.
Lemma above_app pre a k : above (pre +:+ a) (pre +:+ k) <-> above a k.
Proof. unfold above. by rewrite str_app_assoc, slt_app_l, has_prefix_app_l. Qed.
Lemma under_app pre b k : under (pre +:+ b) k -> exists k', k = (pre +:+ k')%string /\ under b k'.
Proof.
  intros [->|H]; [exists b; split; [done|by left]|]. apply has_prefix_spec in H as [r ->]. exists (b +:+ "." +:+ r)%string.
  rewrite !str_app_assoc. split; [done|]. right. rewrite <- str_app_assoc. apply has_prefix_app.
Qed.
Lemma under_prefix P k : under P k -> has_prefix P k = true.
Proof. intros [->|H]; [apply has_prefix_refl|]. eapply has_prefix_trans; [|exact H]. apply has_prefix_app. Qed.
Lemma under_le P k : under P k -> k = P \/ slt P k = true.
Proof. intros H. by apply prefix_le, under_prefix. Qed.

(** Larger names that do not clash. *)
Lemma above_sibling a b k : slt a b = true -> no_clash a b -> under b k -> above a k.
Proof.
  intros Hlt Hnc Hu. destruct (has_prefix a b) eqn:Hp.
  - apply has_prefix_spec in Hp as [[|c r] ->]; [by rewrite str_app_nil_r, slt_irrefl in Hlt|]. specialize (Hnc c r eq_refl).
    apply under_prefix, has_prefix_spec in Hu as [q ->]. rewrite str_app_assoc. unfold above. rewrite slt_app_l, has_prefix_app_l. cbn [String.append slt has_prefix].
    split; [change (N_of_ascii ".") with 46; lia|]. destruct (Ascii.eqb "." c) eqn:E; [|done]. apply Ascii.eqb_eq in E as <-. by cbn in Hnc.
  - apply under_prefix, has_prefix_spec in Hu as [q ->].
    pose proof (slt_noprefix2 _ _ q Hlt Hp) as H1.
    assert (has_prefix a (b +:+ q) = false) as H2.
    { destruct (has_prefix a (b +:+ q)) eqn:E; [|done]. apply has_prefix_both in E as [E|(q' & -> & _)]; [congruence|].
      apply slt_asym in Hlt. destruct q' as [|c q']; [by rewrite str_app_nil_r, has_prefix_refl in Hp|]. by rewrite slt_prefix in Hlt. }
    by apply slt_noprefix.
Qed.
Lemma out_sibling a b k : a <> b -> no_clash a b -> no_clash b a -> under b k -> has_prefix a k = true -> above a k.
Proof.
  intros Hne H1 H2 Hu Hp. destruct (slt_total a b) as [Hlt|[?|Hlt]]; [by eapply above_sibling|done|]. exfalso.
  apply slt_asym in Hlt as Hab. destruct Hu as [->|Hu].
  - apply prefix_le in Hp as [->|Hp]; [done|congruence].
  - apply has_prefix_spec in Hu as [r ->]. rewrite str_app_assoc in Hp. apply has_prefix_both in Hp as [Hp|(q & -> & Hq)].
    + apply prefix_le in Hp as [->|Hp]; [done|congruence].
    + destruct q as [|c q]; [by rewrite str_app_nil_r in Hne|]. specialize (H2 c q eq_refl). cbn in Hq. apply andb_true_iff in Hq as [Hc _].
      apply Ascii.eqb_eq in Hc as ->. by cbn in H2.
Qed.
Lemma above_nest P n k : P <> ""%string -> above P k -> above (nest P n) k.
Proof.
  intros HP [H1 H2]. destruct (nest_pre P) as (pre & -> & [[? _]|[_ ->]]); [done|]. unfold above. rewrite str_app_assoc. by apply slt_noprefix.
Qed.
Lemma under_nest P n k : P <> ""%string -> under (nest P n) k -> under P k.
Proof.
  intros HP Hu. destruct (nest_pre P) as (pre & Hn & [[? _]|[_ ->]]); [done|]. rewrite Hn in Hu.
  right. apply under_prefix in Hu. eapply has_prefix_trans; [|exact Hu]. apply has_prefix_app.
Qed.
Lemma above_slt P k : above P k -> slt P k = true.
Proof. intros [H _]. eapply slt_trans; [|exact H]. apply slt_prefix. Qed.
Lemma nest_nonempty P n : n <> ""%string -> nest P n <> ""%string.
Proof. destruct P; cbn; [done|]. done. Qed.

(** ** Types *)
Definition ty_ind' (P : ty -> Prop) (H1 : forall b k, P (TScalar b k)) (H2 : P TTime) (H3 : forall t, P t -> P (TPtr t))
    (H4 : forall fs, Forall (fun f => P (snd f)) fs -> P (TStruct fs)) (H5 : forall t, P t -> P (TMap t)) (H6 : forall t, P t -> P (TSlice t))
    (H7 : forall n t, P t -> P (TArray n t)) : forall t, P t :=
  fix F t := match t with
    | TScalar b k => H1 b k | TTime => H2 | TPtr t => H3 t (F t)
    | TStruct fs => H4 fs ((fix G fs : Forall (fun f => P (snd f)) fs := match fs with
        | [] => @List.Forall_nil _ _ | f :: fs => @List.Forall_cons _ _ f fs (F (snd f)) (G fs) end) fs)
    | TMap t => H5 t (F t) | TSlice t => H6 t (F t) | TArray n t => H7 n t (F t)
    end.

Lemma foreign_struct fs name k : foreign (TStruct fs) name k <-> Forall (fun f => foreign (snd f) (nest name (fst f)) k) fs.
Proof. cbn [foreign]. induction fs as [|f fs IH]; [split; constructor|]. rewrite Forall_cons, <- IH. done. Qed.
Lemma good_struct fs x : good (TStruct fs) x <-> exists l, x = VStruct l /\ map fst l = map fst fs /\ names_ok (map fst fs) /\
  Forall2 (fun f g => fst f = fst g /\ good (snd f) (snd g) /\ (is_map (snd f) = true \/ writes (snd g) = true)) fs l.
Proof.
  destruct x as [| | | | | | | | |l| | |]; cbn [good]; try (split; [done|intros (? & ? & _); done]).
  split.
  - intros (H1 & H2 & H3). exists l. split_and!; try done. clear H2. revert l H1 H3. induction fs as [|f fs IH]; intros [|g l]; cbn; try done.
    intros [= Hf Hl] (H3 & H4 & H5). constructor; [done|]. by apply IH.
  - intros (? & [= <-] & H1 & H2 & H3). split_and!; try done. clear H1 H2. induction H3 as [|f g fs l H]; [done|]. split; [apply H|]. split; [apply H|]. done.
Qed.

Definition out (Q k : string) : Prop := has_prefix Q k = true -> above Q k.
Lemma foreign_out t : forall Q k, Q <> ""%string -> out Q k -> foreign t Q k.
Proof.
  induction t as [b k'| |t IH|fs IH|t IH|t IH|n t IH] using ty_ind'; intros Q k HQ Ho; try done.
  - apply foreign_struct. rewrite Forall_forall in *. intros f Hf. apply IH; [done| |].
    + destruct Q; [done|]. cbn. done.
    + intros Hp. exfalso. destruct (nest_pre Q) as (pre & Hn & [[? _]|[_ ->]]); [done|]. rewrite Hn in Hp.
      assert (has_prefix (Q +:+ ".") k = true) as H1 by (eapply has_prefix_trans; [apply has_prefix_app|exact Hp]).
      assert (has_prefix Q k = true) as H2 by (eapply has_prefix_trans; [apply has_prefix_app|exact H1]).
      destruct (Ho H2). congruence.
  - cbn. destruct (has_prefix (Q +:+ ".") k) eqn:E; [|done]. assert (has_prefix Q k = true) as H2 by (eapply has_prefix_trans; [apply has_prefix_app|exact E]).
    destruct (Ho H2). congruence.
Qed.

(** ** Pieces of the flattening *)
Lemma cat_opt_some {A} (l : list (option (list A))) r : cat_opt l = Some r <-> exists ls, l = map Some ls /\ r = concat ls.
Proof.
  revert r. induction l as [|o l IH]; intros r; cbn [cat_opt fold_right]; [|fold (cat_opt l)].
  - split; [intros [= <-]; by exists []|]. by intros ([|] & ? & ->).
  - split.
    + destruct o as [a|]; [|done]. destruct (cat_opt l) as [b|] eqn:E; [|done]. intros [= <-]. destruct (proj1 (IH b) eq_refl) as (ls & -> & ->). by exists (a :: ls).
    + intros ([|a ls] & Hl & ->); [done|]. injection Hl as -> Hl. rewrite (proj2 (IH (concat ls))); [done|]. by exists ls.
Qed.
Lemma map_Some_elem {A B} (f : A -> option B) l ls : map f l = map Some ls -> forall i x, l !! i = Some x -> exists y, ls !! i = Some y /\ f x = Some y.
Proof.
  revert ls. induction l as [|a l IH]; intros [|b ls] H; try done. injection H as H1 H2. intros [|i] x; cbn.
  - intros [= <-]. by exists b.
  - by apply IH.
Qed.
Lemma map_Some_elem' {A B} (f : A -> option B) l ls : map f l = map Some ls -> forall i y, ls !! i = Some y -> exists x, l !! i = Some x /\ f x = Some y.
Proof.
  revert ls. induction l as [|a l IH]; intros [|b ls] H; try done. injection H as H1 H2. intros [|i] x; cbn.
  - intros [= <-]. by exists a.
  - by apply IH.
Qed.
(** Flattening a struct: the union of the fields. *)
Lemma flatten_struct l P fl : flatten (VStruct l) P = Some fl ->
  (forall g, g ∈ l -> exists flg, flatten (snd g) (nest P (fst g)) = Some flg /\ forall e, e ∈ flg -> e ∈ fl) /\
  (forall e, e ∈ fl -> exists g flg, g ∈ l /\ flatten (snd g) (nest P (fst g)) = Some flg /\ e ∈ flg).
Proof.
  cbn [flatten]. intros (ls & Hls & ->)%cat_opt_some. split.
  - intros g [i Hi]%elem_of_list_lookup. destruct (map_Some_elem _ _ _ Hls _ _ Hi) as (flg & H1 & H2). exists flg. split; [done|].
    intros e He. apply elem_of_list_In, in_concat. exists flg. split; apply elem_of_list_In; [|done]. by eapply elem_of_list_lookup_2.
  - intros e He. apply elem_of_list_In, in_concat in He as (flg & H1 & H2). apply elem_of_list_In in H1, H2.
    apply elem_of_list_lookup in H1 as [i Hi]. destruct (map_Some_elem' _ _ _ Hls _ _ Hi) as (g & H3 & H4). exists g, flg. split_and!; try done.
    by eapply elem_of_list_lookup_2.
Qed.
(** Flattening leaves of a map, of a slice. *)
Lemma flatten_map e l P : P <> ""%string -> Forall (fun f => leaf e (snd f)) l -> exists ss,
  flatten (VMap (Some l)) P = Some (zip_with (fun f s => ((P +:+ ".") +:+ fst f, s)%string) l ss) /\ Forall2 (fun f s => parse_value e s = POk (snd f)) l ss.
Proof.
  intros HP H. cbn [flatten]. induction H as [|[k x] l Hx H (ss & IH1 & IH2)]; [by exists []|].
  apply leaf_text in Hx as (s & H1 & H2). exists (s :: ss). split; [|by constructor].
  cbn [map cat_opt fold_right snd fst zip_with]. rewrite H1. fold (cat_opt (map (fun f => flatten f.2 (nest P f.1)) l)). rewrite IH1. destruct (nest_pre P) as (pre & Hn & [[? _]|[_ ->]]); [done|]. by rewrite Hn.
Qed.

(** ** Sorted pair lists *)
Notation ssorted := (StronglySorted (fun a b : string * string => slt (fst a) (fst b) = true)).
Lemma ssorted_is_sorted kv : ssorted kv -> is_sorted kv = true.
Proof.
  induction 1 as [|a kv H IH Ha]; [done|]. destruct kv as [|b kv]; [done|]. inversion Ha; subst. cbn [is_sorted] in *. rewrite IH.
  rewrite slt_asym by done. done.
Qed.
Lemma ssorted_app l1 l2 : ssorted (l1 ++ l2) -> ssorted l1 /\ ssorted l2 /\ forall a b, a ∈ l1 -> b ∈ l2 -> slt (fst a) (fst b) = true.
Proof.
  induction l1 as [|a l1 IH]; cbn.
  - intros H. split_and!; [constructor|done|]. intros ? ? []%elem_of_nil.
  - intros H. inversion H as [|? ? H1 H2]; subst. destruct (IH H1) as (I1 & I2 & I3). rewrite Forall_app in H2. destruct H2 as [H2 H3].
    split_and!; [by constructor|done|]. intros x y [->|Hx]%elem_of_cons Hy; [|by apply I3]. rewrite Forall_forall in H3. by apply H3.
Qed.
Lemma ssorted_suffix l kv : l `suffix_of` kv -> ssorted kv -> ssorted l.
Proof. intros [p ->] H. by apply ssorted_app in H as (_ & H & _). Qed.
Lemma ssorted_unique kv k s s' : ssorted kv -> (k, s) ∈ kv -> (k, s') ∈ kv -> s = s'.
Proof.
  induction 1 as [|a kv H IH Ha]; [by intros ?%elem_of_nil|]. rewrite Forall_forall in Ha.
  intros [<-|H1]%elem_of_cons [E|H2]%elem_of_cons; [by injection E|..].
  - apply Ha in H2. cbn in H2. by rewrite slt_irrefl in H2.
  - subst. apply Ha in H1. cbn in H1. by rewrite slt_irrefl in H1.
  - auto.
Qed.
Lemma ssorted_ext l1 l2 : ssorted l1 -> ssorted l2 -> (forall e, e ∈ l1 <-> e ∈ l2) -> l1 = l2.
Proof.
  intros H1. revert l2. induction H1 as [|a l1 H1 IH Ha]; intros l2 H2 Hx.
  - destruct l2 as [|b l2]; [done|]. exfalso. assert (b ∈ @nil (string * string)) as []%elem_of_nil by (apply Hx; left).
  - destruct H2 as [|b l2 H2 Hb]. { exfalso. assert (a ∈ @nil (string * string)) as []%elem_of_nil by (apply Hx; left). }
    rewrite Forall_forall in Ha, Hb.
    assert (a = b) as ->.
    { assert (a ∈ b :: l2) as [->|Hi]%elem_of_cons by (apply Hx; left); [done|]. apply Hb in Hi.
      assert (b ∈ a :: l1) as [->|Hj]%elem_of_cons by (apply Hx; left); [done|]. apply Ha in Hj. apply slt_asym in Hj. congruence. }
    f_equal. apply IH; [done|]. intros e. split; intros He.
    + assert (e ∈ b :: l2) as [->|?]%elem_of_cons by (apply Hx; by right); [|done]. apply Ha in He. by rewrite slt_irrefl in He.
    + assert (e ∈ b :: l1) as [->|?]%elem_of_cons by (apply Hx; by right); [|done]. apply Hb in He. by rewrite slt_irrefl in He.
Qed.

(** Discarding up to a prefix keeps everything from the first pair with that prefix on. *)
Lemma drop_until_suffix P kv : drop_until P kv `suffix_of` kv.
Proof. induction kv as [|p kv IH]; [by exists []|]. cbn. destruct (has_prefix P p.1); [by exists []|]. by apply suffix_cons_r. Qed.
Lemma drop_until_keep P kv e e0 : ssorted kv -> e0 ∈ kv -> has_prefix P (fst e0) = true -> e ∈ kv -> (fst e = fst e0 \/ slt (fst e0) (fst e) = true) -> e ∈ drop_until P kv.
Proof.
  induction 1 as [|a kv H IH Ha]; [by intros ?%elem_of_nil|]. rewrite Forall_forall in Ha. intros H0 Hp He Hle. cbn.
  destruct (has_prefix P a.1) eqn:E; [done|].
  apply elem_of_cons in H0 as [->|H0]; [congruence|]. apply elem_of_cons in He as [->|He]; [|by apply IH].
  exfalso. apply Ha in H0. destruct Hle as [Hle|Hle]; [rewrite Hle, slt_irrefl in H0; done|]. apply slt_asym in Hle. congruence.
Qed.
Lemma drop_until_prefix P kv e e0 : ssorted kv -> e0 ∈ kv -> has_prefix P (fst e0) = true -> e ∈ kv -> has_prefix P (fst e) = true -> e ∈ drop_until P kv.
Proof.
  intros Hs H0 Hp0 He Hp. destruct (slt_total (fst e0) (fst e)) as [Hl|[Hl|Hl]].
  - apply (drop_until_keep P kv e e0); auto.
  - apply (drop_until_keep P kv e e0); auto.
  - apply (drop_until_keep P kv e e); auto.
Qed.
Lemma drop_until_head P kv : match drop_until P kv with [] => True | a :: _ => has_prefix P (fst a) = true end.
Proof. induction kv as [|p kv IH]; [done|]. cbn. destruct (has_prefix P p.1) eqn:E; [by cbn|done]. Qed.

(** A scalar's pair is the first with its key as prefix. *)
Lemma drop_until_exact P s kv : ssorted kv -> (P, s) ∈ kv -> exists r, drop_until P kv = (P, s) :: r /\ r `suffix_of` kv /\
  forall e, e ∈ kv -> slt P (fst e) = true -> e ∈ r.
Proof.
  intros Hs Hin. pose proof (drop_until_suffix P kv) as Hsuf. pose proof (drop_until_head P kv) as Hh.
  assert ((P, s) ∈ drop_until P kv) as Hk by (eapply drop_until_prefix; eauto using has_prefix_refl).
  pose proof (ssorted_suffix _ _ Hsuf Hs) as Hs'.
  destruct (drop_until P kv) as [|a r] eqn:E; [by apply elem_of_nil in Hk|].
  assert (a = (P, s)) as ->.
  { apply elem_of_cons in Hk as [->|Hk]; [done|]. exfalso. inversion Hs' as [|? ? _ Ha]; subst. rewrite Forall_forall in Ha. apply Ha in Hk. cbn in Hk.
    apply prefix_le in Hh as [Hh|Hh]; [rewrite Hh, slt_irrefl in Hk; done|]. apply slt_asym in Hk. congruence. }
  exists r. split; [done|]. split; [by apply suffix_cons_l in Hsuf|].
  intros e He Hlt. assert (e ∈ (P, s) :: r) as Hr. { rewrite <- E. eapply drop_until_keep; [done|exact Hin|apply has_prefix_refl|done|by right]. }
  apply elem_of_cons in Hr as [->|Hr]; [|done]. cbn in Hlt. by rewrite slt_irrefl in Hlt.
Qed.
