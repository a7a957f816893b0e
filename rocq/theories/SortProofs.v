(** Proofs about the buttons of the timeline. *)
From Verif Require Import Base IdModel IdSpec IdProofs TimeModel ReflModel EventModel TraceModel MemSpec ProfModel FloatModel VisModel VisSpec VisProps MenuModel MenuSpec MenuProofs MenuProps SortModel SortSpec.
From Coq Require Import Sorting.Sorted ssreflect.
Local Open Scope general_if_scope.
Local Open Scope Z_scope.

(** ** Numbers *)

Lemma js_small z : Z.abs z < 2 ^ 53 -> js_number z = z.
Proof.
  intros H. rewrite /js_number. assert (Z.log2 (Z.abs z) < 53) as Hl.
  { destruct (decide (Z.abs z = 0)) as [->|]; [done|]. apply Z.log2_lt_pow2; lia. }
  by destruct (Z.leb_spec (Z.log2 (Z.abs z) - 52) 0); [|lia].
Qed.
Lemma js_near z : Z.abs z < 2 ^ 63 -> Z.abs (js_number z - z) <= 512.
Proof.
  intros H. rewrite /js_number. destruct (Z.leb_spec (Z.log2 (Z.abs z) - 52) 0) as [|He]; [lia|].
  assert (Z.log2 (Z.abs z) < 63) as Hl.
  { destruct (decide (Z.abs z = 0)) as [->|]; [done|]. apply Z.log2_lt_pow2; lia. }
  set (e := Z.log2 (Z.abs z) - 52) in *. cbv zeta.
  assert (2 ^ e <= 2 ^ 10) as Hp by (apply Z.pow_le_mono_r; lia). change (2 ^ 10) with 1024 in Hp.
  assert (0 < 2 ^ e) as Hp0 by (apply Z.pow_pos_nonneg; lia).
  pose proof (Z.div_mod z (2 ^ e)) as Hd. pose proof (Z.mod_pos_bound z (2 ^ e) Hp0) as Hm.
  set (p := 2 ^ e) in *. set (q := z / p) in *. set (r := z mod p) in *.
  assert (z = p * q + r) as Hz by lia.
  destruct (Z.ltb_spec (2 * r) p); [nia|]. destruct (Z.ltb_spec p (2 * r)); [nia|]. destruct (Z.even q); nia.
Qed.
Lemma js_lt a b : Z.abs a * 1000000 < 2 ^ 63 -> Z.abs b * 1000000 < 2 ^ 63 -> (js_number (a * 1000000) < js_number (b * 1000000) <-> a < b).
Proof.
  intros Ha Hb. destruct (decide (a = b)) as [->|Hne]; [lia|]. assert (Z.abs (js_number (a * 1000000) - a * 1000000) <= 512) as Hna by (apply js_near; lia).
  assert (Z.abs (js_number (b * 1000000) - b * 1000000) <= 512) as Hnb by (apply js_near; lia).
  set (u := js_number _) in *. set (w := js_number (b * 1000000)) in *. clearbody u w. split; lia.
Qed.

(** ** Code units *)

Lemma units_lt_le a b : units_lt a b = true <-> ~ units_le b a.
Proof.
  revert b. induction a as [|x a IH]; intros [|y b]; cbn [units_lt].
  - split; [done|]. intros H. destruct H. constructor.
  - split; [|done]. intros _ H. inversion H.
  - split; [done|]. intros H. destruct H. constructor.
  - destruct (N.ltb_spec x y) as [Hlt|Hge].
    + split; [|done]. intros _ H. inversion H; subst; lia.
    + destruct (N.ltb_spec y x) as [Hlt|Hge'].
      * split; [done|]. intros H. destruct H. by constructor.
      * assert (x = y) as -> by lia. rewrite IH. split; intros H H'; apply H; [|by constructor]. inversion H'; subst; [lia|done].
Qed.
Lemma units_le_total a b : units_le a b \/ units_le b a.
Proof.
  revert b. induction a as [|x a IH]; intros [|y b]; [left; constructor|left; constructor|right; constructor|].
  destruct (N.lt_trichotomy x y) as [H|[->|H]]; [left; by constructor| |right; by constructor].
  destruct (IH b); [left|right]; by constructor.
Qed.
Lemma units_le_trans a b c : units_le a b -> units_le b c -> units_le a c.
Proof.
  intros H. revert c. induction H as [b|x y a b Hxy|x a b H IH]; intros c Hc; [constructor| |].
  - inversion Hc; subst; apply UL_lt; [lia|done].
  - inversion Hc; subst; [by apply UL_lt|]. apply UL_eq. by apply IH.
Qed.

(** ** Comparisons *)

Definition good (o : item) : Prop := exists b bs, it_times o = b :: bs /\ Z.abs (b_start b) < 2 ^ 53 /\ Z.abs (b_end b) < 2 ^ 53 /\
  b_duration b = Z.max 0 (b_end b - b_start b) * 1000000 /\ Z.max 0 (b_end b - b_start b) * 1000000 < 2 ^ 63.
Lemma good_visible v o : good (with_visible v o) <-> good o.
Proof. done. Qed.
Lemma less_spec low k a b : good a -> good b -> exists c : bool, less low k a b = Some c /\ (if c then ~ no_later low k b a else no_later low k b a).
Proof.
  intros (x & xs & Ex & Hx1 & Hx2 & Hx3 & Hx4) (y & ys & Ey & Hy1 & Hy2 & Hy3 & Hy4). destruct k; cbn [less no_later]; rewrite ?Ex ?Ey; eexists; (split; [reflexivity|]).
  4: { destruct (units_lt _ _) eqn:E; [by apply units_lt_le|]. destruct (units_le_total (low (it_label b)) (low (it_label a))) as [|H]; [done|].
       destruct (low (it_label a)) as [|u l] eqn:El; [|].
       - destruct (low (it_label b)); [constructor|done].
       - rewrite -El in E H |- *. clear -E. revert E. generalize (low (it_label a)), (low (it_label b)). intros p. induction p as [|m p IH]; intros [|n q]; cbn [units_lt]; try done; [constructor|constructor|].
         destruct (N.ltb_spec m n); [done|]. destruct (N.ltb_spec n m); [intros _; by constructor|]. assert (m = n) as -> by lia. intros E. apply UL_eq. by apply IH. }
  all: match goal with |- context [Z.ltb ?u ?w] => destruct (Z.ltb_spec u w) as [H|H] end.
  1-4: rewrite !js_small // in H.
  5-6: rewrite Hx3 Hy3 in H.
  1,3: intros (? & ? & ? & ? & [= <- <-] & [= <- <-] & H'); lia.
  1,2: by exists y, ys, x, xs.
  - rewrite js_lt in H; [lia..|]. intros (? & ? & ? & ? & [= <- <-] & [= <- <-] & H'); lia.
  - exists y, ys, x, xs. do 2 (split; [done|]). apply Z.nlt_ge. rewrite -js_lt; lia.
Qed.
Lemma no_later_total low k a b : good a -> good b -> no_later low k a b \/ no_later low k b a.
Proof.
  intros (x & xs & Ex & _) (y & ys & Ey & _). destruct k; cbn [no_later]; [..|apply units_le_total].
  - destruct (Z.le_ge_cases (b_start x) (b_start y)); [left; by exists x, xs, y, ys|right; by exists y, ys, x, xs].
  - destruct (Z.le_ge_cases (b_end x) (b_end y)); [left; by exists x, xs, y, ys|right; by exists y, ys, x, xs].
  - destruct (Z.le_ge_cases (Z.max 0 (b_end x - b_start x)) (Z.max 0 (b_end y - b_start y))); [left; by exists x, xs, y, ys|right; by exists y, ys, x, xs].
Qed.
Lemma no_later_trans low k a b c : no_later low k a b -> no_later low k b c -> no_later low k a c.
Proof.
  destruct k; cbn [no_later]; [..|apply units_le_trans]; intros (x & xs & y & ys & Ex & Ey & H) (y' & ys' & z & zs & Ey' & Ez & H'); rewrite Ey in Ey'; injection Ey' as <- <-; exists x, xs, z, zs; (do 2 (split; [done|]); lia).
Qed.
(** The order that is asked for. *)
Definition ord low k (desc : bool) a b : Prop := if desc then no_later low k b a else no_later low k a b.
Lemma ord_total low k desc a b : good a -> good b -> ord low k desc a b \/ ord low k desc b a.
Proof. intros Ha Hb. destruct desc; cbn; by apply no_later_total. Qed.
Lemma ord_trans low k desc a b c : ord low k desc a b -> ord low k desc b c -> ord low k desc a c.
Proof. destruct desc; cbn; intros H H'; [exact (no_later_trans low k _ _ _ H' H)|exact (no_later_trans low k _ _ _ H H')]. Qed.
Lemma compare_spec low k desc a b : good a -> good b ->
  (compare_items low k desc a b < 0 /\ ord low k desc a b /\ ~ ord low k desc b a) \/
  (compare_items low k desc a b = 0 /\ ord low k desc a b /\ ord low k desc b a) \/
  (0 < compare_items low k desc a b /\ ~ ord low k desc a b /\ ord low k desc b a).
Proof.
  intros Ha Hb. rewrite /compare_items. destruct (less_spec low k a b Ha Hb) as (c & -> & Hc), (less_spec low k b a Hb Ha) as (d & -> & Hd).
  pose proof (no_later_total low k a b Ha Hb) as H. destruct c, d, desc; cbn in *; intuition lia.
Qed.

(** ** The items of a timeline *)

Lemma epoch_ms_small t : Z.abs (epoch_ms t) < 2 ^ 53.
Proof.
  rewrite /epoch_ms /unix_nano. match goal with |- context [int64 ?z] => assert (- 2 ^ 63 <= int64 z < 2 ^ 63) as H by (rewrite /int64; pose proof (Z.mod_pos_bound (z + 2 ^ 63) (2 ^ 64)); lia); revert H; generalize (int64 z) end.
  intros n H. assert (Z.abs (Z.quot n 1000000) <= Z.abs n / 1000000) as Hq by (rewrite Z.quot_div //; rewrite Z.abs_mul; destruct (Z.sgn_spec n) as [[? ->]|[[? ->]|[? ->]]]; cbn; lia || nia).
  assert (Z.abs n / 1000000 <= 2 ^ 63 / 1000000) as Hd by (apply Z.div_le_mono; lia). change (2 ^ 63 / 1000000) with 9223372036854 in Hd. lia.
Qed.
Lemma items_good reg us fmt t items : d3timeline reg us fmt t = ROk items -> bars_fit items -> Forall good items.
Proof.
  intros Hi Hfit. apply List.Forall_forall. intros o Ho. pose proof (C62_items _ _ _ _ _ Hi) as Hd.
  apply elem_of_list_In in Ho as Ho'. apply elem_of_list_lookup in Ho' as [i Ei]. destruct (Forall2_lookup_r _ _ _ _ _ Hd Ei) as (x & Ex & Hx).
  destruct (it_times o) as [|b bs] eqn:Eb; [by destruct (d_times _ _ _ _ Hx)|]. pose proof (Hfit o b bs Ho Eb) as Hf.
  apply elem_of_list_In in Ho. pose proof (C86_partial reg us fmt t items o b bs Hi Ho Eb Hf) as Hdur. rewrite Eb in Hdur. apply Forall_inv in Hdur as [H1 H2].
  exists b, bs. split; [done|].
  assert (exists s r, b_start b = epoch_ms s /\ b_end b = epoch_ms r) as (s & r & Es & Er).
  { destruct (decide (sp_parent (tr_id (snd x)) = 0%N)) as [E0|Hne].
    - pose proof (d_root_times _ _ _ _ Hx E0) as Hm. rewrite Eb in Hm. destruct (timed reg (snd x)) as [|e es]; [done|]. cbn in Hm. injection Hm as -> -> _. eauto.
    - destruct (d_child_times _ _ _ _ Hx Hne) as (b' & Eb' & [Hs _] & [Hr _]). rewrite Eb in Eb'. injection Eb' as <- ->.
      apply elem_of_list_fmap in Hs as (e & -> & _). apply elem_of_list_fmap in Hr as (e' & -> & _). eauto. }
  rewrite Es Er. split; [apply epoch_ms_small|]. split; [apply epoch_ms_small|]. rewrite -Es -Er.
  destruct (Z.lt_ge_cases (b_start b) (b_end b)) as [Hlt|Hge].
  - destruct (H1 Hlt) as [-> _]. lia.
  - rewrite (H2 Hge). lia.
Qed.

(** ** Sorting *)

Section order.
  Variable D : nat -> Prop.
  Variable R : nat -> nat -> Prop.
  Hypothesis total : forall m n, D m -> D n -> m <> n -> R m n \/ R n m.
  Hypothesis trans : forall l m n, D l -> D m -> D n -> R l m -> R m n -> R l n.
  Lemma insert_exists x s : D x -> Forall D s -> x ∉ s -> StronglySorted R s -> exists p, Permutation p (x :: s) /\ StronglySorted R p.
  Proof.
    intros Hx. induction s as [|y s IH]; intros Hs Hn Hso; [exists [x]; split; [done|by repeat constructor]|].
    apply Forall_cons in Hs as [Hy Hs]. apply not_elem_of_cons in Hn as [Hxy Hn]. inversion Hso as [|? ? Hso' Hall]; subst.
    destruct (total x y Hx Hy Hxy) as [H|H].
    - exists (x :: y :: s). split; [done|]. constructor; [done|]. apply Forall_cons. split; [done|]. rewrite List.Forall_forall in Hall. rewrite List.Forall_forall in Hs.
      apply List.Forall_forall. intros z Hz. apply (trans x y z); auto.
    - destruct (IH Hs Hn Hso') as (p & Hp & Hsp). exists (y :: p). split; [rewrite Hp; constructor|]. constructor; [done|].
      rewrite Hp. apply Forall_cons. done.
  Qed.
  Lemma sort_exists s : Forall D s -> NoDup s -> exists p, Permutation p s /\ StronglySorted R p.
  Proof.
    induction s as [|x s IH]; intros Hs Hnd; [exists []; split; [done|constructor]|]. apply Forall_cons in Hs as [Hx Hs]. apply NoDup_cons in Hnd as [Hn Hnd].
    destruct (IH Hs Hnd) as (p & Hp & Hsp). destruct (insert_exists x p) as (p' & Hp' & Hsp'); [done|by rewrite Hp|by rewrite Hp|done|].
    exists p'. split; [by rewrite Hp' Hp|done].
  Qed.
End order.
Lemma strongly_lookup {A} (R : A -> A -> Prop) p i j m n : StronglySorted R p -> (i < j)%nat -> p !! i = Some m -> p !! j = Some n -> R m n.
Proof.
  intros H. revert i j. induction H as [|x p Hs IH Hall]; intros i j Hij Hi Hj; [done|]. destruct j as [|j]; [lia|]. destruct i as [|i]; cbn in Hi, Hj.
  - injection Hi as ->. rewrite List.Forall_forall in Hall. apply Hall. by apply elem_of_list_lookup_2, elem_of_list_In in Hj.
  - by apply (IH i j); [lia|..].
Qed.
Lemma compare_consistent low k desc l : Forall good l -> consistent (compare_items low k desc) l.
Proof.
  intros Hg. rewrite List.Forall_forall in Hg. split; [|split].
  - intros a Ha. destruct (compare_spec low k desc a a (Hg a Ha) (Hg a Ha)) as [(H1 & H2 & H3)|[(H1 & _)|(H1 & H2 & H3)]]; [done|done|done].
  - intros a b Ha Hb. destruct (compare_spec low k desc a b (Hg a Ha) (Hg b Hb)) as [(H1 & H2 & H3)|[(H1 & H2 & H3)|(H1 & H2 & H3)]], (compare_spec low k desc b a (Hg b Hb) (Hg a Ha)) as [(H4 & H5 & H6)|[(H4 & H5 & H6)|(H4 & H5 & H6)]]; try done; lia.
  - intros a b c Ha Hb Hc. destruct (compare_spec low k desc a b (Hg a Ha) (Hg b Hb)) as [(H1 & H2 & H3)|[(H1 & H2 & H3)|(H1 & H2 & H3)]]; [| |lia];
    (destruct (compare_spec low k desc b c (Hg b Hb) (Hg c Hc)) as [(H4 & H5 & H6)|[(H4 & H5 & H6)|(H4 & H5 & H6)]]; [| |lia]);
    (destruct (compare_spec low k desc a c (Hg a Ha) (Hg c Hc)) as [(H7 & H8 & H9)|[(H7 & H8 & H9)|(H7 & H8 & H9)]]; [lia|lia|]); destruct H8; by apply (ord_trans low k desc a b c).
Qed.
Lemma map_lookup {A} (l : list A) p : Forall (fun i => (i < length l)%nat) p -> exists l', Forall2 (fun i o => l !! i = Some o) p l'.
Proof.
  induction p as [|i p IH]; intros H; [by exists []|]. apply Forall_cons in H as [Hi H]. destruct (IH H) as [l' Hl']. destruct (lookup_lt_is_Some_2 l i Hi) as [o Ho]. exists (o :: l'). by constructor.
Qed.
Lemma js_sort_exists low k desc l : Forall good l -> exists l', js_sort (compare_items low k desc) l l'.
Proof.
  intros Hg. set (cmp := compare_items low k desc).
  set (R := fun m n : nat => exists a b, l !! m = Some a /\ l !! n = Some b /\ (cmp a b < 0 \/ (cmp a b = 0 /\ (m < n)%nat))).
  pose proof (compare_consistent low k desc l Hg) as (_ & Hc2 & Hc3). fold cmp in Hc2, Hc3.
  assert (forall m a, l !! m = Some a -> In a l) as Hin by (intros m a E; by apply elem_of_list_lookup_2, elem_of_list_In in E).
  destruct (sort_exists (fun m => m < length l)%nat R) with (s := seq 0 (length l)) as (p & Hp & Hs).
  - intros m n Hm Hn Hmn. destruct (lookup_lt_is_Some_2 l m Hm) as [a Ea], (lookup_lt_is_Some_2 l n Hn) as [b Eb].
    pose proof (Hc2 a b (Hin _ _ Ea) (Hin _ _ Eb)) as Hab. pose proof (Hc2 b a (Hin _ _ Eb) (Hin _ _ Ea)) as Hba.
    destruct (decide (cmp a b < 0)); [left; exists a, b; auto|]. destruct (decide (cmp b a < 0)); [right; exists b, a; auto|].
    assert (cmp a b = 0 /\ cmp b a = 0) as [E1 E2] by lia. destruct (decide (m < n)%nat); [left; exists a, b; auto|right; exists b, a]. split; [done|]. split; [done|]. right. split; [done|lia].
  - intros i j m _ _ _ (a & b & Ea & Eb & H) (b' & c & Eb' & Ec & H'). rewrite Eb in Eb'. injection Eb' as <-. exists a, c. split; [done|]. split; [done|].
    pose proof (Hc3 a b c (Hin _ _ Ea) (Hin _ _ Eb) (Hin _ _ Ec)) as Habc. pose proof (Hc3 c a b (Hin _ _ Ec) (Hin _ _ Ea) (Hin _ _ Eb)) as Hcab. pose proof (Hc3 b c a (Hin _ _ Eb) (Hin _ _ Ec) (Hin _ _ Ea)) as Hbca.
    pose proof (Hc2 a b (Hin _ _ Ea) (Hin _ _ Eb)) as Hab. pose proof (Hc2 b a (Hin _ _ Eb) (Hin _ _ Ea)) as Hba.
    pose proof (Hc2 b c (Hin _ _ Eb) (Hin _ _ Ec)) as Hbc. pose proof (Hc2 c b (Hin _ _ Ec) (Hin _ _ Eb)) as Hcb.
    pose proof (Hc2 a c (Hin _ _ Ea) (Hin _ _ Ec)) as Hac. pose proof (Hc2 c a (Hin _ _ Ec) (Hin _ _ Ea)) as Hca. lia.
  - apply List.Forall_forall. intros i Hi. apply in_seq in Hi. lia.
  - apply NoDup_ListNoDup, seq_NoDup.
  - destruct (map_lookup l p) as [l' Hl'].
    { rewrite Hp. apply List.Forall_forall. intros i Hi. apply in_seq in Hi. lia. }
    exists l'. exists p. split; [done|]. split; [done|]. intros _ i j a b m n Hij Em En Ea Eb. destruct (strongly_lookup R p i j m n Hs Hij Em En) as (a' & b' & Ea' & Eb' & H).
    rewrite Ea in Ea'. rewrite Eb in Eb'. injection Ea' as <-. injection Eb' as <-. done.
Qed.

(** ** The menu on items in any order *)

Lemma fold_none {A B} (f : option A -> B -> option A) l : (forall b, f None b = None) -> fold_left f l None = None.
Proof. intros H. induction l as [|b l IH]; [done|]. cbn. by rewrite H. Qed.
Lemma mark_more fuel f : forall id d d', mark_children fuel f id d = Some d' -> mark_children (S fuel) f id d = Some d'.
Proof.
  induction fuel as [|fuel IH]; intros id d d'; [done|].
  change (fold_left (iter f fuel id) (seq 0 (length d)) (Some d) = Some d' -> fold_left (iter f (S fuel) id) (seq 0 (length d)) (Some d) = Some d').
  generalize (seq 0 (length d)) as l, (Some d) as acc. intros l. induction l as [|i l IHl]; intros acc; [done|]. cbn [fold_left].
  destruct (iter f fuel id acc i) as [d1|] eqn:E; [|by rewrite fold_none].
  assert (iter f (S fuel) id acc i = Some d1) as ->; [|apply IHl].
  rewrite /iter in E |- *. destruct acc as [d0|]; [|done]. cbn [mbind option_bind] in *. destruct (d0 !! i) as [o|]; [|done]. destruct (String.eqb _ _); [by apply IH|done].
Qed.
Lemma mark_more_le fuel fuel' f id d d' : (fuel <= fuel')%nat -> mark_children fuel f id d = Some d' -> mark_children fuel' f id d = Some d'.
Proof. induction 1 as [|n H IH]; [done|]. intros E. by apply mark_more, IH. Qed.

Lemma beneath_perm l l' id o : Permutation l l' -> beneath l id o -> beneath l' id o.
Proof. intros Hp. induction 1 as [o Ho E|p o Hb IH Ho E]; [apply B_child|apply (B_deeper _ _ p)]; try done; by rewrite -Hp. Qed.
Lemma in_rows {A B} (l : list A) (l' : list B) x o : In (x, o) (zip l l') -> exists i, l !! i = Some x /\ l' !! i = Some o.
Proof.
  intros [i Ei]%elem_of_list_In%elem_of_list_lookup. exists i. rewrite lookup_zip_with in Ei. destruct (l !! i), (l' !! i); cbn in Ei; try done. by injection Ei as -> ->.
Qed.
Lemma snd_zip_all {A B} (l : list A) (l' : list B) : length l = length l' -> map snd (zip l l') = l'.
Proof. revert l'. induction l as [|x l IH]; intros [|y l'] H; try done. cbn in *. f_equal. apply IH. lia. Qed.
(** The items of the page in the order of [rows], with any visibilities: what the menu makes of them. *)
Lemma menu_rows reg us fmt t items fuse a q rows data : proper t -> d3timeline reg us fmt t = ROk items -> In q (nodes t) ->
  Permutation rows (zip (shown reg 0 t) items) -> Forall2 (fun r o => same (snd r) o) rows data ->
  exists data', (exists n, forall fuel, (n <= fuel)%nat -> menu fuel fuse a (id_string (sp_span (tr_id q))) data = Some data') /\ length data' = length data /\
    forall i r x x', rows !! i = Some r -> data !! i = Some x -> data' !! i = Some x' ->
      (under t (sp_span (tr_id q)) (snd (fst r)) /\ x' = with_visible (marker fuse a (snd r)) (snd r)) \/ (~ under t (sp_span (tr_id q)) (snd (fst r)) /\ x' = x).
Proof.
  intros Ht Hitems%C62_items Hq Hrows Hdata. destruct (item_rank reg us t items Ht Hitems) as (rank & M & Hr & HM).
  assert (Permutation (map snd rows) items) as Hperm by (rewrite Hrows snd_zip_all //; by apply (Forall2_length _ _ _ Hitems)).
  assert (MenuProofs.over (map snd rows) data) as Hover by (rewrite /MenuProofs.over Forall2_fmap_l; exact Hdata).
  assert (forall o, In o (map snd rows) <-> In o items) as Hin by (intros o; by rewrite Hperm).
  destruct (mark_spec (marker fuse a) (marker_stable fuse a) (map snd rows) rank M) with (fuel := S M) (id := id_string (sp_span (tr_id q))) (d := data) as (d' & E & Ho & Hd).
  { intros o p Hoo Hpp. apply Hr; by apply Hin. } { intros o Hoo. by apply HM, Hin. } { done. } { lia. }
  exists d'. split; [exists (S (S M)); intros fuel Hf; by apply (mark_more_le (S (S M)))|]. pose proof (Forall2_length _ _ _ Ho) as L1. pose proof (Forall2_length _ _ _ Hover) as L2.
  split; [lia|]. intros i r x x' Er Ex Ex'. assert (map snd rows !! i = Some (snd r)) as Er' by (by rewrite list_lookup_fmap Er).
  pose proof (Hd i (snd r) x x' Er' Ex Ex') as H.
  assert (In r (zip (shown reg 0 t) items)) as Hri by (rewrite -Hrows; by apply elem_of_list_lookup_2, elem_of_list_In in Er).
  destruct r as [y o]. cbn [fst snd] in *. apply in_rows in Hri as (j & Ey & Eo). pose proof (Forall2_lookup_lr _ _ _ _ _ _ Hitems Ey Eo) as Hdesc.
  assert (beneath (map snd rows) (id_string (sp_span (tr_id q))) o <-> under t (sp_span (tr_id q)) (snd y)) as Hiff.
  { rewrite -(beneath_under reg us t items Ht Hitems q y o) //; [by apply elem_of_list_lookup_2, elem_of_list_In in Ey|by apply elem_of_list_lookup_2, elem_of_list_In in Eo|].
    split; apply beneath_perm; by rewrite Hperm. }
  rewrite Hiff in H. done.
Qed.
