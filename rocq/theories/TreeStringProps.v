(** C118: TreeString. *)
From Verif Require Import Base IdModel IdSpec IdProofs TreeStringModel TreeStringSpec.
From Coq Require Import ssreflect.
Local Open Scope general_if_scope.
Local Open Scope N_scope.

(** ** Text *)
Definition without (c : ascii) (s : string) : Prop := ~ In c (Base.bytes s).
Lemma without_app c a b : without c a -> without c b -> without c (a +:+ b)%string.
Proof. rewrite /without bytes_app in_app_iff. tauto. Qed.
Lemma cut c a b x y : without c a -> without c b -> (a +:+ String c x = b +:+ String c y)%string -> a = b /\ x = y.
Proof.
  revert b. induction a as [|d a IH]; intros [|e b] Ha Hb E.
  - by injection E as ->.
  - injection E as <- _. exfalso. apply Hb. by left.
  - injection E as -> _. exfalso. apply Ha. by left.
  - injection E as -> E. apply IH in E as [-> ->]; [done|..]; intros H; [apply Ha|apply Hb]; by right.
Qed.
Lemma repeat_length s n : String.length (repeat_text s n) = (n * String.length s)%nat.
Proof. induction n as [|n IH]; [done|]. cbn [repeat_text]. rewrite str_length_app IH. lia. Qed.
Lemma repeat_without c s n : without c s -> without c (repeat_text s n).
Proof. intros H. induction n as [|n IH]; [by intros []|]. by apply without_app. Qed.
Lemma hex_text_digits v : exists ds, hex_text v = unbytes (map hex_digit ds) /\ Forall (fun d => d < 16) ds /\ digits_val ds = v.
Proof.
  rewrite /hex_text. destruct (hex_loop_fuel (S (N.size_nat v)) v [] ltac:(lia)) as (ds & -> & H1 & H2 & _). exists ds. by rewrite app_nil_r.
Qed.
Lemma hex_text_without c v : ~ In c (Base.bytes "0123456789abcdef") -> without c (hex_text v).
Proof.
  intros H. destruct (hex_text_digits v) as (ds & -> & Hd & _). rewrite /without bytes_unbytes in_map_iff. intros (d & <- & Hin).
  rewrite Forall_forall in Hd. apply H, hex_digit_lower, Hd. by apply elem_of_list_In.
Qed.
Lemma hex_digits_inj ds es : Forall (fun d => d < 16) ds -> Forall (fun d => d < 16) es -> map hex_digit ds = map hex_digit es -> ds = es.
Proof.
  intros H1. revert es. induction H1 as [|d ds Hd _ IH]; intros [|e es] H2 E; try done. inversion_clear H2. injection E as E1 E2.
  f_equal; [|by apply IH]. apply (uint_digit_functional (hex_digit d)); [by apply hex_digit_value_hex|]. rewrite E1. by apply hex_digit_value_hex.
Qed.
Lemma hex_text_inj v w : hex_text v = hex_text w -> v = w.
Proof.
  destruct (hex_text_digits v) as (ds & -> & H1 & <-), (hex_text_digits w) as (es & -> & H2 & <-). intros E%(inj unbytes).
  by rewrite (hex_digits_inj ds es).
Qed.

(** ** Lines *)
(** The lines without the newlines. *)
Definition head_line (depth : nat) (id : SpanID) : string :=
  match depth with
  | O => "+ Trace " +:+ hex_text (sp_trace id)
  | S d => "|" +:+ repeat_text indent1 d +:+ String "-" ("---+ Span " +:+ hex_text (sp_span id) +:+
         (if (sp_parent id =? 0)%N then "" else " (parent " +:+ hex_text (sp_parent id) +:+ ")"))
  end%string.
Definition ann_line (depth : nat) (a : Annotation) : string :=
  (match depth with O => "| " | _ => "|" +:+ from_byte 1 (repeat_text indent1 depth) +:+ " | " end +:+
   ann_key a +:+ " " +:+ String "=" (" " +:+ val_bytes (ann_val a)))%string.
Fixpoint lines (depth : nat) (t : tree) : list string :=
  match t with Tree id anns subs => head_line depth id :: map (ann_line depth) anns ++ concat (map (lines (S depth)) subs) end.
Definition text_of (ls : list string) : string := String.concat "" (map (fun l => (l +:+ newline)%string) ls).
Lemma concat_cons s ls : String.concat "" (s :: ls) = (s +:+ String.concat "" ls)%string.
Proof. destruct ls; [by rewrite /= str_app_nil_r|done]. Qed.
Lemma text_cons l ls : text_of (l :: ls) = (l +:+ String "010" (text_of ls))%string.
Proof. rewrite /text_of. cbn [map]. by rewrite concat_cons str_app_assoc. Qed.
Lemma text_app a b : text_of (a ++ b) = (text_of a +:+ text_of b)%string.
Proof. induction a as [|l a IH]; [done|]. cbn [app]. by rewrite !text_cons IH str_app_assoc. Qed.
Lemma from_indent d : from_byte (String.length indent1) (repeat_text indent1 (S d)) = repeat_text indent1 d.
Proof. done. Qed.
Lemma head_text_line depth id : head_text depth id = (head_line depth id +:+ newline)%string.
Proof.
  rewrite /head_text /head_line. destruct depth as [|d]; [by rewrite str_app_assoc|]. rewrite from_indent.
  change (repeat_text "-" (String.length indent1)) with "----"%string.
  assert ((if (S d =? 1)%nat then "|" else "|" +:+ repeat_text indent1 d) = "|" +:+ repeat_text indent1 d)%string as ->.
  { destruct d; [done|]. by destruct (Nat.eqb_spec (S (S d)) 1). }
  rewrite !str_app_assoc. cbn [String.append]. by rewrite !str_app_assoc.
Qed.
Lemma ann_text_line depth a : ann_text depth a = (ann_line depth a +:+ newline)%string.
Proof. rewrite /ann_text /ann_line. destruct depth; cbn -[from_byte repeat_text]; rewrite !str_app_assoc; cbn -[from_byte repeat_text]; by rewrite ?str_app_assoc. Qed.
Lemma tree_text_lines t : forall depth, tree_text depth t = text_of (lines depth t).
Proof.
  induction t as [id anns subs IH] using tree_ind'. intros depth. cbn [tree_text lines]. rewrite text_cons text_app head_text_line str_app_assoc.
  change (newline +:+ ?x)%string with (String "010" x). f_equal. f_equal. f_equal.
  - rewrite /text_of. rewrite map_map. f_equal. apply map_ext. intros a. apply ann_text_line.
  - induction IH as [|t ts Ht _ IHts]; [done|]. cbn [map concat]. rewrite concat_cons text_app. by rewrite Ht IHts.
Qed.
Lemma text_inj ls ls' : Forall (without "010") ls -> Forall (without "010") ls' -> text_of ls = text_of ls' -> ls = ls'.
Proof.
  intros H. revert ls'. induction H as [|l ls Hl _ IH]; intros [|l' ls'] H' E; try done; rewrite ?text_cons in E.
  - by destruct l'.
  - by destruct l.
  - inversion_clear H'. apply cut in E as [-> E]; [|done..]. f_equal. by apply IH.
Qed.

Lemma head_line_without c depth id : ~ In c (Base.bytes "|+ TraceSpant-()0123456789abcdef") -> without c (head_line depth id).
Proof.
  intros Hc. assert (forall v, without c (hex_text v)) as Hh.
  { intros v. apply hex_text_without. intros H. apply Hc. cbn in H |- *. tauto. }
  assert (forall s, incl (Base.bytes s) (Base.bytes "|+ TraceSpant-()0123456789abcdef") -> without c s) as Hs. { intros s Hi H. by apply Hc, Hi. }
  assert (without c indent1) as Hi by (apply Hs; intros x; cbn; tauto).
  rewrite /head_line. destruct depth as [|d].
  - apply without_app; [apply Hs; intros x; cbn; tauto|done].
  - apply without_app; [apply Hs; intros x; cbn; tauto|]. apply without_app; [by apply repeat_without|].
    change (String "-" ("---+ Span " +:+ ?x))%string with ("----+ Span " +:+ x)%string.
    apply without_app; [apply Hs; intros x; cbn; tauto|]. apply without_app; [done|]. destruct (_ =? _); [by apply Hs|].
    apply without_app; [apply Hs; intros x; cbn; tauto|]. apply without_app; [done|]. apply Hs; intros x; cbn; tauto.
Qed.
Lemma from_byte_without c n s : without c s -> without c (from_byte n s).
Proof. revert s. induction n as [|n IH]; intros [|d s] H; try done. cbn. apply IH. intros Hin. apply H. by right. Qed.
Lemma ann_prefix_without c depth : c <> "|"%char -> c <> " "%char ->
  without c (match depth with O => "| " | _ => "|" +:+ from_byte 1 (repeat_text indent1 depth) +:+ " | " end)%string.
Proof.
  intros H1 H2. destruct depth as [|d]; [by intros [<-|[<-|[]]]|].
  apply without_app; [by intros [<-|[]]|]. apply without_app; [|by intros [<-|[<-|[<-|[]]]]].
  apply from_byte_without, repeat_without. by intros [<-|[<-|[<-|[<-|[]]]]].
Qed.
Lemma ann_line_without depth a : one_line a -> without "010" (ann_line depth a).
Proof.
  intros (H1 & _ & H2). rewrite /ann_line. apply without_app; [by apply ann_prefix_without|]. apply without_app; [done|].
  change (" " +:+ String "=" (" " +:+ val_bytes (ann_val a)))%string with (" = " +:+ val_bytes (ann_val a))%string.
  apply without_app; [|done]. by intros [H|[H|[H|[]]]].
Qed.
Lemma ann_line_inj depth a b : one_line a -> one_line b -> ann_line depth a = ann_line depth b ->
  (ann_key a, val_bytes (ann_val a)) = (ann_key b, val_bytes (ann_val b)).
Proof.
  intros (_ & Ha & _) (_ & Hb & _) E%str_app_inv_head. rewrite -!str_app_assoc in E. apply cut in E as [E1 E2].
  - injection E2 as ->. f_equal. apply (f_equal Base.bytes) in E1. rewrite !bytes_app in E1. apply app_inj_2 in E1 as [E1 _]; [|done]. by apply bytes_inj.
  - apply without_app; [done|]. by intros [H|[]].
  - apply without_app; [done|]. by intros [H|[]].
Qed.
Lemma ann_not_head depth depth' a id : ann_line depth a <> head_line depth' id.
Proof.
  intros E. apply (head_line_without "=" depth' id); [cbn; intuition discriminate|]. rewrite -E /ann_line !bytes_app !in_app_iff. right. right. right. by left.
Qed.
Lemma head_line_inj d d' id id' : head_line (S d) id = head_line (S d') id' -> d = d' /\ sp_span id = sp_span id' /\ sp_parent id = sp_parent id'.
Proof.
  intros E%str_app_inv_head. assert (forall n, without "-" (repeat_text indent1 n)) as Hr.
  { intros n. apply repeat_without. by intros [H|[H|[H|[H|[]]]]]. }
  apply cut in E as [E1 E2]; [|done..].
  assert (d = d') as <-. { apply (f_equal String.length) in E1. rewrite !repeat_length in E1. cbn in E1. lia. }
  split; [done|]. apply str_app_inv_head in E2.
  assert (forall v, without " " (hex_text v)) as Hh. { intros v. apply hex_text_without. cbn. intuition discriminate. }
  assert (forall v w x, hex_text v <> (hex_text w +:+ String " " x))%string as Hne.
  { intros v w x Hx. apply (Hh v). rewrite Hx bytes_app in_app_iff. right. by left. }
  destruct (N.eqb_spec (sp_parent id) 0) as [H0|H0], (N.eqb_spec (sp_parent id') 0) as [H0'|H0'].
  - rewrite !str_app_nil_r in E2. apply hex_text_inj in E2. by rewrite H0 H0'.
  - rewrite str_app_nil_r in E2. by apply Hne in E2.
  - rewrite str_app_nil_r in E2. symmetry in E2. by apply Hne in E2.
  - apply cut in E2 as [E2 E3]; [|done..]. apply hex_text_inj in E2. split; [done|]. apply (str_app_inv_head "(parent ") in E3.
    apply cut in E3 as [E3 _]; [by apply hex_text_inj|..]; apply hex_text_without; cbn; intuition discriminate.
Qed.

(** ** Trees *)
Lemma cons_eq {A} (x y : A) l k : x :: l = y :: k -> x = y /\ l = k.
Proof. by intros [= -> ->]. Qed.
Lemma lines_without t : one_lines t -> forall depth, Forall (without "010") (lines depth t).
Proof.
  induction t as [id anns subs IH] using tree_ind'. intros Ht depth. inversion_clear Ht as [? ? ? Ha Hs]. cbn [lines].
  constructor; [apply head_line_without; cbn; intuition discriminate|]. apply Forall_app. split.
  - apply Forall_fmap. apply (Forall_impl _ _ _ Ha). intros a. apply ann_line_without.
  - induction IH as [|t ts Ht _ IHts]; [constructor|]. inversion_clear Hs. cbn [map concat]. apply Forall_app. split; [by apply Ht|by apply IHts].
Qed.
(** What follows the lines of spans at depth [d]: the line of a span higher up, if any. *)
Definition follows (d : nat) (ls : list string) : Prop := ls = [] \/ exists d' id ls', (d' < d)%nat /\ ls = head_line (S d') id :: ls'.
Lemma anns_inj depth : forall a b x y d, Forall one_line a -> Forall one_line b -> follows d x -> follows d y ->
  map (ann_line depth) a ++ x = map (ann_line depth) b ++ y -> same_annotations a b /\ x = y.
Proof.
  intros a. induction a as [|u a IH]; intros [|v b] x y d Ha Hb Hx Hy E.
  - done.
  - destruct Hx as [->|(d' & id & l & _ & ->)]; [done|]. apply (f_equal head) in E. injection E as E. destruct (ann_not_head depth (S d') v id (eq_sym E)).
  - destruct Hy as [->|(d' & id & l & _ & ->)]; [done|]. apply (f_equal head) in E. injection E as E. destruct (ann_not_head depth (S d') u id E).
  - inversion_clear Ha as [|? ? Hu Ha']. inversion_clear Hb as [|? ? Hv Hb']. injection E as E1 E2.
    destruct (IH _ _ _ _ Ha' Hb' Hx Hy E2) as [H ->]. split; [|done]. apply ann_line_inj in E1; [|done..]. rewrite /same_annotations. cbn [map]. by rewrite E1 H.
Qed.
Lemma follows_forest d ts x : follows d x -> follows (S d) (concat (map (lines (S d)) ts) ++ x).
Proof.
  intros Hx. destruct ts as [|[id anns subs] ts].
  - destruct Hx as [->|(d' & id & ls & H & ->)]; [by left|]. right. exists d', id, ls. split; [lia|done].
  - right. exists d, id. eexists. split; [lia|]. reflexivity.
Qed.
Lemma forest_inj t : one_lines t -> forall d t' x y, one_lines t' -> follows (S d) x -> follows (S d) y ->
  lines (S d) t ++ x = lines (S d) t' ++ y -> same_below t t' /\ x = y.
Proof.
  induction t as [id anns subs IH] using tree_ind'. intros Ht d [id' anns' subs'] x y Ht' Hx Hy E.
  inversion_clear Ht as [? ? ? Ha Hs]. inversion_clear Ht' as [? ? ? Ha' Hs']. cbn [lines app] in E. apply cons_eq in E as [E1 E2].
  apply head_line_inj in E1 as (_ & E1 & E1'). rewrite -!app_assoc in E2.
  apply (anns_inj _ _ _ _ _ (S (S d))) in E2 as [E2 E3]; [|done|done|by apply follows_forest|by apply follows_forest].
  assert (Forall2 same_below subs subs' /\ x = y) as [H1 H2]; [|split; [by constructor|done]].
  clear -IH Hs Hs' Hx Hy E3. revert subs' Hs' E3. induction IH as [|t ts Ht _ IHts]; intros [|t' ts'] Hs' E.
  - done.
  - exfalso. destruct t' as [id' anns' subs']. cbn [map concat app lines] in E. destruct Hx as [->|(d' & id & ls & Hd & ->)]; [done|].
    apply cons_eq in E as [E _]. apply head_line_inj in E as [E _]. lia.
  - exfalso. destruct t as [id' anns' subs']. cbn [map concat app lines] in E. destruct Hy as [->|(d' & id & ls & Hd & ->)]; [done|].
    apply cons_eq in E as [E _]. apply head_line_inj in E as [E _]. lia.
  - inversion_clear Hs as [|? ? Hs1 Hs2]. inversion_clear Hs' as [|? ? Hs1' Hs2']. cbn [map concat] in E. rewrite -!app_assoc in E.
    assert (forall ls ts, follows (S d) ls -> follows (S (S d)) (concat (map (lines (S (S d))) ts) ++ ls)) as Hf by (intros; by apply follows_forest).
    apply Ht in E as [E1 E2]; [|done|done|by apply Hf|by apply Hf].
    destruct (IHts Hs2 _ Hs2' E2) as [H ->]. split; [by constructor|done].
Qed.
Lemma forest_inj0 ts ts' : Forall one_lines ts -> Forall one_lines ts' -> concat (map (lines 1) ts) = concat (map (lines 1) ts') -> Forall2 same_below ts ts'.
Proof.
  intros H. revert ts'. induction H as [|t ts Ht _ IH]; intros [|t' ts'] H' E; [done|..].
  - by destruct t'.
  - by destruct t.
  - inversion_clear H' as [|? ? H1 H2]. cbn [map concat] in E. assert (forall ts, follows 1 (concat (map (lines 1) ts))) as Hf.
    { intros l. rewrite -(app_nil_r (concat _)). apply follows_forest. by left. }
    apply forest_inj in E as [E1 E2]; [|done|done|apply Hf|apply Hf]. constructor; [done|by apply IH].
Qed.

Lemma same_below_text t : forall t' d, same_below t t' -> tree_text (S d) t = tree_text (S d) t'.
Proof.
  induction t as [id anns subs IH] using tree_ind'. intros t' d Hs. inversion Hs as [? id' ? anns' ? subs' E1 E2 E3 E4]; subst. cbn [tree_text].
  assert (head_text (S d) id = head_text (S d) id') as ->. { rewrite /head_text. by rewrite E1 E2. }
  assert (map (ann_text (S d)) anns = map (ann_text (S d)) anns') as ->.
  { clear -E3. revert anns' E3. induction anns as [|a l IH]; intros [|b l'] E; try done. injection E as E1 E2 E3. cbn [map]. rewrite (IH l' E3). f_equal.
    by rewrite /ann_text E1 E2. }
  do 2 f_equal. f_equal. clear -IH E4. induction E4 as [|t t' ts ts' Ht _ IHts]; [done|]. inversion_clear IH. cbn [map]. f_equal; [|by apply IHts].
  match goal with H : forall t' d, same_below t t' -> _ |- _ => by apply H end.
Qed.

(** C118: for annotations of one line, TreeString shows the whole trace: two traces have the same text just when they are the same. *)
Theorem C118_partial : forall t t', one_lines t -> one_lines t' -> tree_string t = tree_string t' <-> same_trace t t'.
Proof.
  intros [id anns subs] [id' anns' subs'] Ht Ht'. split.
  - intros E. rewrite /tree_string !tree_text_lines in E. apply text_inj in E; [|by apply lines_without..].
    inversion_clear Ht as [? ? ? Ha Hs]. inversion_clear Ht' as [? ? ? Ha' Hs']. cbn [lines] in E. apply cons_eq in E as [E1 E2].
    assert (forall ts, follows 1 (concat (map (lines 1) ts))) as Hf.
    { intros l. rewrite -(app_nil_r (concat _)). apply follows_forest. by left. }
    apply (anns_inj _ _ _ _ _ 1) in E2 as [E2 E3]; [|done|done|apply Hf|apply Hf].
    split; [|split; [done|by apply forest_inj0]]. apply hex_text_inj. by apply (str_app_inv_head "+ Trace ") in E1.
  - intros (E1 & E2 & E3). cbn in E1, E2, E3. rewrite /tree_string. cbn [tree_text]. rewrite /head_text E1. f_equal.
    assert (map (ann_text 0) anns = map (ann_text 0) anns') as ->.
    { clear -E2. revert anns' E2. induction anns as [|a l IH]; intros [|b l'] E; try done. injection E as E1 E2 E3. cbn [map]. rewrite (IH l' E3). f_equal.
      by rewrite /ann_text E1 E2. }
    f_equal. f_equal. clear -E3. induction E3 as [|t t' ts ts' Ht _ IH]; [done|]. cbn [map]. f_equal; [by apply same_below_text|done].
Qed.
Print Assumptions C118_partial.

(** C118 is false as stated: an annotation with a newline can pretend to be a span. *)
Theorem C118_refuted : exists t t', tree_string t = tree_string t' /\ ~ same_trace t t' /\ one_lines t'.
Proof.
  exists (Tree (MkSpanID 1 2 0) [Ann "k" (Some ("v" +:+ newline +:+ "|----+ Span 5"))%string] []),
    (Tree (MkSpanID 1 2 0) [Ann "k" (Some "v"%string)] [Tree (MkSpanID 1 5 0) [] []]).
  split; [vm_compute; reflexivity|]. split.
  - intros (_ & _ & H). cbn in H. inversion H.
  - repeat constructor; cbn; intuition discriminate.
Qed.
Print Assumptions C118_refuted.

Example C118_nonvacuous :
  let t := Tree (MkSpanID 1 100 0) [Ann "k" (Some "v"%string)]
    [Tree (MkSpanID 1 11 100) [Ann "a" None; Ann "b" (Some "c = d"%string)] [Tree (MkSpanID 1 111 11) [] []]; Tree (MkSpanID 1 12 0) [] []] in
  one_lines t /\ tree_string t = ("+ Trace 1" +:+ newline +:+ "| k = v" +:+ newline +:+ "|----+ Span b (parent 64)" +:+ newline +:+
    "|    | a = " +:+ newline +:+ "|    | b = c = d" +:+ newline +:+ "|    ----+ Span 6f (parent b)" +:+ newline +:+ "|----+ Span c" +:+ newline)%string.
Proof. cbn zeta. split; [|vm_compute; reflexivity]. repeat constructor; cbn; intuition discriminate. Qed.
