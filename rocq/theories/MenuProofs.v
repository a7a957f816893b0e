(** Proofs about the context menu of the timeline. *)
From Verif Require Import Base IdModel IdSpec IdProofs ReflModel EventModel TraceModel MemSpec ProfModel VisModel VisSpec VisProps MenuModel MenuSpec.
From Coq Require Import ssreflect.
Local Open Scope general_if_scope.
Local Open Scope nat_scope.

(** ** The loop *)

Inductive beneath (data : list item) (id : string) : item -> Prop :=
| B_child o : In o data -> it_parent o = id -> beneath data id o
| B_deeper p o : beneath data id p -> In o data -> it_parent o = it_span p -> beneath data id o.
Lemma beneath_in data id o : beneath data id o -> In o data.
Proof. by destruct 1. Qed.
Lemma beneath_top data id o : beneath data id o -> it_parent o = id \/ exists p, In p data /\ it_parent p = id /\ beneath data (it_span p) o.
Proof.
  induction 1 as [o Ho E|p o Hp IH Ho E]; [by left|right]. destruct IH as [E'|(q & Hq & E' & Hb)].
  - exists p. split; [by apply (beneath_in data id)|]. split; [done|]. by apply B_child.
  - exists q. split; [done|]. split; [done|]. by apply (B_deeper _ _ p).
Qed.
Lemma beneath_via data id p o : In p data -> it_parent p = id -> beneath data (it_span p) o -> beneath data id o.
Proof.
  intros Hp E. induction 1 as [o Ho E'|q o Hq IH Ho E']; [|by apply (B_deeper _ _ q)].
  apply (B_deeper _ _ p); [by apply B_child|done..].
Qed.

Section loop.
  Variable f : item -> bool.
  Hypothesis f_stable : forall v o, f (with_visible v o) = f o.
  Variable data0 : list item.
  Variable rank : string -> nat.
  Variable M : nat.
  Hypothesis ranked : forall o p, In o data0 -> In p data0 -> it_parent o = it_span p -> rank (it_span p) < rank (it_span o).
  Hypothesis bounded : forall o, In o data0 -> rank (it_span o) <= M.

  Definition same (o o' : item) : Prop := exists v, o' = with_visible v o.
  Definition over (d : list item) : Prop := Forall2 same data0 d.
  Definition done_by (B : nat -> item -> Prop) (d d' : list item) : Prop :=
    forall i o x x', data0 !! i = Some o -> d !! i = Some x -> d' !! i = Some x' -> (B i o /\ x' = with_visible (f o) o) \/ (~ B i o /\ x' = x).
  Lemma over_lookup d i x : over d -> d !! i = Some x -> exists o, data0 !! i = Some o /\ same o x.
  Proof. intros H E. destruct (Forall2_lookup_r _ _ _ _ _ H E) as (o & Eo & Hs). by exists o. Qed.
  Lemma over_insert d i o v : over d -> data0 !! i = Some o -> over (<[i := with_visible v o]> d).
  Proof.
    intros H E. pose proof (Forall2_length _ _ _ H) as Hl. rewrite /over. rewrite -(list_insert_id data0 i o E). apply Forall2_insert; [done|]. by exists v.
  Qed.
  Lemma same_visible o x v : same o x -> with_visible v x = with_visible v o.
  Proof. by intros [w ->]. Qed.
  Definition upto (id : string) (k : nat) (i : nat) (o : item) : Prop :=
    exists j p, j < k /\ data0 !! j = Some p /\ it_parent p = id /\ (i = j \/ beneath data0 (it_span p) o).
  Definition iter (fuel : nat) (id : string) (acc : option (list item)) (i : nat) : option (list item) :=
    data ← acc;
    match data !! i with
    | None => Some data
    | Some other =>
        if String.eqb (it_parent other) id
        then mark_children fuel f (it_span other) (<[i := with_visible (f other) other]> data)
        else Some data
    end.
  Lemma upto_all id i o : data0 !! i = Some o -> upto id (length data0) i o <-> beneath data0 id o.
  Proof.
    intros Eo. split.
    - intros (j & p & Hj & Ep & E & [->|Hb]).
      + rewrite Eo in Ep. injection Ep as <-. apply B_child; [|done]. by apply elem_of_list_lookup_2, elem_of_list_In in Eo.
      + apply (beneath_via _ _ p); [|done..]. by apply elem_of_list_lookup_2, elem_of_list_In in Ep.
    - intros [E|(p & Hp & E & Hb)]%beneath_top.
      + exists i, o. split; [by apply lookup_lt_Some in Eo|]. split; [done|]. split; [done|]. by left.
      + apply elem_of_list_In, elem_of_list_lookup in Hp as [j Ej]. exists j, p. split; [by apply lookup_lt_Some in Ej|]. split; [done|]. split; [done|]. by right.
  Qed.
  Lemma mark_spec fuel : forall id d, over d -> (forall o, In o data0 -> it_parent o = id -> M - rank (it_span o) < fuel) ->
    exists d', mark_children (S fuel) f id d = Some d' /\ over d' /\ done_by (fun _ o => beneath data0 id o) d d'.
  Proof.
    induction fuel as [|fuel IH]; intros id d Hd Hneed.
    { (* no item has this parent *)
      exists d. assert (forall l, fold_left (iter 0 id) l (Some d) = Some d) as Hfold.
      { induction l as [|i l IHl]; [done|]. cbn [fold_left]. rewrite -{2}IHl. f_equal. cbn. destruct (d !! i) as [x|] eqn:E; [|done].
        destruct (over_lookup _ _ _ Hd E) as (o & Eo & v & ->). cbn. destruct (String.eqb_spec (it_parent o) id) as [E'|]; [|done].
        exfalso. apply elem_of_list_lookup_2, elem_of_list_In in Eo. specialize (Hneed o Eo E'). lia. }
      split; [apply Hfold|]. split; [done|]. intros i o x x' Eo Ex Ex'. right. split; [|congruence].
      intros [E|(p & Hp & E & _)]%beneath_top; [apply elem_of_list_lookup_2, elem_of_list_In in Eo; specialize (Hneed o Eo E)|specialize (Hneed p Hp E)]; lia. }
    assert (forall n k d1, over d1 -> k + n = length data0 -> done_by (upto id k) d d1 ->
      exists d', fold_left (iter (S fuel) id) (seq k n) (Some d1) = Some d' /\ over d' /\ done_by (upto id (k + n)) d d') as Hfold.
    { induction n as [|n IHn]; intros k d1 Hd1 Hk Hdone.
      { exists d1. rewrite Nat.add_0_r. done. }
      cbn [seq fold_left].
      destruct (lookup_lt_is_Some_2 data0 k) as [o Eo]; [lia|].
      destruct (lookup_lt_is_Some_2 d1 k) as [x Ex]; [pose proof (Forall2_length _ _ _ Hd1); lia|].
      destruct (over_lookup _ _ _ Hd1 Ex) as (o' & Eo' & Hs). rewrite Eo in Eo'. injection Eo' as <-.
      assert (iter (S fuel) id (Some d1) k = if String.eqb (it_parent o) id then mark_children (S fuel) f (it_span o) (<[k := with_visible (f o) o]> d1) else Some d1) as ->.
      { rewrite /iter. cbn [mbind option_bind]. rewrite Ex. destruct Hs as [v ->]. cbn [it_parent it_span with_visible]. by rewrite f_stable. }
      destruct (String.eqb_spec (it_parent o) id) as [E|E].
      - destruct (IH (it_span o) (<[k := with_visible (f o) o]> d1)) as (d2 & Em & Hd2 & Hdone2).
        { by apply over_insert. }
        { intros c Hc Ec. apply elem_of_list_lookup_2, elem_of_list_In in Eo. pose proof (Hneed o Eo E). pose proof (ranked c o Hc Eo Ec). pose proof (bounded c Hc). lia. }
        rewrite Em. destruct (IHn (S k) d2 Hd2) as (d' & Ef & Hd' & Hdone'); [lia| |exists d'; rewrite -Nat.add_succ_comm; done].
        intros i oi xi x2 Eoi Exi Ex2. pose proof (Forall2_length _ _ _ Hd1) as Hl1.
        destruct (lookup_lt_is_Some_2 d1 i) as [x1 Ex1]; [apply lookup_lt_Some in Eoi; lia|].
        pose proof (Hdone i oi xi x1 Eoi Exi Ex1) as H1.
        destruct (decide (i = k)) as [->|Hik].
        + left. rewrite Eo in Eoi. injection Eoi as <-. split; [exists k, o; split; [lia|]; split; [done|]; split; [done|by left]|].
          assert (<[k:=with_visible (f o) o]> d1 !! k = Some (with_visible (f o) o)) as Ek by (apply list_lookup_insert; apply lookup_lt_Some in Ex; lia).
          by destruct (Hdone2 k o (with_visible (f o) o) x2 Eo Ek Ex2) as [[_ ->]|[_ ->]].
        + assert (<[k:=with_visible (f o) o]> d1 !! i = Some x1) as Ex1' by (rewrite list_lookup_insert_ne //; congruence). pose proof (Hdone2 i oi x1 x2 Eoi Ex1' Ex2) as H2.
          destruct H2 as [[Hb ->]|[Hb ->]].
          * left. split; [|done]. exists k, o. split; [lia|]. split; [done|]. split; [done|by right].
          * destruct H1 as [[Hu ->]|[Hu ->]].
            { left. split; [|done]. destruct Hu as (j & p & Hj & Hp). exists j, p. split; [lia|done]. }
            right. split; [|done]. intros (j & p & Hj & Ep & E' & Ho). destruct (decide (j = k)) as [->|Hjk].
            { rewrite Eo in Ep. injection Ep as <-. by destruct Ho as [->|Ho]. }
            apply Hu. exists j, p. split; [lia|done].
      - destruct (IHn (S k) d1 Hd1) as (d' & Ef & Hd' & Hdone'); [lia| |exists d'; rewrite -Nat.add_succ_comm; done].
        intros i oi xi x1 Eoi Exi Ex1. destruct (Hdone i oi xi x1 Eoi Exi Ex1) as [[Hu ->]|[Hu ->]].
        + left. split; [|done]. destruct Hu as (j & p & Hj & Hp). exists j, p. split; [lia|done].
        + right. split; [|done]. intros (j & p & Hj & Ep & E' & Ho). destruct (decide (j = k)) as [->|Hjk]; [rewrite Eo in Ep; congruence|].
          apply Hu. exists j, p. split; [lia|done]. }
    destruct (Hfold (length data0) 0 d Hd eq_refl) as (d' & Ef & Hd' & Hdone).
    { intros i o x x' Eo Ex Ex'. right. split; [|congruence]. intros (j & p & Hj & _); lia. }
    exists d'. split; [|split; [done|]].
    - change (fold_left (iter (S fuel) id) (seq 0 (length d)) (Some d) = Some d'). by rewrite -(Forall2_length _ _ _ Hd).
    - intros i o x x' Eo Ex Ex'. pose proof (Hdone i o x x' Eo Ex Ex') as H. cbn [Nat.add] in H. by rewrite (upto_all id i o Eo) in H.
  Qed.
End loop.

(** ** Items and spans *)

Local Open Scope N_scope.
Lemma nodes_self t : In t (nodes t).
Proof. destruct t. by left. Qed.
Lemma nodes_sub t p c : In p (nodes t) -> In c (tr_subs p) -> In c (nodes t).
Proof.
  induction t as [i anns subs IH] using tree_ind'. cbn [nodes tr_subs]. intros [<- | Hp] Hc.
  - right. clear -Hc. cbn [tr_subs] in Hc. induction subs as [|x subs IHs]; [done|]. apply in_app_iff. destruct Hc as [<-|Hc]; [left; apply nodes_self|right; by apply IHs].
  - right. induction subs as [|x subs IHs]; [done|]. apply Forall_cons in IH as [IHx IH]. apply in_app_iff in Hp as [Hp|Hp]; apply in_app_iff; [left; by apply IHx|right; by apply IHs].
Qed.
Lemma shown_nodes reg depth t x : In x (shown reg depth t) -> In (snd x) (nodes t).
Proof.
  revert depth. induction t as [i anns subs IH] using tree_ind'. intros depth. cbn [shown nodes tr_subs]. destruct (timed _ _) as [|e l]; [done|].
  intros [<- | Hx]; [by left|right]. clear e l. induction subs as [|y subs IHs]; [done|]. apply Forall_cons in IH as [IHy IH]. cbn [map concat] in Hx.
  apply in_app_iff in Hx as [Hx|Hx]; apply in_app_iff; [left; by apply (IHy (S depth))|right; by apply IHs].
Qed.
(** Each shown span but the first is the child of a shown one. *)
Lemma shown_parent reg depth t x : In x (shown reg depth t) -> snd x = t \/ exists y, In y (shown reg depth t) /\ In (snd x) (tr_subs (snd y)).
Proof.
  revert depth x. induction t as [i anns subs IH] using tree_ind'. intros depth x. cbn [shown]. destruct (timed _ _) as [|e l]; [done|].
  intros [<- | Hx]; [by left|right].
  assert (exists s, In s subs /\ In x (shown reg (S depth) s)) as (s & Hs & Hxs).
  { clear -Hx. induction subs as [|s subs IHs]; [done|]. cbn [map concat] in Hx. apply in_app_iff in Hx as [Hx|Hx]; [exists s; split; [by left|done]|].
    destruct (IHs Hx) as (s' & Hs' & Hx'). exists s'. split; [by right|done]. }
  rewrite List.Forall_forall in IH. destruct (IH s Hs (S depth) x Hxs) as [E|(y & Hy & Hc)].
  - exists (depth, Tree i anns subs). split; [by left|]. cbn [snd tr_subs]. by rewrite E.
  - exists y. split; [|done]. right. apply in_concat. exists (shown reg (S depth) s). split; [|done]. by apply in_map.
Qed.
Fixpoint size (t : tree) : nat := S ((fix go (l : list tree) := match l with [] => 0 | x :: l => size x + go l end) (tr_subs t))%nat.
Lemma sub_size p c : In c (tr_subs p) -> (size c < size p)%nat.
Proof.
  destruct p as [i anns subs]. cbn [tr_subs size]. induction subs as [|x subs IH]; [done|]. intros [<-|Hc]; [lia|]. specialize (IH Hc). lia.
Qed.
Lemma node_size t n : In n (nodes t) -> (size n <= size t)%nat.
Proof.
  induction t as [i anns subs IH] using tree_ind'. cbn [nodes tr_subs size]. intros [<-|Hn]; [done|].
  assert (exists s, In s subs /\ In n (nodes s)) as (s & Hs & Hns).
  { clear -Hn. induction subs as [|s subs IHs]; [done|]. apply in_app_iff in Hn as [Hn|Hn]; [exists s; split; [by left|done]|]. destruct (IHs Hn) as (s' & Hs' & Hn'). exists s'. split; [by right|done]. }
  rewrite List.Forall_forall in IH. pose proof (IH s Hs Hns). pose proof (sub_size (Tree i anns subs) s Hs) as Hlt. cbn [size tr_subs] in Hlt. lia.
Qed.
Lemma span_node t n m : proper t -> In n (nodes t) -> In m (nodes t) -> sp_span (tr_id n) = sp_span (tr_id m) -> n = m.
Proof.
  intros [_ Hnd _ _]. revert Hnd. generalize (nodes t). intros l. induction l as [|x l IH]; [done|]. cbn [map]. intros Hnd. inversion Hnd as [|? ? Hx Hl]; subst.
  intros [<-|Hn] [<-|Hm] E; [done| | |by apply IH]; exfalso; apply Hx; [rewrite E|rewrite -E]; by apply (in_map (fun n => sp_span (tr_id n))).
Qed.
Lemma under_node t s c : under t s c -> In c (nodes t).
Proof. induction 1 as [p c Hp E Hc|p c Hp IH Hc]; by apply (nodes_sub t p). Qed.
Section spans.
  Variable (reg : registry) (us : urls) (t : tree) (items : list item).
  Hypothesis Ht : proper t.
  Hypothesis Hitems : Forall2 (describes reg us) (shown reg 0 t) items.
  Lemma item_of_span x : In x (shown reg 0 t) -> exists o, In o items /\ describes reg us x o.
  Proof. intros [i Ei]%elem_of_list_In%elem_of_list_lookup. destruct (Forall2_lookup_l _ _ _ _ _ Hitems Ei) as (o & Eo & Ho). exists o. split; [apply elem_of_list_lookup_2, elem_of_list_In in Eo; done|done]. Qed.
  Lemma span_of_item o : In o items -> exists x, In x (shown reg 0 t) /\ describes reg us x o.
  Proof. intros [i Ei]%elem_of_list_In%elem_of_list_lookup. destruct (Forall2_lookup_r _ _ _ _ _ Hitems Ei) as (x & Ex & Hx). exists x. split; [apply elem_of_list_lookup_2, elem_of_list_In in Ex; done|done]. Qed.
  Lemma empty_id v : is_id v -> id_string v <> ""%string.
  Proof. intros Hv E. destruct (id_string_shape v Hv) as [Hl _]. by rewrite E in Hl. Qed.
  Lemma parent_is x o s : In x (shown reg 0 t) -> describes reg us x o -> is_id s -> it_parent o = id_string s -> sp_parent (tr_id (snd x)) = s /\ s <> 0.
  Proof.
    intros Hx Hd Hs E. destruct (p_ids t Ht _ (shown_nodes _ _ _ _ Hx)) as (_ & Hp & _).
    destruct (decide (sp_parent (tr_id (snd x)) = 0)) as [E0|Hne].
    - rewrite (d_root _ _ _ _ Hd E0) in E. by destruct (empty_id s Hs).
    - rewrite (d_parent _ _ _ _ Hd Hne) in E. apply id_string_inj in E; [|done..]. by subst.
  Qed.
  (** The tree parent of a shown span whose parent has the ID of a span of the tree. *)
  Lemma shown_under x q : In x (shown reg 0 t) -> In q (nodes t) -> sp_parent (tr_id (snd x)) = sp_span (tr_id q) ->
    In (snd x) (tr_subs q) /\ exists y, In y (shown reg 0 t) /\ snd y = q.
  Proof.
    intros Hx Hq E. destruct (shown_parent _ _ _ _ Hx) as [Er|(y & Hy & Hc)].
    - exfalso. rewrite Er in E. by apply (p_root t Ht q).
    - assert (snd y = q) as Eq.
      { apply (span_node t); [done|by apply (shown_nodes reg 0)|done|]. rewrite -E. symmetry. apply (p_edge t Ht). split; [by apply (shown_nodes reg 0)|done]. }
      split; [by rewrite -Eq|by exists y].
  Qed.
  Lemma beneath_under q x o : In q (nodes t) -> In x (shown reg 0 t) -> describes reg us x o -> In o items ->
    beneath items (id_string (sp_span (tr_id q))) o <-> under t (sp_span (tr_id q)) (snd x).
  Proof.
    intros Hq Hx Hd Ho. destruct (p_ids t Ht q Hq) as (Hqid & _ & Hq0). split.
    - intros Hb. revert x Hx Hd Ho. induction Hb as [o Hin E|p o Hp IH Hin E]; intros x Hx Hd Ho.
      + destruct (parent_is x o _ Hx Hd Hqid E) as [Ep _]. destruct (shown_under x q Hx Hq Ep) as [Hc _]. by apply (U_child t _ q).
      + pose proof (beneath_in _ _ _ Hp) as Hpi. destruct (span_of_item p Hpi) as (y & Hy & Hdy). pose proof (shown_nodes _ _ _ _ Hy) as Hyn.
        destruct (p_ids t Ht _ Hyn) as (Hyid & _ & _). rewrite (d_span _ _ _ _ Hdy) in E. destruct (parent_is x o _ Hx Hd Hyid E) as [Ep _].
        destruct (shown_under x (snd y) Hx Hyn Ep) as [Hc _]. apply (U_deeper t _ (snd y)); [by apply IH|done].
    - intros Hu. remember (snd x) as c eqn:Ec. revert x o Ec Hx Hd Ho. induction Hu as [p c Hp E Hc|p c Hp IH Hc]; intros x o -> Hx Hd Ho.
      + assert (p = q) as -> by (by apply (span_node t)). apply B_child; [done|].
        assert (sp_parent (tr_id (snd x)) = sp_span (tr_id q)) as Ep by (by apply (p_edge t Ht)). rewrite (d_parent _ _ _ _ Hd); [congruence|by rewrite Ep].
      + pose proof (under_node _ _ _ Hp) as Hpn. assert (sp_parent (tr_id (snd x)) = sp_span (tr_id p)) as Ep by (by apply (p_edge t Ht)).
        destruct (shown_under x p Hx Hpn Ep) as (_ & y & Hy & <-). destruct (item_of_span y Hy) as (oy & Hoy & Hdy).
        apply (B_deeper _ _ oy); [by apply (IH y)|done|]. destruct (p_ids t Ht _ Hpn) as (_ & _ & Hp0).
        rewrite (d_parent _ _ _ _ Hd); [congruence|]. by rewrite (d_span _ _ _ _ Hdy) Ep.
  Qed.
  (** A ranking of the items: how deep they are. *)
  Lemma item_rank : exists (rank : string -> nat) (M : nat),
    (forall o p, In o items -> In p items -> it_parent o = it_span p -> (rank (it_span p) < rank (it_span o))%nat) /\
    (forall o, In o items -> (rank (it_span o) <= M)%nat).
  Proof.
    exists (fun s => size t - match list_find (fun n => id_string (sp_span (tr_id n)) = s) (nodes t) with Some (_, n) => size n | None => 0 end)%nat, (size t).
    assert (forall o, In o items -> exists x, In x (shown reg 0 t) /\ describes reg us x o /\
      list_find (fun n => id_string (sp_span (tr_id n)) = it_span o) (nodes t) = list_find (fun n => id_string (sp_span (tr_id n)) = it_span o) (nodes t) /\
      match list_find (fun n => id_string (sp_span (tr_id n)) = it_span o) (nodes t) with Some (_, n) => size n | None => 0 end%nat = size (snd x)) as Hf.
    { intros o Ho. destruct (span_of_item o Ho) as (x & Hx & Hd). exists x. split; [done|]. split; [done|]. split; [done|].
      pose proof (shown_nodes _ _ _ _ Hx) as Hn. destruct (list_find _ _) as [[j n]|] eqn:E.
      - apply list_find_Some in E as (Ej & En & _). apply elem_of_list_lookup_2, elem_of_list_In in Ej. f_equal. apply (span_node t); [done..|].
        rewrite (d_span _ _ _ _ Hd) in En. apply id_string_inj in En; [done|by apply (p_ids t Ht)..].
      - exfalso. apply list_find_None in E. rewrite List.Forall_forall in E. apply (E (snd x) Hn). by rewrite (d_span _ _ _ _ Hd). }
    split; [|intros o Ho; lia].
    intros o p Ho Hp E. destruct (Hf o Ho) as (x & Hx & Hd & _ & ->), (Hf p Hp) as (y & Hy & Hdy & _ & ->).
    pose proof (shown_nodes _ _ _ _ Hy) as Hyn. destruct (p_ids t Ht _ Hyn) as (Hyid & _ & _). rewrite (d_span _ _ _ _ Hdy) in E.
    destruct (parent_is x o _ Hx Hd Hyid E) as [Ep _]. destruct (shown_under x (snd y) Hx Hyn Ep) as [Hc _].
    pose proof (sub_size _ _ Hc). pose proof (node_size _ _ Hyn). lia.
  Qed.
End spans.
