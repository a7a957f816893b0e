(** Property C136 (the view mode menu of the aggregated view). *)
From Verif Require Import Base IdModel IdSpec IdProofs TraceModel EventModel ProfModel WebModel WebSpec WebProofs WebProps HrefModel PickProps ModeModel.
From Coq Require Import ssreflect.
Local Open Scope general_if_scope.
Local Open Scope char_scope.

(** ** Parts of a query *)

Fixpoint J (ps : list (list ascii)) : list ascii :=
  match ps with [] => [] | p :: ps => p ++ match ps with [] => [] | _ => "&" :: J ps end end.
Lemma J_split q : J (split_on "&" q) = q.
Proof.
  induction q as [|c q IH]; [done|]. cbn [split_on]. destruct (Ascii.eqb_spec c "&") as [->|Hc].
  - cbn [J]. pose proof (split_on_nonempty "&" q). destruct (split_on "&" q); [done|]. by rewrite IH.
  - destruct (split_on "&" q) as [|p ps] eqn:E; [by apply split_on_nonempty in E|]. cbn [J] in *. cbn [app]. by rewrite IH.
Qed.
Definition free (c : ascii) (l : list ascii) : Prop := ~ In c l.
Lemma split_J ps : ps <> [] -> Forall (free "&") ps -> split_on "&" (J ps) = ps.
Proof.
  induction ps as [|p ps IH]; [done|]. intros _ [Hp Hps]%Forall_cons. cbn [J]. destruct ps as [|p' ps]; [rewrite app_nil_r; by apply split_on_none|].
  rewrite split_on_app; [done|]. by rewrite IH.
Qed.
Lemma split_free c d q : ~ In d q -> Forall (fun p => free c p /\ free d p) (split_on c q).
Proof.
  intros Hd. induction q as [|x q IH]; [by repeat constructor; intros []|]. cbn [split_on].
  assert (~ In d q /\ d <> x) as [Hq Hx] by (split; [intros ?; apply Hd; by right|intros ->; apply Hd; by left]).
  specialize (IH Hq). destruct (Ascii.eqb_spec x c) as [->|Hc]; [constructor; [split; intros []|done]|].
  destruct (split_on c q) as [|p ps]; [by repeat constructor; intros [<-|[]]|]. apply Forall_cons in IH as [[H1 H2] H]. constructor; [|done].
  split; intros [<-|Hin]; done.
Qed.

(** ** The script *)

Lemma key_no_amp : ~ In "&" mode_key.
Proof. vm_compute. intuition discriminate. Qed.
Lemma lower_amp c : ascii_lower c = "&" -> c = "&".
Proof. destruct c as [[] [] [] [] [] [] [] []]; vm_compute; congruence. Qed.
Lemma after_app k p t : ~ In "&" k -> t = [] \/ (exists t', t = "&" :: t') -> after_ci k (p ++ t) = (r ← after_ci k p; Some (r ++ t)).
Proof.
  intros Hk Ht. revert p. induction k as [|c k IH]; intros p; [done|]. assert (~ In "&" k /\ c <> "&") as [Hk' Hc] by (split; [intros ?; apply Hk; by right|intros ->; apply Hk; by left]).
  destruct p as [|d p]; cbn.
  - destruct Ht as [->|(t' & ->)]; [done|]. cbn [app after_ci]. change (ascii_lower "&") with "&". destruct (Ascii.eqb_spec (ascii_lower c) "&") as [E|_]; [by apply lower_amp in E|done].
  - destruct (Ascii.eqb _ _); [by apply IH|done].
Qed.
Lemma after_free k p r c : after_ci k p = Some r -> free c p -> free c r.
Proof.
  revert p. induction k as [|x k IH]; intros p; cbn; [congruence|]. destruct p as [|d p]; [done|]. destruct (Ascii.eqb _ _); [|done]. intros H Hp. apply (IH p H). intros ?; apply Hp; by right.
Qed.
Lemma from_amp_app r t : free "&" r -> t = [] \/ (exists t', t = "&" :: t') -> from_amp (r ++ t) = t.
Proof.
  intros Hr Ht. induction r as [|c r IH]; [destruct Ht as [->|(t' & ->)]; done|]. cbn [app].
  assert (c <> "&") as Hc by (intros ->; apply Hr; by left). rewrite -[in RHS]IH; [intros ?; apply Hr; by right|].
  destruct c as [[] [] [] [] [] [] [] []]; done.
Qed.
Lemma skip l t : free "?" l -> free "&" l -> find_mode (l ++ t) = match find_mode t with Some (b, s, r) => Some (l ++ b, s, r) | None => None end.
Proof.
  intros H1 H2. induction l as [|c l IH]; cbn [app]; [by destruct (find_mode t) as [[[b s] r]|]|]. cbn [find_mode].
  destruct (Ascii.eqb_spec c "?") as [->|_]; [exfalso; apply H1; by left|]. destruct (Ascii.eqb_spec c "&") as [->|_]; [exfalso; apply H2; by left|]. cbn [orb].
  rewrite IH; [intros ?; apply H1; by right|intros ?; apply H2; by right|]. by destruct (find_mode t) as [[[b s] r]|].
Qed.
Fixpoint upd (v : list ascii) (ps : list (list ascii)) : list (list ascii) :=
  match ps with
  | [] => [mode_key ++ v]
  | p :: ps => match after_ci mode_key p with Some _ => (mode_key ++ v) :: ps | None => p :: upd v ps end
  end.
Definition ok_part (p : list ascii) : Prop := free "&" p /\ free "?" p.
Lemma upd_ne v ps : upd v ps <> [].
Proof. destruct ps as [|p ps]; [done|]. cbn [upd]. by destruct (after_ci mode_key p). Qed.
Lemma find_parts s v ps : s = "?" \/ s = "&" -> Forall ok_part ps -> ps <> [] ->
  match find_mode (s :: J ps) with
  | Some (b, s', r) => b ++ s' :: mode_key ++ v ++ from_amp r = s :: J (upd v ps)
  | None => s :: J ps ++ "&" :: mode_key ++ v = s :: J (upd v ps)
  end.
Proof.
  intros Hs H. revert s Hs. induction H as [|p ps [Hp1 Hp2] Hps IH]; intros s Hs Hne; [done|].
  set (t := match ps with [] => [] | _ => "&" :: J ps end). assert (J (p :: ps) = p ++ t) as -> by done.
  assert (t = [] \/ (exists t', t = "&" :: t')) as Ht by (rewrite /t; destruct ps; [by left|right; by eexists]).
  cbn [find_mode]. assert (Ascii.eqb s "?" || Ascii.eqb s "&" = true) as -> by (destruct Hs as [-> | ->]; done).
  rewrite (after_app mode_key p t key_no_amp Ht). cbn [upd]. destruct (after_ci mode_key p) as [r|] eqn:E; cbn [mbind option_bind].
  - rewrite (from_amp_app r t (after_free _ _ _ _ E Hp1) Ht). cbn [app J]. by rewrite -app_assoc.
  - rewrite (skip p t Hp2 Hp1). destruct ps as [|p' ps].
    + subst t. cbn [find_mode]. cbn [upd J]. by rewrite !app_nil_r.
    + specialize (IH "&" (or_intror eq_refl) ltac:(done)). subst t. destruct (find_mode ("&" :: J (p' :: ps))) as [[[b s'] r]|].
      * cbn [app]. rewrite -app_assoc IH. cbn [J]. pose proof (upd_ne v (p' :: ps)). by destruct (upd v (p' :: ps)).
      * cbn [app]. f_equal. rewrite -app_assoc. apply (f_equal (@tl ascii)) in IH. cbn [tl] in IH. cbn [app]. rewrite IH.
        pose proof (upd_ne v (p' :: ps)). cbn [J]. by destruct (upd v (p' :: ps)).
Qed.
Lemma has_mark a b : existsb (Ascii.eqb "?") (a ++ "?" :: b) = true.
Proof. rewrite existsb_app. cbn. apply orb_true_r. Qed.
Lemma no_mark a : free "?" a -> existsb (Ascii.eqb "?") a = false.
Proof.
  intros H. induction a as [|c a IH]; [done|]. cbn [existsb]. destruct (Ascii.eqb_spec "?" c) as [<-|_]; [exfalso; apply H; by left|]. apply IH. intros ?; apply H; by right.
Qed.
Lemma set_mode_query base v q : free "?" base -> free "&" base -> free "?" q -> set_mode (base ++ "?" :: q) v = base ++ "?" :: J (upd v (split_on "&" q)).
Proof.
  intros H1 H2 Hq. rewrite /set_mode (skip base _ H1 H2) has_mark.
  pose proof (find_parts "?" v (split_on "&" q) (or_introl eq_refl) (split_free "&" "?" q Hq) (split_on_nonempty _ _)) as H. rewrite J_split in H.
  destruct (find_mode ("?" :: q)) as [[[b s] r]|]; rewrite -H; [by rewrite -app_assoc|]. by rewrite -app_assoc.
Qed.
Lemma set_mode_plain base v : free "?" base -> free "&" base -> set_mode base v = base ++ "?" :: mode_key ++ v.
Proof. intros H1 H2. rewrite /set_mode -[in find_mode base](app_nil_r base) (skip base [] H1 H2). cbn [find_mode]. by rewrite (no_mark base H1). Qed.

(** ** The server *)

Definition unreserved (l : list ascii) : Prop := free "%" l /\ free "+" l.
Lemma unescape_plain l : unreserved l -> query_unescape l = Some l.
Proof.
  intros [H1 H2]. induction l as [|c l IH]; [done|]. assert (query_unescape l = Some l) as E by (apply IH; intros ?; [apply H1|apply H2]; by right).
  assert (c <> "%" /\ c <> "+") as [Hc1 Hc2] by (split; intros ->; [apply H1|apply H2]; by left).
  destruct c as [[] [] [] [] [] [] [] []]; try done; cbn [query_unescape]; by rewrite E.
Qed.
Definition mode_name : list ascii := bytes "view-mode".
Lemma after_cut k p r : free "=" k -> after_ci (k ++ ["="]) p = Some r -> exists k', cut_eq p = (k', r) /\ map ascii_lower k' = map ascii_lower k.
Proof.
  revert p. induction k as [|c k IH]; intros p Hk; cbn [app after_ci].
  - destruct p as [|d p]; [done|]. cbn [app]. destruct (Ascii.eqb_spec (ascii_lower "=") (ascii_lower d)) as [E|_]; [|done]. intros [= <-].
    exists []. split; [|done]. destruct d as [[] [] [] [] [] [] [] []]; vm_compute in E; try discriminate; done.
  - destruct p as [|d p]; [done|]. destruct (Ascii.eqb_spec (ascii_lower c) (ascii_lower d)) as [E|_]; [|done]. intros H.
    destruct (IH p ltac:(intros ?; apply Hk; by right) H) as (k' & Ek & El). exists (d :: k'). split; [|cbn; by rewrite E El].
    assert (d <> "=") as Hd. { intros ->. assert (c <> "=") by (intros ->; apply Hk; by left). destruct c as [[] [] [] [] [] [] [] []]; vm_compute in E; congruence. }
    cbn [cut_eq]. rewrite Ek. destruct d as [[] [] [] [] [] [] [] []]; done.
Qed.
Lemma lower_unreserved l : map ascii_lower l = mode_name -> unreserved l.
Proof.
  intros E. split; intros H; apply (in_map ascii_lower) in H; rewrite E in H; vm_compute in H; intuition discriminate.
Qed.
Lemma mode_part p r : after_ci mode_key p = Some r -> exists k, cut_eq p = (k, r) /\ map ascii_lower k = mode_name /\ query_unescape k = Some k.
Proof.
  intros H. destruct (after_cut (bytes "view-mode") p r) as (k & Ek & El); [vm_compute; intuition discriminate|done|]. exists k. split; [done|]. split; [by rewrite El; vm_compute|].
  apply unescape_plain, lower_unreserved. by rewrite El; vm_compute.
Qed.
Lemma mode_param v : unreserved v -> param (mode_key ++ v) = Some (mode_name, v).
Proof.
  intros Hv. change (mode_key ++ v) with ("v" :: "i" :: "e" :: "w" :: "-" :: "m" :: "o" :: "d" :: "e" :: "=" :: v). cbn [param cut_eq]. cbn -[query_unescape]. rewrite (unescape_plain v Hv). done.
Qed.
Lemma get_other name v ps : map ascii_lower name <> mode_name -> unreserved v -> get_part name (upd v ps) = get_part name ps.
Proof.
  intros Hn Hv. assert (name <> mode_name) as Hn' by (intros ->; by apply Hn; vm_compute).
  induction ps as [|p ps IH]; cbn [upd get_part].
  - rewrite (mode_param v Hv). rewrite decide_False //. congruence.
  - destruct (after_ci mode_key p) as [r|] eqn:E; cbn [get_part]; [|by rewrite IH].
    rewrite (mode_param v Hv) decide_False; [congruence|]. destruct (mode_part p r E) as (k & Ek & El & Eu).
    rewrite /param. destruct p as [|c p]; [done|]. rewrite Ek Eu. cbn [mbind option_bind]. destruct (query_unescape r); cbn [mbind option_bind]; [|done]. rewrite decide_False //. congruence.
Qed.
(** A part that gives the mode is written with these letters (in any case) and "=". *)
Definition spelled (p : list ascii) : Prop := forall v, param p = Some (mode_name, v) -> after_ci mode_key p <> None.
Lemma get_mode v ps : Forall spelled ps -> unreserved v -> get_part mode_name (upd v ps) = v.
Proof.
  intros H Hv. induction H as [|p ps Hp _ IH]; cbn [upd get_part]; [rewrite (mode_param v Hv); by destruct (decide (mode_name = mode_name))|].
  destruct (after_ci mode_key p) as [r|] eqn:E; cbn [get_part]; [rewrite (mode_param v Hv); by destruct (decide (mode_name = mode_name))|].
  destruct (param p) as [[k w]|] eqn:Ep; [|done]. destruct (decide (k = mode_name)) as [->|_]; [|done]. exfalso. by apply (Hp w).
Qed.
Lemma after_self k l : after_ci k (k ++ l) = Some l.
Proof. induction k as [|c k IH]; [done|]. cbn. by rewrite Ascii.eqb_refl. Qed.
Lemma upd_all (P : list ascii -> Prop) v ps : P (mode_key ++ v) -> Forall P ps -> Forall P (upd v ps).
Proof. intros Hv H. induction H as [|p ps Hp Hps IH]; cbn [upd]; [by repeat constructor|]. destruct (after_ci mode_key p); by constructor. Qed.

(** ** Addresses *)

Lemma cut_none c l : free c l -> cut_at c l = (l, None).
Proof.
  intros H. induction l as [|d l IH]; [done|]. cbn [cut_at]. destruct (Ascii.eqb_spec d c) as [->|_]; [exfalso; apply H; by left|]. rewrite IH //. intros ?; apply H; by right.
Qed.
Lemma cut_some c l r : free c l -> cut_at c (l ++ c :: r) = (l, Some r).
Proof.
  intros H. induction l as [|d l IH]; cbn [app cut_at]; [by rewrite Ascii.eqb_refl|]. destruct (Ascii.eqb_spec d c) as [->|_]; [exfalso; apply H; by left|]. rewrite IH //. intros ?; apply H; by right.
Qed.
Lemma free_app c a b : free c (a ++ b) <-> free c a /\ free c b.
Proof. rewrite /free in_app_iff. tauto. Qed.
Lemma free_cons c d b : free c (d :: b) <-> d <> c /\ free c b.
Proof. rewrite /free. cbn. tauto. Qed.
(** An address of one path and one query, without a fragment and without semicolons, where the mode, if it is given, is
    not written with escapes. *)
Definition ordinary (a : list ascii) : Prop :=
  exists base q, (a = base /\ q = [] \/ a = base ++ "?" :: q) /\ free "?" base /\ free "&" base /\ free "#" base /\
    free "?" q /\ free "#" q /\ free ";" q /\ Forall spelled (split_on "&" q).
Definition path_of (a : list ascii) : list ascii := fst (cut_at "?" a).
Lemma entry_free m c : In c ["%"; "+"; "&"; "?"; "#"; ";"] -> free c (mode_key ++ bytes (entry m)).
Proof. intros Hc Hin. destruct m; vm_compute in Hin, Hc; intuition congruence. Qed.
Lemma entry_unreserved m : unreserved (bytes (entry m)).
Proof. split; intros H; [apply (entry_free m "%")|apply (entry_free m "+")]; try (apply in_app_iff; by right); vm_compute; by eauto 10. Qed.
Lemma J_free c ps : c <> "&" -> Forall (free c) ps -> free c (J ps).
Proof.
  intros Hc H. induction H as [|p ps Hp Hps IH]; [intros []|]. cbn [J]. apply free_app. split; [done|]. destruct ps; [intros []|]. apply free_cons. split; [congruence|done].
Qed.
Lemma spelled_entry v : spelled (mode_key ++ v).
Proof. intros w _. by rewrite after_self. Qed.
Lemma split_only c q : Forall (free c) (split_on c q).
Proof.
  induction q as [|x q IH]; [by repeat constructor; intros []|]. cbn [split_on]. destruct (Ascii.eqb_spec x c) as [->|Hc]; [constructor; [intros []|done]|].
  destruct (split_on c q) as [|p ps]; [constructor; [intros [<-|[]]; done|constructor]|]. apply Forall_cons in IH as [H1 H]. constructor; [|done]. intros [<-|Hin]; done.
Qed.
Lemma split_other c d q : free d q -> Forall (free d) (split_on c q).
Proof. intros H. eapply Forall_impl; [apply (split_free c d q H)|]. by intros p [_ ?]. Qed.
Lemma one_choice a m : ordinary a -> ordinary (choose a m) /\ path_of (choose a m) = path_of a /\ query_get (query_of (choose a m)) "view-mode" = entry m /\
  forall name, map ascii_lower (bytes name) <> bytes "view-mode" -> query_get (query_of (choose a m)) name = query_get (query_of a) name.
Proof.
  intros (base & q & Ha & Hb1 & Hb2 & Hb3 & Hq1 & Hq2 & Hq3 & Hsp).
  assert (exists ps, choose a m = base ++ "?" :: J (upd (bytes (entry m)) ps) /\ Forall (free "&") ps /\ Forall (free "?") ps /\ Forall (free "#") ps /\ Forall (free ";") ps /\ Forall spelled ps /\
    path_of a = base /\ forall name, get_part name ps = get_part name (split_on "&" (query_of a))) as (ps & E & P1 & P2 & P3 & P4 & Ps & Epath & Eget).
  { rewrite /choose. destruct Ha as [[-> ->]| -> ].
    - exists []. rewrite (set_mode_plain base _ Hb1 Hb2). cbn [upd J]. rewrite app_nil_r. repeat (split; [done|]). split; [by rewrite /path_of (cut_none _ _ Hb1)|].
      intros name. by rewrite /query_of (cut_none _ _ Hb3) (cut_none _ _ Hb1).
    - exists (split_on "&" q). rewrite (set_mode_query base _ q Hb1 Hb2 Hq1). split; [done|]. split; [apply split_only|]. do 3 (split; [by apply split_other|]). split; [done|].
      split; [by rewrite /path_of (cut_some _ _ _ Hb1)|]. intros name. rewrite /query_of (cut_none "#"); [by apply free_app; split; [|apply free_cons]|]. cbn [fst]. by rewrite (cut_some _ _ _ Hb1). }
  set (ps' := upd (bytes (entry m)) ps) in *. rewrite E.
  assert (Forall (free "&") ps' /\ Forall (free "?") ps' /\ Forall (free "#") ps' /\ Forall (free ";") ps' /\ Forall spelled ps') as (U1 & U2 & U3 & U4 & Us).
  { rewrite /ps'. repeat split; apply upd_all; try done; try (apply entry_free; vm_compute; by eauto 10); apply spelled_entry. }
  assert (free "?" (J ps') /\ free "#" (J ps') /\ free ";" (J ps')) as (F1 & F2 & F3) by (repeat split; by apply J_free).
  assert (split_on "&" (J ps') = ps') as Es by (apply split_J; [apply upd_ne|done]).
  assert (query_of (base ++ "?" :: J ps') = J ps') as Eq.
  { rewrite /query_of (cut_none "#"); [by apply free_app; split; [|apply free_cons]|]. cbn [fst]. by rewrite (cut_some _ _ _ Hb1). }
  split; [|split; [|split]].
  - exists base, (J ps'). split; [by right|]. repeat (split; [done|]). by rewrite Es.
  - by rewrite Epath /path_of (cut_some _ _ _ Hb1).
  - rewrite Eq /query_get Es /ps'. rewrite get_mode; [done|apply entry_unreserved|]. apply unbytes_bytes.
  - intros name Hn. rewrite Eq /query_get Es /ps' get_other; [done|apply entry_unreserved|]. by rewrite Eget.
Qed.

(** ** C136 *)

(** C136: after any choices, the address of the page asks for the mode that was chosen last, and for everything else
    that it asked for before. *)
Theorem C136 : forall a ms m, ordinary a -> let a' := fold_left choose (ms ++ [m]) a in
  path_of a' = path_of a /\ query_get (query_of a') "view-mode" = entry m /\
  forall name, map ascii_lower (bytes name) <> bytes "view-mode" -> query_get (query_of a') name = query_get (query_of a) name.
Proof.
  intros a ms m Ha. cbv zeta. rewrite fold_left_app. cbn [fold_left].
  assert (ordinary (fold_left choose ms a) /\ path_of (fold_left choose ms a) = path_of a /\
    forall name, map ascii_lower (bytes name) <> bytes "view-mode" -> query_get (query_of (fold_left choose ms a)) name = query_get (query_of a) name) as (H1 & H2 & H3).
  { revert a Ha. induction ms as [|x ms IH]; intros a Ha; [done|]. cbn [fold_left]. destruct (one_choice a x Ha) as (Ho & Hp & _ & Hg). destruct (IH _ Ho) as (I1 & I2 & I3).
    split; [done|]. split; [congruence|]. intros name Hn. rewrite I3 //. by apply Hg. }
  destruct (one_choice _ m H1) as (_ & Hp & Hm & Hg). split; [congruence|]. split; [done|]. intros name Hn. rewrite Hg //. by apply H3.
Qed.
Print Assumptions C136.

Lemma id_free v c : is_id v -> In c ["%"; "+"; "&"; "?"; "#"; ";"] -> free c (bytes (id_string v)).
Proof.
  intros Hv Hc Hin. destruct (id_string_shape v Hv) as [_ Hl]. specialize (Hl c Hin).
  cbn in Hc. intuition subst; vm_compute in Hl; intuition discriminate.
Qed.
Lemma row_free l c : Forall is_id l -> In c ["%"; "+"; "&"; "?"; "#"; ";"] -> free c (bytes (row_show l)).
Proof.
  intros Hl Hc. induction Hl as [|v l Hv Hl IH]; [intros []|]. rewrite /row_show in IH |- *. cbn [map join]. destruct l as [|w l]; [by apply id_free|].
  cbn [map] in *. rewrite !bytes_app !free_app. split; [by apply id_free|]. split; [|done]. cbn in Hc. intuition subst; vm_compute; intuition discriminate.
Qed.
Lemma get_selection l : Forall is_id l -> query_get (bytes "selection=" ++ bytes (row_show l)) "selection" = row_show l.
Proof.
  intros Hl. rewrite /query_get split_on_none.
  { apply free_app. split; [vm_compute; intuition discriminate|]. apply row_free; [done|vm_compute; by eauto 10]. }
  cbn [get_part]. change (param (bytes "selection=" ++ bytes (row_show l))) with (k ← query_unescape (bytes "selection"); v ← query_unescape (bytes (row_show l)); Some (k, v)).
  rewrite (unescape_plain (bytes (row_show l))); [split; apply row_free; try done; vm_compute; by eauto 10|]. 
  cbn [mbind option_bind]. change (query_unescape (bytes "selection")) with (Some (bytes "selection")). cbn [mbind option_bind]. destruct (decide (bytes "selection" = bytes "selection")); [|done]. apply unbytes_bytes.
Qed.
(** The addresses that the button of the list leads to. *)
Definition clean_base (b : base_url) : Prop := forall c, In c ["?"; "&"; "#"] -> ~ In c (bytes (url_string b)).
Lemma button_ordinary b listed checked : clean_base b -> Forall is_id checked -> ordinary (bytes (aggregate_button b listed checked)) /\
  query_get (query_of (bytes (aggregate_button b listed checked))) "selection" = selection_param (aggregate_query listed checked) /\
  query_get (query_of (bytes (aggregate_button b listed checked))) "view-mode" = ""%string.
Proof.
  intros Hb Hids. rewrite /aggregate_button /aggregate_query (bytes_app (url_string b)) (bytes_app "aggregate"). set (base := bytes (url_string b) ++ bytes "aggregate"). rewrite app_assoc -/base.
  assert (free "?" base /\ free "&" base /\ free "#" base) as (H1 & H2 & H3).
  { rewrite /base. repeat split; apply free_app; (split; [apply Hb; vm_compute; by eauto 10|vm_compute; intuition discriminate]). }
  destruct (Nat.eqb (length checked) (length listed)).
  - rewrite app_nil_r. assert (query_of base = []) as -> by (by rewrite /query_of (cut_none "#" _ H3) (cut_none _ _ H1)). split; [|done].
    exists base, []. split; [by left|]. repeat (split; [done || intros []|]). repeat constructor. intros v Hv. discriminate.
  - rewrite bytes_app. change (js_join (map id_string checked)) with (row_show checked). rewrite param_of. change (bytes "?selection=") with ("?" :: bytes "selection=").
    set (q := bytes "selection=" ++ bytes (row_show checked)). assert (forall c, In c ["%"; "+"; "&"; "?"; "#"; ";"] -> free c q) as Hq.
    { intros c Hc. apply free_app. split; [|by apply row_free]. cbn in Hc. intuition subst; vm_compute; intuition discriminate. }
    assert (base ++ ("?" :: bytes "selection=") ++ bytes (row_show checked) = base ++ "?" :: q) as -> by done.
    assert (query_of (base ++ "?" :: q) = q) as ->.
    { rewrite /query_of (cut_none "#"); [apply free_app; split; [done|]; apply free_cons; split; [done|]; apply Hq; vm_compute; by eauto 10|]. cbn [fst]. by rewrite (cut_some _ _ _ H1). }
    assert (split_on "&" q = [q]) as Es by (apply split_on_none, Hq; vm_compute; by eauto 10).
    assert (forall v, param q = Some (mode_name, v) -> False) as Hnot.
    { intros v. rewrite /q. change (param (bytes "selection=" ++ bytes (row_show checked))) with (k ← query_unescape (bytes "selection"); v ← query_unescape (bytes (row_show checked)); Some (k, v)).
      change (query_unescape (bytes "selection")) with (Some (bytes "selection")). cbn [mbind option_bind]. destruct (query_unescape (bytes (row_show checked))); cbn [mbind option_bind]; discriminate. }
    split; [|split; [by apply get_selection|]].
    + exists base, q. split; [by right|]. repeat (split; [done || (apply Hq; vm_compute; by eauto 10)|]). rewrite Es. constructor; [|constructor]. intros v Hv. by apply Hnot in Hv.
    + rewrite /query_get Es. cbn [get_part]. destruct (param q) as [[k v]|] eqn:Ep; [|done]. change (bytes "view-mode") with mode_name. destruct (decide (k = mode_name)) as [->|_]; [|done]. exfalso. by apply (Hnot v).
Qed.
Lemma parse_entry m : parse_agg_mode (entry m) = m.
Proof. by destruct m. Qed.
(** C136: from the button of the list (with all, some or no traces selected), after any choices, the page shows the
    aggregation of the same traces in the mode chosen last; at first, that of root spans. *)
Theorem C136_page : forall b listed checked ms reg us traces r, clean_base b -> Forall is_id checked ->
  let a := fold_left choose ms (bytes (aggregate_button b listed checked)) in
  aggregate_page reg us traces (query_of a) r <->
  match aggregated_view traces listed checked with
  | Some sel => aggregate reg us (List.last ms TraceOnly) sel r
  | None => r = RErr
  end.
Proof.
  intros b listed checked ms reg us traces r Hb Hids. cbv zeta. destruct (button_ordinary b listed checked Hb Hids) as (Ho & Hsel & Hmode).
  set (a := bytes (aggregate_button b listed checked)) in *.
  assert (query_get (query_of (fold_left choose ms a)) "selection" = selection_param (aggregate_query listed checked) /\
    parse_agg_mode (query_get (query_of (fold_left choose ms a)) "view-mode") = List.last ms TraceOnly) as [E1 E2].
  { destruct ms as [|m ms _] using rev_ind; [by rewrite Hsel Hmode|]. destruct (C136 a ms m Ho) as (_ & Hm & Hg). rewrite Hm parse_entry last_last. split; [|done]. rewrite Hg //. }
  rewrite /aggregated_view -E1 -E2. split.
  - intros [sel x Hs Hx|Hs]; by rewrite Hs.
  - destruct (selected _ _) as [sel|] eqn:Es; [intros H; by apply (page_items _ _ _ _ sel)|intros ->; by apply page_error].
Qed.
Print Assumptions C136_page.
(** Of addresses typed by hand it is false: the mode may be written with escapes, or the text of another parameter may look like it. *)
Theorem C136_typed_refuted : exists a1 a2, query_get (query_of (choose a1 SpanOnly)) "view-mode" <> "span-only"%string /\
  query_get (query_of (choose a2 SpanOnly)) "note" <> query_get (query_of a2) "note".
Proof. exists (bytes "http://h/aggregate?view%2Dmode=trace-and-span"), (bytes "http://h/aggregate?note=a?view-mode=b"). by vm_compute. Qed.
Print Assumptions C136_typed_refuted.

Definition mode_base : base_url := MkBase "http" "localhost:7700" "/".
Example C136_nonvacuous : clean_base mode_base /\ Forall is_id [3; 255]%N /\
  unbytes (fold_left choose [TraceAndSpan; SpanOnly] (bytes (aggregate_button mode_base [3; 4; 255]%N [3; 255]%N))) =
    "http://localhost:7700/aggregate?selection=0000000000000003,00000000000000ff&view-mode=span-only"%string /\
  unbytes (fold_left choose [TraceAndSpan; SpanOnly] (bytes (aggregate_button mode_base [3; 255]%N [3; 255]%N))) =
    "http://localhost:7700/aggregate?view-mode=span-only"%string /\
  ordinary (bytes "http://h/aggregate?View-Mode=x&selection=01&a=b%20c").
Proof.
  split; [intros c Hc Hin; vm_compute in Hin, Hc; intuition congruence|]. split; [repeat constructor; vm_compute; done|]. split; [by vm_compute|]. split; [by vm_compute|].
  exists (bytes "http://h/aggregate"), (bytes "View-Mode=x&selection=01&a=b%20c"). split; [by right|].
  repeat (split; [vm_compute; intuition discriminate|]). repeat constructor; intros v; vm_compute; congruence.
Qed.
