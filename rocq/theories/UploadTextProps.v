(** Property C127: which texts are accepted as uploads, and what they mean. *)
From Verif Require Import Base IdModel IdSpec IdProofs ReflModel ReflProofs Base64Model Base64Proofs IdJsonModel IdJsonProofs JsonSpec JsonModel JsonProofs MemModel MemSpec MemProofs UploadModel UploadProofs UploadProps TraceJsonModel TraceJsonProofs TraceJsonProps
  JsonGramSpec JsonGramProofs JsonGramProofs2.
From Coq Require Import ssreflect DecimalString.
Local Open Scope general_if_scope.
Local Open Scope N_scope.

(** * Members *)
Lemma lower_spec a b : lower_ascii a = lower_ascii b <-> same_letter a b.
Proof.
  rewrite /lower_ascii /same_letter /case_of. pose proof (bn_bound a). pose proof (bn_bound b).
  assert (forall c d, bn c = bn d -> c = d) as Hinj. { intros c d E. rewrite -(ascii_N_embedding c) E. apply ascii_N_embedding. }
  split.
  - intros E. apply (f_equal bn) in E.
    destruct (N.leb_spec 65 (bn a)), (N.leb_spec (bn a) 90), (N.leb_spec 65 (bn b)), (N.leb_spec (bn b) 90); cbn [andb] in E; rewrite ?bn_ascii in E; try lia;
      try (left; apply Hinj; lia); try (right; left; lia); try (right; right; lia).
  - intros [->|[[H1 H2]|[H1 H2]]]; [done|..]; apply Hinj;
      destruct (N.leb_spec 65 (bn a)), (N.leb_spec (bn a) 90), (N.leb_spec 65 (bn b)), (N.leb_spec (bn b) 90); cbn [andb]; rewrite ?bn_ascii; lia.
Qed.
Lemma names_spec k f : names k f = true <-> same_name k f.
Proof.
  rewrite /names bool_decide_eq_true /same_name. generalize (Base.bytes f). intros l. revert l. induction k as [|a k IH]; intros [|b l]; cbn [map].
  - split; constructor.
  - split; [done|by inversion 1].
  - split; [done|by inversion 1].
  - split.
    + intros [= H1 H2]. constructor; [by apply lower_spec|by apply IH].
    + intros H. inversion H; subst. f_equal; [by apply lower_spec|by apply IH].
Qed.
Lemma names_false k f : ~ same_name k f -> names k f = false.
Proof. intros H. destruct (names k f) eqn:E; [|done]. by apply names_spec in E. Qed.
Lemma names_two k f g : names k f = true -> map lower_ascii (Base.bytes f) <> map lower_ascii (Base.bytes g) -> names k g = false.
Proof. rewrite /names. intros H Hne. apply bool_decide_eq_true in H. apply bool_decide_eq_false. congruence. Qed.
Lemma member_nil f o : member_of [] f o -> o = None.
Proof. intros H. inversion H as [l1 ? ? ? E|]; subst; [by destruct l1|done]. Qed.
Lemma member_cons k v kvs f o : member_of ((k, v) :: kvs) f o ->
  (names k f = true /\ o = Some v /\ member_of kvs f None) \/ (names k f = false /\ member_of kvs f o).
Proof.
  intros H. inversion H as [l1 k' v' l2 E Hk Hno|Hno]; subst.
  - destruct l1 as [|kv l1]; cbn [app] in E.
    + injection E as <- <- <-. left. split; [by apply names_spec|]. split; [done|]. by apply MO_missing.
    + injection E as <- ->. right. split; [apply names_false; apply (Hno (k, v)); by left|]. apply (MO_found _ _ l1 k' v' l2); [done..|]. intros kv Hkv. apply Hno. by right.
  - right. split; [apply names_false; apply (Hno (k, v)); by left|]. apply MO_missing. intros kv Hkv. apply Hno. by right.
Qed.

Section three.
  Context {A B C : Type} (n1 n2 n3 : string) (d1 : A -> json -> option A) (d2 : B -> json -> option B) (d3 : C -> json -> option C).
  Context (H12 : map lower_ascii (Base.bytes n1) <> map lower_ascii (Base.bytes n2)) (H13 : map lower_ascii (Base.bytes n1) <> map lower_ascii (Base.bytes n3))
          (H23 : map lower_ascii (Base.bytes n2) <> map lower_ascii (Base.bytes n3)).
  Definition step3 (s : A * B * C) (kv : text * json) : option (A * B * C) :=
    let '(a, b, c) := s in
    if names (fst kv) n1 then match d1 a (snd kv) with Some a => Some (a, b, c) | None => None end
    else if names (fst kv) n2 then match d2 b (snd kv) with Some b => Some (a, b, c) | None => None end
    else if names (fst kv) n3 then match d3 c (snd kv) with Some c => Some (a, b, c) | None => None end
    else Some s.
  Definition upd {X} (d : X -> json -> option X) (x : X) (o : option json) (x' : X) : Prop := match o with None => x' = x | Some j => d x j = Some x' end.
  Lemma fold3 kvs : forall o1 o2 o3 a b c a' b' c', member_of kvs n1 o1 -> member_of kvs n2 o2 -> member_of kvs n3 o3 ->
    upd d1 a o1 a' -> upd d2 b o2 b' -> upd d3 c o3 c' -> fold_opt step3 (a, b, c) kvs = Some (a', b', c').
  Proof using H12 H13 H23.
    induction kvs as [|[k v] kvs IH]; intros o1 o2 o3 a b c a' b' c' M1 M2 M3 U1 U2 U3.
    - apply member_nil in M1 as ->, M2 as ->, M3 as ->. cbn in *. congruence.
    - cbn [fold_opt]. apply member_cons in M1 as [(E1 & -> & M1)|[E1 M1]], M2 as [(E2 & -> & M2)|[E2 M2]], M3 as [(E3 & -> & M3)|[E3 M3]];
        try (by rewrite (names_two _ _ _ E1 H12) in E2); try (by rewrite (names_two _ _ _ E1 H13) in E3); try (by rewrite (names_two _ _ _ E2 H23) in E3);
        rewrite /step3 /= ?E1 ?E2 ?E3; fold step3.
      + cbn in U1. rewrite U1. by apply (IH None o2 o3).
      + cbn in U2. rewrite U2. by apply (IH o1 None o3).
      + cbn in U3. rewrite U3. by apply (IH o1 o2 None).
      + by apply (IH o1 o2 o3).
  Qed.
  (** A bad member anywhere *)
  Lemma fold3_bad kvs k v : In (k, v) kvs -> (names k n1 = true /\ forall a, d1 a v = None) \/ (names k n2 = true /\ forall b, d2 b v = None) \/ (names k n3 = true /\ forall c, d3 c v = None) ->
    forall s, fold_opt step3 s kvs = None.
  Proof using H12 H13 H23.
    intros Hin Hbad. induction kvs as [|kv kvs IH]; [done|]. intros [[a b] c]. cbn [fold_opt]. destruct Hin as [->|Hin].
    - destruct Hbad as [[E H]|[[E H]|[E H]]]; rewrite /step3 /=.
      + by rewrite E H.
      + destruct (names k n1) eqn:E1; [by rewrite (names_two _ _ _ E1 H12) in E|]. by rewrite E H.
      + destruct (names k n1) eqn:E1; [by rewrite (names_two _ _ _ E1 H13) in E|]. destruct (names k n2) eqn:E2; [by rewrite (names_two _ _ _ E2 H23) in E|]. by rewrite E H.
    - destruct (step3 (a, b, c) kv); [by apply IH|done].
  Qed.
End three.
Section two.
  Context {A B : Type} (n1 n2 : string) (d1 : A -> json -> option A) (d2 : B -> json -> option B) (H12 : map lower_ascii (Base.bytes n1) <> map lower_ascii (Base.bytes n2)).
  Definition step2 (s : A * B) (kv : text * json) : option (A * B) :=
    let '(a, b) := s in
    if names (fst kv) n1 then match d1 a (snd kv) with Some a => Some (a, b) | None => None end
    else if names (fst kv) n2 then match d2 b (snd kv) with Some b => Some (a, b) | None => None end
    else Some s.
  Lemma fold2 kvs : forall o1 o2 a b a' b', member_of kvs n1 o1 -> member_of kvs n2 o2 ->
    upd d1 a o1 a' -> upd d2 b o2 b' -> fold_opt step2 (a, b) kvs = Some (a', b').
  Proof using H12.
    induction kvs as [|[k v] kvs IH]; intros o1 o2 a b a' b' M1 M2 U1 U2.
    - apply member_nil in M1 as ->, M2 as ->. cbn in *. congruence.
    - cbn [fold_opt]. apply member_cons in M1 as [(E1 & -> & M1)|[E1 M1]], M2 as [(E2 & -> & M2)|[E2 M2]];
        try (by rewrite (names_two _ _ _ E1 H12) in E2); rewrite /step2 /= ?E1 ?E2; fold step2.
      + cbn in U1. rewrite U1. by apply (IH None o2).
      + cbn in U2. rewrite U2. by apply (IH o1 None).
      + by apply (IH o1 o2).
  Qed.
  Lemma fold2_bad kvs k v : In (k, v) kvs -> (names k n1 = true /\ forall a, d1 a v = None) \/ (names k n2 = true /\ forall b, d2 b v = None) ->
    forall s, fold_opt step2 s kvs = None.
  Proof using H12.
    intros Hin Hbad. induction kvs as [|kv kvs IH]; [done|]. intros [a b]. cbn [fold_opt]. destruct Hin as [->|Hin].
    - destruct Hbad as [[E H]|[E H]]; rewrite /step2 /=.
      + by rewrite E H.
      + destruct (names k n1) eqn:E1; [by rewrite (names_two _ _ _ E1 H12) in E|]. by rewrite E H.
    - destruct (step2 (a, b) kv); [by apply IH|done].
  Qed.
End two.
(** Folds on other representations of a state *)
Lemma fold_map {S T A} (f : S -> A -> option S) (g : T -> A -> option T) (h : T -> S) l :
  (forall t x, f (h t) x = match g t x with Some t => Some (h t) | None => None end) ->
  forall t, fold_opt f (h t) l = match fold_opt g t l with Some t => Some (h t) | None => None end.
Proof. intros H. induction l as [|x l IH]; intros t; [done|]. cbn [fold_opt]. rewrite H. by destruct (g t x). Qed.

(** * Decoding *)
Definition d_id (_ : N) (j : json) : option N := dec_id j.
Lemma spanid_fold cur kvs : dec_spanid cur (JObj kvs) =
  match fold_opt (step3 "Trace" "Span" "Parent" d_id d_id d_id) (sp_trace cur, sp_span cur, sp_parent cur) kvs with Some (t, s, p) => Some (MkSpanID t s p) | None => None end.
Proof.
  cbn [dec_spanid]. destruct cur as [t s p]. cbn [sp_trace sp_span sp_parent].
  pose (h := fun x : N * N * N => let '(t, s, p) := x in MkSpanID t s p).
  change (MkSpanID t s p) with (h (t, s, p)).
  rewrite (fold_map _ (step3 "Trace" "Span" "Parent" d_id d_id d_id) h).
  - intros [[t' s'] p'] kv. rewrite /step3 /h /d_id /=. by repeat case_match.
  - by destruct (fold_opt (step3 "Trace" "Span" "Parent" d_id d_id d_id) (t, s, p) kvs) as [[[? ?] ?]|].
Qed.
Definition d_val (_ : option string) (j : json) : option (option string) := dec_bytes j.
Definition d_key (k : string) (j : json) : option string := match j with JNull => Some k | JStr s => Some (unbytes s) | _ => None end.
Lemma ann_fold kvs : dec_ann (JObj kvs) =
  match fold_opt (step2 "Key" "Value" d_key d_val) (""%string, None) kvs with Some (k, v) => Some (Ann k v) | None => None end.
Proof.
  cbn [dec_ann]. pose (h := fun x : string * option string => let '(k, v) := x in Ann k v).
  change (Ann "" None) with (h (""%string, None)) at 1.
  rewrite (fold_map _ (step2 "Key" "Value" d_key d_val) h).
  - intros [k v] kv. rewrite /step2 /h /d_key /d_val /=. repeat case_match; simplify_eq; try done.
  - by destruct (fold_opt (step2 "Key" "Value" d_key d_val) _ kvs) as [[? ?]|].
Qed.
Definition d_sub (_ : list gtrace) (j : json) : option (list gtrace) := match j with JNull => Some [] | JArr l => mapM dec_trace l | _ => None end.
Definition d_anns (_ : list Annotation) (j : json) : option (list Annotation) := dec_anns j.
Lemma trace_fold kvs : dec_trace (JObj kvs) =
  match fold_opt (step3 "ID" "Annotations" "Sub" dec_spanid d_anns d_sub) (MkSpanID 0 0 0, [], []) kvs with Some (i, a, s) => Some (GTrace i a s) | None => None end.
Proof.
  cbn [dec_trace]. match goal with |- context [fold_opt ?f _ _] => set (g := f) end.
  assert (forall s, fold_opt g s kvs = fold_opt (step3 "ID" "Annotations" "Sub" dec_spanid d_anns d_sub) s kvs) as E.
  { induction kvs as [|kv kvs IH]; intros s; [done|]. cbn [fold_opt]. assert (g s kv = step3 "ID" "Annotations" "Sub" dec_spanid d_anns d_sub s kv) as ->.
    { subst g. destruct s as [[i a] s]. rewrite /step3 /d_anns /d_sub /=. repeat case_match; simplify_eq; done. }
    by destruct (step3 _ _ _ _ _ _ s kv). }
  rewrite E. by destruct (fold_opt (step3 _ _ _ _ _ _) _ kvs) as [[[? ?] ?]|].
Qed.

Lemma dec_id_is o i : id_is o i -> upd d_id 0 o i.
Proof.
  intros [| |s j Hs Hj|j Hj]; [done|done|..]; rewrite /upd /d_id /dec_id.
  - assert (parse_id (unbytes s) = inl j) as -> by (by apply parse_id_spec). done.
  - rewrite unbytes_bytes. by apply parse_fmt_uint.
Qed.
Lemma dec_spanid_is o s : spanid_is o s -> upd dec_spanid (MkSpanID 0 0 0) o s.
Proof.
  intros [| |kvs jt js jp t s' p M1 M2 M3 H1 H2 H3]; [done|done|]. rewrite /upd spanid_fold. cbn [sp_trace sp_span sp_parent].
  rewrite (fold3 "Trace" "Span" "Parent" d_id d_id d_id ltac:(done) ltac:(done) ltac:(done) kvs jt js jp 0 0 0 t s' p M1 M2 M3); [by apply dec_id_is..|]. done.
Qed.
Lemma dec_byte_is j c : byte_is j c -> dec_byte j = Some c.
Proof.
  intros [|d]; [done|]. cbn [dec_byte]. rewrite unbytes_bytes parse_fmt_uint; [pose proof (bn_bound d); rewrite /two64; lia|].
  pose proof (bn_bound d). destruct (N.ltb_spec (bn d) 256); [|lia]. by rewrite ascii_N_embedding.
Qed.
Lemma dec_bytes_are o v : bytes_are o v -> upd d_val None o v.
Proof.
  intros [| |s w Hs|l w Hl]; [done|done|..]; rewrite /upd /d_val /dec_bytes.
  - rewrite Hs (b64_roundtrip _ alpha_std). by rewrite unbytes_bytes.
  - assert (mapM dec_byte l = Some (Base.bytes w)) as ->. { apply mapM_Some. apply (Forall2_impl _ _ _ _ Hl). intros. by apply dec_byte_is. } by rewrite unbytes_bytes.
Qed.
Lemma dec_ann_is j a : ann_is j a -> dec_ann j = Some a.
Proof.
  intros [|kvs jk jv k v M1 M2 H1 H2]; [done|]. rewrite ann_fold.
  rewrite (fold2 "Key" "Value" d_key d_val ltac:(done) kvs jk jv ""%string None k v M1 M2); [by destruct H1|by apply dec_bytes_are|]. done.
Qed.

Lemma dec_anns_is o l : list_is ann_is o l -> upd d_anns [] o l.
Proof. intros [| |js xs H]; [done|done|]. rewrite /upd /d_anns /dec_anns. apply mapM_Some. apply (Forall2_impl _ _ _ _ H). intros. by apply dec_ann_is. Qed.
Lemma dec_trace_is t : forall j, trace_is j t -> dec_trace j = Some (graft t).
Proof.
  induction t as [id anns subs IH] using tree_ind'. intros j H. inversion H as [kvs ji ja js ? ? ? M1 M2 M3 H1 H2 H3]; subst. rewrite trace_fold.
  rewrite (fold3 "ID" "Annotations" "Sub" dec_spanid d_anns d_sub ltac:(done) ltac:(done) ltac:(done) kvs ji ja js (MkSpanID 0 0 0) [] [] id anns (map graft subs) M1 M2 M3);
    [by apply dec_spanid_is|by apply dec_anns_is| |done].
  inversion H3 as [| |l xs Hl]; subst; [done|done|]. rewrite /upd /d_sub. apply mapM_Some. clear -IH Hl. revert IH. induction Hl as [|j t l ts Hj _ IHl]; intros IH; [constructor|].
  inversion IH; subst. cbn [map]. constructor; [by apply H1|by apply IHl].
Qed.

(** * What is refused *)
Lemma number_digits s n : number s -> parse_uint (unbytes s) = Some n -> s = Base.bytes (fmt_uint n) /\ is_id n.
Proof.
  intros Hs Hp. assert (Forall digit s) as Hd.
  { unfold parse_uint in Hp. destruct (NilZero.uint_of_string (unbytes s)) as [u|] eqn:Hu; [|done]. apply NilZero.sus in Hu. rewrite -(bytes_unbytes s) -Hu. apply digits_spec, uint_digits. }
  destruct (parse_uint_canonical _ _ Hp) as [E Hid].
  - rewrite bytes_unbytes. destruct Hs as [sign int frac exp H1 H2 H3 H4]. assert (forall c, In c (sign ++ int ++ frac ++ exp) -> digit c) as Hc by (by apply List.Forall_forall).
    assert (sign = []) as ->. { destruct H1 as [-> | ->]; [done|]. destruct (Hc "-"%char ltac:(by left)) as [H _]. by vm_compute in H. }
    assert (frac = []) as ->. { destruct H3 as [->|(d & -> & _)]; [done|]. destruct (Hc "."%char ltac:(apply in_app_iff; right; apply in_app_iff; right; by left)) as [H _]. by vm_compute in H. }
    assert (exp = []) as ->. { destruct H4 as [->|(e & s & d & -> & He & _)]; [done|]. destruct (Hc e ltac:(apply in_app_iff; right; apply in_app_iff; right; by left)) as [_ H]. by destruct He as [<-|[<-|[]]]; vm_compute in H. }
    rewrite !app_nil_r. cbn [app]. destruct H2 as [->|(c & d & -> & _ & H & _)]; [done|]. destruct d; [done|]. by apply Ascii.eqb_neq.
  - split; [|done]. by rewrite -E bytes_unbytes.
Qed.
Lemma bad_id_none j : bad_id j -> dec_id j = None.
Proof.
  destruct j as [| |s|s| |]; try done; cbn [bad_id dec_id].
  - intros [Hs H]. destruct (parse_uint (unbytes s)) as [n|] eqn:E; [|done]. destruct (number_digits _ _ Hs E) as [-> Hn]. by destruct (H n Hn).
  - intros H. destruct (parse_id (unbytes s)) as [n|] eqn:E; [|done]. apply parse_id_spec in E as [E Hn]. by destruct (H n Hn).
Qed.
Lemma bad_spanid_none j cur : bad_spanid j -> dec_spanid cur j = None.
Proof.
  destruct j as [| |s|s| |kvs]; try done. intros (k & v & Hin & Hk & Hv). rewrite spanid_fold. erewrite (fold3_bad "Trace" "Span" "Parent" d_id d_id d_id ltac:(done) ltac:(done) ltac:(done) kvs k v Hin); [done|].
  assert (forall a, d_id a v = None) as H by (intros a; by apply bad_id_none). destruct Hk as [Hk|[Hk|Hk]]; apply names_spec in Hk; auto.
Qed.
Lemma bad_byte_none j : bad_byte j -> dec_byte j = None.
Proof.
  destruct j as [| |s|s| |]; try done; cbn [bad_byte dec_byte]. intros [Hs H]. destruct (parse_uint (unbytes s)) as [n|] eqn:E; [|done].
  destruct (number_digits _ _ Hs E) as [-> Hn]. destruct (N.ltb_spec n 256) as [Hlt|]; [|done]. destruct (H (ascii_of_N n)). by rewrite bn_ascii.
Qed.
Lemma mapM_none {A B} (f : A -> option B) l x : In x l -> f x = None -> mapM f l = None.
Proof.
  induction l as [|y l IH]; [done|]. intros [->|Hin] H; cbn [mapM]; [by rewrite H|]. destruct (f y); [|done]. cbn. by rewrite (IH Hin H).
Qed.
Lemma val_none alpha c n : ~ In c alpha -> b64_val_from n alpha c = None.
Proof. revert n. induction alpha as [|x alpha IH]; intros n H; [done|]. cbn [b64_val_from]. destruct (Ascii.eqb_spec x c) as [->|]; [by destruct H; left|]. apply IH. intros Hin. apply H. by right. Qed.
Lemma b64_bad alpha c l : In c l -> ~ In c alpha -> c <> "="%char -> b64_decode alpha true l = None.
Proof.
  intros Hin Hc He. assert (b64_val alpha c = None) as Hv by by apply val_none. remember (length l) as n eqn:En. revert l En Hin. induction (lt_wf n) as [n _ IH]. intros l -> Hin.
  destruct l as [|x [|y [|z [|w l]]]]; try done. cbn [b64_decode].
  destruct (b64_val alpha x) as [vx|] eqn:Ex; [|done]. destruct (b64_val alpha y) as [vy|] eqn:Ey; [|done]. cbn [mbind option_bind].
  destruct Hin as [->|[->|Hin]]; [congruence..|]. destruct (true && Ascii.eqb w "=" && bool_decide (l = [])) eqn:Ew.
  - apply andb_true_iff in Ew as [Ew El%bool_decide_eq_true]. cbn [andb] in Ew. apply Ascii.eqb_eq in Ew as ->. subst l.
    destruct Hin as [->|[Hz|[]]]; [|congruence]. destruct (Ascii.eqb_spec c "="); [done|]. by rewrite Hv.
  - destruct (b64_val alpha z) as [vz|] eqn:Ez; [|done]. destruct (b64_val alpha w) as [vw|] eqn:Evw; [|done]. cbn [mbind option_bind].
    destruct Hin as [->|[->|Hin]]; [congruence..|]. rewrite (IH (length l) ltac:(cbn; lia) l eq_refl Hin). done.
Qed.
Lemma bad_bytes_none j : bad_bytes j -> dec_bytes j = None.
Proof.
  destruct j as [| |s|s|l|]; try done; cbn [bad_bytes dec_bytes].
  - intros (c & Hin & Hc). erewrite (b64_bad alphabet_std c); [done|..].
    + apply filter_In. split; [done|]. destruct (Ascii.eqb_spec c "010") as [->|]; [by destruct Hc; right; left|]. destruct (Ascii.eqb_spec c "013") as [->|]; [by destruct Hc; right; right; left|]. done.
    + intros H. apply Hc. right. right. by right.
    + intros ->. apply Hc. by left.
  - intros H. apply List.Exists_exists in H as (x & Hx & Hb). by rewrite (mapM_none dec_byte l x Hx (bad_byte_none x Hb)).
Qed.
Lemma bad_ann_none j : bad_ann j -> dec_ann j = None.
Proof.
  destruct j as [| |s|s| |kvs]; try done. intros (k & v & Hin & Hk). rewrite ann_fold. erewrite (fold2_bad "Key" "Value" d_key d_val ltac:(done) kvs k v Hin); [done|].
  destruct Hk as [[Hk Hv]|[Hk Hv]]; apply names_spec in Hk; [left|right]; (split; [done|]).
  - intros a. by destruct v.
  - intros b. by apply bad_bytes_none.
Qed.
Lemma bad_trace_none j : bad_trace j -> dec_trace j = None.
Proof.
  induction 1 as [j H1 H2|kvs k v Hin Hk Hv|kvs k v Hin Hk Hv|kvs k v Hin Hk [Hv1 Hv2]|kvs k l x Hin Hk Hx _ IH].
  - destruct j as [| | | | |kvs]; try done. by destruct (H2 kvs).
  - apply names_spec in Hk. rewrite trace_fold. erewrite (fold3_bad "ID" "Annotations" "Sub" dec_spanid d_anns d_sub ltac:(done) ltac:(done) ltac:(done) kvs k v Hin); [done|].
    left. split; [done|]. intros a. by apply bad_spanid_none.
  - apply names_spec in Hk. rewrite trace_fold. erewrite (fold3_bad "ID" "Annotations" "Sub" dec_spanid d_anns d_sub ltac:(done) ltac:(done) ltac:(done) kvs k v Hin); [done|].
    right. left. split; [done|]. intros a. destruct v as [| | | |l|]; try done. destruct Hv as (x & Hx & Hb). rewrite /d_anns /dec_anns. by apply (mapM_none dec_ann l x Hx), bad_ann_none.
  - apply names_spec in Hk. rewrite trace_fold. erewrite (fold3_bad "ID" "Annotations" "Sub" dec_spanid d_anns d_sub ltac:(done) ltac:(done) ltac:(done) kvs k v Hin); [done|].
    right. right. split; [done|]. intros a. destruct v as [| | | |l|]; try done. by destruct (Hv2 l).
  - apply names_spec in Hk. rewrite trace_fold. erewrite (fold3_bad "ID" "Annotations" "Sub" dec_spanid d_anns d_sub ltac:(done) ltac:(done) ltac:(done) kvs k (JArr l) Hin); [done|].
    right. right. split; [done|]. intros a. rewrite /d_sub. by apply (mapM_none dec_trace l x Hx).
Qed.

(** * C127 *)
(** A JSON text, however written, that describes traces is accepted, and is the upload of these traces. *)
Theorem C127_accepted body j ts calls st : document false body j -> list_is trace_is (Some j) ts -> ms_run calls ms_init = Some st ->
  exists st', serve_upload body st = Some (st', UOk) /\ upload_traces ts st = Some st'.
Proof.
  intros Hd Ht Hrun. rewrite /serve_upload (document_complete _ _ Hd). destruct (C64_total ts calls st Hrun) as (st' & Hst').
  assert (dec_traces j = Some (map graft ts)) as ->.
  { inversion Ht as [| |l xs Hl]; subst; [done|]. cbn [dec_traces]. apply mapM_Some. clear -Hl. induction Hl; cbn [map]; constructor; [by apply dec_trace_is|done]. }
  rewrite upload_graft Hst'. by exists st'.
Qed.
Print Assumptions C127_accepted.
(** What is not JSON (even if invalid UTF-8 and half surrogates are taken for U+FFFD) is refused and stores nothing. *)
Theorem C127_not_json body st : (forall j, ~ document true body j) -> serve_upload body st = Some (st, UError).
Proof.
  intros H. rewrite /serve_upload. destruct (parse_all body) as [j|] eqn:E; [|done]. by destruct (H j (document_sound _ _ E)).
Qed.
Print Assumptions C127_not_json.
(** JSON that is not a list of traces is refused and stores nothing, wherever the fault is. *)
Theorem C127_wrong body j st : document false body j -> bad_list bad_trace j -> serve_upload body st = Some (st, UError).
Proof.
  intros Hd Hb. rewrite /serve_upload (document_complete _ _ Hd). assert (dec_traces j = None) as ->; [|done].
  destruct j as [| | | |l|]; try done. destruct Hb as (x & Hx & Hb). by apply (mapM_none dec_trace l x Hx), bad_trace_none.
Qed.
Print Assumptions C127_wrong.
(** A text stands for one value only: valid JSON is read as nothing else. *)
Theorem C127_one_value body j j' : document false body j -> document false body j' -> j = j'.
Proof. intros H1%document_complete H2%document_complete. congruence. Qed.
Print Assumptions C127_one_value.
Definition doc_text : string := " [{""Id"":{""trace"": ""0A""},""Annotations"":[{""Key"":""\u00E9"",""Value"":[255]}]}]".
Definition doc_ann : json := JObj [(Base.bytes "Key", JStr (map ascii_of_N [195; 169])); (Base.bytes "Value", JArr [JNum (Base.bytes "255")])].
Definition doc_trace : json := JObj [(Base.bytes "Id", JObj [(Base.bytes "trace", JStr (Base.bytes "0A"))]); (Base.bytes "Annotations", JArr [doc_ann])].
Lemma plain_chars s : forallb (fun c => (32 <=? bn c)%N && (bn c <? 128)%N && negb (Ascii.eqb c quote) && negb (Ascii.eqb c "\")) (Base.bytes s) = true -> string_chars false (Base.bytes s) (Base.bytes s).
Proof.
  induction (Base.bytes s) as [|c l IH]; intros H; [constructor|]. cbn [forallb] in H. apply andb_true_iff in H as [H Hl].
  apply andb_true_iff in H as [[[H1%N.leb_le H2%N.ltb_lt]%andb_true_iff H3]%andb_true_iff H4].
  apply (SCs_cons false [c] [c] l l); [|by apply IH]. apply (SC_plain _ (bn c)); [by constructor|done|..]; intros E.
  - assert (c = quote) as -> by (rewrite -(ascii_N_embedding c) E; done). done.
  - assert (c = "\"%char) as -> by (rewrite -(ascii_N_embedding c) E; done). done.
Qed.
Lemma doc_text_document : document false (Base.bytes doc_text) (JArr [doc_trace]).
Proof.
  exists [" "%char], (Base.bytes "[{""Id"":{""trace"": ""0A""},""Annotations"":[{""Key"":""\u00E9"",""Value"":[255]}]}]"), []. split; [reflexivity|].
  split; [constructor; [by left|constructor]|]. split; [|constructor].
  apply (V_arr false (Base.bytes "{""Id"":{""trace"": ""0A""},""Annotations"":[{""Key"":""\u00E9"",""Value"":[255]}]}")).
  apply (E_one false [] (Base.bytes "{""Id"":{""trace"": ""0A""},""Annotations"":[{""Key"":""\u00E9"",""Value"":[255]}]}") []); [constructor| |constructor].
  apply (V_obj false (Base.bytes """Id"":{""trace"": ""0A""},""Annotations"":[{""Key"":""\u00E9"",""Value"":[255]}]")).
  apply (M_more false [] (Base.bytes "Id") (Base.bytes "Id") [] [] (Base.bytes "{""trace"": ""0A""}") [] _ (Base.bytes """Annotations"":[{""Key"":""\u00E9"",""Value"":[255]}]")); try (by constructor); [by apply plain_chars|..].
  - apply (V_obj false (Base.bytes """trace"": ""0A""")). apply (M_one false [] (Base.bytes "trace") (Base.bytes "trace") [] [" "%char] (Base.bytes """0A""") []); try (by constructor); [by apply plain_chars| |].
    + constructor; [by left|constructor].
    + apply (V_str false (Base.bytes "0A") (Base.bytes "0A")). by apply plain_chars.
  - apply (M_one false [] (Base.bytes "Annotations") (Base.bytes "Annotations") [] [] (Base.bytes "[{""Key"":""\u00E9"",""Value"":[255]}]") []); try (by constructor); [by apply plain_chars|].
    apply (V_arr false (Base.bytes "{""Key"":""\u00E9"",""Value"":[255]}")). apply (E_one false [] (Base.bytes "{""Key"":""\u00E9"",""Value"":[255]}") []); [constructor| |constructor].
    apply (V_obj false (Base.bytes """Key"":""\u00E9"",""Value"":[255]")).
    apply (M_more false [] (Base.bytes "Key") (Base.bytes "Key") [] [] (Base.bytes """\u00E9""") [] _ (Base.bytes """Value"":[255]")); try (by constructor); [by apply plain_chars|..].
    + apply (V_str false (Base.bytes "\u00E9") (map ascii_of_N [195; 169])). apply (SCs_cons false (Base.bytes "\u00E9") (map ascii_of_N [195; 169]) [] []); [|constructor].
      apply (SC_code false (Base.bytes "00E9") 233); [apply hex4_of; by exists "0"%char, "0"%char, "E"%char, "9"%char|]. by apply Utf8_2; vm_compute.
    + apply (M_one false [] (Base.bytes "Value") (Base.bytes "Value") [] [] (Base.bytes "[255]") []); try (by constructor); [by apply plain_chars|].
      apply (V_arr false (Base.bytes "255")). apply (E_one false [] (Base.bytes "255") []); [constructor| |constructor]. apply V_num.
      apply (Number [] (Base.bytes "255") [] []); auto. right. exists "2"%char, (Base.bytes "55"). split; [done|]. split; [by vm_compute|]. split; [done|]. repeat constructor; by vm_compute.
Qed.
Ltac not_name := let H := fresh in intros H; apply names_spec in H; vm_compute in H; discriminate.
Ltac missing := apply MO_missing; let H := fresh in intros ? H; cbn in H; repeat (destruct H as [<-|H]; [not_name|]); destruct H.
Example C127_nonvacuous : document false (Base.bytes doc_text) (JArr [doc_trace]) /\
  list_is trace_is (Some (JArr [doc_trace])) [Tree (MkSpanID 10 0 0) [Ann (unbytes (map ascii_of_N [195; 169])) (Some (String "255" ""))] []] /\
  bad_trace (JObj [(Base.bytes "annotations", JArr [JObj [(Base.bytes "Value", JArr [JNum (Base.bytes "256")])]])]).
Proof.
  split; [exact doc_text_document|]. split.
  - apply LI_arr. constructor; [|constructor]. apply (TI_obj _ (Some (JObj [(Base.bytes "trace", JStr (Base.bytes "0A"))])) (Some (JArr [doc_ann])) None).
    + apply (MO_found _ _ [] (Base.bytes "Id") _ [(Base.bytes "Annotations", JArr [doc_ann])]); [done|by apply names_spec|]. intros kv [<-|[]]. not_name.
    + apply (MO_found _ _ [(Base.bytes "Id", JObj [(Base.bytes "trace", JStr (Base.bytes "0A"))])] (Base.bytes "Annotations") _ []); [done|by apply names_spec|]. intros kv [<-|[]]. not_name.
    + missing.
    + apply (SI_obj _ (Some (JStr (Base.bytes "0A"))) None None); [|missing|missing| |constructor|constructor].
      * apply (MO_found _ _ [] (Base.bytes "trace") _ []); [done|by apply names_spec|done].
      * apply II_hex; [|done]. by apply parse_id_spec.
    + apply LI_arr. constructor; [|constructor]. apply (AI_obj _ (Some (JStr (map ascii_of_N [195; 169]))) (Some (JArr [JNum (Base.bytes "255")]))).
      * apply (MO_found _ _ [] (Base.bytes "Key") _ [(Base.bytes "Value", JArr [JNum (Base.bytes "255")])]); [done|by apply names_spec|]. intros kv [<-|[]]. not_name.
      * apply (MO_found _ _ [(Base.bytes "Key", JStr (map ascii_of_N [195; 169]))] (Base.bytes "Value") _ []); [done|by apply names_spec|]. intros kv [<-|[]]. not_name.
      * constructor.
      * apply BA_arr. constructor; [|constructor]. apply (BI_num "255").
    + constructor.
  - apply (BT_anns _ (Base.bytes "annotations") (JArr [JObj [(Base.bytes "Value", JArr [JNum (Base.bytes "256")])]])); [by left|by apply names_spec|].
    eexists. split; [by left|]. exists (Base.bytes "Value"), (JArr [JNum (Base.bytes "256")]). split; [by left|]. right. split; [by apply names_spec|]. constructor. split.
    + apply (Number [] (Base.bytes "256") [] []); auto. right. exists "2"%char, (Base.bytes "56"). split; [done|]. split; [by vm_compute|]. split; [done|]. repeat constructor; by vm_compute.
    + intros c E. apply (f_equal (fun l => parse_uint (unbytes l))) in E. rewrite !unbytes_bytes (parse_fmt_uint (bn c)) in E; [pose proof (bn_bound c); rewrite /two64; lia|].
      vm_compute (parse_uint _) in E. injection E as E. pose proof (bn_bound c). lia.
Qed.
