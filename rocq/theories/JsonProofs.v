(** Proofs about the JSON model: what was printed is read back. *)
From Verif Require Import Base IdModel IdJsonModel JsonModel.
From Coq Require Import ssreflect.
Local Open Scope general_if_scope.
Local Open Scope N_scope.

(** * UTF-8 *)
Ltac div_lia := zify; Z.div_mod_to_equations; lia.
Lemma bn_bound c : bn c < 256. Proof. apply N_ascii_bounded. Qed.
Lemma bn_ascii n : n < 256 -> bn (ascii_of_N n) = n. Proof. apply N_ascii_embedding. Qed.
Lemma ascii_bn c n : n = bn c -> ascii_of_N n = c. Proof. intros ->. apply ascii_N_embedding. Qed.

Lemma decode_some l x bs rest : decode_rune l = Some (x, bs, rest) -> l = bs ++ rest /\ encode_rune x = bs /\ bs <> [] /\
  (forall rest', decode_rune (bs ++ rest') = Some (x, bs, rest')).
Proof.
  destruct l as [|a r]; [done|]. cbn [decode_rune]. pose proof (bn_bound a).
  destruct (N.ltb_spec (bn a) 128) as [Ha|Ha].
  { intros [= <- <- <-]. split_and!; [done| |done|].
    - rewrite /encode_rune. destruct (N.ltb_spec (bn a) 128); [|lia]. by rewrite (ascii_bn a).
    - intros rest'. cbn [app decode_rune]. destruct (N.ltb_spec (bn a) 128); [done|lia]. }
  destruct ((194 <=? bn a) && (bn a <=? 223)) eqn:E2.
  { destruct r as [|b r]; [done|]. destruct (within 128 191 b) eqn:Eb; [|done]. intros [= <- <- <-]. split_and!; [done| |done|].
    - rewrite /within in Eb. apply andb_true_iff in E2 as [?%N.leb_le ?%N.leb_le], Eb as [?%N.leb_le ?%N.leb_le].
      rewrite /encode_rune. destruct (N.ltb_spec ((bn a - 192) * 64 + (bn b - 128)) 128); [lia|].
      destruct (N.ltb_spec ((bn a - 192) * 64 + (bn b - 128)) 2048); [|lia].
      repeat f_equal; apply ascii_bn; div_lia.
    - intros rest'. cbn [app decode_rune]. destruct (N.ltb_spec (bn a) 128); [lia|]. by rewrite E2 Eb. }
  destruct ((224 <=? bn a) && (bn a <=? 239)) eqn:E3.
  { destruct r as [|b [|c r]]; [done..|]. destruct (within _ _ b && within 128 191 c) eqn:Eb; [|done]. intros [= <- <- <-]. split_and!; [done| |done|].
    - rewrite /within in Eb. apply andb_true_iff in E3 as [?%N.leb_le ?%N.leb_le], Eb as [[?%N.leb_le ?%N.leb_le]%andb_true_iff [?%N.leb_le ?%N.leb_le]%andb_true_iff].
      rewrite /encode_rune. set (v := ((bn a - 224) * 64 + (bn b - 128)) * 64 + (bn c - 128)).
      assert (2048 <= v < 65536 /\ ~ (55296 <= v <= 57343)) as [Hv Hs].
      { subst v. destruct (N.eqb_spec (bn a) 224), (N.eqb_spec (bn a) 237); lia. }
      destruct (N.ltb_spec v 128); [lia|]. destruct (N.ltb_spec v 2048); [lia|].
      assert (surrogate v || (1114111 <? v) = false) as ->.
      { rewrite /surrogate. destruct (N.leb_spec 55296 v), (N.leb_spec v 57343), (N.ltb_spec 1114111 v); try done; lia. }
      destruct (N.ltb_spec v 65536); [|lia].
      destruct (N.eqb_spec (bn a) 224), (N.eqb_spec (bn a) 237); subst v; repeat f_equal; apply ascii_bn; div_lia.
    - intros rest'. cbn [app decode_rune]. destruct (N.ltb_spec (bn a) 128); [lia|]. by rewrite E2 E3 Eb. }
  destruct ((240 <=? bn a) && (bn a <=? 244)) eqn:E4; [|done].
  destruct r as [|b [|c [|d r]]]; [done..|]. destruct (within _ _ b && within 128 191 c && within 128 191 d) eqn:Eb; [|done]. intros [= <- <- <-]. split_and!; [done| |done|].
  - rewrite /within in Eb. apply andb_true_iff in E4 as [?%N.leb_le ?%N.leb_le], Eb as [[[?%N.leb_le ?%N.leb_le]%andb_true_iff [?%N.leb_le ?%N.leb_le]%andb_true_iff]%andb_true_iff [?%N.leb_le ?%N.leb_le]%andb_true_iff].
    rewrite /encode_rune. set (v := (((bn a - 240) * 64 + (bn b - 128)) * 64 + (bn c - 128)) * 64 + (bn d - 128)).
    assert (65536 <= v <= 1114111) as Hv.
    { subst v. destruct (N.eqb_spec (bn a) 240), (N.eqb_spec (bn a) 244); lia. }
    destruct (N.ltb_spec v 128); [lia|]. destruct (N.ltb_spec v 2048); [lia|].
    assert (surrogate v || (1114111 <? v) = false) as ->.
    { rewrite /surrogate. destruct (N.leb_spec 55296 v), (N.leb_spec v 57343), (N.ltb_spec 1114111 v); try done; lia. }
    destruct (N.ltb_spec v 65536); [lia|].
    destruct (N.eqb_spec (bn a) 240), (N.eqb_spec (bn a) 244); subst v; repeat f_equal; apply ascii_bn; div_lia.
  - intros rest'. cbn [app decode_rune]. destruct (N.ltb_spec (bn a) 128); [lia|]. by rewrite E2 E3 E4 Eb.
Qed.

(** Unicode scalar values *)
Definition scalar (x : N) : Prop := x <= 1114111 /\ ~ (55296 <= x <= 57343).
Lemma decode_encode x rest : scalar x -> decode_rune (encode_rune x ++ rest) = Some (x, encode_rune x, rest).
Proof.
  intros [H1 H2]. assert (surrogate x || (1114111 <? x) = false) as Es.
  { rewrite /surrogate. destruct (N.leb_spec 55296 x), (N.leb_spec x 57343), (N.ltb_spec 1114111 x); try done; lia. }
  rewrite /encode_rune. destruct (N.ltb_spec x 128) as [Ha|Ha].
  { cbn [app decode_rune]. rewrite !bn_ascii; [lia|]. destruct (N.ltb_spec x 128); [done|lia]. }
  destruct (N.ltb_spec x 2048) as [Hb|Hb].
  { cbn [app decode_rune]. rewrite /within. rewrite !bn_ascii; [div_lia..|].
    destruct (N.ltb_spec (192 + x / 64) 128); [lia|]. destruct (N.leb_spec 194 (192 + x / 64)); [|div_lia].
    destruct (N.leb_spec (192 + x / 64) 223); [|div_lia]. cbn [andb]. destruct (N.leb_spec 128 (128 + x mod 64)); [|lia].
    destruct (N.leb_spec (128 + x mod 64) 191); [|div_lia]. cbn [andb]. do 3 f_equal. div_lia. }
  rewrite Es. destruct (N.ltb_spec x 65536) as [Hc|Hc].
  { cbn [app decode_rune]. rewrite /within. rewrite !bn_ascii; [div_lia..|].
    destruct (N.ltb_spec (224 + x / 4096) 128); [lia|]. destruct (N.leb_spec 194 (224 + x / 4096)); [|lia].
    destruct (N.leb_spec (224 + x / 4096) 223); [div_lia|]. cbn [andb]. destruct (N.leb_spec 224 (224 + x / 4096)); [|lia].
    destruct (N.leb_spec (224 + x / 4096) 239); [|div_lia]. cbn [andb].
    replace (_ <=? 128 + x / 64 mod 64) with true.
    2: { symmetry. apply N.leb_le. destruct (N.eqb_spec (224 + x / 4096) 224); div_lia. }
    replace (128 + x / 64 mod 64 <=? _) with true.
    2: { symmetry. apply N.leb_le. destruct (N.eqb_spec (224 + x / 4096) 237); div_lia. }
    destruct (N.leb_spec 128 (128 + x mod 64)); [|lia]. destruct (N.leb_spec (128 + x mod 64) 191); [|div_lia]. cbn [andb]. do 3 f_equal. div_lia. }
  cbn [app decode_rune]. rewrite /within. rewrite !bn_ascii; [div_lia..|].
  destruct (N.ltb_spec (240 + x / 262144) 128); [lia|]. destruct (N.leb_spec 194 (240 + x / 262144)); [|lia].
  destruct (N.leb_spec (240 + x / 262144) 223); [div_lia|]. cbn [andb]. destruct (N.leb_spec 224 (240 + x / 262144)); [|lia].
  destruct (N.leb_spec (240 + x / 262144) 239); [div_lia|]. cbn [andb]. destruct (N.leb_spec 240 (240 + x / 262144)); [|lia].
  destruct (N.leb_spec (240 + x / 262144) 244); [|div_lia]. cbn [andb].
  replace (_ <=? 128 + x / 4096 mod 64) with true.
  2: { symmetry. apply N.leb_le. destruct (N.eqb_spec (240 + x / 262144) 240); div_lia. }
  replace (128 + x / 4096 mod 64 <=? _) with true.
  2: { symmetry. apply N.leb_le. destruct (N.eqb_spec (240 + x / 262144) 244); div_lia. }
  destruct (N.leb_spec 128 (128 + x / 64 mod 64)); [|lia]. destruct (N.leb_spec (128 + x / 64 mod 64) 191); [|div_lia].
  destruct (N.leb_spec 128 (128 + x mod 64)); [|lia]. destruct (N.leb_spec (128 + x mod 64) 191); [|div_lia]. cbn [andb]. do 3 f_equal. div_lia.
Qed.

(** * Strings *)
Definition good_piece (p : piece) : Prop :=
  match p with
  | inl (x, bs) => encode_rune x = bs /\ bs <> [] /\ forall rest, decode_rune (bs ++ rest) = Some (x, bs, rest)
  | inr _ => True
  end.
Lemma pieces_good l : Forall good_piece (pieces l).
Proof.
  rewrite /pieces. generalize (length l). intros n. revert l. induction n as [|n IH]; intros l; [constructor|]. cbn [pieces_fuel].
  destruct l as [|a r]; [constructor|]. destruct (decode_rune (a :: r)) as [[[x bs] rest]|] eqn:E; constructor; try apply IH; [|done].
  destruct (decode_some _ _ _ _ E) as (_ & H1 & H2 & H3). done.
Qed.
Definition san_piece (p : piece) : text := match p with inl (_, bs) => bs | inr _ => replacement end.
(** A string with each invalid byte replaced. *)
Definition sanitize (s : text) : text := concat (map san_piece (pieces s)).

Definition before (bs : text) (o : option (text * text)) : option (text * text) :=
  match o with Some (s, rest) => Some (bs ++ s, rest) | None => None end.
Lemma step_ascii bf c n tail : bn c < 128 -> unquote_fuel (S n) (esc_ascii bf (bn c) ++ tail) = before [c] (unquote_fuel n tail).
Proof.
  intros H. destruct bf, c as [[] [] [] [] [] [] [] []]; try reflexivity; exfalso; vm_compute in H; discriminate.
Qed.
Lemma step_piece bf p n tail : good_piece p -> unquote_fuel (S n) (esc_piece bf p ++ tail) = before (san_piece p) (unquote_fuel n tail).
Proof.
  destruct p as [[x bs]|a]; [|reflexivity]. intros (H1 & H2 & H3). cbn [esc_piece san_piece].
  destruct (N.ltb_spec x 128) as [Hx|Hx].
  { assert (bs = [ascii_of_N x]) as ->. { rewrite -H1 /encode_rune. destruct (N.ltb_spec x 128); [done|lia]. }
    rewrite -(bn_ascii x); [lia|]. rewrite step_ascii; [rewrite bn_ascii; lia|]. by rewrite bn_ascii; [lia|]. }
  destruct (N.eqb_spec x 8232) as [->|Hx1]. { rewrite -H1. reflexivity. }
  destruct (N.eqb_spec x 8233) as [->|Hx2]. { rewrite -H1. reflexivity. }
  cbn [orb]. destruct bs as [|a bs]; [done|].
  assert (128 <= bn a) as Ha.
  { specialize (H3 []). cbn [app decode_rune] in H3. destruct (N.ltb_spec (bn a) 128); [|done]. injection H3 as <- _ _. lia. }
  cbn [app unquote_fuel].
  assert (Ascii.eqb a quote = false) as ->. { apply Ascii.eqb_neq. intros ->. vm_compute in Ha. by apply Ha. }
  assert (Ascii.eqb a "\" = false) as ->. { apply Ascii.eqb_neq. intros ->. vm_compute in Ha. by apply Ha. }
  destruct (N.ltb_spec (bn a) 32); [lia|]. change (a :: bs ++ tail) with ((a :: bs) ++ tail). rewrite H3 H1. reflexivity.
Qed.
Lemma step_all bf ps tail : Forall good_piece ps -> forall n, (length ps < n)%nat ->
  unquote_fuel n (concat (map (esc_piece bf) ps) ++ quote :: tail) = Some (concat (map san_piece ps), tail).
Proof.
  induction 1 as [|p ps Hp _ IH]; intros n Hn; (destruct n as [|n]; [lia|]).
  - reflexivity.
  - cbn [map concat]. rewrite -app_assoc (step_piece bf p n _ Hp) IH; [cbn [length] in Hn; lia|]. done.
Qed.
Lemma esc_nonempty bf p : good_piece p -> (1 <= length (esc_piece bf p))%nat.
Proof.
  destruct p as [[x bs]|a]; cbn [esc_piece good_piece]; [|cbn; lia]. intros (_ & H2 & _). destruct (x <? 128).
  { rewrite /esc_ascii /esc_u. repeat (case_match; try (cbn [length]; lia)). }
  destruct (_ || _); [cbn; lia|]. destruct bs; [done|cbn [length]; lia].
Qed.
Lemma enc_length bf ps : Forall good_piece ps -> (length ps <= length (concat (map (esc_piece bf) ps)))%nat.
Proof. induction 1 as [|p ps Hp _ IH]; [done|]. cbn [map concat length]. rewrite app_length. pose proof (esc_nonempty bf p Hp). lia. Qed.
Lemma unquote_enc bf s tail : exists r, enc_string bf s ++ tail = quote :: r /\ unquote r = Some (sanitize s, tail).
Proof.
  exists (concat (map (esc_piece bf) (pieces s)) ++ quote :: tail). split; [rewrite /enc_string; cbn [app]; by rewrite -app_assoc|].
  rewrite /unquote step_all; [apply pieces_good| |done]. rewrite app_length. pose proof (enc_length bf (pieces s) (pieces_good s)). cbn [length]. lia.
Qed.

(** UTF-8 strings *)
Definition utf8 (s : text) : Prop := exists xs, Forall scalar xs /\ s = concat (map encode_rune xs).
Lemma encode_nonempty x : scalar x -> encode_rune x <> [].
Proof. intros _. rewrite /encode_rune /replacement. repeat case_match; done. Qed.
Lemma pieces_utf8 xs : Forall scalar xs -> forall n, (length (concat (map encode_rune xs)) <= n)%nat ->
  pieces_fuel n (concat (map encode_rune xs)) = map (fun x => inl (x, encode_rune x)) xs.
Proof.
  induction 1 as [|x xs Hx _ IH]; intros n Hn; [by destruct n|]. cbn [map concat] in *. rewrite app_length in Hn.
  pose proof (encode_nonempty x Hx) as Hne. destruct (encode_rune x) as [|a r] eqn:E; [done|]. destruct n as [|n]; [cbn [length] in Hn; lia|].
  cbn [app pieces_fuel]. change (a :: r ++ ?t) with ((a :: r) ++ t). rewrite -E decode_encode; [done|]. f_equal. apply IH. cbn [length] in Hn. lia.
Qed.
Lemma sanitize_utf8 s : utf8 s -> sanitize s = s.
Proof.
  intros (xs & Hxs & ->). rewrite /sanitize /pieces (pieces_utf8 xs Hxs _ (le_n _)) map_map. done.
Qed.
Lemma ascii_utf8 s : Forall (fun c => bn c < 128) s -> utf8 s.
Proof.
  intros H. exists (map bn s). split.
  - apply Forall_fmap. apply (Forall_impl _ _ _ H). intros c Hc. cbn. split; lia.
  - rewrite map_map. induction H as [|c s Hc _ IH]; [done|]. cbn [map concat]. rewrite -IH. rewrite /encode_rune.
    destruct (N.ltb_spec (bn c) 128); [|lia]. by rewrite (ascii_bn c).
Qed.

(** * Values *)
Local Open Scope char_scope.
Section json_induction.
  Context (P : json -> Prop) (Hnull : P JNull) (Hbool : forall b, P (JBool b)) (Hnum : forall s, P (JNum s)) (Hstr : forall s, P (JStr s))
    (Harr : forall l, Forall P l -> P (JArr l)) (Hobj : forall kvs, Forall (fun kv => P (snd kv)) kvs -> P (JObj kvs)).
  Fixpoint json_ind' (j : json) : P j :=
    match j with
    | JNull => Hnull | JBool b => Hbool b | JNum s => Hnum s | JStr s => Hstr s
    | JArr l => Harr l ((fix go l : Forall P l := match l with [] => List.Forall_nil _ | x :: l => List.Forall_cons _ _ _ (json_ind' x) (go l) end) l)
    | JObj kvs => Hobj kvs ((fix go l : Forall (fun kv => P (snd kv)) l :=
                               match l with [] => List.Forall_nil _ | kv :: l => List.Forall_cons _ kv _ (json_ind' (snd kv)) (go l) end) kvs)
    end.
End json_induction.
(** no number in it *)
Fixpoint plain (j : json) : bool :=
  match j with
  | JNum _ => false
  | JArr l => forallb plain l
  | JObj kvs => forallb (fun kv => plain (snd kv)) kvs
  | _ => true
  end.
Fixpoint san (j : json) : json :=
  match j with
  | JStr s => JStr (sanitize s)
  | JArr l => JArr (map san l)
  | JObj kvs => JObj (map (fun kv => (sanitize (fst kv), san (snd kv))) kvs)
  | _ => j
  end.
Fixpoint cost (j : json) : nat :=
  match j with
  | JArr l => S (list_sum (map (fun x => S (cost x)) l))
  | JObj kvs => S (list_sum (map (fun kv => S (cost (snd kv))) kvs))
  | _ => 1
  end.

Definition blank (w : text) : Prop := Forall (fun c => json_ws c = true) w.
Lemma skip_blank w l : blank w -> skip_ws (w ++ l) = skip_ws l.
Proof. induction 1 as [|c w Hc _ IH]; [done|]. cbn [app skip_ws]. by rewrite Hc. Qed.
Lemma skip_black c l : json_ws c = false -> skip_ws (c :: l) = c :: l.
Proof. intros H. cbn [skip_ws]. by rewrite H. Qed.

Lemma join_cons {A} (f : A -> text) sep x l : join_with f sep (x :: l) = f x ++ match l with [] => [] | _ => sep ++ join_with f sep l end.
Proof. done. Qed.
Local Opaque join_with.
Section round_trip.
  Context (bf : bool) (nl : nat -> text) (sp : text) (Hnl : forall d, blank (nl d)) (Hsp : blank sp).
  Notation print := (print_json bf nl sp).
  Definition member d (kv : text * json) : text := enc_string bf (fst kv) ++ ":" :: sp ++ print (S d) (snd kv).
  Lemma print_head d j : plain j = true -> exists c r, print d j = c :: r /\ json_ws c = false /\ c <> "]"%char /\ c <> "}"%char.
  Proof.
    destruct j as [| [] |s|s|[|x l]|[|kv l]]; intros H; try discriminate; cbn [print_json Base.bytes]; eexists _, _; (split; [reflexivity|]); done.
  Qed.

  Definition reads_back (j : json) : Prop := forall d n w rest, blank w -> (cost j <= n)%nat -> parse_json n (w ++ print d j ++ rest) = Some (san j, rest).

  Lemma reads_elems d l : Forall reads_back l -> l <> [] -> forallb plain l = true -> forall n w w' rest, blank w -> blank w' ->
    (list_sum (map (fun x => S (cost x)) l) <= n)%nat ->
    parse_elems n (w ++ join_with (print (S d)) ("," :: nl (S d)) l ++ w' ++ "]" :: rest) = Some (map san l, rest).
  Proof.
    induction 1 as [|x l Hx _ IH]; intros Hne Hp n w w' rest Hw Hw' Hn; [done|]. cbn [map list_sum foldr forallb] in *. apply andb_prop in Hp as [Hpx Hp].
    destruct n as [|n]; [lia|]. cbn [parse_elems]. rewrite join_cons. rewrite -!app_assoc. rewrite Hx; [done|lia|].
    destruct l as [|y l].
    - cbn [app]. rewrite (skip_blank w' _ Hw'). rewrite skip_black; [done|]. done.
    - cbn [app]. rewrite skip_black; [done|]. cbn [Ascii.eqb Bool.eqb]. rewrite -(app_assoc (nl (S d))). rewrite (IH ltac:(done) Hp n (nl (S d)) w' rest (Hnl _) Hw'); [rewrite /list_sum; lia|]. done.
  Qed.
  Lemma reads_members d l : Forall (fun kv => reads_back (snd kv)) l -> l <> [] -> forallb (fun kv => plain (snd kv)) l = true -> forall n w w' rest, blank w -> blank w' ->
    (list_sum (map (fun kv => S (cost (snd kv))) l) <= n)%nat ->
    parse_members n (w ++ join_with (member d) ("," :: nl (S d)) l ++ w' ++ "}" :: rest)
      = Some (map (fun kv => (sanitize (fst kv), san (snd kv))) l, rest).
  Proof.
    induction 1 as [|[k x] l Hx _ IH]; intros Hne Hp n w w' rest Hw Hw' Hn; [done|]. cbn [map list_sum foldr forallb fst snd] in *. apply andb_prop in Hp as [Hpx Hp].
    destruct n as [|n]; [lia|]. cbn [parse_members]. rewrite join_cons. rewrite (skip_blank w _ Hw). rewrite -?app_assoc. unfold member at 1. cbn [fst snd]. rewrite -?app_assoc.
    match goal with |- context [enc_string bf k ++ ?t] => destruct (unquote_enc bf k t) as (r & -> & Hr) end.
    rewrite skip_black; [done|]. rewrite Ascii.eqb_refl Hr. cbn [app]. rewrite skip_black; [done|]. cbn [Ascii.eqb Bool.eqb].
    rewrite -?app_assoc. rewrite Hx; [done|lia|].
    destruct l as [|y l].
    - cbn [app]. rewrite (skip_blank w' _ Hw'). rewrite skip_black; [done|]. done.
    - cbn [app]. rewrite skip_black; [done|]. cbn [Ascii.eqb Bool.eqb]. rewrite -(app_assoc (nl (S d))). rewrite (IH ltac:(done) Hp n (nl (S d)) w' rest (Hnl _) Hw'); [rewrite /list_sum; lia|]. done.
  Qed.
  Lemma reads_all j : plain j = true -> reads_back j.
  Proof.
    induction j as [| b |s|s|l IH|kvs IH] using json_ind'; intros Hp d n w rest Hw Hn; try discriminate; (destruct n as [|n]; [cbn [cost] in Hn; lia|]); cbn [parse_json];
      rewrite (skip_blank w _ Hw).
    - reflexivity.
    - by destruct b.
    - cbn [print_json]. destruct (unquote_enc bf s rest) as (r & -> & Hr). rewrite skip_black; [done|]. by rewrite Ascii.eqb_refl Hr.
    - destruct l as [|x l]; [reflexivity|]. cbn [plain] in Hp.
      assert (Forall reads_back (x :: l)) as IH'. { clear Hn. rewrite forallb_forall in Hp. apply List.Forall_forall. rewrite List.Forall_forall in IH. intros y Hy. by apply IH, Hp. }
      cbn [print_json app]. rewrite skip_black; [done|].
      rewrite -?app_assoc. rewrite (skip_blank (nl (S d)) _ (Hnl _)).
      pose proof (reads_elems d (x :: l) IH' ltac:(done) Hp n (nl (S d)) (nl d) rest (Hnl _) (Hnl _)) as He.
      destruct (print_head (S d) x) as (c & r & E & Hc & Hc1 & Hc2). { cbn [forallb] in Hp. by apply andb_prop in Hp as [? ?]. }
      rewrite !join_cons in He |- *. rewrite -?app_assoc in He |- *. rewrite E in He |- *. cbn [app] in *. rewrite skip_black; [done|].
      rewrite (proj2 (Ascii.eqb_neq c "]") Hc1). cbn [Ascii.eqb Bool.eqb quote]. rewrite He; [cbn [cost] in Hn; lia|]. done.
    - destruct kvs as [|[k x] l]; [reflexivity|]. cbn [plain] in Hp.
      assert (Forall (fun kv => reads_back (snd kv)) ((k, x) :: l)) as IH'. { clear Hn. rewrite forallb_forall in Hp. apply List.Forall_forall. rewrite List.Forall_forall in IH. intros y Hy. by apply IH, Hp. }
      cbn [print_json app]. rewrite skip_black; [done|].
      rewrite -?app_assoc. rewrite (skip_blank (nl (S d)) _ (Hnl _)).
      pose proof (reads_members d ((k, x) :: l) IH' ltac:(done) Hp n (nl (S d)) (nl d) rest (Hnl _) (Hnl _)) as He.
      unfold member in He. rewrite !join_cons in He |- *. cbn [fst snd] in *. rewrite -?app_assoc in He |- *.
      match goal with |- context [enc_string bf k ++ ?t] => destruct (unquote_enc bf k t) as (r & E & Hr) end.
      cbn [app] in He, E |- *. rewrite E in He |- *. rewrite skip_black; [done|]. cbn [Ascii.eqb Bool.eqb quote]. rewrite He; [cbn [cost] in Hn; lia|]. done.
  Qed.

  Lemma enc_length2 s : (2 <= length (enc_string bf s))%nat.
  Proof. rewrite /enc_string. cbn [length]. rewrite app_length. cbn [length]. lia. Qed.
  Lemma join_length {A} (f : A -> text) sep g l : (1 <= length sep)%nat -> (forall x, In x l -> (g x <= 2 * length (f x))%nat) ->
    l <> [] -> (list_sum (map (fun x => S (g x)) l) <= 2 * length (join_with f sep l) + 2)%nat.
  Proof.
    intros Hs Hg Hne. induction l as [|x l IH]; [done|]. cbn [map list_sum foldr]. rewrite join_cons. rewrite app_length. pose proof (Hg x (or_introl eq_refl)).
    destruct l as [|y l]; [cbn; lia|]. rewrite app_length. assert (forall x, In x (y :: l) -> (g x <= 2 * length (f x))%nat) as Hg'. { intros z Hz. apply Hg. by right. }
    specialize (IH Hg' ltac:(done)). rewrite /list_sum in IH. lia.
  Qed.
  Lemma cost_length j : plain j = true -> forall d, (cost j <= 2 * length (print d j))%nat.
  Proof.
    induction j as [| b |s|s|l IH|kvs IH] using json_ind'; intros Hp d; try discriminate.
    - cbn; lia.
    - destruct b; cbn; lia.
    - cbn [cost print_json]. pose proof (enc_length2 s). lia.
    - destruct l as [|x l]; [cbn; lia|]. cbn [cost print_json].
      pose proof (join_length (print (S d)) ("," :: nl (S d)) cost (x :: l)) as H. cbn [plain] in Hp. rewrite forallb_forall in Hp. rewrite List.Forall_forall in IH.
      specialize (H ltac:(cbn; lia)). specialize (H (fun y Hy => IH y Hy (Hp y Hy) (S d)) ltac:(done)). revert H. generalize (join_with (print (S d)) ("," :: nl (S d)) (x :: l)). intros J H. cbn [length]. rewrite !app_length. cbn [length]. lia.
    - destruct kvs as [|x l]; [cbn; lia|]. cbn [cost print_json].
      pose proof (join_length (member d) ("," :: nl (S d)) (fun kv => cost (snd kv)) (x :: l)) as H. cbn [plain] in Hp. rewrite forallb_forall in Hp. rewrite List.Forall_forall in IH.
      specialize (H ltac:(cbn; lia)). unfold member in H. assert (forall y, In y (x :: l) -> (cost (snd y) <= 2 * length (enc_string bf (fst y) ++ ":" :: sp ++ print (S d) (snd y)))%nat) as Hy.
      { intros y Hy. specialize (IH y Hy (Hp y Hy) (S d)). rewrite app_length. cbn [length]. rewrite app_length. lia. }
      specialize (H Hy ltac:(done)). revert H. match goal with |- context [join_with ?f ?g ?l] => generalize (join_with f g l) end. intros J H. cbn [length]. rewrite !app_length. cbn [length]. lia.
  Qed.
  Lemma parse_first_print j rest : plain j = true -> parse_first (print 0 j ++ rest) = Some (san j, rest).
  Proof.
    intros Hp. rewrite /parse_first. apply (reads_all j Hp 0%nat _ [] rest); [constructor|]. pose proof (cost_length j Hp 0%nat). rewrite app_length. lia.
  Qed.
  Lemma parse_all_print j rest : plain j = true -> blank rest -> parse_all (print 0 j ++ rest) = Some (san j).
  Proof.
    intros Hp Hr. rewrite /parse_all parse_first_print; [done|]. rewrite -(app_nil_r rest) (skip_blank rest [] Hr). done.
  Qed.
End round_trip.
