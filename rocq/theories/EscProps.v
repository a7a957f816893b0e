(** Property C133 (recorded texts on the pages). *)
From Verif Require Import Base IdModel ReflModel IdJsonModel IdJsonProofs EventModel JsonModel JsonProofs TraceModel MemModel MemSpec UploadModel TraceJsonModel TraceJsonProofs ProfModel VisModel VisSpec VisProps EscModel HtmlSpec.
From Coq Require Import ssreflect.
Local Open Scope general_if_scope.
Local Open Scope char_scope.

(** ** Line breaks *)

Lemma length_ind (P : text -> Prop) : (forall s, (forall r, (length r < length s)%nat -> P r) -> P s) -> forall s, P s.
Proof. intros H s. remember (length s) as n eqn:E. revert s E. induction n as [n IH] using lt_wf_ind. intros s ->. apply H. intros r Hr. by apply (IH (length r)). Qed.
Lemma normal_cons c s : c <> "013" -> normal (c :: s) = c :: normal s.
Proof. intros H. cbn [normal]. destruct (Ascii.eqb_spec c "013"); done. Qed.
Lemma normal_app a b : (forall r, b <> "010" :: r) -> normal (a ++ b) = normal a ++ normal b.
Proof.
  intros Hb. induction a as [a IH] using length_ind. destruct a as [|c a]; [done|]. cbn [app normal].
  destruct (Ascii.eqb_spec c "013") as [->|Hc]; [|rewrite IH //; cbn; lia].
  cbn [app]. f_equal. destruct a as [|d a]; cbn [app].
  - destruct b as [|d b]; [done|]. destruct (Ascii.eqb_spec d "010") as [->|]; [|done]. by destruct (Hb b).
  - destruct (Ascii.eqb_spec d "010") as [->|]; [rewrite IH //; cbn; lia|]. change (normal ((d :: a) ++ b) = normal (d :: a) ++ normal b). rewrite IH //.
Qed.
Lemma escape_app a b : html_escape (a ++ b) = html_escape a ++ html_escape b.
Proof. by rewrite /html_escape map_app concat_app. Qed.
Ltac which c := match goal with |- context [Ascii.eqb c ?d] => destruct (Ascii.eqb_spec c d) as [->|] end.
Lemma normal_plain a b : ~ In "013" a -> normal (a ++ b) = a ++ normal b.
Proof. induction a as [|c a IH]; [done|]. intros H. cbn [app]. rewrite normal_cons; [intros ->; apply H; by left|]. rewrite IH //. intros Hi. apply H. by right. Qed.
Lemma byte_plain c : c <> "013" -> ~ In "013" (html_byte c).
Proof. intros Hc. rewrite /html_byte. repeat (which c; [vm_compute; intuition discriminate|]). intros H. cbn in H. intuition congruence. Qed.
Lemma byte_head c : exists d r, html_byte c = d :: r /\ (d = "010" -> c = "010").
Proof. rewrite /html_byte. repeat (which c; [by eexists _, _|]). by eexists _, _. Qed.
Lemma escape_head s r : html_escape s = "010" :: r -> exists s', s = "010" :: s'.
Proof. destruct s as [|c s]; [done|]. rewrite /html_escape. cbn [map concat]. destruct (byte_head c) as (d & r' & -> & H). intros [= -> _]. rewrite (H eq_refl). by eexists. Qed.
Lemma normal_escape s : normal (html_escape s) = html_escape (normal s).
Proof.
  induction s as [s IH] using length_ind. destruct s as [|c s]; [done|]. destruct (Ascii.eqb_spec c "013") as [->|Hc].
  - destruct (decide (take 1 s = ["010"])) as [E|E].
    + destruct s as [|d s]; [done|]. cbn [take] in E. injection E as ->. change (html_escape ("013" :: "010" :: s)) with ("013" :: "010" :: html_escape s).
      cbn [normal Ascii.eqb]. change (normal ("013" :: "010" :: s)) with ("010" :: normal s). cbn. by rewrite IH; [cbn; lia|].
    + change (html_escape ("013" :: s)) with ("013" :: html_escape s).
      assert (forall u, (forall r, u <> "010" :: r) -> normal ("013" :: u) = "010" :: normal u) as H.
      { intros u Hu. cbn [normal]. destruct u as [|d u]; [done|]. destruct (Ascii.eqb_spec d "010") as [->|]; [by destruct (Hu u)|done]. }
      rewrite H; [intros r (s' & ->)%escape_head; done|]. rewrite H; [intros r ->; done|]. rewrite IH; [cbn; lia|done].
  - rewrite normal_cons //. change (c :: s) with ([c] ++ s). rewrite escape_app.
    change (html_escape [c]) with (html_byte c ++ []). rewrite app_nil_r normal_plain; [by apply byte_plain|]. rewrite IH; [cbn; lia|].
    change (c :: normal s) with ([c] ++ normal s). rewrite escape_app. change (html_escape [c]) with (html_byte c ++ []). by rewrite app_nil_r.
Qed.

(** ** References *)

Section refs.
  Context (names : list (text * text)) (char : N -> text).
  Hypothesis Ht : table names.
  Lemma alnum_char c : letter c \/ digit c -> c <> "#" /\ c <> ";".
  Proof. rewrite /letter /digit. intros H. split; intros ->; [change (N_of_ascii "#") with 35%N in H|change (N_of_ascii ";") with 59%N in H]; lia. Qed.
  Lemma name_reference p k x rest x' rest' : In (k ++ [";"], x) names -> refers names char p (k ++ ";" :: rest) x' rest' <-> x' = x /\ rest' = rest.
  Proof.
    intros Hin. assert (Forall (fun c => letter c \/ digit c) k /\ k <> []) as [Hk Hk0].
    { destruct (t_names _ Ht _ _ Hin) as (k' & [E|E] & Hne & Hf).
      - subst k'. apply Forall_app in Hf as [_ Hf]. apply Forall_cons in Hf as [Hf _]. destruct (alnum_char _ Hf) as [_ []]. done.
      - apply app_inj_tail in E as [-> _]. done. }
    assert (forall n y r, In (n, y) names -> k ++ ";" :: rest = n ++ r -> (length n <= S (length k))%nat) as Hmax.
    { intros n y r Hn E. destruct (decide (length n <= S (length k))%nat) as [|Hlen]; [done|exfalso].
      assert (exists u, n = (k ++ [";"]) ++ u /\ u <> []) as (u & -> & Hu).
      { exists (drop (S (length k)) n). split.
        - assert (take (S (length k)) n = k ++ [";"]) as <-; [|by rewrite take_drop].
          assert (take (S (length k)) (n ++ r) = take (S (length k)) n) as <- by (rewrite take_app_le //; lia). rewrite -E.
          rewrite (_ : k ++ ";" :: rest = (k ++ [";"]) ++ rest); [by rewrite -app_assoc|]. apply take_app_alt. rewrite app_length /=. lia.
        - intros Hd%(f_equal length). rewrite drop_length /= in Hd. lia. }
      destruct (t_names _ Ht _ _ Hn) as (k' & [E'|E'] & _ & Hf).
      - rewrite -E' in Hf. apply Forall_app in Hf as [Hf _]. apply Forall_app in Hf as [_ Hf]. apply Forall_cons in Hf as [Hf _]. destruct (alnum_char _ Hf) as [_ []]. done.
      - destruct u as [|c u] using rev_ind; [done|]. rewrite app_assoc in E'. apply app_inj_tail in E' as [<- _].
        apply Forall_app in Hf as [Hf _]. apply Forall_app in Hf as [_ Hf]. apply Forall_cons in Hf as [Hf _]. destruct (alnum_char _ Hf) as [_ []]. done. }
    split.
    - intros H. inversion H as [base ds r rest0 Hn Hds Hr|n y rest0 Hn E Hlong Hattr]; subst.
      + exfalso. assert (exists s, k ++ ";" :: rest = "#" :: s) as (s & E).
        { destruct Hn as [(_ & -> & _)|(_ & (z & _ & ->) & _)]; by eexists. }
        destruct k as [|c k]; [done|]. injection E as -> _. apply Forall_cons in Hk as [Hc _]. by destruct (alnum_char _ Hc) as [[] _].
      + assert (length n = S (length k)) as Hl.
        { apply Nat.le_antisymm; [by apply (Hmax n x' rest')|]. specialize (Hlong (k ++ [";"]) x rest Hin). rewrite app_length /= in Hlong. rewrite -app_assoc in Hlong. specialize (Hlong eq_refl). lia. }
        rewrite (_ : k ++ ";" :: rest = (k ++ [";"]) ++ rest) in E; [by rewrite -app_assoc|].
        apply app_inj_1 in E as [<- ->]; [|by rewrite app_length /=; lia]. split; [|done]. by apply (t_once _ Ht (k ++ [";"])).
    - intros [-> ->]. apply (R_name _ _ _ _ (k ++ [";"])); [done|by rewrite -app_assoc| |].
      + intros n y r Hn E. rewrite app_length /=. rewrite Nat.add_1_r. by apply (Hmax n y r).
      + intros _. left. by exists k.
  Qed.
  Lemma digits_split (P : ascii -> Prop) a c r b r' : Forall P a -> ~ P c -> Forall P b -> (forall d u, r' = d :: u -> ~ P d) -> a ++ c :: r = b ++ r' -> a = b /\ r' = c :: r.
  Proof.
    revert b. induction a as [|x a IH]=> b Ha Hc Hb Hr E; destruct b as [|y b]; cbn in E.
    - by subst r'.
    - injection E as -> _. by apply Forall_cons in Hb as [? _].
    - subst r'. apply Forall_cons in Ha as [Hx _]. by destruct (Hr x _ eq_refl).
    - injection E as -> E. apply Forall_cons in Ha as [_ Ha]. apply Forall_cons in Hb as [_ Hb]. by destruct (IH b Ha Hc Hb Hr E) as [-> ->].
  Qed.
  Lemma number_reference p ds rest x' rest' : ds <> [] -> Forall digit ds -> refers names char p ("#" :: ds ++ ";" :: rest) x' rest' <-> x' = char (numeral 10 ds) /\ rest' = rest.
  Proof.
    intros Hne Hds. assert (~ digit ";") as Hsemi by (rewrite /digit; change (N_of_ascii ";") with 59%N; lia). split.
    - intros H. inversion H as [base ds' r rest0 Hn Hds' Hr|n y rest0 Hn E Hlong Hattr]; subst.
      + destruct Hn as [(-> & E & Hd & Hend)|(_ & (z & Hz & E) & _)].
        * injection E as E. destruct (digits_split digit ds ";" rest ds' r) as [<- ->]; [done..|]. split; [done|]. destruct Hr as [[= ->]|[-> Hr]]; [done|]. by destruct (Hr rest).
        * exfalso. destruct ds as [|d ds]; [done|]. injection E as -> _. apply Forall_cons in Hds as [Hd _]. rewrite /digit in Hd. destruct Hz as [-> | ->]; [change (N_of_ascii "x") with 120%N in Hd|change (N_of_ascii "X") with 88%N in Hd]; lia.
      + exfalso. destruct (t_names _ Ht _ _ Hn) as (k & Hk & Hk0 & Hf). destruct k as [|c k]; [done|].
        assert (c = "#") as ->. { destruct Hk as [-> | ->]; by injection E. } apply Forall_cons in Hf as [Hf _]. by destruct (alnum_char _ Hf) as [[] _].
    - intros [-> ->]. apply (R_number _ _ _ _ 10%N ds (";" :: rest)); [|done|by left]. left. split; [done|]. split; [done|]. split; [done|]. by intros c r' [= <- <-].
  Qed.
  (** One character reference, one plain character. *)
  Lemma reads_reference p s x s' t rest : (forall x' r', refers names char p s x' r' <-> x' = x /\ r' = s') ->
    reads names char p ("&" :: s) t rest <-> exists t', t = x ++ t' /\ reads names char p s' t' rest.
  Proof.
    intros Hr. split.
    - intros H. inversion H as [u Hu|c u u' rest' Hc _ _ _|u y u' t' rest' Hf Hrd|u t' rest' Hn Hrd]; subst.
      + exfalso. destruct Hu as [?|Hu]; [done|]. destruct p; cbn in Hu; [destruct Hu as (? & ? & ? & _)|destruct Hu as (? & ?)|destruct Hu as (? & ? & ? & ? & _)]; done.
      + done.
      + apply Hr in Hf as [-> ->]. by exists t'.
      + exfalso. apply (Hn x s'). by apply Hr.
    - intros (t' & -> & H). apply (RT_reference _ _ _ _ _ s'); [by apply Hr|done].
  Qed.
  Lemma reads_char p c s t rest : c <> "&" -> c <> "000" -> c <> "<" -> c <> """" -> reads names char p (c :: s) t rest <-> exists t', t = c :: t' /\ reads names char p s t' rest.
  Proof.
    intros H1 H2 H3 H4. assert (~ stops p (c :: s)) as Hs.
    { destruct p; cbn; [intros (? & ? & [= ? _] & _)|intros (? & [= ? _])|intros (? & ? & ? & [= ? _] & _)]; done. }
    split.
    - intros H. inversion H as [u Hu|d u u' rest' _ _ _ Hrd|u y u' t' rest' Hf Hrd|u t' rest' Hn Hrd]; subst; [by destruct Hu|by eexists|done..].
    - intros (t' & -> & H). by apply RT_char.
  Qed.
  Lemma reads_stop p s t rest : stops p s -> reads names char p s t rest <-> t = [] /\ rest = s.
  Proof.
    intros Hs. split; [|intros [-> ->]; apply RT_end; by right].
    intros H. inversion H as [u Hu|d u u' rest' _ _ Hn Hrd|u y u' t' rest' Hf Hrd|u t' rest' Hn Hrd]; subst; [done|done|..];
      destruct p; cbn in Hs; [destruct Hs as (? & ? & ? & _)|destruct Hs as (? & ?)|destruct Hs as (? & ? & ? & ? & _)|destruct Hs as (? & ? & ? & _)|destruct Hs as (? & ?)|destruct Hs as (? & ? & ? & ? & _)]; done.
  Qed.
  Hypothesis Hchar : forall n, (32 <= n < 127)%N -> char n = [ascii_of_N n].
  Lemma reads_byte p c s t rest : reads names char p (html_byte c ++ s) t rest <-> exists t', t = without_nul [c] ++ t' /\ reads names char p s t' rest.
  Proof.
    rewrite /html_byte /without_nul. cbn [map concat]. rewrite app_nil_r. destruct (Ascii.eqb_spec c "000") as [->|H0].
    { cbn [map app]. rewrite reads_char //. split.
      - intros (t1 & -> & H). apply reads_char in H as (t2 & -> & H); [|done..]. apply reads_char in H as (t3 & -> & H); [|done..]. by exists t3.
      - intros (t' & -> & H). eexists. split; [reflexivity|]. apply reads_char; [done..|]. eexists. split; [reflexivity|]. apply reads_char; [done..|]. by eexists. }
    destruct (Ascii.eqb_spec c """") as [->|H1].
    { apply (reads_reference p (Base.bytes "#34;" ++ s)). intros x' r'. rewrite (number_reference p ["3"; "4"] s) //; [by repeat constructor|]. by rewrite (Hchar 34). }
    destruct (Ascii.eqb_spec c "&") as [->|H2].
    { apply (reads_reference p (Base.bytes "amp;" ++ s)). intros x' r'. apply (name_reference p (Base.bytes "amp")). apply (t_amp _ Ht). }
    destruct (Ascii.eqb_spec c "'") as [->|H3].
    { apply (reads_reference p (Base.bytes "#39;" ++ s)). intros x' r'. rewrite (number_reference p ["3"; "9"] s) //; [by repeat constructor|]. by rewrite (Hchar 39). }
    destruct (Ascii.eqb_spec c "+") as [->|H4].
    { apply (reads_reference p (Base.bytes "#43;" ++ s)). intros x' r'. rewrite (number_reference p ["4"; "3"] s) //; [by repeat constructor|]. by rewrite (Hchar 43). }
    destruct (Ascii.eqb_spec c "<") as [->|H5].
    { apply (reads_reference p (Base.bytes "lt;" ++ s)). intros x' r'. apply (name_reference p (Base.bytes "lt")). apply (t_lt _ Ht). }
    destruct (Ascii.eqb_spec c ">") as [->|H6].
    { apply (reads_reference p (Base.bytes "gt;" ++ s)). intros x' r'. apply (name_reference p (Base.bytes "gt")). apply (t_gt _ Ht). }
    cbn [app]. by rewrite reads_char.
  Qed.
  Lemma reads_escaped p u after t rest : stops p after -> reads names char p (html_escape u ++ after) t rest <-> t = without_nul u /\ rest = after.
  Proof.
    intros Hs. revert t. induction u as [|c u IH]=> t; [by rewrite reads_stop|].
    change (html_escape (c :: u)) with (html_byte c ++ html_escape u). rewrite -app_assoc reads_byte.
    assert (without_nul (c :: u) = without_nul [c] ++ without_nul u) as -> by (by rewrite /without_nul /= app_nil_r).
    split.
    - intros (t' & -> & [-> ->]%IH). done.
    - intros [-> ->]. eexists. split; [done|]. by apply IH.
  Qed.
End refs.

(** ** JSON texts *)

Definition good (c : ascii) : Prop := c <> "<" /\ c <> "013" /\ c <> "000".
Lemma good_small c : bn c <> 60%N -> bn c <> 13%N -> bn c <> 0%N -> good c.
Proof. intros H1 H2 H3. split; [by intros ->|]. split; by intros ->. Qed.
Lemma hex_good n : (n < 16)%N -> good (hex_low n).
Proof. intros H. rewrite /hex_low. destruct (N.ltb_spec n 10); apply good_small; rewrite bn_ascii; lia. Qed.
Lemma esc_u_good a b c d : (a < 16)%N -> (b < 16)%N -> (c < 16)%N -> (d < 16)%N -> Forall good (esc_u a b c d).
Proof. intros. rewrite /esc_u. repeat constructor; try done; by apply hex_good. Qed.
Lemma ascii_good bf x : (x < 128)%N -> Forall good (esc_ascii bf x).
Proof.
  intros Hx. rewrite /esc_ascii. set (c := ascii_of_N x). assert (bn c = x) as Hc by (apply bn_ascii; lia).
  assert (Forall good (esc_u 0 0 (x / 16) (x mod 16))) as Hu.
  { apply esc_u_good; [lia|lia| |]; [apply N.div_lt_upper_bound; lia|apply N.mod_lt; lia]. }
  destruct (Ascii.eqb c quote || Ascii.eqb c "\")%bool eqn:E1.
  { apply orb_true_iff in E1 as [E%Ascii.eqb_eq|E%Ascii.eqb_eq]; rewrite E; by repeat constructor. }
  destruct ((x =? 8)%N && bf)%bool; [by repeat constructor|]. destruct ((x =? 12)%N && bf)%bool; [by repeat constructor|].
  destruct (N.eqb_spec x 10); [by repeat constructor|]. destruct (N.eqb_spec x 13) as [|H13]; [by repeat constructor|]. destruct (N.eqb_spec x 9); [by repeat constructor|].
  destruct (N.ltb_spec x 32); [exact Hu|]. destruct (Ascii.eqb_spec c "<"); [exact Hu|]. destruct (Ascii.eqb_spec c ">"); [exact Hu|]. destruct (Ascii.eqb_spec c "&"); [exact Hu|].
  cbn. constructor; [|constructor]. split; [done|]. split; intros E; rewrite E in Hc; vm_compute in Hc; lia.
Qed.
Lemma high_good c : (128 <= bn c)%N -> good c.
Proof. intros H. apply good_small; lia. Qed.
Lemma encode_high x bs : encode_rune x = bs -> (128 <= x)%N -> Forall good bs.
Proof.
  intros <- Hx. rewrite /encode_rune. destruct (N.ltb_spec x 128); [lia|].
  assert (forall n, (128 <= n)%N -> (n < 256)%N -> good (ascii_of_N n)) as G by (intros n ? ?; apply high_good; rewrite bn_ascii; lia).
  assert (forall y, y mod 64 < 64)%N as Hm by (intros y; apply N.mod_lt; lia).
  destruct (N.ltb_spec x 2048).
  { assert (x / 64 < 32)%N by (apply N.div_lt_upper_bound; lia). pose proof (Hm x). repeat constructor; apply G; lia. }
  destruct (surrogate x || (1114111 <? x)%N)%bool eqn:Es; [by repeat constructor|].
  destruct (N.ltb_spec x 65536).
  { assert (x / 4096 < 16)%N by (apply N.div_lt_upper_bound; lia). pose proof (Hm x). pose proof (Hm (x / 64))%N. repeat constructor; apply G; lia. }
  apply orb_false_iff in Es as [_ Es%N.ltb_ge]. assert (x / 262144 < 8)%N by (apply N.div_lt_upper_bound; lia). pose proof (Hm x). pose proof (Hm (x / 64))%N. pose proof (Hm (x / 4096))%N. repeat constructor; apply G; lia.
Qed.
Lemma pieces_good bf n s : Forall good (concat (map (esc_piece bf) (pieces_fuel n s))).
Proof.
  revert s. induction n as [|n IH]=> s; [destruct s; constructor|]. destruct s as [|a s]; [constructor|]. cbn [pieces_fuel].
  destruct (decode_rune (a :: s)) as [[[x bs] rest]|] eqn:E; cbn [map concat]; apply Forall_app; (split; [|apply IH]).
  - apply decode_some in E as (_ & Ee & _). cbn [esc_piece]. destruct (N.ltb_spec x 128); [by apply ascii_good|].
    destruct ((x =? 8232)%N || (x =? 8233)%N)%bool; [apply esc_u_good; try lia; apply N.mod_lt; lia|by apply (encode_high x)].
  - cbn. by repeat constructor.
Qed.
Lemma string_good bf s : Forall good (enc_string bf s).
Proof. rewrite /enc_string. constructor; [done|]. apply Forall_app. split; [apply pieces_good|]. by repeat constructor. Qed.
(** The numbers of a JSON value are written with digits, signs, points and letters. *)
Fixpoint nums_good (j : json) : bool :=
  match j with
  | JNum s => forallb (fun c => negb (Ascii.eqb c "<" || Ascii.eqb c "013" || Ascii.eqb c "000")) s
  | JArr l => forallb nums_good l
  | JObj kvs => forallb (fun kv => nums_good (snd kv)) kvs
  | _ => true
  end.
Lemma plain_nums j : plain j = true -> nums_good j = true.
Proof.
  induction j as [|b|s|s|l IH|kvs IH] using json_ind'; cbn; try done.
  - induction IH as [|x l Hx _ IHl]; [done|]. cbn. intros [H1 H2]%andb_true_iff. rewrite Hx // IHl //.
  - induction IH as [|x l Hx _ IHl]; [done|]. cbn. intros [H1 H2]%andb_true_iff. rewrite Hx // IHl //.
Qed.
Lemma join_good {A} (f : A -> text) sep l : Forall good sep -> Forall (fun x => Forall good (f x)) l -> Forall good (join_with f sep l).
Proof.
  intros Hs. induction 1 as [|x l Hx _ IH]; [constructor|]. cbn [join_with]. apply Forall_app. split; [done|]. destruct l; [constructor|]. apply Forall_app. by split.
Qed.
Lemma print_good bf nl sp : (forall d, Forall good (nl d)) -> Forall good sp -> forall j, nums_good j = true -> forall d, Forall good (print_json bf nl sp d j).
Proof.
  intros Hnl Hsp. induction j as [|b|s|s|l IH|kvs IH] using json_ind'; intros Hn d; cbn [print_json].
  - by repeat constructor.
  - by destruct b; repeat constructor.
  - cbn in Hn. apply List.Forall_forall. intros c Hc. rewrite forallb_forall in Hn. specialize (Hn c Hc). apply negb_true_iff, orb_false_iff in Hn as [[H1 H2]%orb_false_iff H3].
    split; [by intros ->|]. split; by intros ->.
  - apply string_good.
  - destruct l as [|x l]; [by repeat constructor|]. constructor; [done|]. apply Forall_app. split; [apply Hnl|]. apply Forall_app. split; [|apply Forall_app; split; [apply Hnl|by repeat constructor]].
    apply join_good; [by constructor|]. cbn [nums_good] in Hn. rewrite forallb_forall in Hn. apply List.Forall_forall. intros y Hy. rewrite List.Forall_forall in IH. by apply IH, Hn.
  - destruct kvs as [|x kvs]; [by repeat constructor|]. constructor; [done|]. apply Forall_app. split; [apply Hnl|]. apply Forall_app. split; [|apply Forall_app; split; [apply Hnl|by repeat constructor]].
    apply join_good; [by constructor|]. cbn [nums_good] in Hn. rewrite forallb_forall in Hn. apply List.Forall_forall. intros y Hy. rewrite List.Forall_forall in IH.
    apply Forall_app. split; [apply string_good|]. constructor; [done|]. apply Forall_app. split; [done|]. apply (IH y Hy), (Hn y Hy).
Qed.

(** ** C133 *)

Lemma stops_normal p after : stops p after -> stops p (normal after) /\ forall r, after <> "010" :: r.
Proof.
  destruct p; cbn.
  - intros (c & r & -> & Hc). split; [|done]. rewrite !normal_cons //; [|by eexists _, _].
    rewrite /letter in Hc. intros ->. change (N_of_ascii "013") with 13%N in Hc. destruct Hc as [?|[?|[?|?]]]; [lia|done..].
  - intros (r & ->). split; [|done]. rewrite normal_cons //. by eexists.
  - intros (n & c & r & -> & Hn & Hc). split; [|done]. rewrite !normal_cons //. rewrite (normal_plain n).
    { clear -Hn. intros Hi. assert (In "013" (lower n)) as H; [|rewrite Hn in H; cbn in H; intuition discriminate].
      clear Hn. induction n as [|d n IH]; [done|]. destruct Hi as [->|Hi]; [by left|right; by apply IH]. }
    rewrite normal_cons; [intros ->; by intuition|]. by exists n, c, (normal r).
Qed.
(** C133 (proved part): whatever was recorded, the browser finds exactly this text where a template has put it (in an
    element, an attribute or a textarea), and there it ends; only line breaks are normalised and NULs replaced. *)
Theorem C133_partial : forall names char p s after t rest, table names -> (forall n, (32 <= n < 127)%N -> char n = [ascii_of_N n]) -> stops p after ->
  reads names char p (normal (html_escape s ++ after)) t rest <-> t = without_nul (normal s) /\ rest = normal after.
Proof.
  intros names char p s after t rest Ht Hc Hs. destruct (stops_normal p after Hs) as [Hs' Ha].
  rewrite normal_app // normal_escape. by apply reads_escaped.
Qed.
Print Assumptions C133_partial.
Lemma good_same s : Forall good s -> without_nul (normal s) = s.
Proof.
  induction 1 as [|c s (_ & H1 & H2) _ IH]; [done|]. rewrite normal_cons //. rewrite /without_nul. cbn [map concat].
  destruct (Ascii.eqb_spec c "000"); [done|]. cbn [app]. f_equal. exact IH.
Qed.
Lemma indent_good d : Forall good ("010" :: repeat " " (2 * d)).
Proof. constructor; [done|]. induction (2 * d)%nat as [|n IH]; constructor; done. Qed.
(** C133: the JSON exports that the pages carry for copying are read exactly as they were written, so that what is said
    of them elsewhere (C106) is true of what the user copies. *)
Theorem C133_exports : forall names char p tr bf j x after t rest, table names -> (forall n, (32 <= n < 127)%N -> char n = [ascii_of_N n]) -> stops p after ->
  encodes tr j -> exported bf j x \/ x = print_indented bf j ->
  reads names char p (normal (html_escape x ++ after)) t rest <-> t = x /\ rest = normal after.
Proof.
  intros names char p tr bf j x after t rest Ht Hc Hs He Hx. rewrite C133_partial //.
  assert (forall j', nums_good j' = true -> Forall good (print_indented bf j')) as Hg.
  { intros j' Hj. apply print_good; [apply indent_good|by repeat constructor|done]. }
  pose proof (plain_nums j (enc_plain tr j He)) as Hj. rewrite good_same //.
  destruct Hx as [[]| ->]; [apply Hg; cbn; by rewrite Hj| |by apply Hg]. constructor; [done|]. apply Forall_app. split; [by apply Hg|by repeat constructor].
Qed.
Print Assumptions C133_exports.
Lemma int_good z : nums_good (JNum (Base.bytes (fmt_int z))) = true.
Proof.
  cbn. apply forallb_forall. intros c Hc. rewrite /fmt_int in Hc.
  assert (forall n, In c (Base.bytes (fmt_uint n)) -> negb (Ascii.eqb c "<" || Ascii.eqb c "013" || Ascii.eqb c "000") = true) as H.
  { intros n Hn. destruct (fmt_uint_digits n) as [Hd _]. rewrite List.Forall_forall in Hd. specialize (Hd c Hn).
    destruct (Ascii.eqb_spec c "<") as [->|]; [done|]. destruct (Ascii.eqb_spec c "013") as [->|]; [done|]. by destruct (Ascii.eqb_spec c "000") as [->|]. }
  destruct (z <? 0)%Z; [|by apply (H (Z.to_N z))]. cbn [Base.bytes] in Hc. destruct Hc as [<-|Hc]; [done|by apply (H (Z.to_N (- z)))].
Qed.
(** C133: nothing recorded can end the script that holds the timeline's data: it contains no "<". *)
Theorem C133_script : forall bf items j, vis_data items j -> ~ In "<" (script_value bf j).
Proof.
  intros bf items j Hj. assert (nums_good j = true) as Hn.
  { destruct Hj as [[_ ->]|(l & Hl & ->)]; [done|]. cbn [nums_good]. induction Hl as [|o x items l (data & _ & ->) _ IH]; [done|]. cbn [forallb]. rewrite IH andb_true_r.
    cbn [nums_good enc_item forallb snd andb]. assert (forallb nums_good (map enc_bar (it_times o)) = true) as ->.
    { induction (it_times o) as [|b bs IHb]; [done|]. cbn [map forallb]. rewrite IHb andb_true_r. pose proof (int_good (b_start b)) as H1. pose proof (int_good (b_end b)) as H2. pose proof (int_good (b_duration b)) as H3.
      cbn [nums_good enc_bar forallb snd andb] in *. by rewrite H1 H2 H3. }
    cbn [andb]. rewrite andb_true_r. by induction data. }
  assert (Forall good (script_value bf j)) as H; [apply print_good; [constructor|constructor|done]|].
  rewrite List.Forall_forall in H. intros Hi. by destruct (H _ Hi) as [[] _].
Qed.
Print Assumptions C133_script.

(** The tips and the context menu's heading are set as markup, the labels of the timeline from markup. *)
(** C133 (proved part): names without "&", "<" and NUL are shown as they are in a tip and a heading... *)
Theorem C133_tip_partial : forall names char s, (forall c, In c s -> c <> "&" /\ c <> "<" /\ c <> "000") ->
  reads names char InElement (normal (tip_html s)) (normal s) [] /\ reads names char InElement (normal (menu_html s)) (normal s) [].
Proof.
  intros names char s Hs. assert (forall c, In c (normal s) -> c <> "&" /\ c <> "<" /\ c <> "000") as Hn.
  { clear -Hs. induction s as [s IH] using length_ind. destruct s as [|c s]; [done|]. intros d. cbn [normal]. destruct (Ascii.eqb_spec c "013") as [->|].
    - intros [<-|Hd]; [done|]. destruct s as [|e s]; [done|]. destruct (Ascii.eqb_spec e "010") as [->|].
      + apply (IH s); [cbn; lia| |done]. intros x Hx. apply Hs. by right; right.
      + apply (IH (e :: s)); [cbn; lia| |done]. intros x Hx. apply Hs. by right.
    - intros [<-|Hd]; [apply Hs; by left|]. apply (IH s); [cbn; lia| |done]. intros x Hx. apply Hs. by right. }
  rewrite /tip_html /menu_html. assert (reads names char InElement (normal s) (normal s) []) as H; [|done].
  induction (normal s) as [|c u IH]; [apply RT_end; by left|]. destruct (Hn c (or_introl eq_refl)) as (H1 & H2 & H3). apply RT_char; [done..| |apply IH; intros d Hd; apply Hn; by right].
  by intros (? & ? & [= ? _] & _).
Qed.
Print Assumptions C133_tip_partial.
(** The timeline's label of a name of up to 13 bytes is the name itself exactly if the name has no &, < or > and no non-breaking space;
    of a longer name without these it is the beginning. *)
Definition harmless (s : text) : Prop := (forall c, In c s -> c <> "&" /\ c <> "<" /\ c <> ">") /\ forall a b, s <> a ++ ascii_of_N 194 :: ascii_of_N 160 :: b.
Lemma inner_byte_cases c : (inner_byte c = [c] /\ c <> "&" /\ c <> "<" /\ c <> ">") \/ ((1 < length (inner_byte c))%nat /\ (c = "&" \/ c = "<" \/ c = ">")).
Proof.
  rewrite /inner_byte. destruct (Ascii.eqb_spec c "&"); [right; split; [cbn; lia|by left]|]. destruct (Ascii.eqb_spec c "<"); [right; split; [cbn; lia|by right; left]|].
  destruct (Ascii.eqb_spec c ">"); [right; split; [cbn; lia|by right; right]|by left].
Qed.
Lemma inner_cases s : (inner_html s = s /\ harmless s) \/ ((length s < length (inner_html s))%nat /\ ~ harmless s).
Proof.
  induction s as [s IH] using length_ind. destruct s as [|c r]; [left; split; [done|]; split; [done|by intros []]|].
  destruct (IH r ltac:(cbn; lia)) as [[E H]|[E H]].
  - destruct r as [|d r'].
    + cbn [inner_html]. destruct (inner_byte_cases c) as [(Eb & Hc)|[Eb Hc]].
      * left. rewrite Eb. split; [done|]. split; [by intros ? [<-|[]]|]. intros [|? [|? ?]] b; discriminate.
      * right. split; [cbn [length]; lia|]. intros [H1 _]. destruct (H1 c (or_introl eq_refl)) as (? & ? & ?). tauto.
    + cbn [inner_html]. destruct (Ascii.eqb_spec c (ascii_of_N 194)) as [->|Hc].
      * destruct (Ascii.eqb_spec d (ascii_of_N 160)) as [->|Hd]; cbn [andb].
        -- right. split; [|intros [_ H2]; by apply (H2 [] r')]. destruct (IH r' ltac:(cbn; lia)) as [[E' _]|[E' _]]; rewrite app_length; cbn [length Base.bytes]; rewrite ?E'; lia.
        -- left. change (inner_byte (ascii_of_N 194)) with [ascii_of_N 194]. change (inner_html (d :: r')) with (inner_html (d :: r')) in E. cbn [app]. split; [f_equal; exact E|].
           destruct H as [H1 H2]. split; [intros x [<-|Hx]; [done|by apply H1]|]. intros [|y a] b [= ? ?]; [by subst|]. by apply (H2 a b).
      * cbn [andb]. destruct (inner_byte_cases c) as [(Eb & Hb)|[Eb Hb]].
        -- left. rewrite Eb. cbn [app]. split; [f_equal; exact E|]. destruct H as [H1 H2]. split; [intros x [<-|Hx]; [done|by apply H1]|]. intros [|y a] b [= ? ?]; [by subst|]. by apply (H2 a b).
        -- right. split; [|intros [H1 _]; destruct (H1 c (or_introl eq_refl)) as (? & ? & ?); tauto]. rewrite app_length.
           assert (length (inner_html (d :: r')) = length (d :: r')) as El by by rewrite E. cbn [inner_html] in El. rewrite El. cbn [length]. lia.
  - right. split; [|intros [H1 H2]; apply H; split; [intros x Hx; apply H1; by right|intros a b ->; by apply (H2 (c :: a) b)]].
    destruct r as [|d r']; [by destruct H; split; [|intros []]|]. cbn [inner_html]. destruct (Ascii.eqb c (ascii_of_N 194) && Ascii.eqb d (ascii_of_N 160)).
    + destruct (IH r' ltac:(cbn; lia)) as [[E' _]|[E' _]]; rewrite app_length; cbn [length Base.bytes]; rewrite ?E'; lia.
    + rewrite app_length. change (length (d :: r') < length (inner_html (d :: r')))%nat in E. cbn [inner_html] in E. set (u := match r' with [] => _ | _ => _ end) in *. clearbody u.
      assert (1 <= length (inner_byte c))%nat by (destruct (inner_byte_cases c) as [[-> _]|[? _]]; cbn [length]; lia). cbn [length] in *. lia.
Qed.
Theorem C133_label_partial : forall s, ((length s < 14)%nat -> timeline_label s = s <-> harmless s) /\
  ((14 <= length s)%nat -> harmless s -> timeline_label s = firstn 13 s ++ ["."; "."; "."]).
Proof.
  intros s. rewrite /timeline_label. destruct (inner_cases s) as [[E H]|[E H]].
  - rewrite E. split; intros Hl; rewrite /shorten; [|intros _]; destruct (Nat.ltb_spec (length s) 14); try lia; done.
  - split; [|done]. intros Hl. split; [|done]. intros El. exfalso. rewrite /shorten in El. destruct (Nat.ltb_spec (length (inner_html s)) 14); [rewrite El in E; lia|].
    apply (f_equal length) in El. rewrite app_length firstn_length in El. cbn [length] in El. lia.
Qed.
Print Assumptions C133_label_partial.
(** C133 is false of the tips and headings: a span's name can be markup, such as an element with a script in it... *)
Definition c133_name : string := "<img src=x onerror=alert(1)>".
Definition c133_trace : tree := Tree (MkSpanID 1 2 0) (c62_name c133_name ++ c62_ts "1970-01-01T00:00:00Z" "1970-01-01T00:00:05Z") [].
Theorem C133_refuted : exists reg o b, register_all library_events = Some reg /\ d3timeline reg c62_us c62_fmt c133_trace = ROk [o] /\ it_times o = [b] /\
  forall names char t, ~ reads names char InElement (normal (tip_html (Base.bytes (it_full o)))) t [] /\ ~ reads names char InElement (normal (menu_html (Base.bytes (b_label b)))) t [].
Proof.
  destruct (register_all library_events) as [reg|] eqn:Er; [|by vm_compute in Er]. vm_compute in Er. injection Er as <-.
  eexists _, _, _. split; [reflexivity|]. split; [vm_compute; reflexivity|]. split; [cbn [it_times]; reflexivity|]. intros names char t. cbn [it_full b_label].
  assert (forall u, ~ reads names char InElement ("<" :: "i" :: u) t []) as H.
  { intros u. rewrite reads_stop; [|by intros [_ ?]]. exists "i", u. split; [done|]. left. rewrite /letter. change (N_of_ascii "i") with 105%N. lia. }
  rewrite /tip_html /menu_html. cbn [Base.bytes]. rewrite !(normal_cons "<") // !(normal_cons "i") //.
Qed.
Print Assumptions C133_refuted.
(** ... and of the labels: "a&b" becomes "a&amp;b". *)
Theorem C133_label_refuted : timeline_label (Base.bytes "a&b") = Base.bytes "a&amp;b".
Proof. reflexivity. Qed.
Print Assumptions C133_label_refuted.
Definition c133_names : list (text * text) := [(Base.bytes "amp;", ["&"]); (Base.bytes "amp", ["&"]); (Base.bytes "lt;", ["<"]); (Base.bytes "gt;", [">"])].
Example C133_nonvacuous : exists names char after, table names /\ (forall n, (32 <= n < 127)%N -> char n = [ascii_of_N n]) /\ stops InElement after /\
  html_escape (Base.bytes "<b>'A&B'</b>") = Base.bytes "&lt;b&gt;&#39;A&amp;B&#39;&lt;/b&gt;" /\
  reads names char InElement (normal (html_escape (Base.bytes "<b>'A&B'</b>") ++ after)) (Base.bytes "<b>'A&B'</b>") after.
Proof.
  assert (table c133_names) as Ht.
  { assert (forall l, forallb (fun c => (65 <=? N_of_ascii c) && (N_of_ascii c <=? 90) || (97 <=? N_of_ascii c) && (N_of_ascii c <=? 122))%N%bool l = true -> Forall (fun c => letter c \/ digit c) l) as Hl.
    { intros l H. rewrite forallb_forall in H. apply List.Forall_forall. intros c Hc. left. specialize (H c Hc). rewrite /letter. apply orb_true_iff in H as [[?%N.leb_le ?%N.leb_le]%andb_true_iff|[?%N.leb_le ?%N.leb_le]%andb_true_iff]; lia. }
    split.
    - intros n x [[= <- _]|[[= <- _]|[[= <- _]|[[= <- _]|[]]]]].
      + exists (Base.bytes "amp"). split; [by right|]. split; [done|]. by apply Hl.
      + exists (Base.bytes "amp"). split; [by left|]. split; [done|]. by apply Hl.
      + exists (Base.bytes "lt"). split; [by right|]. split; [done|]. by apply Hl.
      + exists (Base.bytes "gt"). split; [by right|]. split; [done|]. by apply Hl.
    - intros n x y [[= <- <-]|[[= <- <-]|[[= <- <-]|[[= <- <-]|[]]]]] Hy; cbn in Hy; by intuition congruence.
    - by left. - by right; right; left. - by right; right; right; left. }
  assert (stops InElement (Base.bytes "</td>")) as Hs by (eexists "/", _; split; [reflexivity|]; by right; left).
  exists c133_names, (fun n => [ascii_of_N n]), (Base.bytes "</td>"). split; [done|]. split; [done|]. split; [done|]. split; [reflexivity|].
  rewrite (C133_partial c133_names (fun n => [ascii_of_N n]) InElement (Base.bytes "<b>'A&B'</b>") (Base.bytes "</td>")) //.
Qed.
