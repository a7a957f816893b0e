(** The JSON parser accepts exactly the JSON texts: values. *)
From Verif Require Import Base IdModel IdSpec IdJsonModel IdJsonProofs JsonSpec JsonModel JsonProofs JsonGramSpec JsonGramProofs.
From Coq Require Import ssreflect.
Local Open Scope general_if_scope.
Local Open Scope char_scope.

Scheme value_mind := Minimality for value Sort Prop
  with elements_mind := Minimality for elements Sort Prop
  with members_mind := Minimality for members Sort Prop.
Combined Scheme json_text_ind from value_mind, elements_mind, members_mind.

Lemma number_head s : number s -> exists c r, s = c :: r /\ (c = "-" \/ digit c).
Proof.
  intros [sign int frac exp [-> | ->] Hi _ _]; [|by eexists _, _; split; [reflexivity|left]].
  destruct Hi as [->|(c & d & -> & Hc & _)]; eexists _, _; (split; [reflexivity|]); right; done.
Qed.
Lemma num_first c : c = "-" \/ digit c -> json_ws c = false /\ c <> "]" /\ c <> "}" /\ c <> quote /\ c <> "[" /\ c <> "{" /\ c <> "n" /\ c <> "t" /\ c <> "f".
Proof.
  intros [->|[H1 H2]]; [done|]. destruct (json_ws c) eqn:E; [exfalso|split; [done|]].
  - apply json_ws_spec in E. cbn in E. destruct E as [<-|[<-|[<-|[<-|[]]]]]; vm_compute in H1; by apply H1.
  - split_and!; intros ->; vm_compute in H1, H2; by (apply H1 || apply H2).
Qed.
Lemma value_head s v : value false s v -> exists c r, s = c :: r /\ json_ws c = false /\ c <> "]" /\ c <> "}".
Proof.
  intros H. destruct H; try (eexists _, _; split; [reflexivity|done]).
  destruct (number_head _ H) as (c & r & -> & Hc). destruct (num_first c Hc) as (?&?&?&_). by exists c, r.
Qed.
Lemma elements_head s l : elements false s l -> exists w c r, s = w ++ c :: r /\ spaces w /\ json_ws c = false /\ c <> "]".
Proof.
  intros H. destruct H as [w1 s w2 v Hw Hv|w1 s w2 v t l Hw Hv]; destruct (value_head _ _ Hv) as (c & r & -> & Hc & Hc1 & _); exists w1, c; eexists; (split; [reflexivity|done]).
Qed.
Lemma members_head s l : members false s l -> exists w r, s = w ++ quote :: r /\ spaces w.
Proof. intros H. destruct H as [w1 k ? ? ? ? ? ? Hw|w1 k ? ? ? ? ? ? ? ? Hw]; exists w1; eexists; (split; [reflexivity|done]). Qed.

Lemma stops_ws w r : spaces w -> stops r -> stops (w ++ r).
Proof.
  intros Hw Hr. destruct Hw as [|c w Hc]; [done|]. cbn [app stops]. cbn in Hc. destruct Hc as [<-|[<-|[<-|[<-|[]]]]]; (split; [done|]); cbn; intros H; repeat (destruct H as [H|H]; try done).
Qed.
Ltac stop := cbn [stops]; split; [done|]; cbn; let H := fresh in intros H; repeat (destruct H as [H|H]; try done).

Lemma parse_complete :
  (forall s v, value false s v -> forall n w rest, spaces w -> stops rest -> (2 * length s <= n)%nat -> parse_json n (w ++ s ++ rest) = Some (v, rest)) /\
  (forall s l, elements false s l -> forall n rest, (2 * length s + 1 <= n)%nat -> parse_elems n (s ++ "]" :: rest) = Some (l, rest)) /\
  (forall s l, members false s l -> forall n rest, (2 * length s + 1 <= n)%nat -> parse_members n (s ++ "}" :: rest) = Some (l, rest)).
Proof.
  apply json_text_ind.
  - intros n w rest Hw _ Hn. destruct n as [|n]; [cbn in Hn; lia|]. cbn [parse_json]. rewrite skip_blank; [by apply spaces_blank|]. done.
  - intros n w rest Hw _ Hn. destruct n as [|n]; [cbn in Hn; lia|]. cbn [parse_json]. rewrite skip_blank; [by apply spaces_blank|]. done.
  - intros n w rest Hw _ Hn. destruct n as [|n]; [cbn in Hn; lia|]. cbn [parse_json]. rewrite skip_blank; [by apply spaces_blank|]. done.
  - intros s Hs n w rest Hw Hr Hn. pose proof (number_complete _ _ Hs Hr) as Ht. destruct (number_head _ Hs) as (c & r & -> & Hc). destruct (num_first c Hc) as (H0 & H1 & H2 & H3 & H4 & H5 & H6 & H7 & H8).
    destruct n as [|n]; [cbn in Hn; lia|]. cbn [parse_json]. rewrite skip_blank; [by apply spaces_blank|]. cbn [app] in *. rewrite skip_black; [done|].
    repeat match goal with |- context [Ascii.eqb c ?x] => destruct (Ascii.eqb_spec c x) as [?|_]; [done|] end. by rewrite Ht.
  - intros s v Hs n w rest Hw Hr Hn. destruct n as [|n]; [cbn in Hn; lia|]. cbn [parse_json]. rewrite skip_blank; [by apply spaces_blank|]. cbn [app]. rewrite skip_black; [done|].
    rewrite Ascii.eqb_refl. rewrite -app_assoc. cbn [app]. change """" with quote. by rewrite (chars_complete _ _ _ Hs).
  - intros w' Hw' n w rest Hw Hr Hn. destruct n as [|n]; [cbn in Hn; lia|]. cbn [parse_json]. rewrite skip_blank; [by apply spaces_blank|]. cbn [app]. rewrite skip_black; [done|].
    replace (Ascii.eqb "[" quote) with false by done. rewrite Ascii.eqb_refl. rewrite -app_assoc skip_blank; [by apply spaces_blank|]. done.
  - intros s l Hs IH n w rest Hw Hr Hn. destruct n as [|n]; [cbn in Hn; lia|]. cbn [parse_json]. rewrite skip_blank; [by apply spaces_blank|]. cbn [app]. rewrite skip_black; [done|].
    replace (Ascii.eqb "[" quote) with false by done. rewrite Ascii.eqb_refl. rewrite -app_assoc. cbn [app].
    assert (2 * length s + 1 <= n)%nat as Hn' by (cbn [length] in Hn; rewrite app_length in Hn; cbn [length] in Hn; lia).
    rewrite (IH n rest Hn'). destruct (elements_head _ _ Hs) as (w0 & c & r & -> & Hw0 & Hc & Hc1). rewrite -app_assoc skip_blank; [by apply spaces_blank|].
    cbn [app]. rewrite skip_black; [done|]. by destruct (Ascii.eqb_spec c "]").
  - intros w' Hw' n w rest Hw Hr Hn. destruct n as [|n]; [cbn in Hn; lia|]. cbn [parse_json]. rewrite skip_blank; [by apply spaces_blank|]. cbn [app]. rewrite skip_black; [done|].
    replace (Ascii.eqb "{" quote) with false by done. replace (Ascii.eqb "{" "[") with false by done. rewrite Ascii.eqb_refl. rewrite -app_assoc skip_blank; [by apply spaces_blank|]. done.
  - intros s l Hs IH n w rest Hw Hr Hn. destruct n as [|n]; [cbn in Hn; lia|]. cbn [parse_json]. rewrite skip_blank; [by apply spaces_blank|]. cbn [app]. rewrite skip_black; [done|].
    replace (Ascii.eqb "{" quote) with false by done. replace (Ascii.eqb "{" "[") with false by done. rewrite Ascii.eqb_refl. rewrite -app_assoc. cbn [app].
    assert (2 * length s + 1 <= n)%nat as Hn' by (cbn [length] in Hn; rewrite app_length in Hn; cbn [length] in Hn; lia).
    rewrite (IH n rest Hn'). destruct (members_head _ _ Hs) as (w0 & r & -> & Hw0). rewrite -app_assoc skip_blank; [by apply spaces_blank|].
    cbn [app]. rewrite skip_black; [done|]. done.
  - intros w1 s w2 v Hw1 Hv IH Hw2 n rest Hn. destruct n as [|n]; [cbn in Hn; lia|]. cbn [parse_elems]. rewrite !app_length in Hn. rewrite -?app_assoc.
    rewrite IH; [done|apply stops_ws; [done|stop]|lia|]. rewrite skip_blank; [by apply spaces_blank|]. done.
  - intros w1 s w2 v t l Hw1 Hv IH Hw2 Ht IHt n rest Hn. destruct n as [|n]; [cbn in Hn; lia|]. cbn [parse_elems]. rewrite !app_length in Hn. cbn [length] in Hn. rewrite -?app_assoc.
    rewrite IH; [done|apply stops_ws; [done|stop]|lia|]. rewrite skip_blank; [by apply spaces_blank|]. cbn [app]. rewrite skip_black; [done|]. cbn [Ascii.eqb Bool.eqb].
    rewrite IHt; [lia|]. done.
  - intros w1 k key w2 w3 s w4 v Hw1 Hk Hw2 Hw3 Hv IH Hw4 n rest Hn. destruct n as [|n]; [cbn in Hn; lia|]. cbn [parse_members].
    repeat (rewrite ?app_length in Hn; cbn [length] in Hn). rewrite -?app_assoc. rewrite skip_blank; [by apply spaces_blank|]. cbn [app]. rewrite skip_black; [done|]. rewrite Ascii.eqb_refl.
    rewrite -?app_assoc. cbn [app]. change """" with quote. rewrite (chars_complete _ _ _ Hk). rewrite skip_blank; [by apply spaces_blank|]. rewrite skip_black; [done|]. cbn [Ascii.eqb Bool.eqb].
    rewrite -?app_assoc. rewrite IH; [done|apply stops_ws; [done|stop]|lia|]. rewrite skip_blank; [by apply spaces_blank|]. done.
  - intros w1 k key w2 w3 s w4 v t l Hw1 Hk Hw2 Hw3 Hv IH Hw4 Ht IHt n rest Hn. destruct n as [|n]; [cbn in Hn; lia|]. cbn [parse_members].
    repeat (rewrite ?app_length in Hn; cbn [length] in Hn). rewrite -?app_assoc. rewrite skip_blank; [by apply spaces_blank|]. cbn [app]. rewrite skip_black; [done|]. rewrite Ascii.eqb_refl.
    rewrite -?app_assoc. cbn [app]. change """" with quote. rewrite (chars_complete _ _ _ Hk). rewrite skip_blank; [by apply spaces_blank|]. rewrite skip_black; [done|]. cbn [Ascii.eqb Bool.eqb].
    rewrite -?app_assoc. rewrite IH; [done|apply stops_ws; [done|stop]|lia|]. rewrite skip_blank; [by apply spaces_blank|]. cbn [app]. rewrite skip_black; [done|]. cbn [Ascii.eqb Bool.eqb].
    rewrite IHt; [lia|]. done.
Qed.
Lemma document_complete s v : document false s v -> parse_all s = Some v.
Proof.
  intros (w1 & t & w2 & -> & Hw1 & Hv & Hw2). rewrite /parse_all /parse_first.
  rewrite (proj1 parse_complete _ _ Hv); [done| |rewrite !app_length; lia|].
  - rewrite -(app_nil_r w2). by apply stops_ws.
  - rewrite -(app_nil_r w2) skip_blank; [by apply spaces_blank|done].
Qed.

Lemma strip_sound p l r : strip p l = Some r -> l = p ++ r.
Proof.
  revert l. induction p as [|a p IH]; intros l; [by intros [= ->]|]. destruct l as [|b l]; [done|]. cbn [strip]. destruct (Ascii.eqb_spec a b) as [->|]; [|done].
  intros H. by rewrite (IH _ H).
Qed.
Lemma parse_sound n :
  (forall l v rest, parse_json n l = Some (v, rest) -> exists w s, l = w ++ s ++ rest /\ spaces w /\ value true s v) /\
  (forall l vs rest, parse_elems n l = Some (vs, rest) -> exists s, l = s ++ "]" :: rest /\ elements true s vs) /\
  (forall l vs rest, parse_members n l = Some (vs, rest) -> exists s, l = s ++ "}" :: rest /\ members true s vs).
Proof.
  induction n as [|n (IHv & IHe & IHm)]; [done|]. split_and!; intros l v rest.
  - cbn [parse_json]. destruct (skip_split l) as (w & Hw & El). destruct (skip_ws l) as [|c r]; [done|]. subst l.
    destruct (Ascii.eqb_spec c quote) as [->|Hq].
    { destruct (unquote r) as [[t r']|] eqn:Eu; [|done]. intros [= <- <-]. destruct (chars_sound _ _ _ _ Eu) as (s & -> & Hs).
      exists w, (quote :: s ++ [quote]). split; [cbn [app]; by rewrite -app_assoc|]. split; [done|]. by apply V_str. }
    destruct (Ascii.eqb_spec c "[") as [->|Ha].
    { destruct (skip_split r) as (w' & Hw' & Er). destruct (skip_ws r) as [|e r']; [done|]. destruct (Ascii.eqb_spec e "]") as [->|He].
      - intros [= <- <-]. exists w, ("[" :: w' ++ ["]"]). split; [cbn [app]; by rewrite Er -app_assoc|]. split; [done|]. by apply V_arr0.
      - destruct (parse_elems n r) as [[vs r1]|] eqn:E; [|done]. intros [= <- <-]. destruct (IHe _ _ _ E) as (s & -> & Hs).
        exists w, ("[" :: s ++ ["]"]). split; [cbn [app]; by rewrite -app_assoc|]. split; [done|]. by apply V_arr. }
    destruct (Ascii.eqb_spec c "{") as [->|Ho].
    { destruct (skip_split r) as (w' & Hw' & Er). destruct (skip_ws r) as [|e r']; [done|]. destruct (Ascii.eqb_spec e "}") as [->|He].
      - intros [= <- <-]. exists w, ("{" :: w' ++ ["}"]). split; [cbn [app]; by rewrite Er -app_assoc|]. split; [done|]. by apply V_obj0.
      - destruct (parse_members n r) as [[vs r1]|] eqn:E; [|done]. intros [= <- <-]. destruct (IHm _ _ _ E) as (s & -> & Hs).
        exists w, ("{" :: s ++ ["}"]). split; [cbn [app]; by rewrite -app_assoc|]. split; [done|]. by apply V_obj. }
    destruct (Ascii.eqb c "n").
    { destruct (strip _ _) as [r'|] eqn:E; [|done]. intros [= <- <-]. apply strip_sound in E. rewrite E. exists w, (Base.bytes "null"). split; [done|]. split; [done|constructor]. }
    destruct (Ascii.eqb c "t").
    { destruct (strip _ _) as [r'|] eqn:E; [|done]. intros [= <- <-]. apply strip_sound in E. rewrite E. exists w, (Base.bytes "true"). split; [done|]. split; [done|constructor]. }
    destruct (Ascii.eqb c "f").
    { destruct (strip _ _) as [r'|] eqn:E; [|done]. intros [= <- <-]. apply strip_sound in E. rewrite E. exists w, (Base.bytes "false"). split; [done|]. split; [done|constructor]. }
    destruct (take_number (c :: r)) as [[s r']|] eqn:E; [|done]. intros [= <- <-]. apply number_sound in E as [-> Hs]. exists w, s. split; [done|]. split; [done|by constructor].
  - cbn [parse_elems]. destruct (parse_json n l) as [[x r]|] eqn:E; [|done]. destruct (IHv _ _ _ E) as (w & s & -> & Hw & Hs).
    destruct (skip_split r) as (w' & Hw' & Er). destruct (skip_ws r) as [|c r']; [done|]. destruct (Ascii.eqb_spec c ",") as [->|].
    + destruct (parse_elems n r') as [[vs r1]|] eqn:E1; [|done]. intros [= <- <-]. destruct (IHe _ _ _ E1) as (t & -> & Ht).
      exists (w ++ s ++ w' ++ "," :: t). split; [rewrite Er -!app_assoc; done|]. by apply E_more.
    + destruct (Ascii.eqb_spec c "]") as [->|]; [|done]. intros [= <- <-]. exists (w ++ s ++ w'). split; [by rewrite Er -!app_assoc|]. by apply E_one.
  - cbn [parse_members]. destruct (skip_split l) as (w & Hw & El). destruct (skip_ws l) as [|c r]; [done|]. subst l. destruct (Ascii.eqb_spec c quote) as [->|]; [|done].
    destruct (unquote r) as [[k r1]|] eqn:Eu; [|done]. destruct (chars_sound _ _ _ _ Eu) as (sk & -> & Hk).
    destruct (skip_split r1) as (w1 & Hw1 & Er1). destruct (skip_ws r1) as [|c r2]; [done|]. destruct (Ascii.eqb_spec c ":") as [->|]; [|done].
    destruct (parse_json n r2) as [[x r3]|] eqn:E; [|done]. destruct (IHv _ _ _ E) as (w2 & s & -> & Hw2 & Hs).
    destruct (skip_split r3) as (w3 & Hw3 & Er3). destruct (skip_ws r3) as [|c r4]; [done|]. destruct (Ascii.eqb_spec c ",") as [->|].
    + destruct (parse_members n r4) as [[vs r5]|] eqn:E1; [|done]. intros [= <- <-]. destruct (IHm _ _ _ E1) as (t & -> & Ht).
      exists (w ++ (quote :: sk ++ [quote]) ++ w1 ++ ":" :: w2 ++ s ++ w3 ++ "," :: t). split; [|by apply M_more].
      rewrite Er1 Er3. repeat (rewrite -?app_assoc; cbn [app]). done.
    + destruct (Ascii.eqb_spec c "}") as [->|]; [|done]. intros [= <- <-]. exists (w ++ (quote :: sk ++ [quote]) ++ w1 ++ ":" :: w2 ++ s ++ w3). split; [|by apply M_one].
      rewrite Er1 Er3. repeat (rewrite -?app_assoc; cbn [app]). done.
Qed.
Lemma document_sound s v : parse_all s = Some v -> document true s v.
Proof.
  rewrite /parse_all. destruct (parse_first s) as [[x r]|] eqn:E; [|done]. destruct (proj1 (parse_sound _) _ _ _ E) as (w & t & -> & Hw & Hv).
  destruct (skip_split r) as (w' & Hw' & Er). destruct (skip_ws r); [|done]. intros [= <-]. exists w, t, w'. rewrite app_nil_r in Er. by subst r.
Qed.
