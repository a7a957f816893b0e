(** Property C151 (what a browser takes a response for). *)
From Verif Require Import Base IdModel IdSpec ReflModel ReflProofs HttpModel JsonModel JsonSpec JsonProofs JsonGramSpec JsonGramProofs JsonGramProofs2 ExportProps WebModel RouteModel HrefModel ModeModel PageModel PageSpec PageProps DashModel DashProps SniffModel.
From Coq Require Import ssreflect.
Local Open Scope general_if_scope.
Local Open Scope N_scope.

Definition html_type : string := "text/html; charset=utf-8".
Definition text_type : string := "text/plain; charset=utf-8".
Definition font_type : string := "application/vnd.ms-fontobject".
(** What the server and the middlewares around it have set before. *)
Definition no_type (w : writer) : Prop :=
  w_header w !! "Content-Type"%string = None /\ w_header w !! "Content-Encoding"%string = None /\ w_header w !! "Transfer-Encoding"%string = None.

(** ** JSON texts *)

Definition plain (c : ascii) : Prop := is_binary (N_of_ascii c) = false.
Lemma plain_high c : 32 <= N_of_ascii c -> plain c.
Proof.
  intros H. rewrite /plain /is_binary. repeat match goal with |- context [N.leb ?a ?b] => destruct (N.leb_spec a b) | |- context [N.eqb ?a ?b] => destruct (N.eqb_spec a b) end; try done; lia.
Qed.
Lemma plain_utf8 x bs : utf8_char x bs -> 32 <= x -> Forall plain bs.
Proof.
  destruct 1; intros Hx; repeat match goal with H : continues _ |- _ => unfold continues in H end; repeat constructor; apply plain_high; lia.
Qed.
Lemma plain_spaces w : spaces w -> Forall plain w.
Proof. intros H. eapply List.Forall_impl; [|exact H]. intros c Hc. repeat (destruct Hc as [<-|Hc]); try contradiction; by vm_compute. Qed.
Lemma plain_hexdigit c d : hex_digit_value c d -> plain c.
Proof.
  intros H. assert (In c (Base.bytes "0123456789abcdef") \/ In c (Base.bytes "0123456789ABCDEF")) as [Hc|Hc].
  { destruct H as [d c H|d c H]; [left|right]; apply nth_error_In in H; exact H. }
  all: cbn in Hc; repeat (destruct Hc as [<-|Hc]); try contradiction; by vm_compute.
Qed.
Lemma plain_hex h x : four_hex h x -> Forall plain h.
Proof.
  intros [_ H]. rewrite -(bytes_unbytes h). induction H as [c d H|s v c d _ IH H].
  - repeat constructor. eapply plain_hexdigit; eassumption.
  - rewrite bytes_app. apply List.Forall_app. split; [done|]. repeat constructor. eapply plain_hexdigit; eassumption.
Qed.
Lemma plain_char lax s t : string_char lax s t -> Forall plain s.
Proof.
  destruct 1 as [x bs H1 H2 _ _|e c H|h x bs H _|h l hi lo bs H1 H2 _ _ _|h x _ H _|c _ H].
  - eapply plain_utf8; eassumption.
  - constructor; [by vm_compute|]. constructor; [|done]. repeat (destruct H as [[= <- <-]|H]); try contradiction; by vm_compute.
  - repeat (constructor; [by vm_compute|]). eapply plain_hex; eassumption.
  - repeat (constructor; [by vm_compute|]). apply List.Forall_app. split; [eapply plain_hex; eassumption|]. repeat (constructor; [by vm_compute|]). eapply plain_hex; eassumption.
  - repeat (constructor; [by vm_compute|]). eapply plain_hex; eassumption.
  - constructor; [|done]. apply plain_high. lia.
Qed.
Lemma plain_chars lax s t : string_chars lax s t -> Forall plain s.
Proof. induction 1 as [|a bs s t H _ IH]; [done|]. apply List.Forall_app. split; [eapply plain_char; eassumption|done]. Qed.
Lemma plain_digits d : Forall digit d -> Forall plain d.
Proof. intros H. eapply List.Forall_impl; [|exact H]. intros c [Hc _]. apply plain_high. lia. Qed.
Lemma plain_number s : number s -> Forall plain s.
Proof.
  intros [sign int frac exp Hs Hi Hf He]. repeat (apply List.Forall_app; split).
  - destruct Hs as [->| ->]; [done|]. by repeat constructor.
  - destruct Hi as [->|(c & d & -> & [Hc _] & _ & Hd)]; [by repeat constructor|]. constructor; [apply plain_high; lia|by apply plain_digits].
  - destruct Hf as [->|(d & -> & _ & Hd)]; [done|]. constructor; [by vm_compute|by apply plain_digits].
  - destruct He as [->|(e & t & d & -> & He & Ht & _ & Hd)]; [done|]. constructor.
    + repeat (destruct He as [<-|He]); try contradiction; by vm_compute.
    + apply List.Forall_app. split; [|by apply plain_digits]. repeat (destruct Ht as [<-|Ht]); try contradiction; by repeat constructor.
Qed.
Lemma plain_json lax : (forall s v, value lax s v -> Forall plain s) /\ (forall s l, elements lax s l -> Forall plain s) /\ (forall s l, members lax s l -> Forall plain s).
Proof.
  apply (json_text_ind lax (fun s _ => Forall plain s) (fun s _ => Forall plain s) (fun s _ => Forall plain s)); intros;
  repeat first [ done | assumption | by apply plain_spaces | eapply plain_chars; eassumption | by apply plain_number
    | progress repeat constructor; fail | apply List.Forall_app; split | constructor; [by vm_compute|] | by repeat constructor ].
Qed.
Lemma plain_document lax s j : document lax s j -> Forall plain s.
Proof.
  intros (w1 & t & w2 & -> & H1 & H2 & H3). repeat (apply List.Forall_app; split); [by apply plain_spaces| |by apply plain_spaces]. exact (proj1 (plain_json lax) _ _ H2).
Qed.

(** An array or an object *)
Definition container (j : json) : Prop := (exists l, j = JArr l) \/ exists l, j = JObj l.
Definition opening (c : N) : Prop := c = 91 \/ c = 123.
Lemma container_head lax s j : value lax s j -> container j -> exists c r, s = c :: r /\ opening (N_of_ascii c).
Proof.
  intros H Hc. destruct H; try (by destruct Hc as [[? [=]]|[? [=]]]); eexists _, _; (split; [reflexivity|]).
  1, 2: left; by vm_compute.
  all: right; by vm_compute.
Qed.
Lemma skip_prefix (l : list ascii) w c r n : l = w ++ c :: r -> spaces w -> opening (N_of_ascii c) ->
  skip_space (map N_of_ascii (firstn n l)) = [] \/ exists rest, skip_space (map N_of_ascii (firstn n l)) = N_of_ascii c :: rest.
Proof.
  intros -> Hw Hc. revert n. induction Hw as [|x w Hx _ IH]=> n; (destruct n as [|n]; [by left|]).
  - right. cbn. destruct Hc as [E|E]; rewrite E; eexists; reflexivity.
  - cbn [app firstn map skip_space]. assert (is_ws (N_of_ascii x) = true) as -> by (repeat (destruct Hx as [<-|Hx]); try contradiction; by vm_compute). apply IH.
Qed.
Definition firsts : list N := [9; 10; 13; 32; 91; 123].
Lemma first_byte w c r : spaces w -> opening (N_of_ascii c) -> exists x l, w ++ c :: r = x :: l /\ In (N_of_ascii x) firsts.
Proof.
  intros Hw Hc. destruct Hw as [|x w Hx _]; eexists _, _; (split; [reflexivity|]).
  - destruct Hc as [E|E]; rewrite E; cbn; tauto.
  - repeat (destruct Hx as [<-|Hx]); try contradiction; vm_compute; tauto.
Qed.

(** The signatures that such a text cannot have *)
Definition dead (s : signature) : bool :=
  match s with
  | Html (t :: _) => t =? 60
  | Masked (m :: _) (p :: _) true _ => (m =? 255) && (p =? 60)
  | Masked (m :: _) (p :: _) false _ => (m =? 255) && negb (existsb (N.eqb p) firsts)
  | Exact (p :: _) _ => negb (existsb (N.eqb p) firsts)
  | Mp4 => true
  | _ => false
  end.
Lemma not_first p x : negb (existsb (N.eqb p) firsts) = true -> In x firsts -> (x =? p) = false.
Proof.
  intros H Hx. destruct (N.eqb_spec x p) as [->|]; [|done]. exfalso. apply negb_true_iff in H. assert (existsb (N.eqb p) firsts = true); [|congruence].
  apply existsb_exists. exists p. split; [done|]. apply N.eqb_refl.
Qed.
Lemma mask_all x : In x firsts -> N.land x 255 = x.
Proof. intros H. repeat (destruct H as [<-|H]); try contradiction; by vm_compute. Qed.
Lemma dead_none s x d : dead s = true -> In x firsts -> (length (x :: d) <= 512)%nat ->
  (skip_space (x :: d) = [] \/ exists c rest, skip_space (x :: d) = c :: rest /\ opening c) -> sig_match (x :: d) s = None.
Proof.
  intros Hd Hx Hl Hsk. destruct s as [tag|mask pat skip ct|pat ct| |]; cbn [sig_match].
  - destruct tag as [|t tag]; [done|]. cbn [dead] in Hd. apply N.eqb_eq in Hd as ->. destruct Hsk as [->|(c & rest & -> & Hc)]; [done|].
    cbn [html_match]. by destruct Hc as [-> | ->].
  - destruct mask as [|m mask]; [done|]. destruct pat as [|p pat]; [done|]. destruct skip; cbn [dead] in Hd; apply andb_true_iff in Hd as [Hm Hp]; apply N.eqb_eq in Hm as ->.
    + apply N.eqb_eq in Hp as ->. destruct Hsk as [->|(c & rest & -> & Hc)]; [done|]. cbn [masked_match]. by destruct Hc as [-> | ->].
    + cbn [masked_match]. rewrite (mask_all x Hx). by rewrite (not_first p x Hp Hx).
  - destruct pat as [|p pat]; [done|]. cbn [dead] in Hd. cbn [exact_match]. by rewrite (not_first p x Hd Hx).
  - destruct d as [|b [|c [|e rest]]]; try done. cbn [mp4_match].
    assert ((((x * 256 + b) * 256 + c) * 256 + e <=? N.of_nat (length (x :: b :: c :: e :: rest))) = false) as ->.
    { apply N.leb_gt. assert (9 <= x). { repeat (destruct Hx as [<-|Hx]); try contradiction; lia. } nia. }
    by rewrite andb_false_r.
  - done.
Qed.
Lemma omap_dead d l l' : (forall s, In s l -> sig_match d s = None) -> omap (sig_match d) (l ++ l') = omap (sig_match d) l'.
Proof. induction l as [|s l IH]=> H; [done|]. cbn. rewrite (H s); [by left|]. apply IH. intros s' Hs'. apply H. by right. Qed.

Definition lp_at_34 (body : text) : Prop := exists a b, body = a ++ "L"%char :: "P"%char :: b /\ length a = 34%nat.
Definition eot : signature := Masked (repeat 0 34 ++ [255; 255]) (repeat 0 34 ++ codes "LP") false font_type.
Lemma masked_lp n d : masked_match (repeat 0 n ++ [255; 255]) (repeat 0 n ++ [76; 80]) d = true <-> exists a b, d = a ++ b /\ length a = n /\ exists x y r, b = x :: y :: r /\ N.land x 255 = 76 /\ N.land y 255 = 80.
Proof.
  revert d. induction n as [|n IH]=> d; cbn [repeat app].
  - split.
    + destruct d as [|x [|y r]]; cbn; [done|by rewrite andb_false_r|]. rewrite andb_true_r. intros [H1 H2]%andb_true_iff. apply N.eqb_eq in H1, H2. exists [], (x :: y :: r). split; [done|]. split; [done|]. by exists x, y, r.
    + intros (a & b & -> & Ha & x & y & r & -> & H1 & H2). destruct a; [|done]. cbn [app masked_match]. by rewrite H1 H2.
  - destruct d as [|c d]; cbn [masked_match].
    + split; [done|]. intros (a & b & H & Ha & x & y & r & -> & _). by destruct a.
    + rewrite N.land_0_r N.eqb_refl andb_true_l IH. split.
      * intros (a & b & -> & <- & H). by exists (c :: a), b.
      * intros (a & b & H & Ha & Hb). destruct a as [|c' a]; [done|]. injection H as <- ->. injection Ha as Ha. by exists a, b.
Qed.
Lemma byte_land c : N.land (N_of_ascii c) 255 = N_of_ascii c.
Proof. change 255 with (N.ones 8). rewrite N.land_ones. apply N.mod_small, N_ascii_bounded. Qed.
Lemma eot_match body : sig_match (map N_of_ascii (firstn 512 body)) eot = Some font_type \/ sig_match (map N_of_ascii (firstn 512 body)) eot = None.
Proof. cbn [sig_match eot]. destruct (masked_match _ _ _); tauto. Qed.
Lemma eot_iff body : sig_match (map N_of_ascii (firstn 512 body)) eot = Some font_type <-> lp_at_34 body.
Proof.
  cbn [sig_match eot]. change (codes "LP") with [76; 80]. pose proof (masked_lp 34 (map N_of_ascii (firstn 512 body))) as Hm.
  transitivity (masked_match (repeat 0 34 ++ [255; 255]) (repeat 0 34 ++ [76; 80]) (map N_of_ascii (firstn 512 body)) = true).
  { destruct (masked_match _ _ _); [tauto|]. split; discriminate. }
  rewrite Hm. clear Hm. split.
  - intros (a & b & H & Ha & x & y & r & -> & Hx & Hy). apply map_eq_app in H as (a' & b' & H & <- & Hb). destruct b' as [|x' [|y' r']]; try done.
    cbn in Hb. injection Hb as <- <- <-. rewrite byte_land in Hx. rewrite byte_land in Hy. rewrite map_length in Ha.
    assert (x' = "L"%char) as ->. { rewrite -(ascii_N_embedding x') Hx. done. } assert (y' = "P"%char) as ->. { rewrite -(ascii_N_embedding y') Hy. done. }
    exists a', (r' ++ skipn 512 body). split; [|done]. rewrite -{1}(firstn_skipn 512 body) H -List.app_assoc. done.
  - intros (a & b & -> & Ha). rewrite firstn_app Ha. rewrite firstn_all2; [lia|]. change (512 - 34)%nat with 478%nat. rewrite map_app. eexists _, _. split; [reflexivity|]. rewrite map_length. split; [done|].
    eexists _, _, _. split; [reflexivity|]. done.
Qed.

(** C151 (JSON): an array or object in JSON, with any texts in it, is taken for plain text, or for a font if the letters LP are at
    the place of the mark of a font; for nothing else. *)
Theorem C151_json : forall lax body j, document lax body j -> container j ->
  (lp_at_34 body -> detect body = font_type) /\ (~ lp_at_34 body -> detect body = text_type).
Proof.
  intros lax body j Hdoc Hj. pose proof (plain_document _ _ _ Hdoc) as Hplain. destruct Hdoc as (w1 & t & w2 & -> & Hw1 & Hv & _).
  destruct (container_head _ _ _ Hv Hj) as (c & r & -> & Hc). set (body := w1 ++ (c :: r) ++ w2) in *.
  assert (exists x l, body = x :: l /\ In (N_of_ascii x) firsts) as (x & l & El & Hx). { apply first_byte; done. }
  assert (forall s, dead s = true -> sig_match (map N_of_ascii (firstn 512 body)) s = None) as Hdead.
  { intros s Hs. pose proof (skip_prefix body w1 c (r ++ w2) 512 eq_refl Hw1 Hc) as Hsk. rewrite El in Hsk |- *. change (firstn 512 (x :: l)) with (x :: firstn 511 l) in *. cbn [map] in *.
    apply dead_none; [done|done| |].
    - cbn [length]. rewrite map_length firstn_length. lia.
    - destruct Hsk as [->|[rest ->]]; [by left|]. right. by eexists _, _. }
  assert (sig_match (map N_of_ascii (firstn 512 body)) PlainText = Some text_type) as Htext.
  { cbn [sig_match]. assert (existsb is_binary (skip_space (map N_of_ascii (firstn 512 body))) = false) as ->; [|done].
    assert (Forall (fun n => is_binary n = false) (map N_of_ascii (firstn 512 body))) as Hf.
    { apply List.Forall_map. rewrite -(firstn_skipn 512 body) in Hplain. by apply List.Forall_app in Hplain as [H _]. }
    revert Hf. generalize (map N_of_ascii (firstn 512 body)). clear. induction 1 as [|n d Hn Hd IH]; [done|]. cbn [skip_space]. destruct (is_ws n); [done|]. cbn [existsb]. rewrite Hn. cbn.
    clear -Hd. induction Hd as [|m d Hm _ IH]; [done|]. cbn. by rewrite Hm. }
  assert (exists l1 l2, signatures = l1 ++ eot :: l2 ++ [PlainText] /\ (forall s, In s l1 -> dead s = true) /\ (forall s, In s l2 -> dead s = true)) as (l1 & l2 & Es & H1 & H2).
  { exists (firstn 39 signatures), (firstn 10 (skipn 40 signatures)). split; [by vm_compute|]. split; apply forallb_forall; by vm_compute. }
  rewrite /detect Es. rewrite omap_dead; [by eauto|]. cbn [omap list_omap]. fold (omap (M := list) (sig_match (map N_of_ascii (firstn 512 body)))).
  split.
  - intros H. apply eot_iff in H. by rewrite H.
  - intros H. destruct (eot_match body) as [E|E]; [exfalso; by apply H, eot_iff|]. rewrite E. rewrite omap_dead; [by eauto|]. cbn [omap list_omap]. by rewrite Htext.
Qed.
Print Assumptions C151_json.

(** ** The responses *)

(** C151 (pages): a rendered page is sent with status 200, as HTML, although its status is set before its type. *)
Theorem C151_pages : forall stack bad html w, unsent w -> exists h,
  served stack bad (APage html) w = (200%Z, h, html) /\ sent_type (200%Z, h, html) = Some html_type.
Proof.
  intros stack bad html [wh ws wb] [H1 H2]. cbn [w_sent w_body] in *. subst ws wb. rewrite /served. cbn [answer_ops fst snd].
  rewrite C65_succeeded_partial; [done|right; by vm_compute|]. change (produced_body (render_head ++ [HWrite html])) with (html +:+ "")%string. rewrite str_app_nil_r.
  eexists. split; [reflexivity|]. rewrite /sent_type.
  assert (forall h' : header, (produced_header (render_head ++ [HWrite html]) ∪ h') !! "Content-Type"%string = Some [html_type]) as Hct.
  { intros h'. apply lookup_union_Some_l. by vm_compute. }
  cbn [w_header]. destruct (decide (html = ""%string)); [|rewrite lookup_insert_ne; [done|]]; by rewrite Hct.
Qed.
Print Assumptions C151_pages.
(** C151 (errors): an error's text, whatever is in it, is sent with status 500 as plain text that the browser must not take for
    anything else; also when the page's type had been set. *)
Theorem C151_errors : forall stack bad a w, unsent w -> (exists msg, a = APageFails msg \/ a = AFails msg) -> exists h body,
  served stack bad a w = (500%Z, h, body) /\ sent_type (500%Z, h, body) = Some text_type /\ h !! "X-Content-Type-Options"%string = Some ["nosniff"%string].
Proof.
  intros stack bad a w Hw (msg & [-> | ->]); rewrite /served; cbn [answer_ops fst snd]; rewrite C65_failed; try done;
    (eexists _, _; split; [reflexivity|]; split; [|by rewrite /error_header lookup_insert]);
    rewrite /sent_type /error_header lookup_insert_ne; try done; by rewrite lookup_insert.
Qed.
Print Assumptions C151_errors.
Lemma sent_body stack bad body st ops w : unsent w -> no_type w -> body <> ""%string ->
  ops = [HWrite body] /\ st = 200%Z \/ ops = [HWriteHeader 404; HWrite body] /\ st = 404%Z ->
  exists h, w_response (serve_page stack bad ops PageOk w) = (st, h, body) /\ sent_type (st, h, body) = Some (detect (Base.bytes body)).
Proof.
  intros [H1 H2] (H3 & H4 & H5) Hb Hops. assert (produced_header ops = ∅ /\ produced_body ops = body /\ (st = if produced_status ops =? 0 then 200 else produced_status ops)%Z /\ (produced_status ops = 0 \/ produced_status ops = 404)%Z) as (E1 & E2 & -> & E3).
  { destruct Hops as [[-> ->]|[-> ->]]; (split; [done|]); (split; [apply str_app_nil_r|]); (split; [done|]); [by left|by right]. }
  rewrite C65_succeeded_partial; [done| |].
  { destruct E3 as [->| ->]; [by left|right; by vm_compute]. }
  rewrite E1 E2. eexists. split; [reflexivity|]. rewrite left_id_L. destruct (decide (body = _)) as [|_]; [done|]. rewrite /sent_type lookup_insert_ne; [done|]. rewrite H3. destruct (decide _) as [_|Hn]; [done|]. exfalso. apply Hn.
  split; [|split; [|done]].
  - rewrite /header_get. change (canonical_key "Content-Encoding") with "Content-Encoding"%string. rewrite lookup_insert_ne; [done|]. by rewrite H4.
  - by rewrite lookup_insert_ne.
Qed.
Lemma data_type stack bad lax body j w : unsent w -> no_type w -> document lax body j -> container j -> exists h t,
  served stack bad (AData body) w = (200%Z, h, unbytes body) /\ sent_type (200%Z, h, unbytes body) = Some t /\ (lp_at_34 body -> t = font_type) /\ (~ lp_at_34 body -> t = text_type).
Proof.
  intros Hw Ht Hd Hj. destruct (sent_body stack bad (unbytes body) 200 [HWrite (unbytes body)] w) as (h & E & Es); [done|done| |by left|].
  - intros E. apply (f_equal Base.bytes) in E. rewrite bytes_unbytes in E. destruct Hd as (w1 & t & w2 & -> & _ & Hv & _).
    destruct (container_head _ _ _ Hv Hj) as (c & r & -> & _). by destruct w1.
  - exists h, (detect body). rewrite bytes_unbytes in Es. split; [done|]. split; [done|]. exact (C151_json _ _ _ Hd Hj).
Qed.
(** C151 (data, proved part): a JSON array or object that a handler writes without a type is sent as plain text or, if its 35th and
    36th bytes are LP, as a font. *)
Theorem C151_data_partial : forall stack bad lax body j w, unsent w -> no_type w -> document lax body j -> container j -> exists h t,
  served stack bad (AData body) w = (200%Z, h, unbytes body) /\ sent_type (200%Z, h, unbytes body) = Some t /\
  (lp_at_34 body -> t = font_type) /\ (~ lp_at_34 body -> t = text_type).
Proof. exact data_type. Qed.
Print Assumptions C151_data_partial.
Lemma rows_nums rs : nums (JArr (map (row_json "/traces") rs)).
Proof. cbn [nums]. induction rs as [|r rs IH]; [done|]. split; [|exact IH]. cbn. repeat (split; [apply fmt_int_number || done|]). done. Qed.
(** C151 (the dashboard's data, proved part): whatever the names, for every Aggregator and query: plain text or a font, and never a
    page, a script, an image or XML. *)
Theorem C151_dashboard_partial : forall stack bad bf agg query msg w, unsent w -> no_type w -> exists st h body t,
  served stack bad (dash_answer msg (dashboard_data bf agg query)) w = (st, h, body) /\ sent_type (st, h, body) = Some t /\
  (t = text_type \/ t = font_type /\ lp_at_34 (Base.bytes body)).
Proof.
  intros stack bad bf agg query msg w Hw Ht. destruct (dashboard_data bf agg query) as [| |body] eqn:E; cbn [dash_answer].
  - destruct (sent_body stack bad "Dashboard is disabled." 404 [HWriteHeader 404; HWrite "Dashboard is disabled."] w) as (h & Eh & Es); [done|done|done|by right|].
    eexists _, h, _, _. split; [exact Eh|]. split; [exact Es|]. left. vm_compute. reflexivity.
  - destruct (C151_errors stack bad (AFails msg) w Hw) as (h & body & Eh & Es & _); [by eexists; right|]. eexists _, _, _, _. split; [exact Eh|]. split; [exact Es|]. by left.
  - assert (exists rs, body = print_compact bf (JArr (map (row_json "/traces") rs))) as (rs & ->).
    { rewrite /dashboard_data in E. destruct agg as [f|]; [|done]. destruct (window_bound _); [|done]. destruct (window_bound _); [|done]. destruct (f _ _) as [rs|]; [|done]. injection E as <-. by exists rs. }
    destruct (data_type stack bad false (print_compact bf (JArr (map (row_json "/traces") rs))) (san (JArr (map (row_json "/traces") rs))) w) as (h & t & Eh & Es & H1 & H2); [done|done| | |].
    + apply compact_document, rows_nums.
    + left. eexists. reflexivity.
    + eexists _, _, _, _. split; [exact Eh|]. split; [exact Es|]. rewrite bytes_unbytes. set (b := print_compact _ _) in *.
      destruct (eot_match b) as [Em|Em].
      * apply eot_iff in Em. right. auto.
      * left. apply H2. intros Hlp. apply eot_iff in Hlp. congruence.
Qed.
Print Assumptions C151_dashboard_partial.
(** C151 is false of the data: a root span's name with LP at its 25th byte makes the data a font. *)
Theorem C151_refuted : exists r, forall stack bad bf query, window_bound (query_get query "start") <> None -> window_bound (query_get query "end") <> None ->
  exists h body, served stack bad (dash_answer "" (dashboard_data bf (Some (fun _ _ => Some [r])) query)) (MkWriter ∅ None "") = (200%Z, h, body) /\
  sent_type (200%Z, h, body) = Some font_type.
Proof.
  exists (MkResult "Search your library for LPs" 1 1 1 1 1 [1]). intros stack bad bf query H1 H2.
  rewrite /dashboard_data. destruct (window_bound _); [|done]. destruct (window_bound _); [|done]. change (url_to TracesRoute) with (Some "/traces"%string). cbn [dash_answer].
  set (b := print_compact bf _).
  assert (b = Base.bytes "[{""Name"":""Search your library for LPs"",""Average"":0,""Min"":0,""Max"":0,""StdDev"":0,""Timespans"":1,""URL"":""/traces?show=0000000000000001""}]") as Eb by (destruct bf; by vm_compute).
  destruct (data_type stack bad false b (san (JArr (map (row_json "/traces") [MkResult "Search your library for LPs" 1 1 1 1 1 [1]]))) (MkWriter ∅ None "")) as (h & t & Eh & Es & Hlp & _).
  - done.
  - done.
  - apply compact_document, rows_nums.
  - left. eexists. reflexivity.
  - exists h, (unbytes b). split; [exact Eh|]. rewrite Es. f_equal. apply Hlp. exists (firstn 34 b), (skipn 36 b). rewrite Eb. by split.
Qed.
Print Assumptions C151_refuted.
Lemma ascii_chars lax s : Forall (fun c => 32 <= N_of_ascii c < 128 /\ N_of_ascii c <> 34 /\ N_of_ascii c <> 92) s -> string_chars lax s s.
Proof.
  induction 1 as [|c s (H1 & H2 & H3) _ IH]; [constructor|]. apply (SCs_cons lax [c] [c]); [|done]. apply (SC_plain lax (N_of_ascii c)); [constructor|..]; lia.
Qed.
(** Names with markup: an array of them is plain text, although a text that starts with them is a page. *)
Example C151_nonvacuous :
  detect (Base.bytes "<script>alert(1)</script>") = html_type /\
  (exists j, document false (Base.bytes "[{""Name"":""<script>alert(1)</script>""}]") j /\ container j) /\
  detect (Base.bytes "[{""Name"":""<script>alert(1)</script>""}]") = text_type /\
  unsent (MkWriter ∅ None "") /\ no_type (MkWriter ∅ None "").
Proof.
  split; [by vm_compute|]. split; [|split; [by vm_compute|done]]. eexists. split; [|left; by eexists].
  exists [], (Base.bytes "[{""Name"":""<script>alert(1)</script>""}]"), []. split; [done|]. split; [done|]. split; [|done].
  apply (V_arr false (Base.bytes "{""Name"":""<script>alert(1)</script>""}") [JObj [(Base.bytes "Name", JStr (Base.bytes "<script>alert(1)</script>"))]]).
  apply (E_one false [] (Base.bytes "{""Name"":""<script>alert(1)</script>""}") []); [done| |done].
  apply (V_obj false (Base.bytes """Name"":""<script>alert(1)</script>""")).
  apply (M_one false [] (Base.bytes "Name") (Base.bytes "Name") [] [] (Base.bytes """<script>alert(1)</script>""") []); try done.
  - apply ascii_chars. by repeat constructor.
  - apply (V_str false (Base.bytes "<script>alert(1)</script>")). apply ascii_chars. by repeat constructor.
Qed.
