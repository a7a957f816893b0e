(** Property C69 (basic authentication). *)
From Verif Require Import Base IdModel TimeModel ReflModel EventModel RecorderModel HttpModel PageModel PageSpec Base64Model Base64Proofs AuthModel.
From Coq Require Import ssreflect.
Local Open Scope general_if_scope.

Lemma diff_zero v x y : length x = length y -> (diff_bits v x y = 0 <-> v = 0 /\ x = y).
Proof.
  revert v y. induction x as [|a x IH]; intros v [|b y] Hl; cbn [length] in Hl; [cbn; tauto|lia|lia|]. cbn [diff_bits].
  rewrite IH; [lia|]. rewrite N.lor_eq_0_iff. split.
  - intros [[-> E] ->]. apply N.lxor_eq in E. split; [done|]. f_equal. by rewrite -(ascii_N_embedding a) E ascii_N_embedding.
  - intros [-> [= -> ->]]. by rewrite N.lxor_nilpotent.
Qed.
Lemma compare_spec x y : constant_time_compare x y = 1 <-> x = y.
Proof.
  rewrite /constant_time_compare. destruct (Nat.eqb_spec (length x) (length y)) as [Hl|Hl].
  - destruct (N.eqb_spec (diff_bits 0 x y) 0) as [E|E].
    + apply (diff_zero 0 x y Hl) in E. tauto.
    + split; [done|]. intros ->. destruct E. by apply diff_zero.
  - split; [done|]. by intros ->.
Qed.
Lemma bytes_inj a b : bytes a = bytes b -> a = b.
Proof. revert b. induction a as [|c a IH]; intros [|d b]; cbn [bytes]; [done..|]. intros [= -> H]. by rewrite (IH b). Qed.
Lemma unbytes_inj a b : unbytes a = unbytes b -> a = b.
Proof. revert b. induction a as [|c a IH]; intros [|d b]; cbn [unbytes]; [done..|]. intros [= -> H]. by rewrite (IH b). Qed.
Lemma unbytes_bytes s : unbytes (bytes s) = s. Proof. induction s as [|c s IH]; [done|]. cbn. by rewrite IH. Qed.
Lemma unbytes_app a b : unbytes (a ++ b) = (unbytes a +:+ unbytes b)%string. Proof. induction a as [|c a IH]; [done|]. cbn. by rewrite IH. Qed.
Lemma b64_std_inj a b : b64_std a = b64_std b -> a = b.
Proof. intros H. apply bytes_inj. apply (b64_inj _ alpha_std true). by apply unbytes_inj. Qed.

Lemma admitted want app req w : (serve_auth want app req w).1 = true <-> header_get req "authorization" = want.
Proof.
  rewrite /serve_auth. set (hdr := header_get req "authorization"). destruct (Nat.eqb_spec (String.length want) (String.length hdr)) as [Hl|Hl]; cbn [andb].
  - destruct (N.eqb_spec (constant_time_compare (bytes want) (bytes hdr)) 1) as [E|E]; cbn [fst].
    + apply compare_spec, bytes_inj in E. split; [congruence|done].
    + split; [done|]. intros <-. destruct E. by apply compare_spec.
  - split; [done|]. by intros <-.
Qed.
Lemma cut_spec l a b : cut_colon l = Some (a, b) -> l = a ++ ":"%char :: b.
Proof.
  revert a. induction l as [|c l IH]; intros a; [done|]. cbn [cut_colon]. destruct (Ascii.eqb_spec c ":") as [->|].
  - by intros [= <- <-].
  - destruct (cut_colon l) as [[x y]|]; [|done]. cbn [mbind option_bind]. intros [= <- ->]. cbn [app]. by rewrite (IH x).
Qed.

(** C69: with --basic-auth opt, the server starts, requiring authentication, iff opt is user:passwd, neither part being
    empty and the user being what precedes the first colon; the application then sees a request iff the (first)
    Authorization value is exactly "Basic " and the base64 of opt. *)
Theorem C69_admits : forall opt app req w seen w', opt <> ""%string -> serve_web opt app req w = Some (seen, w') ->
  (seen = true <-> header_get req "Authorization" = ("Basic " +:+ b64_std opt)%string) /\ (seen = true -> w' = app req w).
Proof.
  intros opt app req w seen w' Hopt. rewrite /serve_web /setup_auth. destruct (decide (opt = ""%string)) as [|_]; [done|].
  destruct (cut_colon (bytes opt)) as [[u p]|] eqn:E; [|done]. destruct (_ || _); [done|]. intros [= H].
  apply cut_spec in E. assert (unbytes u +:+ ":" +:+ unbytes p = opt)%string as Ho.
  { rewrite -(unbytes_bytes opt) E unbytes_app. done. }
  split.
  - transitivity ((serve_auth (auth_want (unbytes u) (unbytes p)) app req w).1 = true); [by rewrite H|]. rewrite admitted /auth_want Ho. done.
  - intros ->. revert H. rewrite /serve_auth. destruct (_ && _); congruence.
Qed.
Print Assumptions C69_admits.
(** C69: all others get status 401 and no byte of the application. *)
Theorem C69_rejects : forall opt app app' req w w', unsent w -> serve_web opt app req w = Some (false, w') ->
  w_response w' = (401%Z, <["X-Content-Type-Options"%string := ["nosniff"%string]]> (<["Content-Type"%string := ["text/plain; charset=utf-8"%string]]>
    (<["Www-Authenticate"%string := ["Basic realm=""appdash"""%string]]> (w_header w))), ("unauthorized" +:+ String (ascii_of_N 10) EmptyString)%string) /\
  serve_web opt app' req w = Some (false, w').
Proof.
  intros opt app app' req [h s b] w' [H1 H2]. cbn [w_sent w_body w_header] in *. subst. rewrite /serve_web. destruct (setup_auth opt) as [| |u p]; [done..|].
  rewrite /serve_auth. destruct (_ && _); [done|]. intros [= <-]. done.
Qed.
Print Assumptions C69_rejects.
(** C69: when the server requires authentication. *)
Theorem C69_starts : forall opt, (exists user passwd, setup_auth opt = AuthBasic user passwd) <->
  exists user passwd, opt = (user +:+ ":" +:+ passwd)%string /\ user <> ""%string /\ passwd <> ""%string /\ ~ In ":"%char (bytes user).
Proof.
  intros opt. rewrite /setup_auth.
  assert (forall l a b, cut_colon l = Some (a, b) -> ~ In ":"%char a) as Hno.
  { induction l as [|c l IH]; intros a b; [done|]. cbn [cut_colon]. destruct (Ascii.eqb_spec c ":") as [->|Hne].
    - by intros [= <- <-].
    - destruct (cut_colon l) as [[x y]|] eqn:E; [|done]. cbn [mbind option_bind]. intros [= <- ->] [H|H]; [congruence|]. by apply (IH x b). }
  assert (forall a b, ~ In ":"%char a -> cut_colon (a ++ ":"%char :: b) = Some (a, b)) as Hcut.
  { induction a as [|c a IH]; intros b H; [done|]. cbn [app cut_colon]. destruct (Ascii.eqb_spec c ":") as [->|Hne]; [destruct H; by left|].
    rewrite IH; [|done]. intros Hin. apply H. by right. }
  assert (forall a b, bytes (a +:+ b) = bytes a ++ bytes b) as Hbapp. { induction a as [|c a IH]; intros b; [done|]. cbn. by rewrite IH. }
  split.
  - intros (user & passwd & H). destruct (decide (opt = ""%string)) as [|Hopt]; [done|]. destruct (cut_colon (bytes opt)) as [[u p]|] eqn:E; [|done].
    destruct (bool_decide_reflect (u = [])) as [|Hu]; [done|]. destruct (bool_decide_reflect (p = [])) as [|Hp]; [done|]. cbn [orb] in H. injection H as <- <-.
    exists (unbytes u), (unbytes p). pose proof (cut_spec _ _ _ E) as Es. split_and!.
    + rewrite -(unbytes_bytes opt) Es unbytes_app. done.
    + by destruct u.
    + by destruct p.
    + assert (bytes (unbytes u) = u) as ->; [|exact (Hno _ _ _ E)]. clear. induction u as [|c u IH]; [done|]. cbn. by rewrite IH.
  - intros (user & passwd & -> & Hu & Hp & Hc). exists user, passwd. rewrite decide_False; [by destruct user|].
    rewrite Hbapp. cbn [bytes String.append app]. rewrite (Hcut _ _ Hc). destruct (bool_decide_reflect (bytes user = [])) as [E|_]; [by destruct user|].
    destruct (bool_decide_reflect (bytes passwd = [])) as [E|_]; [by destruct passwd|]. cbn [orb]. by rewrite !unbytes_bytes.
Qed.
Print Assumptions C69_starts.
(** C69: distinct credentials never share a header value. *)
Theorem C69_distinct : forall opt opt', ("Basic " +:+ b64_std opt)%string = ("Basic " +:+ b64_std opt')%string -> opt = opt'.
Proof. intros opt opt' H. apply str_app_inv_head in H. by apply b64_std_inj. Qed.
Print Assumptions C69_distinct.
Example C69_nonvacuous : forall app w,
  serve_web "Aladdin:open sesame" app {["Authorization"%string := ["Basic QWxhZGRpbjpvcGVuIHNlc2FtZQ=="%string]]} w =
    Some (true, app {["Authorization"%string := ["Basic QWxhZGRpbjpvcGVuIHNlc2FtZQ=="%string]]} w) /\
  (exists w', serve_web "Aladdin:open sesame" app {["Authorization"%string := ["Basic QWxhZGRpbjpvcGVuIHNlc2FtZQ="%string]]} w = Some (false, w')) /\
  (exists w', serve_web "Aladdin:open sesame" app ∅ w = Some (false, w')) /\
  serve_web "Aladdin" app ∅ w = None /\ serve_web "" app ∅ w = Some (true, app ∅ w).
Proof. intros. split_and!; [reflexivity|eexists; reflexivity|eexists; reflexivity|reflexivity|reflexivity]. Qed.
