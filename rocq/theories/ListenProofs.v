From Verif Require Import Base WireModel WireSpec WireProofs ListenModel ListenSpec.
From Coq Require Import ZifyBool ZifyNat ZifyN.

Lemma get_varint_more fuel : forall bs n r more, get_varint fuel bs = Some (n, r) -> get_varint fuel (bs ++ more) = Some (n, r ++ more).
Proof.
  induction fuel as [|fuel IH]; intros [|b bs] n r more; cbn [get_varint app]; try done.
  destruct (N_of_ascii b <? 128); [by intros [= <- <-]|].
  destruct (get_varint fuel bs) as [[h r']|] eqn:E; [|done]. intros [= <- <-]. by rewrite (IH _ _ _ more E).
Qed.
Lemma get_varint_none fuel : forall bs more, get_varint fuel bs = None -> (fuel <= length bs)%nat -> get_varint fuel (bs ++ more) = None.
Proof.
  induction fuel as [|fuel IH]; intros [|b bs] more; cbn [get_varint app length]; try done; [lia|].
  destruct (N_of_ascii b <? 128); [done|]. destruct (get_varint fuel bs) as [[h r']|] eqn:E; [done|]. intros _ Hl. by rewrite IH by (done || lia).
Qed.

Definition read_more (r : read) (more : bytes) : read := match r with RMsg p rest => RMsg p (rest ++ more) | r => r end.

(** Once ReadMsg returns, later bytes do not change what it returned. *)
Lemma read_now_sound L buf eof r more : read_now L buf eof = Some r -> (eof = true -> more = []) ->
  read_msg L (buf ++ more) = read_more r more.
Proof.
  unfold read_now. destruct eof.
  { intros [= <-] Hm. rewrite (Hm eq_refl), app_nil_r. destruct (read_msg L buf); cbn; by rewrite ?app_nil_r. }
  intros H _. destruct buf as [|b buf]; [done|]. revert H.
  destruct (get_varint 10 (b :: buf)) as [[n q]|] eqn:E; intros H.
  - unfold read_msg. cbn [app]. pose proof (get_varint_more _ _ _ _ more E) as E'. cbn [app] in E'. rewrite E'.
    destruct (two64 <=? n) eqn:E1; [by simplify_eq|]. destruct (max_message <? n) eqn:E2; [by simplify_eq|].
    destruct (N.of_nat (length q) <? n) eqn:E3; [done|]. assert (r = read_msg L (b :: buf)) as -> by congruence. unfold read_msg. rewrite E, E1, E2, E3.
    rewrite app_length. assert (N.of_nat (length q + length more) <? n = false) as -> by lia.
    rewrite take_app_le, drop_app_le by lia. by destruct (unmarshal L _).
  - destruct (length (b :: buf) <? 10)%nat eqn:E1; [done|]. injection H as <-.
    pose proof (get_varint_none _ _ more E ltac:(lia)) as E'. unfold read_msg. cbn [app] in *. rewrite E'.
    assert ((length (b :: buf ++ more) <? 10)%nat = false) as -> by (cbn [length] in *; rewrite app_length; lia). by rewrite andb_false_r.
Qed.

Lemma get_varint_shorter fuel : forall bs n r, get_varint fuel bs = Some (n, r) -> (length r < length bs)%nat.
Proof.
  induction fuel as [|fuel IH]; intros [|b bs] n r; cbn [get_varint length]; try done.
  destruct (N_of_ascii b <? 128); [intros [= _ <-]; lia|]. destruct (get_varint fuel bs) as [[h r']|] eqn:E; [|done]. intros [= _ <-]. apply IH in E. lia.
Qed.
Lemma read_shorter L bs p rest : read_msg L bs = RMsg p rest -> (length rest < length bs)%nat.
Proof.
  unfold read_msg. destruct bs as [|b bs]; [done|]. destruct (get_varint 10 (b :: bs)) as [[n r]|] eqn:E; [|by destruct (_ && _)].
  destruct (two64 <=? n); [done|]. destruct (max_message <? n); [done|]. destruct (N.of_nat (length r) <? n); [by destruct r|].
  destruct (unmarshal L _); [|done]. intros [= _ <-]. apply get_varint_shorter in E. rewrite drop_length. lia.
Qed.

(** The history of one connection, seen from its end. *)
Definition conn_ok (L : lib) (coll : list wcall -> wcall -> bool) (got : bytes) (calls : list wcall) (k : lconn) : Prop :=
  forall more, (lc_eof k = true -> more = []) ->
    match lc_end k with
    | Some r => handle_conn L coll (got ++ more) = (calls, r)
    | None => exists f, (length (lc_buf k ++ more) < f)%nat /\ handle_conn L coll (got ++ more) = handle L coll f calls (lc_buf k ++ more)
    end.

Lemma received_app c tr1 tr2 : received c (tr1 ++ tr2) = received c tr1 ++ received c tr2.
Proof. induction tr1 as [|[] tr1 IH]; cbn; auto. destruct (_ =? _)%nat; [|done]. by rewrite IH, app_assoc. Qed.

Definition inv (L : lib) (coll : list wcall -> wcall -> bool) (tr : list slabel) (s : server) : Prop :=
  (forall c, match sv_conns s !! c with
     | None => received c tr = [] /\ calls_of c s = [] /\ ~ closed c tr
     | Some k => conn_ok L coll (received c tr) (calls_of c s) k /\ (closed c tr <-> lc_eof k = true)
     end) /\
  (sv_crashed s = true <-> exists c k, sv_conns s !! c = Some k /\ lc_end k = Some HPanic).

Lemma calls_of_snoc c c' w conns cs b : calls_of c (MkServer conns (cs ++ [(c', w)]) b) = map snd (List.filter (fun x => (fst x =? c)%nat) cs) ++ (if (c' =? c)%nat then [w] else []).
Proof. unfold calls_of. cbn. rewrite List.filter_app, map_app. cbn. by destruct (c' =? c)%nat. Qed.

Lemma closed_snoc c tr l : closed c (tr ++ [l]) <-> closed c tr \/ l = LClose c.
Proof. unfold closed. rewrite in_app_iff. cbn. naive_solver. Qed.

Lemma inv_step L coll tr s l s' : inv L coll tr s -> sv_step L coll l s = Some s' -> inv L coll (tr ++ [l]) s'.
Proof.
  intros [Hc Hcr] Hs. unfold sv_step in Hs. destruct (sv_crashed s) eqn:Es; [done|].
  assert (forall c k, sv_conns s !! c = Some k -> lc_end k <> Some HPanic) as Hnp.
  { intros c k Hk He. assert (false = true) by (apply Hcr; eauto). done. }
  destruct l as [|c|c bs|c|c].
  - injection Hs as <-. split; [|by rewrite Es]. intros c. specialize (Hc c). rewrite received_app. cbn. rewrite app_nil_r.
    destruct (sv_conns s !! c); rewrite closed_snoc; naive_solver.
  - destruct (sv_conns s !! c) eqn:Ek; [done|]. injection Hs as <-. split.
    + intros d. specialize (Hc d). rewrite received_app. cbn [received set_conn sv_conns]. rewrite app_nil_r. destruct (decide (d = c)) as [->|Hd].
      * rewrite lookup_insert. rewrite Ek in Hc. destruct Hc as (-> & Hca & Hcl). change (calls_of c (set_conn c (MkLConn [] false None) s)) with (calls_of c s). rewrite Hca.
        split; [|rewrite closed_snoc; naive_solver]. intros more _. cbn. exists (S (length more)). split; [lia|done].
      * rewrite lookup_insert_ne by done. change (calls_of d (set_conn c (MkLConn [] false None) s)) with (calls_of d s). destruct (sv_conns s !! d); rewrite closed_snoc; naive_solver.
    + cbn. rewrite Es. split; [done|]. intros (d & k & Hk & He). destruct (decide (d = c)) as [->|Hd].
      * rewrite lookup_insert in Hk. injection Hk as <-. done.
      * rewrite lookup_insert_ne in Hk by done. by apply Hnp in Hk.
  - destruct (sv_conns s !! c) as [k|] eqn:Ek; [|done]. destruct (lc_eof k) eqn:Ee; [done|]. injection Hs as <-. split.
    + intros d. specialize (Hc d). rewrite received_app. cbn [received set_conn sv_conns].
      change (calls_of d (set_conn c (MkLConn (lc_buf k ++ bs) false (lc_end k)) s)) with (calls_of d s). destruct (decide (d = c)) as [->|Hd].
      * rewrite Nat.eqb_refl, lookup_insert, app_nil_r. rewrite Ek in Hc. destruct Hc as [Hk Hcl]. split; [|rewrite Ee in Hcl; rewrite closed_snoc; cbn; naive_solver].
        intros more _. specialize (Hk (bs ++ more)). cbn. rewrite <- !app_assoc. apply Hk. congruence.
      * rewrite lookup_insert_ne by done. destruct (c =? d)%nat eqn:E; [lia|]. rewrite app_nil_r. destruct (sv_conns s !! d); rewrite closed_snoc; naive_solver.
    + cbn. rewrite Es. split; [done|]. intros (d & k' & Hk & He). destruct (decide (d = c)) as [->|Hd].
      * rewrite lookup_insert in Hk. injection Hk as <-. cbn in He. by apply Hnp in Ek.
      * rewrite lookup_insert_ne in Hk by done. by apply Hnp in Hk.
  - destruct (sv_conns s !! c) as [k|] eqn:Ek; [|done]. destruct (lc_eof k) eqn:Ee; [done|]. injection Hs as <-. split.
    + intros d. specialize (Hc d). rewrite received_app. cbn [received set_conn sv_conns]. rewrite app_nil_r.
      change (calls_of d (set_conn c (MkLConn (lc_buf k) true (lc_end k)) s)) with (calls_of d s). destruct (decide (d = c)) as [->|Hd].
      * rewrite lookup_insert. rewrite Ek in Hc. destruct Hc as [Hk Hcl]. split; [|rewrite closed_snoc; cbn; naive_solver].
        intros more Hm. cbn in Hm. specialize (Hk more). cbn. apply Hk. congruence.
      * rewrite lookup_insert_ne by done. destruct (sv_conns s !! d); rewrite closed_snoc; naive_solver.
    + cbn. rewrite Es. split; [done|]. intros (d & k' & Hk & He). destruct (decide (d = c)) as [->|Hd].
      * rewrite lookup_insert in Hk. injection Hk as <-. cbn in He. by apply Hnp in Ek.
      * rewrite lookup_insert_ne in Hk by done. by apply Hnp in Hk.
  - destruct (sv_conns s !! c) as [k|] eqn:Ek; [|done]. destruct (lc_end k) eqn:En; [done|]. destruct (read_now L (lc_buf k) (lc_eof k)) as [r|] eqn:Er; [|done].
    injection Hs as <-.
    assert (forall d, received d (tr ++ [LHandle c]) = received d tr) as Hrc. { intros d. rewrite received_app. cbn. by rewrite app_nil_r. }
    assert (forall d, closed d (tr ++ [LHandle c]) <-> closed d tr) as Hcl. { intros d. rewrite closed_snoc. naive_solver. }
    pose proof (Hc c) as Hcc. rewrite Ek in Hcc. destruct Hcc as [Hk Hke]. unfold conn_ok in Hk. rewrite En in Hk.
    assert (forall more, (lc_eof k = true -> more = []) -> read_msg L (lc_buf k ++ more) = read_more r more) as Hread by (intros more; by apply read_now_sound).
    destruct r as [p rest| |]; cbn [handle_round].
    + cbn [read_more] in Hread. destruct (span_from_wire (wp_span p)) as [id|] eqn:Ei; [destruct (anns_from_wire (wp_anns p)) as [anns|] eqn:Ea|].
      * split.
        -- intros d. specialize (Hc d). rewrite Hrc. rewrite calls_of_snoc. fold (calls_of d s). cbn [sv_conns]. destruct (decide (d = c)) as [->|Hd].
           ++ rewrite lookup_insert, Nat.eqb_refl. split; [|by rewrite Hcl]. intros more Hm. cbn in Hm. destruct (Hk more Hm) as (f & Hf & Hh). cbn.
              destruct f as [|f]; [lia|]. cbn [handle] in Hh. rewrite (Hread more Hm), Ei, Ea in Hh.
              destruct (coll (calls_of c s) (id, anns)); [|done]. exists f. split; [|done].
              pose proof (read_shorter _ _ _ _ (Hread more Hm)). lia.
           ++ rewrite lookup_insert_ne by done. destruct (c =? d)%nat eqn:E; [lia|]. rewrite app_nil_r. destruct (sv_conns s !! d); by rewrite Hcl.
        -- cbn. rewrite Es. split; [done|]. intros (d & k' & Hk' & He). destruct (decide (d = c)) as [->|Hd].
           ++ rewrite lookup_insert in Hk'. injection Hk' as <-. cbn in He. by destruct (coll _ _).
           ++ rewrite lookup_insert_ne in Hk' by done. by apply Hnp in Hk'.
      * split.
        -- intros d. specialize (Hc d). rewrite Hrc. change (calls_of d (MkServer _ (sv_calls s) _)) with (calls_of d s). cbn [sv_conns]. destruct (decide (d = c)) as [->|Hd].
           ++ rewrite lookup_insert. split; [|by rewrite Hcl]. intros more Hm. cbn in Hm. destruct (Hk more Hm) as (f & Hf & Hh). cbn.
              destruct f as [|f]; [lia|]. cbn [handle] in Hh. by rewrite (Hread more Hm), Ei, Ea in Hh.
           ++ rewrite lookup_insert_ne by done. destruct (sv_conns s !! d); by rewrite Hcl.
        -- cbn. split; [|done]. intros _. exists c. rewrite lookup_insert. eexists; split; reflexivity.
      * split.
        -- intros d. specialize (Hc d). rewrite Hrc. change (calls_of d (MkServer _ (sv_calls s) _)) with (calls_of d s). cbn [sv_conns]. destruct (decide (d = c)) as [->|Hd].
           ++ rewrite lookup_insert. split; [|by rewrite Hcl]. intros more Hm. cbn in Hm. destruct (Hk more Hm) as (f & Hf & Hh). cbn.
              destruct f as [|f]; [lia|]. cbn [handle] in Hh. by rewrite (Hread more Hm), Ei in Hh.
           ++ rewrite lookup_insert_ne by done. destruct (sv_conns s !! d); by rewrite Hcl.
        -- cbn. split; [|done]. intros _. exists c. rewrite lookup_insert. eexists; split; reflexivity.
    + split.
      * intros d. specialize (Hc d). rewrite Hrc. change (calls_of d (set_conn _ _ s)) with (calls_of d s). cbn [sv_conns set_conn]. destruct (decide (d = c)) as [->|Hd].
        -- rewrite lookup_insert. split; [|by rewrite Hcl]. intros more Hm. cbn in Hm. destruct (Hk more Hm) as (f & Hf & Hh). cbn.
           destruct f as [|f]; [lia|]. cbn [handle] in Hh. by rewrite (Hread more Hm) in Hh.
        -- rewrite lookup_insert_ne by done. destruct (sv_conns s !! d); by rewrite Hcl.
      * cbn. rewrite Es. split; [done|]. intros (d & k' & Hk' & He). destruct (decide (d = c)) as [->|Hd].
        -- rewrite lookup_insert in Hk'. injection Hk' as <-. done.
        -- rewrite lookup_insert_ne in Hk' by done. by apply Hnp in Hk'.
    + split.
      * intros d. specialize (Hc d). rewrite Hrc. change (calls_of d (set_conn _ _ s)) with (calls_of d s). cbn [sv_conns set_conn]. destruct (decide (d = c)) as [->|Hd].
        -- rewrite lookup_insert. split; [|by rewrite Hcl]. intros more Hm. cbn in Hm. destruct (Hk more Hm) as (f & Hf & Hh). cbn.
           destruct f as [|f]; [lia|]. cbn [handle] in Hh. by rewrite (Hread more Hm) in Hh.
        -- rewrite lookup_insert_ne by done. destruct (sv_conns s !! d); by rewrite Hcl.
      * cbn. rewrite Es. split; [done|]. intros (d & k' & Hk' & He). destruct (decide (d = c)) as [->|Hd].
        -- rewrite lookup_insert in Hk'. injection Hk' as <-. done.
        -- rewrite lookup_insert_ne in Hk' by done. by apply Hnp in Hk'.
Qed.

Lemma inv_run L coll tr s : sv_run L coll tr sv_init = Some s -> inv L coll tr s.
Proof.
  assert (forall tr2 tr1 s0, inv L coll tr1 s0 -> sv_run L coll tr2 s0 = Some s -> inv L coll (tr1 ++ tr2) s) as H.
  { induction tr2 as [|l tr2 IH]; intros tr1 s0 Hi; cbn [sv_run].
    - intros [= <-]. by rewrite app_nil_r.
    - destruct (sv_step L coll l s0) as [s1|] eqn:E; [|done]. intros Hr. replace (tr1 ++ l :: tr2) with ((tr1 ++ [l]) ++ tr2) by (by rewrite <- app_assoc).
      eapply IH; [|done]. by eapply inv_step. }
  intros Hr. apply (H tr [] sv_init); [|done]. split.
  - intros c. cbn. rewrite lookup_empty. split_and!; try done. intros [].
  - cbn. split; [done|]. intros (c & k & Hk & _). by rewrite lookup_empty in Hk.
Qed.

(** [handle] only ever adds to what was collected. *)
Lemma handle_extends L coll f : forall dn bs, exists cs, fst (handle L coll f dn bs) = dn ++ cs.
Proof.
  induction f as [|f IH]; intros dn bs; cbn [handle]; [exists []; cbn; by rewrite app_nil_r|].
  destruct (read_msg L bs); try (exists []; cbn; by rewrite app_nil_r).
  destruct (span_from_wire _) as [id|]; [|exists []; cbn; by rewrite app_nil_r]. destruct (anns_from_wire _) as [anns|]; [|exists []; cbn; by rewrite app_nil_r].
  destruct (coll _ _); [|by exists [(id, anns)]]. destruct (IH (dn ++ [(id, anns)]) rest) as [cs ->]. exists ((id, anns) :: cs). by rewrite <- app_assoc.
Qed.

(** A handler that waits has nothing complete in front of it: were the connection to end, no call would be added. *)
Lemma blocked_nothing L buf : read_now L buf false = None -> forall p rest, read_msg L buf <> RMsg p rest.
Proof.
  unfold read_now. destruct buf as [|b buf]; [done|]. unfold read_msg. destruct (get_varint 10 (b :: buf)) as [[n r]|].
  - destruct (two64 <=? n); [done|]. destruct (max_message <? n); [done|]. destruct (N.of_nat (length r) <? n); [|done]. by destruct r.
  - by destruct (_ && _).
Qed.
