(** Proofs about headers and redaction. *)
From Verif Require Import Base StrOrder IdModel IdSpec IdProofs ReflModel HttpModel HttpSpec.
From Coq Require Import ssreflect.

(** ** Names *)
Lemma to_lower_spec c : to_lower c = lower_case c.
Proof. done. Qed.
Lemma same_name_sym a b : same_name a b -> same_name b a.
Proof. by intros H. Qed.
Lemma is_redacted_spec names k : is_redacted names k = true <-> secret names k.
Proof.
  rewrite /is_redacted /secret existsb_exists Exists_exists. split.
  - intros (x & Hx & Hf). exists x. split; first by apply elem_of_list_In. by apply bool_decide_eq_true_1 in Hf.
  - intros (x & Hx & Hf). exists x. split; first by apply elem_of_list_In. by apply bool_decide_eq_true_2.
Qed.
Lemma secret_same names a b : same_name a b -> secret names a -> secret names b.
Proof. rewrite /secret !Exists_exists. intros H (x & Hx & Hs). exists x. split; first done. rewrite /same_name -H. done. Qed.

(** Facts about single bytes, by cases on the 256 bytes. *)
Definition all_bytes : list ascii := map ascii_of_nat (seq 0 256).
Lemma byte_cases (f : ascii -> bool) : forallb f all_bytes = true -> forall c, f c = true.
Proof.
  intros H c. rewrite forallb_forall in H. apply H. rewrite -(ascii_nat_embedding c). apply in_map, in_seq.
  split; first lia. apply nat_ascii_bounded.
Qed.
Lemma lower_upper c : to_lower (to_upper c) = to_lower c.
Proof. apply Ascii.eqb_eq. apply (byte_cases (fun c => Ascii.eqb (to_lower (to_upper c)) (to_lower c))). by vm_compute. Qed.
Lemma lower_lower c : to_lower (to_lower c) = to_lower c.
Proof. apply Ascii.eqb_eq. apply (byte_cases (fun c => Ascii.eqb (to_lower (to_lower c)) (to_lower c))). by vm_compute. Qed.

Lemma canonical_loop_same u l : map to_lower (canonical_loop u l) = map to_lower l.
Proof.
  revert u. induction l as [|c l IH]=> u; first done. cbn. rewrite IH. f_equal. destruct u; [apply lower_upper|apply lower_lower].
Qed.
Lemma canonical_same k : same_name (canonical_key k) k.
Proof.
  rewrite /canonical_key /same_name. destruct (forallb _ _); last done. rewrite bytes_unbytes. apply canonical_loop_same.
Qed.

(** ** The loops of redactHeaders *)
Section fold.
  Context {A : Type} (f : string -> A -> option A -> A).
  Definition put (m : gmap string A) (kv : string * A) : gmap string A := <[fst kv := f (fst kv) (snd kv) (m !! fst kv)]> m.
  Lemma fold_put l m k : NoDup (map fst l) ->
    fold_left put l m !! k = match list_find (fun kv => fst kv = k) l with Some (_, (_, v)) => Some (f k v (m !! k)) | None => m !! k end.
  Proof.
    revert m. induction l as [|[k' v] l IH]=> m; first done. cbn. intros [Hn Hnd]%NoDup_cons. rewrite IH // /put /=.
    case_decide as Hk.
    - subst k'. destruct (list_find _ l) as [[i [k' v']]|] eqn:Hf; cbn; last by rewrite lookup_insert.
      apply list_find_Some in Hf as (Hi & <- & _). exfalso. apply Hn. apply elem_of_list_fmap. exists (k', v').
      split; first done. exact (elem_of_list_lookup_2 _ _ _ Hi).
    - destruct (list_find _ l) as [[i [k'' v']]|] eqn:Hf; cbn; by rewrite lookup_insert_ne.
  Qed.
  Lemma fold_put_map (h m : gmap string A) o k : Permutation o (map_to_list h) ->
    fold_left put o m !! k = match h !! k with Some v => Some (f k v (m !! k)) | None => m !! k end.
  Proof.
    intros Hp. assert (NoDup (map fst o)) as Hnd.
    { rewrite Hp. apply NoDup_fst_map_to_list. }
    rewrite fold_put //. destruct (list_find _ o) as [[i [k' v]]|] eqn:Hf.
    - apply list_find_Some in Hf as (Hi & Hk & _). cbn in Hk. subst k'. apply elem_of_list_lookup_2 in Hi. rewrite Hp in Hi.
      apply elem_of_map_to_list in Hi. by rewrite Hi.
    - destruct (h !! k) as [v|] eqn:Hh; last done. exfalso.
      apply list_find_None in Hf. rewrite Forall_forall in Hf. apply elem_of_map_to_list in Hh. rewrite -Hp in Hh. by apply (Hf _ Hh).
  Qed.
End fold.

(** The header after both loops. *)
Definition merged (names : list string) (hdr trailer : gmap string (list string)) (k : string) : option (list string) :=
  match hdr !! k, trailer !! k with
  | None, None => None
  | a, b => Some (if is_redacted names k then redacted else default [] a ++ default [] b)
  end.
Lemma loops_merged names hdr trailer o1 o2 k : Permutation o1 (map_to_list hdr) -> Permutation o2 (map_to_list trailer) ->
  fold_left (redact_trailer names) o2 (fold_left (redact_header names) o1 ∅) !! k = merged names hdr trailer k.
Proof.
  intros H1 H2.
  pose proof (fold_put_map (fun k v o => if is_redacted names k then redacted else default [] o ++ v) trailer
    (fold_left (redact_header names) o1 ∅) o2 k H2) as E2.
  pose proof (fold_put_map (fun k v _ => if is_redacted names k then redacted else v) hdr ∅ o1 k H1) as E1.
  change (fold_left (redact_trailer names) o2 (fold_left (redact_header names) o1 ∅) !! k =
    match trailer !! k with
    | Some v => Some (if is_redacted names k then redacted else default [] (fold_left (redact_header names) o1 ∅ !! k) ++ v)
    | None => fold_left (redact_header names) o1 ∅ !! k
    end) in E2.
  change (fold_left (redact_header names) o1 ∅ !! k =
    match hdr !! k with Some v => Some (if is_redacted names k then redacted else v) | None => (∅ : header) !! k end) in E1.
  rewrite E2 E1 /merged lookup_empty.
  destruct (hdr !! k), (trailer !! k); cbn; destruct (is_redacted names k); cbn; rewrite ?app_nil_r //.
Qed.

(** The last loop. *)
Lemma join_fold (h : gmap string (list string)) o : Permutation o (map_to_list h) ->
  let m := fold_left join_header o ∅ in
  (forall c x, m !! c = Some x -> exists k v, h !! k = Some v /\ canonical_key k = c /\ x = join "," v) /\
  (forall k v, h !! k = Some v -> is_Some (m !! canonical_key k)).
Proof.
  intros Hp.
  assert (let m := fold_left join_header o ∅ in
    (forall c x, m !! c = Some x -> exists k v, (k, v) ∈ o /\ canonical_key k = c /\ x = join "," v) /\
    (forall k v, (k, v) ∈ o -> is_Some (m !! canonical_key k))) as [H1 H2].
  { clear Hp. induction o as [|[k v] o IH] using rev_ind.
    - split; [intros c x; cbn; by rewrite lookup_empty|by intros k v ?%elem_of_nil].
    - rewrite fold_left_app /= /join_header /=. destruct IH as [IH1 IH2]. split.
      + intros c x. destruct (decide (canonical_key k = c)) as [Hc|Hc].
        * subst c. rewrite lookup_insert. intros [= <-]. exists k, v. split; last done. apply elem_of_app. right. by left.
        * rewrite lookup_insert_ne //. intros (k' & v' & ? & ? & ?)%IH1. exists k', v'. split; last done. apply elem_of_app. by left.
      + intros k' v' [Hin|Hin]%elem_of_app.
        * destruct (decide (canonical_key k = canonical_key k')) as [->|Hc]; first by rewrite lookup_insert.
          rewrite lookup_insert_ne //. exact (IH2 _ _ Hin).
        * apply elem_of_list_singleton in Hin as [= -> ->]. by rewrite lookup_insert. }
  split.
  - intros c x Hx. destruct (H1 c x Hx) as (k & v & Hin & ? & ?). exists k, v. split; last done.
    apply elem_of_map_to_list. by rewrite -Hp.
  - intros k v Hk. apply (H2 k v). rewrite Hp. by apply elem_of_map_to_list.
Qed.

Lemma redact_spec names hdr trailer m : redact_headers names hdr trailer m ->
  (forall c x, m !! c = Some x -> exists k v, merged names hdr trailer k = Some v /\ canonical_key k = c /\ x = join "," v) /\
  (forall k v, merged names hdr trailer k = Some v -> is_Some (m !! canonical_key k)).
Proof.
  intros [o1 o2 o3 H1 H2 H3]. apply join_fold in H3 as [E1 E2]. split.
  - intros c x Hx. destruct (E1 c x Hx) as (k & v & Hk & ?). rewrite (loops_merged names hdr trailer o1 o2 k H1 H2) in Hk. eauto.
  - intros k v Hk. apply (E2 k v). by rewrite (loops_merged names hdr trailer o1 o2 k H1 H2).
Qed.

Lemma redact_total names hdr trailer : exists m, redact_headers names hdr trailer m.
Proof. eexists. by eapply redact_headers_intro. Qed.

(** ** Span IDs in headers *)
Lemma spanid_string_nonempty s : spanid_string s <> ""%string.
Proof.
  intros H. apply (f_equal bytes) in H. rewrite /spanid_string in H. destruct (_ =? 0)%N; rewrite !bytes_app in H;
    by destruct (bytes (id_string (sp_trace s))).
Qed.
Lemma header_get_set h k v : header_get (header_set h k v) k = v.
Proof. by rewrite /header_get /header_set lookup_insert. Qed.
