(** Shared vocabulary of the model: byte strings, IDs, span IDs, annotations. *)
From Coq Require Export String Ascii ZArith NArith Lia.
From stdpp Require Export base list strings gmap fin_maps.
From Coq Require Import ZifyBool ZifyNat ZifyN.
Global Open Scope N_scope.
Global Open Scope list_scope.
Global Arguments String.append !s1 s2 : simpl nomatch.

(** id.go:16  type ID uint64.  Values are [N]; theorems that depend on the width
    carry [is_id] hypotheses. *)
Definition two64 : N := 18446744073709551616.
Definition is_id (i : N) : Prop := i < two64.

(** span.go:14-25  type SpanID struct { Trace, Span, Parent ID }. *)
Record SpanID := MkSpanID { sp_trace : N; sp_span : N; sp_parent : N }.

(** span.go:166-174 type Annotation struct { Key string; Value []byte }.
    [None] is the nil slice, [Some ""] the empty non-nil slice. *)
Record Annotation := Ann { ann_key : string; ann_val : option string }.

Global Instance SpanID_eq_dec : EqDecision SpanID.
Proof. solve_decision. Defined.
Global Instance Annotation_eq_dec : EqDecision Annotation.
Proof. solve_decision. Defined.
Global Instance SpanID_countable : Countable SpanID.
Proof.
  refine (inj_countable' (fun s => (sp_trace s, sp_span s, sp_parent s))
            (fun x => MkSpanID x.1.1 x.1.2 x.2) _).
  intros []; reflexivity.
Defined.
Global Instance Annotation_countable : Countable Annotation.
Proof.
  refine (inj_countable' (fun a => (ann_key a, ann_val a))
            (fun x => Ann x.1 x.2) _).
  intros []; reflexivity.
Defined.

(** A client call on a store: Collect(id, anns...) or Delete(ts...). *)
Inductive call := CCollect (id : SpanID) (anns : list Annotation) | CDelete (ts : list N).

(** A finite tree of spans: what a reader of a *Trace value (trace.go:14-17) sees when it
    follows the Sub pointers. *)
Inductive tree := Tree (id : SpanID) (anns : list Annotation) (subs : list tree).

Definition tr_id (t : tree) : SpanID := let 'Tree i _ _ := t in i.
Definition tr_anns (t : tree) : list Annotation := let 'Tree _ a _ := t in a.
Definition tr_subs (t : tree) : list tree := let 'Tree _ _ s := t in s.

Definition tree_ind' (P : tree -> Prop)
    (H : forall i a ts, Forall P ts -> P (Tree i a ts)) : forall t, P t :=
  fix F t := match t with
    | Tree i a ts => H i a ts ((fix G ts : Forall P ts := match ts with
        | [] => @List.Forall_nil _ P
        | t :: ts => @List.Forall_cons _ P t ts (F t) (G ts)
        end) ts)
    end.

(** The bytes of a value, nil read as empty (string(v), len(v)). *)
Definition val_bytes (v : option string) : string := default ""%string v.

(** String append lemmas (missing from this release's library). *)
Lemma str_app_nil_r (s : string) : (s +:+ "")%string = s.
Proof. induction s as [|c s IH]; simpl; [reflexivity|]. by rewrite IH. Qed.

Lemma str_app_assoc (a b c : string) : ((a +:+ b) +:+ c)%string = (a +:+ (b +:+ c))%string.
Proof. induction a as [|x a IH]; simpl; [reflexivity|]. by rewrite IH. Qed.

Lemma str_length_app (a b : string) :
  String.length (a +:+ b) = (String.length a + String.length b)%nat.
Proof. induction a as [|x a IH]; simpl; [reflexivity|]. by rewrite IH. Qed.

Lemma str_app_inv_head (a b c : string) : (a +:+ b)%string = (a +:+ c)%string -> b = c.
Proof. induction a as [|x a IH]; simpl; [done|]. intros [= H]. auto. Qed.

(** Bytes of a string as a list. *)
Fixpoint bytes (s : string) : list ascii :=
  match s with EmptyString => [] | String c s' => c :: bytes s' end.
Fixpoint unbytes (l : list ascii) : string :=
  match l with [] => EmptyString | c :: l' => String c (unbytes l') end.

Lemma unbytes_bytes s : unbytes (bytes s) = s.
Proof. induction s as [|c s IH]; simpl; [done|]. by rewrite IH. Qed.
Lemma bytes_unbytes l : bytes (unbytes l) = l.
Proof. induction l as [|c s IH]; simpl; [done|]. by rewrite IH. Qed.
Lemma bytes_app a b : bytes (a +:+ b) = bytes a ++ bytes b.
Proof. induction a as [|c s IH]; simpl; [done|]. by rewrite IH. Qed.
Lemma unbytes_app a b : unbytes (a ++ b) = (unbytes a +:+ unbytes b)%string.
Proof. induction a as [|c s IH]; simpl; [done|]. by rewrite IH. Qed.
Lemma bytes_length s : length (bytes s) = String.length s.
Proof. induction s as [|c s IH]; simpl; [done|]. by rewrite IH. Qed.
Lemma bytes_inj a b : bytes a = bytes b -> a = b.
Proof. intros H. by rewrite <- (unbytes_bytes a), H, unbytes_bytes. Qed.
Lemma unbytes_length l : String.length (unbytes l) = length l.
Proof. induction l as [|c s IH]; simpl; [done|]. by rewrite IH. Qed.

Global Instance unbytes_inj : Inj (=) (=) unbytes.
Proof. intros a b H. by rewrite <- (bytes_unbytes a), H, bytes_unbytes. Qed.
