(** The same steps with lists of annotations as values: whoever holds some, holds them for itself. *)
From Verif Require Import Base AliasModel.
Local Open Scope nat_scope.

Record vst := MkVSt {
  v_has : gmap slot (list Annotation);
  v_finished : gset nat;
  v_calls : gmap nat (SpanID * list target);
  v_sent : list (SpanID * list Annotation)
}.
Definition v_init : vst := MkVSt ∅ ∅ ∅ [].
Definition v_add (x : slot) (l : list Annotation) (s : vst) : vst :=
  MkVSt (<[x := default [] (v_has s !! x) ++ l]> (v_has s)) (v_finished s) (v_calls s) (v_sent s).
Definition v_call (c : nat) (id : SpanID) (ts : list target) (l : list Annotation) (s : vst) : vst :=
  MkVSt (<[SCall c := l]> (v_has s)) (v_finished s) (<[c := (id, ts)]> (v_calls s)) (v_sent s).
Definition v_reach (t : target) (id : SpanID) (l : list Annotation) (s : vst) : vst :=
  match t with
  | TStore i => v_add (SStore i (store_key id)) l s
  | TChunk j => v_add (SPend j id) l s
  | TRemote => MkVSt (v_has s) (v_finished s) (v_calls s) (v_sent s ++ [(id, l)])
  end.
Definition vstep (cfg : acfg) (l : label) (s : vst) : option vst :=
  match l with
  | LEvent r xs => Some (v_add (SRec r) xs s)
  | LFinish r c log spare =>
      if decide (c ∈ dom (v_calls s)) then None else
      if decide (r ∈ v_finished s) then Some (v_call c (ac_span cfg r) (ac_to cfg r) log s)
      else Some (v_call c (ac_span cfg r) (ac_to cfg r) (default [] (v_has s !! SRec r))
                   (MkVSt (v_has s) ({[r]} ∪ v_finished s) (v_calls s) (v_sent s)))
  | LAnnotate r c xs spare =>
      if decide (c ∈ dom (v_calls s)) then None else Some (v_call c (ac_span cfg r) (ac_to cfg r) xs s)
  | LDeliver c =>
      match v_calls s !! c, v_has s !! SCall c with
      | Some (id, t :: ts), Some l =>
          let s := v_reach t id l s in
          Some match ts with
          | [] => MkVSt (delete (SCall c) (v_has s)) (v_finished s) (delete c (v_calls s)) (v_sent s)
          | _ => MkVSt (v_has s) (v_finished s) (<[c := (id, ts)]> (v_calls s)) (v_sent s)
          end
      | _, _ => None
      end
  | LTake j id c =>
      if decide (c ∈ dom (v_calls s)) then None else
      match v_has s !! SPend j id with
      | Some l => Some (v_call c id (ac_below cfg j) l (MkVSt (delete (SPend j id) (v_has s)) (v_finished s) (v_calls s) (v_sent s)))
      | None => None
      end
  | LDrop j id => Some (MkVSt (delete (SPend j id) (v_has s)) (v_finished s) (v_calls s) (v_sent s))
  end.
Fixpoint vrun (cfg : acfg) (tr : list label) (s : vst) : option vst :=
  match tr with [] => Some s | l :: tr => match vstep cfg l s with Some s => vrun cfg tr s | None => None end end.

(** No event is recorded on a recorder after its Finish. *)
Fixpoint no_late (tr : list label) : Prop :=
  match tr with
  | [] => True
  | LFinish r _ _ _ :: tr => (forall xs, LEvent r xs ∉ tr) /\ no_late tr
  | _ :: tr => no_late tr
  end.
(** No MultiStore: every collector has one target. *)
Definition no_multi (cfg : acfg) : Prop := (forall r, length (ac_to cfg r) <= 1) /\ (forall j, length (ac_below cfg j) <= 1).

(** Every recorder's collector is a MultiStore of [n] stores, *)
Definition multi_store (n : nat) (cfg : acfg) : Prop := forall r, ac_to cfg r = map TStore (seq 0 n).
(** and the calls of Collect happen one after the other: each reaches all stores before the next one begins. *)
Inductive one_by_one (n : nat) : list label -> Prop :=
| obo_nil : one_by_one n []
| obo_event r xs tr : one_by_one n tr -> one_by_one n (LEvent r xs :: tr)
| obo_finish r c log spare tr : one_by_one n tr -> one_by_one n (LFinish r c log spare :: replicate n (LDeliver c) ++ tr)
| obo_annotate r c xs spare tr : one_by_one n tr -> one_by_one n (LAnnotate r c xs spare :: replicate n (LDeliver c) ++ tr).
