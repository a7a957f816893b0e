(** Properties C28-C30, C74 (MultiStore, MultiQueryer). *)
From Verif Require Import Base MultiModel MultiProofs.

(** C28: the stores before the first failing one (all of them if none fails) have been called and
    succeeded, the failing one has been called, the later ones are untouched. *)
Theorem C28_multi_collect_stops_at_first_failure :
  forall St Err (coll : nat -> SpanID -> list Annotation -> St -> St * option Err) stores id a stores' calls r,
  multi_collect coll 0 stores id a = (stores', calls, r) ->
  exists pre rest, stores = pre ++ rest /\
    (forall k s, pre !! k = Some s -> snd (coll k id a s) = None) /\
    match r with
    | None => rest = [] /\ stores' = imap (fun k s => fst (coll k id a s)) pre /\
        calls = map (fun k => (k, id, a)) (seq 0 (length pre))
    | Some e => exists s post, rest = s :: post /\ snd (coll (length pre) id a s) = Some e /\
        stores' = imap (fun k s => fst (coll k id a s)) pre ++ fst (coll (length pre) id a s) :: post /\
        calls = map (fun k => (k, id, a)) (seq 0 (length pre + 1))
    end.
Proof. exact (fun St Err coll stores id a stores' calls r => multi_collect_spec coll 0 stores id a stores' calls r). Qed.
Print Assumptions C28_multi_collect_stops_at_first_failure.
Example C28_nonvacuous :
  multi_collect (fun k id a (s : list SpanID) => (s ++ [id], if (k =? 1)%nat then Some "full" else None)) 0 [[]; []; []] (MkSpanID 1 2 3) []
  = ([[MkSpanID 1 2 3]; [MkSpanID 1 2 3]; []], [(O, MkSpanID 1 2 3, []); (1%nat, MkSpanID 1 2 3, [])], Some "full").
Proof. reflexivity. Qed.

(** C29: the first answer other than not-found. *)
Theorem C29_multi_trace_first_hit : forall Err (asked : list (tresult Err)) r, multi_trace asked = r ->
  match r with
  | TNotFound => forall x, In x asked -> x = TNotFound
  | _ => exists pre post, asked = pre ++ r :: post /\ forall x, In x pre -> x = TNotFound
  end.
Proof. exact (fun Err asked r => multi_trace_spec asked r). Qed.
Print Assumptions C29_multi_trace_first_hit.
Example C29_nonvacuous : multi_trace [TNotFound; TFound (Tree (MkSpanID 1 1 0) [] []); TError "x"] = TFound (Tree (MkSpanID 1 1 0) [] []).
Proof. reflexivity. Qed.

(** C30: on success every trace known to any queryer is there once, from the first queryer that has
    it; on failure some queryer failed, and its error is returned. *)
Theorem C30_multi_queryer_union : forall Err Opts no_opts (qs : list (Opts -> list tree + Err)) opts r,
  multi_traces no_opts qs opts = inl r ->
  exists ls, map (fun q => q no_opts) qs = map inl ls /\
    NoDup (map (fun tr => sp_trace (tr_id tr)) r) /\
    (forall l tr, In l ls -> In tr l -> exists tr', In tr' r /\ sp_trace (tr_id tr') = sp_trace (tr_id tr)) /\
    (forall tr, In tr r -> exists pre l post, ls = pre ++ l :: post /\ In tr l /\
       forall l' tr', In l' pre -> In tr' l' -> sp_trace (tr_id tr') <> sp_trace (tr_id tr)).
Proof. exact (fun Err Opts no_opts qs opts r => multi_traces_ok no_opts qs opts r). Qed.
Print Assumptions C30_multi_queryer_union.
Theorem C30_multi_queryer_error : forall Err Opts no_opts (qs : list (Opts -> list tree + Err)) opts e,
  multi_traces no_opts qs opts = inr e ->
  exists pre q post, qs = pre ++ q :: post /\ q no_opts = inr e /\ forall q', In q' pre -> exists l, q' no_opts = inl l.
Proof. exact (fun Err Opts no_opts qs opts e => multi_traces_err no_opts qs opts e). Qed.
Print Assumptions C30_multi_queryer_error.
Example C30_nonvacuous :
  let t1 := Tree (MkSpanID 1 1 0) [] [] in let t1' := Tree (MkSpanID 1 9 0) [] [] in let t2 := Tree (MkSpanID 2 1 0) [] [] in
  multi_traces (Err:=string) tt [fun _ => inl [t1]; fun _ => inl [t2; t1']] tt = inl [t1; t2] /\
  multi_traces tt [fun _ => inl [t1]; fun _ => inr "down"; fun _ => inr "later"] tt = inr "down".
Proof. split; vm_compute; reflexivity. Qed.

(** C74 is false: even if every queryer returns listed traces only, the MultiQueryer returns others. *)
Theorem C74_multi_queryer_options_refuted : exists (qs : list (list N -> list tree + Empty_set)) opts r tr,
  (forall q o l, In q qs -> o <> [] -> q o = inl l -> forall x, In x l -> sp_trace (tr_id x) ∈ o) /\
  multi_traces [] qs opts = inl r /\ opts <> [] /\ In tr r /\ sp_trace (tr_id tr) ∉ opts.
Proof. exact multi_opts_ignored. Qed.
Print Assumptions C74_multi_queryer_options_refuted.
(** C74, what holds: nothing asked for is missing, if each queryer's answer without options
    contains its answer with them. *)
Theorem C74_multi_queryer_options_partial : forall Err Opts no_opts (qs : list (Opts -> list tree + Err)) opts r,
  (forall q l l' tr, In q qs -> q opts = inl l -> q no_opts = inl l' -> In tr l -> In tr l') ->
  multi_traces no_opts qs opts = inl r ->
  forall q l tr, In q qs -> q opts = inl l -> In tr l ->
  exists tr', In tr' r /\ sp_trace (tr_id tr') = sp_trace (tr_id tr).
Proof. exact (fun Err Opts no_opts qs opts r => multi_opts_superset no_opts qs opts r). Qed.
Print Assumptions C74_multi_queryer_options_partial.
Example C74_nonvacuous : let t1 := Tree (MkSpanID 1 1 0) [] [] in let t2 := Tree (MkSpanID 2 1 0) [] [] in
  (forall q l l' tr, In q [by_ids [t1; t2]] -> q [1] = inl l -> q [] = inl l' -> In tr l -> In tr l') /\
  multi_traces [] [by_ids [t1; t2]] [1] = inl [t1; t2] /\ by_ids [t1; t2] [1] = inl [t1].
Proof.
  cbn zeta. split_and!; [|vm_compute; reflexivity|vm_compute; reflexivity].
  intros q l l' tr [<-|[]] E1 E2 Hin. vm_compute in E1, E2. injection E1 as <-. injection E2 as <-. cbn in *. tauto.
Qed.
