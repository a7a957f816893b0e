(** What a server should do with a connection, in terms of the packets written to it. *)
From Verif Require Import Base WireModel.

(** Span IDs are 64 bit; Go strings are shorter than 2^63 bytes. *)
Definition valid_call (c : wcall) : Prop :=
  is_id (sp_trace (fst c)) /\ is_id (sp_span (fst c)) /\ is_id (sp_parent (fst c)) /\
  forall a, In a (snd c) -> N.of_nat (String.length (ann_key a)) < two64 /\ N.of_nat (String.length (val_bytes (ann_val a))) < two64.

(** The bytes a client writes for one call, and for many. *)
Definition call_body (c : wcall) : bytes := enc_packet (new_packet (fst c) (snd c)).
Definition call_frame (c : wcall) : bytes := frame (new_packet (fst c) (snd c)).
Definition stream (cs : list wcall) : bytes := flat_map call_frame cs.
(** Not above the server's limit, 1 MB. *)
Definition fits (c : wcall) : Prop := N.of_nat (length (call_body c)) <= 1048576.

(** The calls whose bytes are completely within the first n bytes. *)
Fixpoint complete (n : nat) (cs : list wcall) : list wcall :=
  match cs with
  | [] => []
  | c :: cs => if (length (call_frame c) <=? n)%nat then c :: complete (n - length (call_frame c)) cs else []
  end.

(** The calls up to and including the first on which the collector fails. *)
Fixpoint until_fail (coll : list wcall -> wcall -> bool) (before cs : list wcall) : list wcall :=
  match cs with
  | [] => []
  | c :: cs => if coll before c then c :: until_fail coll (before ++ [c]) cs else [c]
  end.
(** Whether it fails at all. *)
Fixpoint some_fail (coll : list wcall -> wcall -> bool) (before cs : list wcall) : bool :=
  match cs with
  | [] => false
  | c :: cs => if coll before c then some_fail coll (before ++ [c]) cs else true
  end.

(** A received packet that lacks something the server dereferences. *)
Definition incomplete (p : wpacket) : Prop :=
  match wp_span p with
  | Some (WSpan (Some _) (Some _) (Some _)) => exists a, In a (wp_anns p) /\ wa_key a = None
  | _ => True
  end.
(** A received packet that only lacks the optional parent. *)
Definition no_parent (p : wpacket) : Prop := exists t s, wp_span p = Some (WSpan (Some t) (Some s) None).
