(** Packets as a client with a later version of collector.proto may write them: fields in any order, and fields
    that this version does not know. *)
From Verif Require Import Base WireModel WireSpec.
From stdpp Require Import list.
Local Open Scope N_scope.

(** A field that is not known: its number and a value of one of the wire types. *)
Inductive ufield :=
| UVarint (num n : N)
| UFixed64 (num n : N)
| UBytes (num : N) (s : string)
| UGroup (num : N) (fs : list ufield)
| UFixed32 (num n : N).
Definition unum (u : ufield) : N := match u with UVarint n _ | UFixed64 n _ | UBytes n _ | UGroup n _ | UFixed32 n _ => n end.
Fixpoint enc_ufield (u : ufield) : bytes :=
  match u with
  | UVarint num n => tag num 0 ++ varint n
  | UFixed64 num n => tag num 1 ++ put_le 8 n
  | UBytes num s => tag num 2 ++ put_bytes s
  | UGroup num fs => tag num 3 ++ flat_map enc_ufield fs ++ tag num 4
  | UFixed32 num n => tag num 5 ++ put_le 4 n
  end.
(** Field numbers have 29 bits. *)
Fixpoint ufield_ok (u : ufield) : Prop :=
  (0 < unum u < 536870912) /\
  match u with
  | UVarint _ n => n < two64
  | UBytes _ s => N.of_nat (String.length s) < two64
  | UGroup _ fs => (fix all (l : list ufield) : Prop := match l with [] => True | u :: l => ufield_ok u /\ all l end) fs
  | _ => True
  end.

(** The contents of a message: known fields and others. *)
Inductive item (A : Type) := Known (x : A) | Unknown (u : ufield).
Arguments Known {A}. Arguments Unknown {A}.
Definition knowns {A} (l : list (item A)) : list A := omap (fun i => match i with Known x => Some x | Unknown _ => None end) l.
Definition enc_items {A} (enc : A -> bytes) (l : list (item A)) : bytes :=
  flat_map (fun i => match i with Known x => enc x | Unknown u => enc_ufield u end) l.
Definition items_ok {A} (nums : list N) (l : list (item A)) : Prop :=
  forall u, Unknown u ∈ l -> ufield_ok u /\ unum u ∉ nums.

(** SpanID: fields 2 (trace), 3 (span) and 4 (parent), eight bytes each; Annotation: fields 6 (key) and 7 (value). *)
Definition xspan := list (item (N * N)).
Definition xann := list (item (N * string)).
Definition enc_xspan (x : xspan) : bytes := enc_items (fun f => tag (fst f) 1 ++ put_le 8 (snd f)) x.
Definition enc_xann (x : xann) : bytes := enc_items (fun f => tag (fst f) 2 ++ put_bytes (snd f)) x.
(** CollectPacket: a group SpanID (field 1) and groups Annotation (field 5). *)
Inductive group := GSpan (x : xspan) | GAnn (x : xann).
Definition enc_group (g : group) : bytes :=
  match g with
  | GSpan x => tag 1 3 ++ enc_xspan x ++ tag 1 4
  | GAnn x => tag 5 3 ++ enc_xann x ++ tag 5 4
  end.
Definition xpacket := list (item group).
Definition enc_xpacket (p : xpacket) : bytes := enc_items enc_group p.
Definition group_ok (g : group) : Prop :=
  match g with GSpan x => items_ok [2; 3; 4] x | GAnn x => items_ok [6; 7] x end.
Definition xpacket_ok (p : xpacket) : Prop := items_ok [1; 5] p /\ forall g, Known g ∈ p -> group_ok g.

(** The packet says that these annotations are to be collected for this span: the groups come in any order, but the annotations
    among themselves in theirs; the fields of a group come in any order. *)
Definition carries (p : xpacket) (c : wcall) : Prop :=
  xpacket_ok p /\
  exists x xs, omap (fun g => match g with GSpan x => Some x | _ => None end) (knowns p) = [x] /\
    omap (fun g => match g with GAnn x => Some x | _ => None end) (knowns p) = xs /\
    knowns x ≡ₚ [(2, sp_trace (fst c)); (3, sp_span (fst c)); (4, sp_parent (fst c))] /\
    Forall2 (fun x a => knowns x ≡ₚ (6, ann_key a) :: match ann_val a with Some v => [(7, v)] | None => [] end) xs (snd c).
Definition xframe (p : xpacket) : bytes := varint (N.of_nat (length (enc_xpacket p))) ++ enc_xpacket p.
