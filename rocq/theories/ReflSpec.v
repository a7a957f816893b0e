(** Which event values can be restored from their flattened form. *)
From Verif Require Import Base StrOrder TimeModel NumModel ReflModel.
From stdpp Require Import sorting.
Local Open Scope N_scope.

(** Values of scalar types. *)
Definition int_width (b : N) : Prop := b = 8 \/ b = 16 \/ b = 32 \/ b = 64.
Definition scalar_in (k : skind) (x : val) : Prop :=
  match k, x with
  | KBool, VBool _ => True
  | KInt b, VInt z => int_width b /\ (- 2 ^ (Z.of_N b - 1) <= z < 2 ^ (Z.of_N b - 1))%Z
  | KUint b, VUint n => int_width b /\ n < 2 ^ b
  | KString, VString _ => True
  (* numbers whose text is read as the same number: C110 and C111 say which *)
  | KFloat32, VFloat32 f => parse_float32 (fmt_float32 f) = Some f
  | KFloat64, VFloat64 f => parse_float64 (fmt_float64 f) = Some f
  | KDuration, VDuration d => parse_duration (fmt_duration d) = Some d
  | _, _ => False
  end.
(** Scalars of predeclared types, times that the text format can write, pointers to scalars other than durations. *)
Definition leaf (t : ty) (x : val) : Prop :=
  match t, x with
  | TScalar false k, x => scalar_in k x
  | TTime, VTime t => valid_time t
  | TPtr (TScalar false k), VPtr (Some x) => k <> KDuration /\ scalar_in k x
  | _, _ => False
  end.
(** Whether anything is written for a value. *)
Fixpoint writes (x : val) : bool :=
  match x with
  | VStruct fs => existsb (fun f => writes (snd f)) fs
  | VMap None | VSlice None => false
  | VMap (Some l) => match l with [] => false | _ => true end
  | VSlice (Some l) | VArray l => match l with [] => false | _ => true end
  | _ => true
  end.
(** Field names of one struct: none is another one followed by a byte up to '.'. *)
Definition no_clash (a b : string) : Prop := forall c r, b = (a +:+ String c r)%string -> 46 < N_of_ascii c.
Definition names_ok (ns : list string) : Prop :=
  NoDup ns /\ (forall n, n ∈ ns -> n <> ""%string) /\ (forall a b, a ∈ ns -> b ∈ ns -> no_clash a b).
Definition is_map (t : ty) : bool := match t with TMap _ => true | _ => false end.

(** Structs of leaves, structs, string-keyed maps of leaves and non-empty slices and arrays of leaves, where
    every field but a nil map writes something.  Maps are listed in the order of their keys. *)
Fixpoint good (t : ty) (x : val) {struct t} : Prop :=
  match t, x with
  | TStruct fs, VStruct l =>
      map fst l = map fst fs /\ names_ok (map fst fs) /\
      (fix all (fs : list (string * ty)) (l : list (string * val)) : Prop :=
         match fs, l with
         | f :: fs, g :: l => good (snd f) (snd g) /\ (is_map (snd f) = true \/ writes (snd g) = true) /\ all fs l
         | _, _ => True
         end) fs l
  | TMap e, VMap None => True
  | TMap e, VMap (Some l) => l <> [] /\ StronglySorted (fun a b => slt (fst a) (fst b) = true) l /\ Forall (fun f => leaf e (snd f)) l
  | TSlice e, VSlice (Some l) => l <> [] /\ (Z.of_nat (length l) < 9223372036854775808)%Z /\ Forall (leaf e) l
  | TArray n e, VArray l => l <> [] /\ length l = n /\ (Z.of_nat n < 9223372036854775808)%Z /\ Forall (leaf e) l
  | t, x => leaf t x
  end.

(** A key beyond everything that a field with the given name writes. *)
Definition above (name k : string) : Prop := slt (name +:+ ".") k = true /\ has_prefix (name +:+ ".") k = false.
(** A key that does not interfere with reading a value of the type under the given name. *)
Fixpoint foreign (t : ty) (name k : string) : Prop :=
  match t with
  | TMap _ => has_prefix (name +:+ ".") k = false
  | TSlice _ | TArray _ _ => has_prefix name k = true -> above name k
  | TStruct fs =>
      (fix all (fs : list (string * ty)) : Prop :=
         match fs with f :: fs => foreign (snd f) (nest name (fst f)) k /\ all fs | [] => True end) fs
  | _ => True
  end.
