(** Model of reflect.go: flattening event values into key-value pairs and back. *)
From Verif Require Import Base StrOrder TimeModel NumModel.
From Coq Require Import DecimalString DecimalN Floats.SpecFloat.
From stdpp Require Import sorting.
Local Open Scope N_scope.

(** ** Go types and values *)

(** The scalar kinds; int and uint are 64 bit wide.  [KDuration] is time.Duration itself (a type defined from it is an integer type). *)
Inductive skind := KBool | KInt (bits : N) | KUint (bits : N) | KString | KFloat32 | KFloat64 | KDuration.
(** Types of events and their fields.  [named]: the type is not the predeclared one (type T string).
    Fields: the exported ones, with the name that fieldName (reflect.go:340-348) gives them.  Map
    keys are strings.  Interfaces and types with a String method other than time.Time, time.Duration and pointers
    to them are not modelled. *)
Inductive ty :=
| TScalar (named : bool) (k : skind)
| TTime
| TPtr (t : ty)
| TStruct (fs : list (string * ty))
| TMap (t : ty)
| TSlice (t : ty)
| TArray (n : nat) (t : ty).
Inductive val :=
| VBool (b : bool) | VInt (z : Z) | VUint (n : N) | VString (s : string) | VFloat32 (x : spec_float) | VFloat64 (x : spec_float)
| VDuration (ns : Z) | VTime (t : time)
| VPtr (o : option val)
| VStruct (fs : list (string * val))
| VMap (o : option (list (string * val)))
| VSlice (o : option (list val))
| VArray (l : list val).

Definition zero_scalar (k : skind) : val :=
  match k with
  | KBool => VBool false | KInt _ => VInt 0 | KUint _ => VUint 0 | KString => VString ""
  | KFloat32 => VFloat32 (S754_zero false) | KFloat64 => VFloat64 (S754_zero false) | KDuration => VDuration 0
  end.
Fixpoint zero (t : ty) : val :=
  match t with
  | TScalar _ k => zero_scalar k
  | TTime => VTime time_zero
  | TPtr _ => VPtr None
  | TStruct fs => VStruct (map (fun f => (fst f, zero (snd f))) fs)
  | TMap _ => VMap None
  | TSlice _ => VSlice None
  | TArray n t => VArray (replicate n (zero t))
  end.

(** ** Scalars as text *)
Definition fmt_uint (n : N) : string := NilZero.string_of_uint (N.to_uint n).
(** strconv.FormatInt(z, 10), strconv.Itoa *)
Definition fmt_int (z : Z) : string :=
  if (z <? 0)%Z then String "-" (fmt_uint (Z.to_N (- z))) else fmt_uint (Z.to_N z).
(** strconv.ParseUint(s, 10, 64) *)
Definition parse_uint (s : string) : option N :=
  match NilZero.uint_of_string s with
  | Some u => if N.of_uint u <? two64 then Some (N.of_uint u) else None
  | None => None
  end.
(** strconv.ParseInt(s, 10, 64), strconv.Atoi *)
Definition parse_int (s : string) : option Z :=
  match s with
  | String c r =>
      if Ascii.eqb c "-" then
        match parse_uint r with Some n => if n <=? 9223372036854775808 then Some (- Z.of_N n)%Z else None | None => None end
      else
        match parse_uint (if Ascii.eqb c "+" then r else s) with Some n => if n <? 9223372036854775808 then Some (Z.of_N n) else None | None => None end
  | "" => None
  end.
(** strconv.FormatBool, strconv.ParseBool *)
Definition fmt_bool (b : bool) : string := if b then "true" else "false".
Definition parse_bool (s : string) : option bool :=
  if bool_decide (s ∈ ["1"; "t"; "T"; "true"; "TRUE"; "True"]%string) then Some true
  else if bool_decide (s ∈ ["0"; "f"; "F"; "false"; "FALSE"; "False"]%string) then Some false else None.
(** The conversions intN(vv), uintN(vv): wrap around. *)
Definition wrap_uint (bits : N) (n : N) : N := n mod 2 ^ bits.
Definition wrap_int (bits : N) (z : Z) : Z :=
  let m := (z mod 2 ^ Z.of_N bits)%Z in if (m <? 2 ^ (Z.of_N bits - 1))%Z then m else (m - 2 ^ Z.of_N bits)%Z.

(** ** Flattening *)

(** reflect.go:355-360 nest *)
Definition nest (prefix name : string) : string :=
  match prefix with "" => name | _ => prefix +:+ "." +:+ name end.

Definition cat_opt {A} (l : list (option (list A))) : option (list A) :=
  fold_right (fun o r => match o, r with Some a, Some b => Some (a ++ b) | _, _ => None end) (Some []) l.

(** reflect.go:13-59 flattenValue; None is the panic on a nil pointer.  The order in which the fields
    of a struct (the keys of a Go map, see fieldNames) and the entries of a map come is not
    specified; here it is the order of the lists. *)
Fixpoint flatten (x : val) (prefix : string) : option (list (string * string)) :=
  match x with
  | VBool b => Some [(prefix, fmt_bool b)]
  | VInt z => Some [(prefix, fmt_int z)]
  | VUint n => Some [(prefix, fmt_uint n)]
  | VString s => Some [(prefix, s)]
  | VFloat32 x => Some [(prefix, fmt_float32 x)]
  | VFloat64 x => Some [(prefix, fmt_float64 x)]
  | VDuration d => Some [(prefix, fmt_duration d)]
  | VTime t => Some [(prefix, fmt_time t)]
  | VPtr (Some (VTime t)) => Some [(prefix, time_string t)]         (* *time.Time and *time.Duration have a String method *)
  | VPtr (Some (VDuration d)) => Some [(prefix, duration_string d)]
  | VPtr (Some x) => flatten x prefix
  | VPtr None => None
  | VStruct fs => cat_opt (map (fun f => flatten (snd f) (nest prefix (fst f))) fs)
  | VMap None => Some []
  | VMap (Some kvs) => cat_opt (map (fun f => flatten (snd f) (nest prefix (fst f))) kvs)
  | VSlice None => Some []
  | VSlice (Some l) | VArray l => cat_opt (imap (fun i f => f (nest prefix (fmt_int (Z.of_nat i)))) (map (fun x => flatten x) l))
  end.

(** ** Parsing single values *)

(** What reflect.go:82-91 parseValue can give: a value, an error, or the zero reflect.Value (for types it
    does not know, when the type is a pointer; otherwise vp.Elem() panics).  [PMismatch]: a value of a
    type that cannot be assigned to the wanted type, on which Set then panics: predeclared types for
    named ones, single pointers for pointers to pointers. *)
Inductive pres := POk (x : val) | PErr | PZero | PPanic | PMismatch.
(** reflect.go:108-176 *)
Definition parse_scalar (k : skind) (s : string) : option val :=
  match k with
  | KBool => VBool <$> parse_bool s
  | KInt b => (fun z => VInt (wrap_int b z)) <$> parse_int s
  | KUint b => (fun n => VUint (wrap_uint b n)) <$> parse_uint s
  | KString => Some (VString s)
  | KFloat32 => VFloat32 <$> parse_float32 s
  | KFloat64 => VFloat64 <$> parse_float64 s
  | KDuration => VDuration <$> parse_duration s
  end.
Definition opt_res (o : option val) (f : val -> pres) : pres := match o with Some x => f x | None => PErr end.
Fixpoint parse_value (t : ty) (s : string) : pres :=
  match t with
  | TTime => opt_res (VTime <$> parse_time s) POk
  | TScalar named k => opt_res (parse_scalar k s) (fun x => if named then PMismatch else POk x)
  | TPtr t =>
      match parse_value t s with
      | POk x => match t with TPtr _ => PMismatch | _ => POk (VPtr (Some x)) end
      | PPanic => PZero
      | r => r
      end
  | _ => PPanic
  end.

(** ** Unflattening *)
Notation kvs := (list (string * string)).
(** sort.IsSorted(kvsByKey(kv)) *)
Fixpoint is_sorted (kv : kvs) : bool :=
  match kv with
  | a :: ((b :: _) as r) => negb (slt (fst b) (fst a)) && is_sorted r
  | _ => true
  end.
(** reflect.go:187-190: pairs whose key does not start with the prefix are discarded. *)
Fixpoint drop_until (prefix : string) (kv : kvs) : kvs :=
  match kv with
  | [] => []
  | p :: r => if has_prefix prefix (fst p) then kv else drop_until prefix r
  end.
Fixpoint take_prefix (prefix : string) (kv : kvs) : kvs :=
  match kv with
  | [] => []
  | p :: r => if has_prefix prefix (fst p) then p :: take_prefix prefix r else []
  end.
Fixpoint drop_smaller (bound : string) (kv : kvs) : kvs :=
  match kv with
  | [] => []
  | p :: r => if slt (fst p) bound then drop_smaller bound r else kv
  end.

(** The target's new value and the remaining pairs; an error (the target may have been changed by
    then); a panic. *)
Inductive ures := UOk (x : val) (kv : kvs) | UErr (x : val) | UPanic.

(** reflect.go:245-271: the entries of a map. *)
Inductive mres := MOk (l : list (string * val)) | MErr | MPanic.
Fixpoint map_entries (t : ty) (kp : string) (l : kvs) : mres :=
  match l with
  | [] => MOk []
  | (k, s) :: l =>
      match parse_value t s with
      | POk x => match map_entries t kp l with MOk m => MOk ((trim_prefix kp k, x) :: m) | r => r end
      | PZero => map_entries t kp l   (* SetMapIndex with the zero Value deletes *)
      | PErr => MErr
      | _ => MPanic
      end
  end.
Definition unflat_map (t : ty) (prefix : string) (kv : kvs) (x : val) (set : list (string * val) -> kvs -> ures) : ures :=
  let kp := (prefix +:+ ".")%string in
  let found := take_prefix kp (drop_smaller kp kv) in
  match map_entries t kp found with
  | MOk m => match found with [] => UOk x kv | _ => set m (drop (length found) kv) end
  | MErr => UErr x
  | MPanic => UPanic
  end.

(** reflect.go:278-294: the indexed elements; None on an index that does not parse. *)
Fixpoint index_all (kp : string) (l : kvs) : option (list (Z * string)) :=
  match l with
  | [] => Some []
  | (k, s) :: l => i ← parse_int (trim_prefix kp k); r ← index_all kp l; Some ((i, s) :: r)
  end.
Definition max_index (l : list (Z * string)) : Z := fold_left (fun m e => Z.max m (fst e)) l 0%Z.
(** reflect.go:299-305: v.Index(e.i).Set(vv) panics on indices out of range. *)
Inductive eres := EOk (l : list val) | EErr (l : list val) | EPanic.
Fixpoint set_all (t : ty) (elems : list (Z * string)) (l : list val) : eres :=
  match elems with
  | [] => EOk l
  | (i, s) :: elems =>
      match parse_value t s with
      | POk x => if ((0 <=? i) && (i <? Z.of_nat (length l)))%Z then set_all t elems (<[Z.to_nat i := x]> l) else EPanic
      | PErr => EErr l
      | _ => EPanic
      end
  end.

(** Sorting by key; Go's sort.Sort is not stable, so ties come in any order there. *)
Definition key_le {A} (a b : string * A) : Prop := slt (fst b) (fst a) = false.
Global Instance key_le_dec {A} (a b : string * A) : Decision (key_le a b).
Proof. unfold key_le. apply _. Defined.

(** reflect.go:231-239: the fields in sorted order. *)
Definition set_field (n : string) (x : val) (l : list (string * val)) : list (string * val) :=
  map (fun f => if String.eqb (fst f) n then (n, x) else f) l.
Definition get_field (n : string) (l : list (string * val)) : option val :=
  match list_find (fun f => fst f = n) l with Some (_, f) => Some (snd f) | None => None end.
Fixpoint run_fields (prefix : string) (fns : list (string * (string -> val -> kvs -> ures)))
    (l : list (string * val)) (kv : kvs) : list (string * val) * option kvs * bool :=
  (* fields, remaining pairs (None after an error), panicked *)
  match fns with
  | [] => (l, Some kv, false)
  | (n, f) :: fns =>
      match get_field n l with
      | None => (l, Some kv, true)   (* unreachable: the value has the fields of its type *)
      | Some x =>
          match f (nest prefix n) x kv with
          | UOk x kv => run_fields prefix fns (set_field n x l) kv
          | UErr x => (set_field n x l, None, false)
          | UPanic => (l, None, true)
          end
      end
  end.

(** reflect.go:180-310 unflattenValue; the target value is an argument and its new value is returned. *)
Fixpoint unflat (t : ty) (prefix : string) (x : val) (kv : kvs) : ures :=
  if negb (is_sorted kv) then UPanic else
  match kv with [] => UOk x [] | _ =>
  match t with
  | TMap e =>
      unflat_map e prefix kv x (fun m kv => UOk (VMap (Some m)) kv)
  | _ =>
  match drop_until prefix kv with
  | [] => UOk x []
  | (k, s) :: r =>
      let kv := (k, s) :: r in
      let scalar :=
        match parse_value t s with POk y => UOk y r | PErr => UErr x | _ => UPanic end in
      match t with
      | TScalar _ _ | TTime => scalar
      | TPtr (TScalar _ _) => scalar
      | TPtr TTime => UOk x kv            (* a struct without exported fields *)
      | TPtr (TPtr _) => UPanic           (* not modelled *)
      | TPtr (TStruct fs) =>
          let fns := merge_sort key_le (map (fun f => (fst f, unflat (snd f))) fs) in
          match x, fns with
          | VPtr (Some (VStruct l)), _ =>
              match run_fields prefix fns l kv with
              | (_, _, true) => UPanic
              | (l, Some kv, _) => UOk (VPtr (Some (VStruct l))) kv
              | (l, None, _) => UErr (VPtr (Some (VStruct l)))
              end
          | _, [] => UOk x kv
          | _, _ => UPanic
          end
      | TPtr (TMap e) => unflat_map e prefix kv x (fun _ _ => UPanic)
      | TPtr (TSlice e) | TPtr (TArray _ e) =>
          match index_all (prefix +:+ ".") (take_prefix (prefix +:+ ".") kv) with
          | None => UErr x
          | Some [] => UOk x kv
          | Some ((_, s) :: _) => match parse_value e s with PErr => UErr x | _ => UPanic end
          end
      | TStruct fs =>
          let fns := merge_sort key_le (map (fun f => (fst f, unflat (snd f))) fs) in
          match x with
          | VStruct l =>
              match run_fields prefix fns l kv with
              | (_, _, true) => UPanic
              | (l, Some kv, _) => UOk (VStruct l) kv
              | (l, None, _) => UErr (VStruct l)
              end
          | _ => UPanic   (* unreachable: the value has type t *)
          end
      | TSlice e =>
          let kp := (prefix +:+ ".")%string in
          let found := take_prefix kp kv in
          match index_all kp found with
          | None => UErr x
          | Some elems =>
              let n := (max_index elems + 1)%Z in
              (* reflect.MakeSlice panics; memory is unlimited in the model *)
              if (9223372036854775808 <=? n)%Z then UPanic else
              match set_all e elems (replicate (Z.to_nat n) (zero e)) with
              | EOk l => UOk (VSlice (Some l)) (drop (length found) kv)
              | EErr l => UErr (VSlice (Some l))
              | EPanic => UPanic
              end
          end
      | TArray _ e =>
          let kp := (prefix +:+ ".")%string in
          let found := take_prefix kp kv in
          match index_all kp found, x with
          | None, _ => UErr x
          | Some elems, VArray l =>
              match set_all e elems l with
              | EOk l => UOk (VArray l) (drop (length found) kv)
              | EErr l => UErr (VArray l)
              | EPanic => UPanic
              end
          | _, _ => UPanic   (* unreachable: the value has type t *)
          end
      | TMap _ => UPanic  (* handled above *)
      end
  end
  end
  end.

(** span.go:231-237 StringMap (the last annotation with a key wins), reflect.go:61-68 mapToKVs. *)
Definition string_map (anns : list Annotation) : gmap string string :=
  fold_left (fun m a => <[ann_key a := val_bytes (ann_val a)]> m) anns ∅.
Definition map_to_kvs (m : gmap string string) : kvs := merge_sort key_le (map_to_list m).
