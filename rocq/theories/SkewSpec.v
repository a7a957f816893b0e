(** Zero values of Go types. *)
From Coq Require Import Floats.SpecFloat.
From Verif Require Import Base TimeModel ReflModel.

Inductive is_zero : ty -> val -> Prop :=
| z_bool named : is_zero (TScalar named KBool) (VBool false)
| z_int named b : is_zero (TScalar named (KInt b)) (VInt 0)
| z_uint named b : is_zero (TScalar named (KUint b)) (VUint 0)
| z_float32 named : is_zero (TScalar named KFloat32) (VFloat32 (S754_zero false))
| z_float64 named : is_zero (TScalar named KFloat64) (VFloat64 (S754_zero false))
| z_duration named : is_zero (TScalar named KDuration) (VDuration 0)
| z_string named : is_zero (TScalar named KString) (VString "")
| z_time : is_zero TTime (VTime (MkTime 1 1 1 0 0 0 0 0))
| z_ptr t : is_zero (TPtr t) (VPtr None)
| z_struct fs l : zero_fields fs l -> is_zero (TStruct fs) (VStruct l)
| z_map t : is_zero (TMap t) (VMap None)
| z_slice t : is_zero (TSlice t) (VSlice None)
| z_array n t l : zero_list n t l -> is_zero (TArray n t) (VArray l)
with zero_fields : list (string * ty) -> list (string * val) -> Prop :=
| zf_nil : zero_fields [] []
| zf_cons n t x fs l : is_zero t x -> zero_fields fs l -> zero_fields ((n, t) :: fs) ((n, x) :: l)
with zero_list : nat -> ty -> list val -> Prop :=
| zl_nil t : zero_list O t []
| zl_cons n t x l : is_zero t x -> zero_list n t l -> zero_list (S n) t (x :: l).
