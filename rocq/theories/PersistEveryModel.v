(** Model of PersistEvery: store.go:359-378, as a small-step machine whose states are the
    crash points.

    Simplifications: the file system is a map from paths to contents whose operations take
    effect at once and in order, rename being atomic (a crash is a crash of the process, not a loss
    of power: the code does not call Sync).  The store is a sequence [snap : nat -> A] of the
    states it goes through, [now] being the current moment; [enc] is what Write produces for a state. *)
From Verif Require Import Base.

(** Where the loop body is: store.go:361-375. *)
Inductive ppc :=
| PSleep                                           (* 361 time.Sleep *)
| PTemp (tmp : string)                             (* 363-366 TempFile succeeded *)
| PWrite (tmp : string) (k : nat) (rest : string)  (* 367 inside s.Write: state k is being written, rest is to come *)
| PWrote (tmp : string)                            (* 367 s.Write returned nil *)
| PClosed (tmp : string)                           (* 371 f.Close returned nil *)
| PReturned.                                       (* PersistEvery returned an error *)

(** [pe_last] is a ghost: the moment of the store written by the last successful Rename. *)
Record PE := MkPE { pe_fs : gmap string string; pe_now : nat; pe_pc : ppc; pe_snap : option nat; pe_last : option nat }.

Definition pe_init (fs : gmap string string) : PE := MkPE fs 0 PSleep None None.

Definition in_write (pc : ppc) : bool := match pc with PWrite _ _ _ => true | _ => false end.
Definition tmp_of (pc : ppc) : option string :=
  match pc with PTemp t | PWrite t _ _ | PWrote t | PClosed t => Some t | _ => None end.

(** One step.  [tmpname] says which paths ioutil.TempFile may choose. *)
Inductive pe_step {A} (file : string) (tmpname : string -> Prop) (snap : nat -> A) (enc : A -> string) : PE -> PE -> Prop :=
(* the store changes; MemoryStore.Write holds the store's lock, so not inside Write *)
| PE_store st : in_write (pe_pc st) = false ->
    pe_step file tmpname snap enc st (MkPE (pe_fs st) (S (pe_now st)) (pe_pc st) (pe_snap st) (pe_last st))
(* other processes change other files *)
| PE_other st p c : p <> file -> tmp_of (pe_pc st) <> Some p ->
    pe_step file tmpname snap enc st (MkPE (partial_alter (fun _ => c) p (pe_fs st)) (pe_now st) (pe_pc st) (pe_snap st) (pe_last st))
(* 363-366 *)
| PE_temp_err fs now o l : pe_step file tmpname snap enc (MkPE fs now PSleep o l) (MkPE fs now PReturned o l)
| PE_temp fs now o l tmp : tmpname tmp -> fs !! tmp = None ->
    pe_step file tmpname snap enc (MkPE fs now PSleep o l) (MkPE (<[tmp := ""]> fs) now (PTemp tmp) o l)
(* 367: Write takes its snapshot, then writes piece by piece and may fail at any point *)
| PE_write_begin fs now o l tmp :
    pe_step file tmpname snap enc (MkPE fs now (PTemp tmp) o l) (MkPE fs now (PWrite tmp now (enc (snap now))) (Some now) l)
| PE_write_some fs now o l tmp k written piece rest : fs !! tmp = Some written ->
    pe_step file tmpname snap enc (MkPE fs now (PWrite tmp k (piece ++ rest)%string) o l)
                                  (MkPE (<[tmp := (written ++ piece)%string]> fs) now (PWrite tmp k rest) o l)
| PE_write_err fs now o l tmp k rest :
    pe_step file tmpname snap enc (MkPE fs now (PWrite tmp k rest) o l) (MkPE fs now PReturned o l)
| PE_write_done fs now o l tmp k :
    pe_step file tmpname snap enc (MkPE fs now (PWrite tmp k "") o l) (MkPE fs now (PWrote tmp) o l)
(* 371 *)
| PE_close_err fs now o l tmp : pe_step file tmpname snap enc (MkPE fs now (PWrote tmp) o l) (MkPE fs now PReturned o l)
| PE_close fs now o l tmp : pe_step file tmpname snap enc (MkPE fs now (PWrote tmp) o l) (MkPE fs now (PClosed tmp) o l)
(* 374 *)
| PE_rename_err fs now o l tmp : pe_step file tmpname snap enc (MkPE fs now (PClosed tmp) o l) (MkPE fs now PReturned o l)
| PE_rename fs now o l tmp c : fs !! tmp = Some c ->
    pe_step file tmpname snap enc (MkPE fs now (PClosed tmp) o l) (MkPE (<[file := c]> (delete tmp fs)) now PSleep o o).
