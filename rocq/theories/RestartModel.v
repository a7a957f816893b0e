(** Model of the lives of a server with a store file: cmd/appdash/serve_cmd.go:58-92 over MemoryStore and PersistEvery. *)
From Verif Require Import Base MemModel PersistModel PersistEveryModel ServeModel.

Section restart.
(** The store file, the names of temporary files, what Write writes for a store and what ReadFrom decodes from a file. *)
Context (file : string) (tmpname : string -> Prop) (enc : MS -> string) (dec : string -> option gob_data).

(** serve_cmd.go:66-80: the store of a new server; None if the command ends with an error. *)
Definition start_store (fs : gmap string string) : option MS :=
  match fs !! file with
  | None => Some (serve_store None)
  | Some c => match dec c with Some d => Some (serve_store (Some d)) | None => None end
  end.
(** The store after k of the calls that reach it. *)
Definition moment (st : MS) (calls : list call) (k : nat) : MS := default st (ms_run (take k calls) st).

(** One run of the server: it starts from the files [fs], the calls [rn_calls] reach its memory store (through a RecentStore
    or not) while PersistEvery works, and it ends in the state [rn_end] of PersistEvery: any state, since it may be killed
    at any time.  Write returns only for stores that can be written (see ms_writes),
    and what it wrote is what ReadFrom decodes.  Afterwards other programs may
    change other files. *)
Record run := MkRun { rn_calls : list call; rn_end : PE }.
Definition runs_to (fs : gmap string string) (r : run) (fs' : gmap string string) : Prop :=
  exists st, start_store fs = Some st /\
    rtc (pe_step file tmpname (moment st (rn_calls r)) enc) (pe_init fs) (rn_end r) /\
    pe_now (rn_end r) = length (rn_calls r) /\
    (forall k, pe_last (rn_end r) = Some k -> exists d, ms_writes (moment st (rn_calls r) k) d /\ dec (enc (moment st (rn_calls r) k)) = Some d) /\
    fs' !! file = pe_fs (rn_end r) !! file.
Inductive life (fs : gmap string string) : list run -> gmap string string -> Prop :=
| Life_nil fs' : fs' !! file = fs !! file -> life fs [] fs'
| Life_run rs fs1 r fs2 : life fs rs fs1 -> runs_to fs1 r fs2 -> life fs (rs ++ [r]) fs2.
End restart.
