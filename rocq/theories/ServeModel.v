(** Model of the serve command's store and address: cmd/appdash/serve_cmd.go. *)
From Verif Require Import Base MemModel PersistModel RecentModel.
Local Open Scope Z_scope.

(** serve_cmd.go:58-76: the memory store of a new server.  [file] is the content of the store file,
    None if there is none or --store-file is empty.  (A file that cannot be read ends the command.) *)
Definition serve_store (file : option gob_data) : MS :=
  match file with Some d => fst (ms_read_from d ms_init) | None => ms_init end.

(** serve_cmd.go:86-92, 162: the server's collector calls Collect of this Store.  [serves after file h ms]:
    with --delete-after [after], the calls [h] lead to the memory store [ms], which the web app reads
    (107-108: with a RecentStore, Trace and Traces of the embedded store).  Calls of a RecentStore decide
    on evictions in the order of [h] and act on the memory store in any order, see RecentModel;
    without one, the history's decisions are unused.  The persisting goroutine only reads the store. *)
Inductive serves (after : Z) (file : option gob_data) (h : list revent) (ms : MS) : Prop :=
| Serves_recent rs pend dn : 0 < after -> rs_exec after h rs pend dn -> ms_run dn (serve_store file) = Some ms ->
    serves after file h ms
| Serves_all : after <= 0 -> ms_run (map (fun e => CCollect (re_id e) (re_anns e)) h) (serve_store file) = Some ms ->
    serves after file h ms.

(** strings.LastIndexByte: what is before and after the last [c]. *)
Fixpoint cut_last (c : ascii) (l : list ascii) : option (list ascii * list ascii) :=
  match l with
  | [] => None
  | x :: l => match cut_last c l with
              | Some (a, b) => Some (x :: a, b)
              | None => if Ascii.eqb x c then Some ([], l) else None
              end
  end.
(** strings.IndexByte: what is before and after the first [c]. *)
Fixpoint cut_first (c : ascii) (l : list ascii) : option (list ascii * list ascii) :=
  match l with
  | [] => None
  | x :: l => if Ascii.eqb x c then Some ([], l) else
              match cut_first c l with Some (a, b) => Some (x :: a, b) | None => None end
  end.
Definition has (c : ascii) (l : list ascii) : bool := match cut_first c l with Some _ => true | None => false end.

(** net.SplitHostPort (net/ipsock.go); [None]: an error. *)
Definition split_host_port (hostport : list ascii) : option (list ascii * list ascii) :=
  match cut_last ":" hostport with
  | None => None
  | Some (before, port) =>
      match hostport with
      | "["%char :: rest =>
          match cut_first "]" rest with
          | None => None
          | Some (host, after) =>
              (* the first ']' must be just before the last ':' *)
              if decide (length before = S (S (length host))) then
                if has "[" rest || has "]" after then None else Some (host, port)
              else None
          end
      | _ => if has ":" before then None
             else if has "[" hostport || has "]" hostport then None else Some (before, port)
      end
  end.

(** serve_cmd.go:174-193 urlOrDefault without --url: scheme and host of the URL. *)
Definition default_url (http_addr : list ascii) : option (string * list ascii) :=
  match split_host_port http_addr with
  | None => None
  | Some (host, port) => Some ("http"%string, (if decide (host = []) then Base.bytes "localhost" else host) ++ ":"%char :: port)
  end.
