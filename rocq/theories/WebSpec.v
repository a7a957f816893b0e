(** Specification for traceapp's pages. *)
From Verif Require Import Base IdSpec MemModel MemSpec WebModel.

(** The text [a] names the ID [v]: a hexadecimal numeral below 2^64. *)
Definition names_id (a : string) (v : N) : Prop := hex_numeral a v /\ is_id v.
(** The first span (in depth-first order) with ID [s]. *)
Definition first_span (t : tree) (s : N) (sub : tree) : Prop :=
  exists before after, nodes t = before ++ sub :: after /\ sp_span (tr_id sub) = s /\
    forall x, In x before -> sp_span (tr_id x) <> s.
(** The tree to be shown under an address with the components [a] (trace) and perhaps [b] (span). *)
Definition addressed (store : N -> option tree) (a : string) (b : option string) (sub : tree) : Prop :=
  exists i t, names_id a i /\ store i = Some t /\
    match b with None => sub = t | Some b => exists s, names_id b s /\ first_span t s sub end.
(** The pages' addresses. *)
Inductive page_address : string -> option string -> string -> Prop :=
| PA_trace a : page_address a None ("/traces/" +:+ a)%string
| PA_span a b : page_address a (Some b) ("/traces/" +:+ a +:+ "/" +:+ b)%string.
Definition profile_address (a : string) (b : option string) (path : string) : Prop :=
  exists page, page_address a b page /\ path = (page +:+ "/profile")%string.

(** [store] answers as the MemoryStore does. *)
Definition answers_as (store : N -> option tree) (st : MS) : Prop := forall t tr, store t = Some tr <-> shows st t tr.
(** All IDs of a call are 64-bit. *)
Definition ids_64 (c : call) : Prop :=
  match c with CCollect id _ => is_id (sp_trace id) /\ is_id (sp_span id) /\ is_id (sp_parent id) | CDelete _ => True end.

(** Items separated by commas. *)
Inductive comma_list : list string -> string -> Prop :=
| CL_one p : ~ In ","%char (bytes p) -> comma_list [p] p
| CL_cons p ps s : ~ In ","%char (bytes p) -> comma_list ps s -> comma_list (p :: ps) (p +:+ String "," s).
(** The IDs named by items, those that name none being left out. *)
Inductive named : list string -> list N -> Prop :=
| N_nil : named [] []
| N_id a v items ids : names_id a v -> named items ids -> named (a :: items) (v :: ids)
| N_skip a items ids : ~ (exists v, names_id a v) -> named items ids -> named (a :: items) ids.
