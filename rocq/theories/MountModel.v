(** Model of traceapp with a router of its user's: NewRouter with a base router (traceapp/router.go), the addresses
    it makes, and the handler of static files (traceapp/app.go). *)
From Verif Require Import Base IdModel WebModel RouteModel.
Local Open Scope string_scope.

(** The text of a path prefix with the components [P]: mux's PathPrefix("/a/b"); a slash at its end makes no difference.
    (Variables in the prefix are not modelled.) *)
Fixpoint prefix_text (P : list string) : string :=
  match P with [] => "" | c :: P => "/" +:+ c +:+ prefix_text P end.
(** router.go:31-47 with base = main.PathPrefix(P).Subrouter(): mux puts the prefix in front of the template of every
    route of a subrouter.  With P = [] these are the routes of a router without a prefix. *)
Definition below (P : list string) (r : route) : route :=
  MkRoute (rt_name r) (rt_method r)
    match rt_pat r with Exact segs => Exact (map Lit P ++ segs) | Prefix p => Prefix (prefix_text P +:+ p) end.
Definition routes_below (P : list string) : list route := map (below P) routes.
(** What a request to the user's router comes to: one of the user's own handlers [a], or one of traceapp's. *)
Inductive answered (A : Type) := Redirected | NothingFound | Users (a : A) | Traceapp (r : route_name) (v : vars).
Arguments Redirected {A}. Arguments NothingFound {A}. Arguments Users {A} a. Arguments Traceapp {A} r v.
(** mux's Router.ServeHTTP and Match for the user's router: its routes in the order they were added, of which
    those [before] the subrouter, then the subrouter's, and those [after] it. *)
Definition serve {A} (before after : string -> string -> option A) (P : list string) (method path : string) : answered A :=
  match components path with
  | Some cs =>
    if clean_components cs then
      match before method path with
      | Some a => Users a
      | None =>
        match (if String.prefix (prefix_text P) path then first_match (routes_below P) method path else DNotFound) with
        | DRoute r v => Traceapp r v
        | _ => match after method path with Some a => Users a | None => NothingFound end
        end
      end
    else Redirected
  | None => Redirected
  end.

(** router.go:49-77 and mux's Route.URL: the path of a route's template with values for its variables; None: an error
    (a variable without a value, or with an empty one, which its expression does not match). *)
Fixpoint build (segs : list seg) (vals : vars) : option string :=
  match segs with
  | [] => Some ""
  | Lit s :: segs => rest ← build segs vals; Some ("/" +:+ s +:+ rest)
  | Var n :: segs =>
    match var vals n with "" => None | x => rest ← build segs vals; Some ("/" +:+ x +:+ rest) end
  end.
Definition url_in (P : list string) (r : route_name) (vals : vars) : option string :=
  match list_find (fun x => rt_name x = r) (routes_below P) with
  | Some (_, x) => match rt_pat x with Exact segs => build segs vals | Prefix p => Some p end
  | None => None
  end.

(** app.go:93: http.StripPrefix("/static/", http.FileServer(static.Data)): the name of the file that is served;
    None: not found.  (What http.FileServer does with names of directories is not modelled.) *)
Definition static_asked (path : string) : option string :=
  if String.prefix "/static/" path then Some ("/" +:+ unbytes (drop (String.length "/static/") (bytes path))) else None.
