(** Model of Router.URLTo (traceapp/router.go). *)
From Verif Require Import Base WebModel.

#[global] Instance route_name_dec : EqDecision route_name. Proof. solve_decision. Defined.
(** router.go:49-56 URLTo and mux's Route.URL without values for variables: the path of the route's template;
    None: an error, the route has variables.  (Names that are no route's are not part of [route_name].) *)
Fixpoint fill (segs : list seg) : option string :=
  match segs with
  | [] => Some ""%string
  | Lit s :: segs => rest ← fill segs; Some ("/" +:+ s +:+ rest)%string
  | Var _ :: _ => None
  end.
Definition url_to (r : route_name) : option string :=
  match list_find (fun x => rt_name x = r) routes with
  | Some (_, x) => match rt_pat x with Exact segs => fill segs | Prefix p => Some p end
  | None => None
  end.
