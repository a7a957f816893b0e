(** What clients of a collector server see, in terms of the history of the network. *)
From Verif Require Import Base WireModel ListenModel.

(** The bytes that arrived on connection c, in order, however they were split. *)
Fixpoint received (c : nat) (tr : list slabel) : bytes :=
  match tr with
  | [] => []
  | LData c' bs :: tr => if (c' =? c)%nat then bs ++ received c tr else received c tr
  | _ :: tr => received c tr
  end.

(** Connection c's client has closed its side. *)
Definition closed (c : nat) (tr : list slabel) : Prop := In (LClose c) tr.

(** Nothing is left to do for c's handler: it has ended, or it waits for bytes. *)
Definition idle (L : lib) (coll : list wcall -> wcall -> bool) (c : nat) (s : server) : Prop := sv_step L coll (LHandle c) s = None.
