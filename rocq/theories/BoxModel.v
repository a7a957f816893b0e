(** Model of the boxes on the list of traces and of "Toggle Selection": traceapp/tmpl/data/traces.html:49-51, 158-164. *)
From Verif Require Import Base.

(** The page: the boxes of the lines and the script's variable [checked]. *)
Record list_page := MkList { lp_boxes : list bool; lp_checked : bool }.
(** What the user does: a click on the box of a line, or on "Toggle Selection". *)
Inductive touch := Tick (i : nat) | Toggle.
(** traces.html:50 (every box is checked) and 159. *)
Definition list_loaded (n : nat) : list_page := MkList (replicate n true) true.
(** traces.html:160-164; a click on a box is the browser's doing. *)
Definition touched (p : list_page) (t : touch) : list_page :=
  match t with
  | Tick i => MkList (alter negb i (lp_boxes p)) (lp_checked p)
  | Toggle => let checked := negb (lp_checked p) in MkList (map (fun _ => checked) (lp_boxes p)) checked
  end.
Definition after (n : nat) (ts : list touch) : list_page := fold_left touched ts (list_loaded n).
