(** Model of queries (net/url) and of the view mode menu of the aggregated view: traceapp/app.go:250-290,
    traceapp/tmpl/data/aggregate.html:89-119. *)
From Verif Require Import Base IdModel TraceModel EventModel ProfModel WebModel HrefModel.
Local Open Scope char_scope.

(** ** Queries *)

(** net/url: unhex and the unescape of QueryUnescape.  None: an error. *)
Definition hex_of (c : ascii) : option N :=
  let x := N_of_ascii c in
  if ((48 <=? x) && (x <=? 57))%N then Some (x - 48)%N
  else if ((97 <=? x) && (x <=? 102))%N then Some (x - 87)%N
  else if ((65 <=? x) && (x <=? 70))%N then Some (x - 55)%N else None.
Fixpoint query_unescape (l : list ascii) : option (list ascii) :=
  match l with
  | [] => Some []
  | "%" :: a :: b :: l => x ← hex_of a; y ← hex_of b; r ← query_unescape l; Some (ascii_of_N (16 * x + y) :: r)
  | "%" :: _ => None
  | "+" :: l => r ← query_unescape l; Some (" " :: r)
  | c :: l => r ← query_unescape l; Some (c :: r)
  end.
(** net/url: strings.Cut at "=", as parseQuery does it. *)
Fixpoint cut_eq (l : list ascii) : list ascii * list ascii :=
  match l with
  | [] => ([], [])
  | "=" :: l => ([], l)
  | c :: l => let (k, v) := cut_eq l in (c :: k, v)
  end.
(** net/url: parseQuery's reading of one part.  None: the part is empty, or skipped because of an error. *)
Definition param (part : list ascii) : option (list ascii * list ascii) :=
  match part with
  | [] => None
  | _ => let (k, v) := cut_eq part in k ← query_unescape k; v ← query_unescape v; Some (k, v)
  end.
(** net/url: Values.Get of parseQuery: the first value with the name, or "".  Parts are separated by "&"; some versions of
    Go also take ";" as a separator, others reject parts with one: such queries are not modelled. *)
Fixpoint get_part (name : list ascii) (parts : list (list ascii)) : list ascii :=
  match parts with
  | [] => []
  | p :: parts => match param p with
                  | Some (k, v) => if decide (k = name) then v else get_part name parts
                  | None => get_part name parts
                  end
  end.
Definition query_get (query : list ascii) (name : string) : string := unbytes (get_part (bytes name) (split_on "&" query)).

(** What a browser sends of an address: without the fragment, and the query is what follows the first "?". *)
Fixpoint cut_at (c : ascii) (l : list ascii) : list ascii * option (list ascii) :=
  match l with
  | [] => ([], None)
  | d :: l => if Ascii.eqb d c then ([], Some l) else let (a, b) := cut_at c l in (d :: a, b)
  end.
Definition query_of (address : list ascii) : list ascii := default [] (snd (cut_at "?" (fst (cut_at "#" address)))).

(** ** The page *)

(** app.go:250-290 serveAggregate: the items of the page, for the Queryer's [traces]; RErr also for an error of the selection. *)
Inductive aggregate_page (reg : registry) (us : urls) (traces : list tree) (query : list ascii) : res (list (string * Z)) -> Prop :=
| page_items sel r : selected traces (query_get query "selection") = Some sel ->
    aggregate reg us (parse_agg_mode (query_get query "view-mode")) sel r -> aggregate_page reg us traces query r
| page_error : selected traces (query_get query "selection") = None -> aggregate_page reg us traces query RErr.

(** ** The menu *)

(** ECMAScript's Canonicalize for the flag "i": no character outside ASCII is taken for one in it. *)
Definition ascii_lower (c : ascii) : ascii :=
  let x := N_of_ascii c in if ((65 <=? x) && (x <=? 90))%N then ascii_of_N (x + 32) else c.
(** The rest of [l] after [p], in any case. *)
Fixpoint after_ci (p l : list ascii) : option (list ascii) :=
  match p, l with
  | [], _ => Some l
  | c :: p, d :: l => if Ascii.eqb (ascii_lower c) (ascii_lower d) then after_ci p l else None
  | _, _ => None
  end.
Definition mode_key : list ascii := bytes "view-mode=".
(** aggregate.html:91: the first match of ([?&])view-mode=.*?(&|$), case-insensitively: what precedes it, $1, and what
    follows "view-mode=".  Addresses have no line ends, which the dot does not match. *)
Fixpoint find_mode (l : list ascii) : option (list ascii * ascii * list ascii) :=
  match l with
  | [] => None
  | c :: l' =>
      match (if Ascii.eqb c "?" || Ascii.eqb c "&" then after_ci mode_key l' else None) with
      | Some r => Some ([], c, r)
      | None => match find_mode l' with Some (b, s, r) => Some (c :: b, s, r) | None => None end
      end
  end.
(** From the first "&": the rest after .*?, with $2. *)
Fixpoint from_amp (l : list ascii) : list ascii :=
  match l with [] => [] | "&" :: _ => l | _ :: l => from_amp l end.
(** aggregate.html:90-99 updateQueryStringParameter for "view-mode" *)
Definition set_mode (uri value : list ascii) : list ascii :=
  match find_mode uri with
  | Some (b, s, r) => b ++ s :: mode_key ++ value ++ from_amp r
  | None => uri ++ (if existsb (Ascii.eqb "?") uri then "&" else "?") :: mode_key ++ value
  end.
(** aggregate.html:108-119: the entries of the menu *)
Definition entry (m : agg_mode) : string :=
  match m with TraceOnly => "trace-only" | SpanOnly => "span-only" | TraceAndSpan => "trace-and-span" end.
(** aggregate.html:101-106 viewMode: the address after choosing an entry.  (If it is the same, the page is not loaded again.) *)
Definition choose (address : list ascii) (m : agg_mode) : list ascii := set_mode address (bytes (entry m)).
