(** What a browser makes of a page's text: the parts of the HTML standard (13.2.3.5, 13.2.5) that concern text in
    elements, in double-quoted attributes and in a textarea. *)
From Verif Require Import Base JsonModel.
Local Open Scope char_scope.

Definition digit (c : ascii) : Prop := (48 <= N_of_ascii c <= 57)%N.
Definition letter (c : ascii) : Prop := (65 <= N_of_ascii c <= 90)%N \/ (97 <= N_of_ascii c <= 122)%N.
Definition hexdigit (c : ascii) : Prop := digit c \/ (65 <= N_of_ascii c <= 70)%N \/ (97 <= N_of_ascii c <= 102)%N.
Definition hexval (c : ascii) : N := (if N_of_ascii c <? 58 then N_of_ascii c - 48 else if N_of_ascii c <? 71 then N_of_ascii c - 55 else N_of_ascii c - 87)%N.
Definition numeral (base : N) (ds : text) : N := fold_left (fun n d => (n * base + hexval d)%N) ds 0%N.

(** Line breaks are normalised first. *)
Fixpoint normal (s : text) : text :=
  match s with
  | [] => []
  | c :: r => if Ascii.eqb c "013" then "010" :: match r with d :: r' => if Ascii.eqb d "010" then normal r' else normal r | [] => [] end else c :: normal r
  end.

(** The places: an element's content, a double-quoted attribute's value, a textarea's content. *)
Inductive place := InElement | InAttribute | InTextarea.
Fixpoint lower (s : text) : text := match s with [] => [] | c :: s => (if ((65 <=? N_of_ascii c) && (N_of_ascii c <=? 90))%N then ascii_of_N (N_of_ascii c + 32) else c) :: lower s end.
(** Where the text ends. *)
Definition stops (p : place) (s : text) : Prop :=
  match p with
  | InElement => exists c r, s = "<" :: c :: r /\ (letter c \/ c = "/" \/ c = "!" \/ c = "?")
  | InAttribute => exists r, s = """" :: r
  | InTextarea => exists n c r, s = "<" :: "/" :: n ++ c :: r /\ lower n = Base.bytes "textarea" /\ (c = ">" \/ c = "/" \/ c = " " \/ c = "010" \/ c = "009" \/ c = "012")
  end.

(** The table of named character references: names without the ampersand, some with a semicolon at the end. *)
Record table (names : list (text * text)) : Prop := {
  t_names : forall n x, In (n, x) names -> exists k, (n = k \/ n = k ++ [";"]) /\ k <> [] /\ Forall (fun c => letter c \/ digit c) k;
  t_once : forall n x y, In (n, x) names -> In (n, y) names -> x = y;
  t_amp : In (Base.bytes "amp;", ["&"]) names;
  t_lt : In (Base.bytes "lt;", ["<"]) names;
  t_gt : In (Base.bytes "gt;", [">"]) names }.

Section browser.
  (** The table, and the characters that code points stand for (all the printable ASCII ones for themselves). *)
  Context (names : list (text * text)) (char : N -> text).
  (** [refers p s x rest]: after an ampersand, [s] starts with a character reference that stands for [x]. *)
  Inductive refers (p : place) (s : text) : text -> text -> Prop :=
  | R_number base ds r rest :
      (base = 10%N /\ s = "#" :: ds ++ r /\ Forall digit ds /\ (forall c r', r = c :: r' -> ~ digit c)) \/
      (base = 16%N /\ (exists x, (x = "x" \/ x = "X") /\ s = "#" :: x :: ds ++ r) /\ Forall hexdigit ds /\ (forall c r', r = c :: r' -> ~ hexdigit c)) ->
      ds <> [] -> r = ";" :: rest \/ (rest = r /\ forall r', r <> ";" :: r') ->
      refers p s (char (numeral base ds)) rest
  | R_name n x rest : In (n, x) names -> s = n ++ rest ->
      (forall n' x' r', In (n', x') names -> s = n' ++ r' -> length n' <= length n)%nat ->
      (p = InAttribute -> (exists k, n = k ++ [";"]) \/ forall c r', rest = c :: r' -> ~ (letter c \/ digit c \/ c = "=")) ->
      refers p s x rest.
  (** [reads p s t rest]: in the place, the text up to its end is [t]; the rest of the page follows.  (Nothing is said
      about NUL characters.) *)
  Inductive reads (p : place) : text -> text -> text -> Prop :=
  | RT_end s : s = [] \/ stops p s -> reads p s [] s
  | RT_char c s t rest : c <> "&" -> c <> "000" -> ~ stops p (c :: s) -> reads p s t rest -> reads p (c :: s) (c :: t) rest
  | RT_reference s x s' t rest : refers p s x s' -> reads p s' t rest -> reads p ("&" :: s) (x ++ t) rest
  | RT_ampersand s t rest : (forall x s', ~ refers p s x s') -> reads p s t rest -> reads p ("&" :: s) ("&" :: t) rest.
End browser.
(** NUL is replaced by U+FFFD. *)
Definition without_nul (s : text) : text := concat (map (fun c => if Ascii.eqb c "000" then map ascii_of_N [239; 191; 189]%N else [c]) s).
