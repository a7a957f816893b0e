(** Model of the basic-auth handler of cmd/appdash/serve_cmd.go. *)
From Verif Require Import Base IdModel TimeModel ReflModel EventModel RecorderModel HttpModel PageModel Base64Model.

(** strings.SplitN(s, ":", 2): the parts around the first colon, if there is one. *)
Fixpoint cut_colon (l : list ascii) : option (list ascii * list ascii) :=
  match l with
  | [] => None
  | c :: l => if Ascii.eqb c ":" then Some ([], l) else '(a, b) ← cut_colon l; Some (c :: a, b)
  end.
(** serve_cmd.go:111-124: what the --basic-auth option makes of the web app. *)
Inductive auth_setup := AuthNone | AuthFatal | AuthBasic (user passwd : string).
Definition setup_auth (opt : string) : auth_setup :=
  if decide (opt = ""%string) then AuthNone
  else match cut_colon (bytes opt) with
       | None => AuthFatal
       | Some (u, p) => if bool_decide (u = []) || bool_decide (p = []) then AuthFatal else AuthBasic (unbytes u) (unbytes p)
       end.

(** serve_cmd.go:195-198 newBasicAuthHandler: the precomputed header value *)
Definition auth_want (user passwd : string) : string := ("Basic " +:+ b64_std (user +:+ ":" +:+ passwd))%string.

(** crypto/subtle ConstantTimeCompare: the bytes' differences, ored together, are compared with 0. *)
Fixpoint diff_bits (v : N) (x y : list ascii) : N :=
  match x, y with
  | a :: x, b :: y => diff_bits (N.lor v (N.lxor (N_of_ascii a) (N_of_ascii b))) x y
  | _, _ => v
  end.
Definition constant_time_compare (x y : list ascii) : N :=
  if Nat.eqb (length x) (length y) then (if diff_bits 0 x y =? 0 then 1 else 0) else 0.

(** serve_cmd.go:205-214 ServeHTTP, for a wrapped application: whether that is called, and the writer afterwards. *)
Definition serve_auth (want : string) (app : header -> writer -> writer) (req : header) (w : writer) : bool * writer :=
  let hdr := header_get req "authorization" in
  if Nat.eqb (String.length want) (String.length hdr) && (constant_time_compare (bytes want) (bytes hdr) =? 1)
  then (true, app req w)
  else (false, http_error (MkWriter (header_set (w_header w) "WWW-Authenticate" "Basic realm=""appdash""") (w_sent w) (w_body w)) "unauthorized" 401).

(** serve_cmd.go:110-126 and the request it then serves; [None]: the server does not start (log.Fatalf). *)
Definition serve_web (opt : string) (app : header -> writer -> writer) (req : header) (w : writer) : option (bool * writer) :=
  match setup_auth opt with
  | AuthNone => Some (true, app req w)
  | AuthFatal => None
  | AuthBasic user passwd => Some (serve_auth (auth_want user passwd) app req w)
  end.
