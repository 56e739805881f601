(** The HTTP port of a server (server/httpservice.go 53-64). *)
From Verif.Base Require Import GoBase.
From Verif.Model Require Import Path Node.
Open Scope N_scope.

(** cleanPath of gorilla/mux: path.Clean of the path with a slash in front; a
    slash at the end is kept.
    Library function used by the router of server/httpservice.go 55. *)
Definition cleanPath (p : bytes) : bytes :=
  match p with
  | [] => [slash]
  | b :: _ =>
      let q := if b =? slash then p else slash :: p in
      let np := Clean q in
      if (last q 0 =? slash) && negb (bytes_eqb np [slash]) then np ++ [slash] else np
  end.

(** An answer: what a handler wrote, a redirection to another path, or one of the
    two refusals of the router.
    server/httpservice.go 53-64. *)
Inductive answer := Handled (w : writer) | Redirect (to : bytes) | NotFound | MethodNotAllowed.

(** The routes, server/httpservice.go 56-58: a route is a path and a handler; all
    of them are for GET. *)
Definition routes : list (bytes * (life -> writer -> writer)) :=
  [(bs "/", GetHeath); (bs "/health", GetHeath); (bs "/ready", GetReady)].

(** The first route with this path.
    Route.Match of gorilla/mux, used at server/httpservice.go 56-58. *)
Fixpoint route_of (rs : list (bytes * (life -> writer -> writer))) (p : bytes)
  : option (life -> writer -> writer) :=
  match rs with
  | [] => None
  | (q, h) :: rs' => if bytes_eqb p q then Some h else route_of rs' p
  end.

(** Router.ServeHTTP of gorilla/mux: a path that is not clean is redirected to the
    clean one (301) before anything else; then the routes are tried.  [w] is the
    empty response.
    server/httpservice.go 55-63. *)
Definition serve_http (s : life) (method path : bytes) (w : writer) : answer :=
  if negb (bytes_eqb (cleanPath path) path) then Redirect (cleanPath path)
  else match route_of routes path with
       | None => NotFound
       | Some h => if bytes_eqb method (bs "GET") then Handled (h s w) else MethodNotAllowed
       end.

(** The status line of an answer.
    server/httpservice.go 17-39 and 53-64. *)
Definition status (a : answer) : N :=
  match a with
  | Handled w => fst (fst (response (fun b => b) w))
  | Redirect _ => 301
  | NotFound => 404
  | MethodNotAllowed => 405
  end.
