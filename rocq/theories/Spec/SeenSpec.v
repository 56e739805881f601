(** Specification vocabulary: the identifiers of queries that a node remembers. *)
From Verif.Base Require Import GoBase Assoc Float.
From Verif.Model Require Import Codec Store Data Insert Search Dataset DatasetAll SearchStream Requests.
From Verif.Spec Require Import IsolationSpec RequestSpec.
Open Scope N_scope.

(** A search with an identifier, at the time t or later. *)
Definition search_since (t : Z) (e : nevent) : bool :=
  match e with
  | QSearch now rq _ _ => negb (bytes_eqb (request_uuid rq) []) && (t <=? now)%Z
  | _ => false
  end.

(** Searches come at the time t or later. *)
Definition searches_from (t : Z) (e : nevent) : Prop :=
  match e with QSearch now _ _ _ => (t <= now)%Z | _ => True end.

(** The janitor has been through at the time p. *)
Definition forgotten_until (p : Z) (n : nstate) : Prop :=
  forall uid x, In (uid, x) (nsSeen n) -> (p <= x)%Z.
