(** Specification vocabulary for what requests about one dataset see of others. *)
From Verif.Base Require Import GoBase Assoc Float GoSort.
From Verif.Model Require Import Codec Store Data Insert Search Dataset SearchStream Requests.
Open Scope N_scope.

(** The dataset registered under the name, and when it expires. *)
Definition view (name : bytes) (s : dstate) : option (Data * Z) :=
  match mload (dsList s) name with
  | Some i =>
      match nth_error (dsObjs s) (diObj i) with
      | Some dt => Some (dt, diExpires i)
      | None => None
      end
  | None => None
  end.

(** The occurrences of x among the names. *)
Definition only (x : bytes) (names : list bytes) : list bytes := filter (bytes_eqb x) names.

(** The dataset that a request is about. *)
Definition request_name (rq : SearchRequest) : bytes :=
  match srConfig rq with Some c => scDataName c | None => [] end.
Definition request_uuid (rq : SearchRequest) : bytes :=
  match srConfig rq with Some c => scUuid c | None => [] end.

(** What remains of an event if only the dataset x is looked at: nothing if it is
    about another dataset; if it is about all of them, its part about x. *)
Definition about1 (x : bytes) (e : nevent) : list nevent :=
  let if_x name := if bytes_eqb x name then [e] else [] in
  match e with
  | QInsert _ name _ _ _ _ | QInfo _ name | QStream _ name _ _ => if_x name
  | QSearch _ rq _ _ => if_x (request_name rq)
  | QCreate _ c => if_x (cName c)
  | BTask name _ | BExpire _ name | BDelete _ name => if_x name
  | BForget _ _ => [e]
  | BSave now names => [BSave now (only x names)]
  | BList now names => [BList now (only x names)]
  | BReload now info names => [BReload now info (only x names)]
  | BClose now names1 names2 => [BClose now (only x names1) (only x names2)]
  end.
Definition about (x : bytes) (es : list nevent) : list nevent := flat_map (about1 x) es.

(** The answers to the requests about x. *)
Definition answers_about (x : bytes) (outs : list (bytes * response)) : list response :=
  map snd (filter (fun o => bytes_eqb x (fst o)) outs).

(** The uuids of the searches of x, and those of the searches of other datasets. *)
Definition uuid_of (e : nevent) : option (bytes * bytes) :=
  match e with
  | QSearch _ rq _ _ => match request_uuid rq with [] => None | u => Some (request_name rq, u) end
  | _ => None
  end.
Definition own_uuids (x : bytes) (es : list nevent) : Prop :=
  forall e e' u y, In e es -> In e' es -> uuid_of e = Some (x, u) -> uuid_of e' = Some (y, u) -> y = x.

(** A node that has just been started. *)
Definition nstart : nstate := mkNS false [] (mkDS [] []).

(** The time at which an event happens, if it has one. *)
Definition nevent_time (e : nevent) : option Z :=
  match e with
  | QInsert now _ _ _ _ _ | QInfo now _ | QStream now _ _ _ | QSearch now _ _ _ | QCreate now _
  | BExpire now _ | BForget now _ | BDelete now _ | BSave now _ | BList now _ | BReload now _ _ | BClose now _ _ => Some now
  | BTask _ _ => None
  end.

(** The node's own loops over its datasets visit datasets that are there. *)
Definition visits_registered (s : dstate) (e : nevent) : Prop :=
  match e with
  | BSave now names | BList now names => forall n, In n names -> In n (ListNames now s)
  | BClose now names1 names2 => forall n, In n (names1 ++ names2) -> In n (ListNames now s)
  | _ => True
  end.

(** The configuration with which an event should create the dataset x, if x is not
    there: an insert, unless the node drains, a request for information or data and
    a creation; a search, housekeeping and anything about another name do not. *)
Definition made_by (x : bytes) (drain : bool) (e : nevent) : option DataConfig :=
  match e with
  | QInsert _ name _ _ _ _ => if bytes_eqb x name && negb drain then Some (GetDefaultConfig x) else None
  | QInfo _ name | QStream _ name _ _ => if bytes_eqb x name then Some (GetDefaultConfig x) else None
  | QCreate _ c => if bytes_eqb x (cName c) then Some c else None
  | _ => None
  end.

(** The dataset can be found at [now]. *)
Definition there (now : Z) (x : bytes) (s : dstate) : Prop :=
  exists dt e, view x s = Some (dt, e) /\ ((e <= 0)%Z \/ (now <= e)%Z).
