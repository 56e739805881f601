(** Specification vocabulary for what becomes of a datum that a node acknowledged. *)
From Verif.Base Require Import GoBase Assoc Float GoSort.
From Verif.Model Require Import Codec Store Data Insert Search Dataset SearchStream Requests.
From Verif.Spec Require Import Wire StoreSpec InsertSpec IsolationSpec.
Open Scope N_scope.

(** Work on a dataset that adds nothing to it and takes away only data whose time
    to live is over at [T] (seconds). *)
Definition tidy (T : Z) (f : Data -> Data) : Prop :=
  forall dt, mwf (dDBMap dt) ->
    mwf (dDBMap (f dt)) /\
    (forall b e, mload (dDBMap (f dt)) b = Some e -> mload (dDBMap dt) b = Some e) /\
    (forall b e, mload (dDBMap dt) b = Some e -> (exprireAt e = 0 \/ T < exprireAt e)%Z ->
       mload (dDBMap (f dt)) b = Some e).

(** What is expected of the requests until [T]: inserts carry well-formed data at a
    sensible time, streams go through all the data, and neither streams nor searches
    nor tasks take away data that live beyond [T]. *)
Definition decent (T : Z) (e : nevent) : Prop :=
  match e with
  | QInsert now _ _ _ d c => exists k v, d = Some (kv k v) /\ kv_ok k v /\
      (10 <= now / 1000000000)%Z /\ (now / 1000000000 + Z.of_N (ttl_of c) < 9223372036854775808)%Z
  | QStream _ _ tick order => (forall b, (tick b <= T)%Z) /\ forall m, Permutation (order m) m
  | QSearch _ _ _ after => tidy T after
  | BTask _ f => tidy T f
  | _ => True
  end.

(** The request puts another value in the place of the datum with the key k. *)
Definition replaces (x : bytes) (k : DatumKey) (e : nevent) : Prop :=
  match e with
  | QInsert _ name _ _ (Some d) _ => name = x /\ dkey d = Some k
  | _ => False
  end.

(** The dataset x is there all the time: it can be found when each of the events
    happens, and it is there after each of them. *)
Fixpoint stays L inc closed (x : bytes) (n : nstate) (es : list nevent) : Prop :=
  match es with
  | [] => True
  | e :: es' =>
      (forall t, nevent_time e = Some t -> there t x (nsReg n)) /\
      match nstep L inc closed n e with
      | Ok (n', _) => view x (nsReg n') <> None /\ stays L inc closed x n' es'
      | _ => True
      end
  end.

(** Prolonging the life of a dataset does not end it (the fork of go-cache). *)
Definition prolongs (inc : Z -> Z -> Z -> Z) : Prop :=
  forall now d old, (old <= 0 \/ now <= old)%Z -> (inc now d old <= 0 \/ now <= inc now d old)%Z.

(** The clock of the events does not go back and ends at [T]. *)
Fixpoint in_time (T : Z) (es : list nevent) : Prop :=
  match es with
  | [] => True
  | e :: es' =>
      (forall t, nevent_time e = Some t -> (t <= T)%Z /\ forall e' t', In e' es' -> nevent_time e' = Some t' -> (t <= t')%Z) /\
      in_time T es'
  end.

(** When the last search with the identifier u came that was not a repetition: five
    minutes (in nanoseconds) have to pass. *)
Definition seen_by (u : bytes) (last : option Z) (e : nevent) : option Z :=

  match e with
  | QSearch now rq _ _ =>
      if bytes_eqb (request_uuid rq) u then
        match last with
        | Some t => if (t + 300000000000 <? now)%Z then Some now else last
        | None => Some now
        end
      else last
  | _ => last
  end.
Definition first_seen (u : bytes) (es : list nevent) : option Z := fold_left (seen_by u) es None.

(** Two outcomes that clients cannot tell apart, now or later, except by what the node
    remembers of earlier searches. *)
Definition same_outcome (a b : res (nstate * option (bytes * response))) : Prop :=
  match a, b with
  | Ok (n, o), Ok (n', o') => o = o' /\ nsReg n = nsReg n' /\ nsDrain n = nsDrain n'
  | Err e, Err e' => e = e'
  | Panic, Panic => True
  | _, _ => False
  end.
