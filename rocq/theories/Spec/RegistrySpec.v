(** What a registry of named datasets should do, in terms of its contents. *)
From Verif.Base Require Import GoBase Assoc Float.
From Verif.Model Require Import Codec Store Data Dataset.
Open Scope N_scope.

(** The dataset object [a] is registered under [name] and not expired at [now]. *)
Definition holds (now : Z) (s : dstate) (name : bytes) (a : nat) : Prop :=
  exists i, In (name, i) (dsList s) /\ diObj i = a /\ ((diExpires i <= 0)%Z \/ (now <= diExpires i)%Z).

(** The object [a] has configuration [c] and stores [m]. *)
Definition object (s : dstate) (a : nat) (c : DataConfig) (m : dbmap) : Prop :=
  exists dt, nth_error (dsObjs s) a = Some dt /\ dConfig dt = Some c /\ dDBMap dt = m.

(** The name an event is about and the time it happens at. *)
Definition event_name (e : devent) : option bytes :=
  match e with
  | EvGet _ n | EvGetNoOp _ n | EvDelete _ n | EvExpire _ n => Some n
  | EvCreate _ c | EvGetOrCreate _ c => Some (cName c)
  | EvData _ _ => None
  end.
Definition event_time (e : devent) : option Z :=
  match e with
  | EvGet t _ | EvGetNoOp t _ | EvDelete t _ | EvExpire t _ | EvCreate t _ | EvGetOrCreate t _ => Some t
  | EvData _ _ => None
  end.

(** A history during which [name] is neither deleted nor expired: it is there
    whenever something is done to it. *)
Inductive undisturbed (inc : Z -> Z -> Z -> Z) (closed : Data -> Data) (name : bytes)
  : dstate -> list devent -> dstate -> Prop :=
| u_nil : forall s, undisturbed inc closed name s [] s
| u_cons : forall s e s1 es s2,
    dstep inc closed s e = Ok s1 ->
    (forall t, e <> EvDelete t name) ->
    (forall t, event_name e = Some name -> event_time e = Some t -> exists a, holds t s name a) ->
    undisturbed inc closed name s1 es s2 ->
    undisturbed inc closed name s (e :: es) s2.

(** States that some history leads to. *)
Definition reachable (inc : Z -> Z -> Z -> Z) (closed : Data -> Data) (s : dstate) : Prop :=
  exists es, drun inc closed (mkDS [] []) es = Ok s.

(** Closing a dataset does not touch its configuration. *)
Definition keeps_config (closed : Data -> Data) : Prop := forall d, dConfig (closed d) = dConfig d.
