(** What can be observed of a registry while the node's own housekeeping runs. *)
From Verif.Base Require Import GoBase Assoc Float.
From Verif.Model Require Import Codec Store Data Dataset Index DatasetAll.
From Verif.Spec Require Import RegistrySpec.
From Coq Require Import Permutation.
Open Scope N_scope.

(** What is expected of IncrementExpiration: an item that is there at [now] is
    then there for [d] more. *)
Definition extends (inc : Z -> Z -> Z -> Z) : Prop := forall now d old,
  (old <= 0 \/ now <= old)%Z -> (0 < d)%Z ->
  (inc now d old <= 0 \/ now + d <= inc now d old)%Z.
(** And for any duration it does not make it disappear. *)
Definition no_shorter (inc : Z -> Z -> Z -> Z) : Prop := forall now d old,
  (old <= 0 \/ now <= old)%Z -> (inc now d old <= 0 \/ now <= inc now d old)%Z.

(** The dataset has data here, or at a source. *)
Definition active (info : bytes -> option N) (dt : Data) : Prop :=
  0 < dN dt \/ exists ids id k, dSources dt = Some ids /\ In id ids /\ info id = Some k /\ 0 < k.
(** All sources of all datasets answer. *)
Definition answering (info : bytes -> option N) (now : Z) (s : dstate) : Prop :=
  forall n b dt ids id, holds now s n b -> nth_error (dsObjs s) b = Some dt ->
    dSources dt = Some ids -> In id ids -> info id <> None.

(** No call of anyone is about [name] (object [a]): whatever else happens to the
    registry, including the removal of expired datasets. *)
Definition unrelated (name : bytes) (a : nat) (e : devent) : Prop :=
  match e with
  | EvData b f => b <> a \/ forall d, dDBMap (f d) = dDBMap d
  | EvExpire _ _ => True
  | _ => event_name e <> Some name
  end.

(** A history of a node during which nobody uses [name] while the periodic task
    runs: between two rounds of it (or two calls that list all datasets) not more
    than [R] passes and the events in between are before the end of this time.
    [t] is the time of the last round. *)
Inductive unused (L : floatlib) (inc : Z -> Z -> Z -> Z) (closed : Data -> Data) (name : bytes) (a : nat) (R : Z)
  : Z -> dstate -> list hevent -> Z -> dstate -> Prop :=
| un_nil : forall t s, unused L inc closed name a R t s [] t s
| un_save : forall t s now names s1 es t' s', (now <= t + R)%Z -> Permutation names (ListNames now s) ->
    hstep L inc closed s (HSave now names) = Ok s1 ->
    unused L inc closed name a R now s1 es t' s' -> unused L inc closed name a R t s (HSave now names :: es) t' s'
| un_list : forall t s now names s1 es t' s', (now <= t + R)%Z -> Permutation names (ListNames now s) ->
    hstep L inc closed s (HList now names) = Ok s1 ->
    unused L inc closed name a R now s1 es t' s' -> unused L inc closed name a R t s (HList now names :: es) t' s'
| un_reload : forall t s now info items dt s1 es t' s', Permutation items (Items now s) ->
    answering info now s -> nth_error (dsObjs s) a = Some dt -> active info dt ->
    hstep L inc closed s (HReload now info items) = Ok s1 ->
    unused L inc closed name a R t s1 es t' s' -> unused L inc closed name a R t s (HReload now info items :: es) t' s'
| un_other : forall t s e s1 es t' s', unrelated name a e ->
    (forall u, event_time e = Some u -> (u <= t + R)%Z) ->
    hstep L inc closed s (HOther e) = Ok s1 ->
    unused L inc closed name a R t s1 es t' s' -> unused L inc closed name a R t s (HOther e :: es) t' s'.

(** A history in which a dataset that has expired is not asked for again before it
    has been removed. *)
Definition timely (s : dstate) (e : devent) : Prop :=
  match e with
  | EvGet t n | EvGetNoOp t n => (exists a, holds t s n a) \/ ~ In n (map fst (dsList s))
  | EvCreate t c | EvGetOrCreate t c => (exists a, holds t s (cName c) a) \/ ~ In (cName c) (map fst (dsList s))
  | EvData _ f => forall d, dAlive d = false -> dAlive (f d) = false
  | _ => True
  end.
(** The housekeeping visits the datasets of the moment. *)
Definition regular (s : dstate) (e : hevent) : Prop :=
  match e with
  | HSave now names | HList now names => Permutation names (ListNames now s)
  | HReload now info items => Permutation items (Items now s) /\ answering info now s
  | HOther e => timely s e
  end.
Inductive tidy (L : floatlib) (inc : Z -> Z -> Z -> Z) (closed : Data -> Data) : dstate -> list hevent -> dstate -> Prop :=
| td_nil : forall s, tidy L inc closed s [] s
| td_cons : forall s e s1 es s2, regular s e -> hstep L inc closed s e = Ok s1 ->
    tidy L inc closed s1 es s2 -> tidy L inc closed s (e :: es) s2.

(** A dataset object still runs but no name leads to it any more. *)
Definition orphan (s : dstate) (a : nat) (m : dbmap) : Prop :=
  exists dt, nth_error (dsObjs s) a = Some dt /\ dAlive dt = true /\ dDBMap dt = m /\
    forall n i, In (n, i) (dsList s) -> diObj i <> a.
