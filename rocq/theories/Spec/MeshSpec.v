(** Specification vocabulary for a cluster in which all nodes have the same dataset. *)
From Verif.Base Require Import GoBase GoSort Assoc Float.
From Verif.Model Require Import Codec Store Data Insert Dataset Node Gossip.
From Verif.Spec Require Import NodeSpec GossipSpec.
Open Scope N_scope.

(** Only members join, and they announce the dataset; no source expires. *)
Definition announces (members : list nat) (name : bytes) (e : gev) : Prop :=
  match e with
  | GJoin i _ _ _ configs => In i members /\ In name (map cName configs)
  | GForget _ _ _ => False
  | _ => True
  end.

(** Nothing unusual: times are between lo and hi, no process starts again, no address is
    learned, members announce the dataset. *)
Definition usual (lo hi : Z) (members : list nat) (name : bytes) (e : gev) : Prop :=
  (any_order e /\ no_restart e /\ no_reply e /\ between lo hi e) /\ announces members name e.

(** A number of rounds of everybody's periodic work, one after the other. *)
Inductive usual_rounds (G : go_sort) (inc : Z -> Z -> Z -> Z) (A : nat -> list bytes) (lo hi : Z)
    (route : nat -> bytes -> option nat) (members : list nat) (name : bytes) : nat -> gworld -> gworld -> Prop :=
| ur_0 : forall w, usual_rounds G inc A lo hi route members name 0 w w
| ur_S : forall n w w1 es w2, usual_rounds G inc A lo hi route members name n w w1 ->
    Forall (usual lo hi members name) es ->
    grun G inc route w1 es = Some w2 -> round G inc A hi route w1 es w2 ->
    usual_rounds G inc A lo hi route members name (S n) w w2.

(** The nodes that answer at the addresses that node n has as sources of the dataset. *)
Definition source_nodes (route : nat -> bytes -> option nat) (w : gworld) (name : bytes) (n : N) : list N :=
  map (fun x => match route (N.to_nat n) (snd x) with Some k => N.of_nat k | None => n end)
    (filter (fun x => bytes_eqb (fst x) name) (gSources (gNodes w (N.to_nat n)))).

(** w' is a state in which the members have found each other (C156): from nothing, within less
    than 300 s, through rounds of the usual work. *)
Definition formed (G : go_sort) (inc : Z -> Z -> Z -> Z) (route : nat -> bytes -> option nat) (members : list nat)
    (name : bytes) (w' : gworld) : Prop :=
  exists lo hi r w0 es w,
  ((0 <= lo)%Z /\ (seconds hi < seconds lo + 300)%Z /\ (seconds hi < 18446744073709551616 - 300)%Z) /\
  (forall t old, (old <= inc t 600000000000 old)%Z) /\
  let A := fun k => unique (nAdvertisedIds (gState (gNodes w0 k))) in
  (forall k, A k <> [] /\ Forall plain (A k)) /\ (forall k a, In a (A k) -> leads route a k) /\
  blank w0 /\ Forall (usual lo hi members name) es /\ grun G inc route w0 es = Some w /\
  (forall i k, In i members -> In k members -> i <> k -> chain A hi w (2 ^ r) i k) /\
  usual_rounds G inc A lo hi route members name (S (S r)) w w'.
