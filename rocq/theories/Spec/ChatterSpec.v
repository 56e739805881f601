(** Specification vocabulary: how many messages nodes send to tell each other about
    themselves. *)
From Verif.Base Require Import GoBase GoSort Assoc Float.
From Verif.Model Require Import Codec Store Data Insert Dataset Node Gossip.
From Verif.Spec Require Import NodeSpec GossipSpec.
Open Scope N_scope.

(** The requests among the things a synchronisation does: whom, and about what. *)
Definition requests (acts : list gact) : list (bytes * Peer) :=
  flat_map (fun x => match x with ASend a p => [(a, p)] | _ => [] end) acts.

(** A record the node passes records on to at time now, by address a: it has been
    heard of less than 300 s ago, it is not the node's own, and a is its first
    address that is not the node's. *)
Definition told (now : Z) (n : nstate) (p : Peer) (a : bytes) : Prop :=
  ~ Permutation (pAddressList p) (own_addresses n) /\
  (seconds now < Z.of_N (pTimestamp p) + 300)%Z /\ contact_of n p a.

(** The records and the node's own addresses are as they are in practice: addresses
    are not empty and contain no comma, times are far from the end of the range. *)
Definition ordinary (n : nstate) (items : list Peer) : Prop :=
  Forall (fun p => Forall plain (pAddressList p) /\ pTimestamp p + 300 < M64) items /\
  Forall plain (nKnownIds n ++ nAdvertisedIds n).
Definition ordinary_time (now : Z) : Prop := (0 <= now)%Z /\ (seconds now < 18446744073709551616)%Z.

(** The list contains exactly one record of every node below n but node i, all of them
    heard of less than 300 s before now. *)
Definition lists_others (A : nat -> list bytes) (now : Z) (n i : nat) (items : list Peer) : Prop :=
  exists js, Permutation js (filter (fun j => negb (Nat.eqb j i)) (seq 0 n)) /\
    Forall2 (fun j p => record_of A j p /\ (seconds now < Z.of_N (pTimestamp p) + 300)%Z) js items.

(** Every node has addresses, different ones from the other nodes'. *)
Definition own_places (A : nat -> list bytes) (n : nat) : Prop :=
  (forall i, (i < n)%nat -> A i <> [] /\ NoDup (A i)) /\
  forall i j a, (i < n)%nat -> (j < n)%nat -> In a (A i) -> In a (A j) -> i = j.
