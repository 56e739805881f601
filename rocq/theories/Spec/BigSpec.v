(** Specification vocabulary: clusters in which everybody is a source of everybody. *)
From Verif.Base Require Import GoBase.
From Verif.Model Require Import Flood Spread.
From Verif.Spec Require Import ReachSpec.

(** The nodes, and the sources of each: all the others. *)
Definition full (nodes : list N) (sources : N -> list N) : Prop :=
  NoDup nodes /\
  forall n, In n nodes -> NoDup (sources n) /\ forall m, In m (sources n) <-> In m nodes /\ m <> n.

(** A query at node o without losses that has come to an end, and the nodes that
    executed it. *)
Definition query_reaches {D : Type} (undef : N) (sources : N -> list N) (o : N) (d : D) (timeout : N) (given : bool)
  (S : list N) : Prop :=
  exists s0 s, spread_start undef sources o d timeout given s0 /\ spread_runs undef sources s0 s /\
    sReqs s = [] /\ forall n, In n S <-> executed n (sLog s).

(** The nodes that are not among [holders]. *)
Definition without (holders nodes : list N) : list N :=
  filter (fun n => negb (existsb (N.eqb n) holders)) nodes.
