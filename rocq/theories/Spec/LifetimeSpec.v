(** Specification vocabulary for how long the copies of a datum live. *)
From Verif.Base Require Import GoBase Assoc Float.
From Verif.Model Require Import Codec Store Data Insert Vector Dataset Sync Cluster.
From Verif.Spec Require Import SyncSpec.
Open Scope Z_scope.

(** An event at time t: all clocks show t.  Clients give data of key [k] a time to live
    that ends between A and B. *)
Definition on_time (k : bytes) (A B t : Z) (w : cluster) (e : cev) : Prop :=
  match e with
  | CLocal i (YProcess P _) =>
      Permutation (pOrder P) (store (w i)) /\ (forall n, Z.of_N (pClock P n) = t) /\ (forall key, pTick P key = t)
  | CLocal i (YInsert now d c) =>
      now = t /\ forall d0, d = Some d0 -> has_key d0 k ->
        exists cf, c = Some cf /\ 0 < Z.of_N (TTL cf) /\ A <= t + Z.of_N (TTL cf) <= B
  | COffer _ _ now _ => now = t
  | _ => True
  end.

(** When the senders of each node were started. *)
Definition starts := nat -> list Z.
Definition note (t : Z) (w w' : cluster) (b : starts) : starts :=
  fun i => if (length (ySenders (w i)) <? length (ySenders (w' i)))%nat then b i ++ [t] else b i.

(** How long an offered datum has been waiting since the scan that chose it. *)
Definition waited (t : Z) (b : starts) (e : cev) : Z :=
  match e with COffer i j _ _ => t - nth j (b i) t | _ => 0 end.

Section Timed.
  Variables (M : mathlib) (undef : N) (resolve : bytes -> option nat).

  (** An execution with times: they do not decrease. *)
  Fixpoint timed (k : bytes) (A B t : Z) (w : cluster) (es : list (Z * cev)) : Prop :=
    match es with
    | [] => True
    | (t', e) :: es' =>
        t <= t' < 9223372036854775808 /\ on_time k A B t' w e /\
        match cluster_step M undef resolve w e with
        | Some w' => timed k A B t' w' es'
        | None => True
        end
    end.

  (** The sum of the waiting times of all offers. *)
  Fixpoint lateness (w : cluster) (b : starts) (es : list (Z * cev)) : Z :=
    match es with
    | [] => 0
    | (t, e) :: es' =>
        waited t b e +
        match cluster_step M undef resolve w e with
        | Some w' => lateness w' (note t w w' b) es'
        | None => 0
        end
    end.
End Timed.

(** No node has stored anything or started to synchronise. *)
Definition blank (w : cluster) : Prop := forall i, store (w i) = [] /\ ySenders (w i) = [].
