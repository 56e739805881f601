(** Specification vocabulary for nodes that synchronise with each other. *)
From Verif.Base Require Import GoBase Assoc Float.
From Verif.Model Require Import Codec Store Data Insert Vector Dataset Sync Cluster.
From Verif.Spec Require Import SyncSpec.
Open Scope N_scope.

(** Some node holds the datum d under the key k. *)
Definition held (w : cluster) (k : bytes) (d : Datum) : Prop :=
  exists i e, mload (store (w i)) k = Some e /\ edatum e = d.

(** Sender j of node i has an acknowledgement for a datum of key k and has not
    acted on it yet. *)
Definition deciding (w : cluster) (k : bytes) (i j : nat) : Prop :=
  exists r d c id ids, nth_error (ySenders (w i)) j = Some r /\ rPc r = Acked d c id ids /\ has_key d k.

(** At most one sender of the cluster is at that point. *)
Definition alone (w : cluster) (k : bytes) : Prop :=
  forall i j i' j', deciding w k i j -> deciding w k i' j' -> i = i' /\ j = j'.

(** Nodes only synchronise and store d under k; nobody deletes k, no entry of k is
    found expired, and no node is its own source. *)
Definition peaceful (resolve : bytes -> option nat) (k : bytes) (d : Datum) (w : cluster) (e : cev) : Prop :=
  match e with
  | CLocal i (YProcess P _) =>
      Permutation (pOrder P) (store (w i)) /\
      forall e0, mload (store (w i)) k = Some e0 -> expired (pTick P k) e0 = false
  | CLocal i (YInsert _ (Some d') _) => has_key d' k -> d' = d
  | CLocal i (YDelete d') => GetKeyAsBytes d' <> Ok k
  | COffer i j _ _ =>
      forall r d' c id ids, nth_error (ySenders (w i)) j = Some r -> rPc r = Visit d' c (id :: ids) ->
        resolve id <> Some i
  | _ => True
  end.

(** Every step satisfies a side condition. *)
Fixpoint always (M : mathlib) (undef : N) (resolve : bytes -> option nat)
  (ok : cluster -> cev -> Prop) (w : cluster) (es : list cev) : Prop :=
  match es with
  | [] => True
  | e :: es' => ok w e /\
      match cluster_step M undef resolve w e with
      | Some w' => always M undef resolve ok w' es'
      | None => True
      end
  end.
