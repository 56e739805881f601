(** Specification vocabulary for deleted data. *)
From Verif.Base Require Import GoBase Assoc Float.
From Verif.Model Require Import Codec Store Data Insert Vector Dataset Sync Cluster.
From Verif.Spec Require Import SyncSpec.
Open Scope N_scope.

(** Node i stores a datum with the key k. *)
Definition stores (w : cluster) (k : bytes) (i : nat) : Prop :=
  exists b e, In (b, e) (store (w i)) /\ has_key (edatum e) k.

(** A statistics run of node i still has a datum with the key k to offer to the
    sources: the datum is queued, or a sender is working on it. *)
Definition offering (w : cluster) (k : bytes) (i : nat) : Prop :=
  exists r d, In r (ySenders (w i)) /\ has_key d k /\
    ((exists c, In (d, c) (rQueue r)) \/
     (exists c ids, rPc r = Visit d c ids) \/ (exists c id ids, rPc r = Acked d c id ids)).

(** A client inserts a datum with the key k. *)
Definition inserts_key (k : bytes) (es : list cev) : Prop :=
  exists i now d c, In (CLocal i (YInsert now (Some d) c)) es /\ has_key d k.

(** The datum d is deleted at the nodes l, one after the other. *)
Definition delete_at (d : Datum) (l : list nat) : list cev := map (fun i => CLocal i (YDelete (Some d))) l.
