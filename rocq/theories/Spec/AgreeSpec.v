(** Specification vocabulary: copies of one key at several nodes. *)
From Verif.Base Require Import GoBase Assoc Float.
From Verif.Model Require Import Codec Store Data Insert Vector Dataset Sync Cluster.
From Verif.Spec Require Import SyncSpec.
Open Scope N_scope.

(** Clients neither insert nor delete the key k in this step, and a scan sees the store. *)
Definition leaves_alone (k : bytes) (w : cluster) (e : cev) : Prop :=
  match e with
  | CLocal i (YProcess P _) => Permutation (pOrder P) (store (w i))
  | CLocal i (YInsert _ (Some d) _) => ~ has_key d k
  | CLocal i (YDelete d) => GetKeyAsBytes d <> Ok k
  | _ => True
  end.

(** Node i stores the datum d under the key k. *)
Definition shows (w : cluster) (i : nat) (k : bytes) (d : Datum) : Prop :=
  exists e, mload (store (w i)) k = Some e /\ edatum e = d.

(** d is a copy of the key k: it is stored at some node, or a statistics run still has
    it to offer to the sources. *)
Definition copy (w : cluster) (k : bytes) (d : Datum) : Prop :=
  has_key d k /\
  exists i, (exists b e, In (b, e) (store (w i)) /\ edatum e = d) \/
    exists r, In r (ySenders (w i)) /\
      ((exists c, In (d, c) (rQueue r)) \/
       (exists c ids, rPc r = Visit d c ids) \/ (exists c id ids, rPc r = Acked d c id ids)).
