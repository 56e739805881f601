(** Specification vocabulary for the origin of data. *)
From Verif.Base Require Import GoBase Assoc Float GoSort.
From Verif.Model Require Import Codec Store Data Insert Vector Search Dataset Sync Cluster Annoy.
From Verif.Spec Require Import SyncSpec ClusterSpec.
Open Scope N_scope.

(** The datum was there at the beginning, or a client (or a replicating peer on
    behalf of one) inserted it. *)
Definition put_in (w : cluster) (es : list cev) (d : Datum) : Prop :=
  (exists i b e, In (b, e) (store (w i)) /\ edatum e = d) \/
  (exists i now c, In (CLocal i (YInsert now (Some d) c)) es).

(** A scan visits entries of the store. *)
Definition scans_store (w : cluster) (e : cev) : Prop :=
  match e with CLocal i (YProcess P _) => incl (pOrder P) (store (w i)) | _ => True end.

(** A state of the execution. *)
Definition sometime (M : mathlib) (undef : N) (resolve : bytes -> option nat) (w : cluster) (es : list cev)
  (u : cluster) : Prop :=
  exists es1 es2, es = es1 ++ es2 /\ cluster_run M undef resolve w es1 = Some u.

(** The indexes that scans of the lists in S can have left behind. *)
Inductive index_from (I : imbalance) (S : list (bytes * entry) -> Prop) : option annoyer -> Prop :=
| from_none : index_from I S None
| from_run : forall old alive N0 tick order m s outs new,
    index_from I S old -> S order ->
    index_scan alive N0 tick order m = Ok s -> index_swap I old s outs = Done new ->
    index_from I S new.
