(** Specification vocabulary: replicas that are left to themselves. *)
From Verif.Base Require Import GoBase Assoc Float.
From Verif.Model Require Import Codec Store Data Insert Vector Dataset Sync Cluster.
From Verif.Spec Require Import SyncSpec SettleSpec.
Open Scope N_scope.

(** No client changes the data in this step, no datum has expired when a scan comes by, and
    what the sources report at a statistics run is what they have. *)
Definition left_alone (resolve : bytes -> option nat) (w : cluster) (e : cev) : Prop :=
  match e with
  | CLocal i (YProcess P _) =>
      Permutation (pOrder P) (store (w i)) /\ NoDup (pItems P) /\
      (forall k ent, In (k, ent) (store (w i)) -> expired (pTick P k) ent = false) /\
      (forall id info, pInfo P id = Some info -> exists t, resolve id = Some t /\ GetDataInfo (yData (w t)) = Ok info)
  | CLocal _ (YInsert _ _ _) | CLocal _ (YDelete _) | CLocal _ YClose => False
  | _ => True
  end.

(** The report i differs from the own report li enough for data to be exchanged: the
    statistics are not alike, or one hundredth of the own data is less than the surplus. *)
Definition differs (M : mathlib) (li i : DataInfo) : Prop :=
  alike M li i = true -> iN li < 100 * surplus (iN li) (iN i).
