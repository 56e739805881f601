(** Specification vocabulary: sources that always or never acknowledge. *)
From Verif.Base Require Import GoBase Assoc Float.
From Verif.Model Require Import Codec Store Data Insert.
From Verif.Spec Require Import Wire StoreSpec InsertSpec.
Open Scope N_scope.

(** The source acknowledges every insert if [ok] says so, and none otherwise. *)
Definition steady {W : Type} (send : W -> bytes -> option Datum -> InsertConfig -> W * option err)
  (ok : bytes -> bool) : Prop :=
  forall w id d c, snd (send w id d c) = None <-> ok id = true.

(** How many do. *)
Definition willing (ok : bytes -> bool) (l : list bytes) : nat := length (filter ok l).

(** An original insert of (k, v) into a dataset that enforces replication and is below
    its target. *)
Definition asks_for_copies (dt : Data) (dc : DataConfig) (k : DatumKey) (v : DatumValue)
  (config : option InsertConfig) : Prop :=
  kv_ok k v /\ slot_fine (dDBMap dt) k /\ dConfig dt = Some dc /\
  cEnforceReplicationOnInsert dc = true /\ count_of config = 0 /\ ~ over_target dt.

(** It succeeds, the sources being asked in this order. *)
Definition succeeds {W : Type} (send : W -> bytes -> option Datum -> InsertConfig -> W * option err)
  (now : Z) (order : list bytes) (w : W) (dt : Data) (k : DatumKey) (v : DatumValue)
  (config : option InsertConfig) : Prop :=
  exists o, Insert send now order w dt (Some (kv k v)) config = Ok o /\ oErr o = None.
