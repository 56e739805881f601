(** What a saved index should give back. *)
From Verif.Base Require Import GoBase Assoc Float.
From Verif.Model Require Import Codec Store Data Dataset Json Index.
From Verif.Spec Require Import Text RegistrySpec.
Open Scope N_scope.

(** A finite float64. *)
Definition finite64 (x : float) : Prop :=
  match x with
  | S754_zero _ => True
  | S754_finite _ _ _ => valid_binary prec64 emax64 x = true
  | _ => False
  end.

(** Formatting a non-zero finite float64 gives a JSON number that scans back to the
    same float64 (the documented contract of strconv with precision -1). *)
Definition float_roundtrip (L : floatlib) : Prop :=
  forall x, finite64 x -> (forall s, x <> S754_zero s) ->
    num_token (fmt L x) /\ scan L (fmt L x) = Some x.

(** A configuration as it can be in memory, with a name in UTF-8 and a finite target
    utilization. *)
Definition storable (c : DataConfig) : Prop :=
  valid_text (cName c) /\ cVersion c < 2 ^ 64 /\ cTargetN c < 2 ^ 64 /\
  finite64 (cTargetUtilization c) /\ cReplicationOnInsert c < 2 ^ 32 /\ cRetention c < 2 ^ 64.

(** The same configuration (a target utilization of -0 comes back as +0). *)
Definition same_dataconfig (a b : DataConfig) : Prop :=
  cName a = cName b /\ cVersion a = cVersion b /\ cTargetN a = cTargetN b /\
  (cTargetUtilization a = cTargetUtilization b \/
   (exists s t, cTargetUtilization a = S754_zero s /\ cTargetUtilization b = S754_zero t)) /\
  cNoTarget a = cNoTarget b /\ cReplicationOnInsert a = cReplicationOnInsert b /\
  cEnforceReplicationOnInsert a = cEnforceReplicationOnInsert b /\ cRetention a = cRetention b.

(** [c] is the configuration of a dataset that exists at [now]. *)
Definition has_dataset (now : Z) (s : dstate) (c : DataConfig) : Prop :=
  exists a m, holds now s (cName c) a /\ object s a c m.
