(** Specification vocabulary: the answers of queries that a dataset keeps in memory. *)
From Verif.Base Require Import GoBase Assoc.
From Verif.Model Require Import Codec Search QueryCache.
Open Scope N_scope.

(** The cache durations asked for are at most D seconds. *)
Definition durations_upto (D : N) (e : qevent) : Prop :=
  match e with
  | EvTouch _ _ c | EvFinish _ _ c _ _ => scCacheDuration c <= D
  | _ => True
  end.

(** The event is a query - answered from the cache or executed - at the time t or later. *)
Definition query_since (t : Z) (e : qevent) : bool :=
  match e with
  | EvTouch now _ _ | EvFinish now _ _ _ _ => (t <=? now)%Z
  | _ => false
  end.

(** Nothing of the query happens before t. *)
Definition not_before (t : Z) (e : qevent) : Prop :=
  match e with
  | EvTouch now _ _ | EvFinish now _ _ _ _ => (t <= now)%Z
  | _ => True
  end.

(** The janitor has been through at the time p: it has removed what had expired. *)
Definition swept (p : Z) (q : qstate) : Prop :=
  forall key i, In (key, i) (qCache q) -> alive_at p i = true.
