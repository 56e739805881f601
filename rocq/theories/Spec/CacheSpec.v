(** What it means for a cached answer to belong to a query. *)
From Verif.Base Require Import GoBase.
From Verif.Model Require Import Codec Search QueryCache.
From Verif.Spec Require Import Wire Text.

(** Two configurations that agree in every field but the uuid. *)
Definition same_config (a b : SearchConfig) : Prop :=
  scScoreFuncName a = scScoreFuncName b /\ scHigherIsBetter a = scHigherIsBetter b /\
  scTimestamp a = scTimestamp b /\ scTimeout a = scTimeout b /\ scLimit a = scLimit b /\
  scCacheDuration a = scCacheDuration b /\ scDataName a = scDataName b /\
  scGroupLimit a = scGroupLimit b /\ scGroupScoreFuncName a = scGroupScoreFuncName b /\
  scFilters a = scFilters b /\ scResultLimit a = scResultLimit b /\
  scGroupFilters a = scGroupFilters b.

(** A configuration as protobuf delivers it: machine integers and valid UTF-8. *)
Definition config_ok (c : SearchConfig) : Prop :=
  valid_text (scScoreFuncName c) /\ valid_text (scDataName c) /\ valid_text (scGroupScoreFuncName c) /\
  Forall valid_text (scFilters c) /\ Forall valid_text (scGroupFilters c) /\
  is_u64 (scTimestamp c) /\ is_u64 (scTimeout c) /\ is_u32 (scLimit c) /\ is_u64 (scCacheDuration c) /\
  is_u32 (scGroupLimit c) /\ is_u64 (scResultLimit c).

Definition query_ok (k : DatumKey) (c : SearchConfig) : Prop := key_ok k /\ key_fits k /\ config_ok c.

Definition event_ok (e : qevent) : Prop :=
  match e with
  | EvLookup _ k c | EvTouch _ k c | EvFinish _ k c _ _ => query_ok k c
  | EvWrite _ _ | EvPurge _ => True
  end.

(** The history contains an execution of the query (k, c), up to the uuid, that
    produced rs at time t. *)
Definition executed (es : list qevent) (k : DatumKey) (c : SearchConfig) (t : Z) (rs : list ScoredDatum) : Prop :=
  exists c' late, In (EvFinish t k c' rs late) es /\ same_config c' c.

(** The number of times a hit of the query (k, c) has extended its item. *)
Inductive extended (k : DatumKey) (c : SearchConfig) : list qevent -> nat -> Prop :=
| ext_nil : extended k c [] 0
| ext_this now c' es n : same_config c' c -> extended k c es n ->
    extended k c (es ++ [EvTouch now k c']) (S n)
| ext_other e es n : (forall now c', e = EvTouch now k c' -> ~ same_config c' c) -> extended k c es n ->
    extended k c (es ++ [e]) n.

(** Times are positive (nanoseconds since 1970). *)
Definition time_ok (e : qevent) : Prop :=
  match e with
  | EvLookup now _ _ | EvTouch now _ _ | EvFinish now _ _ _ _ => (0 < now)%Z
  | _ => True
  end.
