(** Specification vocabulary for inserts and replication. *)
From Verif.Base Require Import GoBase Assoc Float.
From Verif.Model Require Import Codec Store Data Insert.
From Verif.Spec Require Import Wire StoreSpec.
Open Scope N_scope.

(** The dataset enforces a target and its reported count has reached it. *)
Definition over_target (dt : Data) : Prop :=
  exists c, dConfig dt = Some c /\ cNoTarget c = false /\ cTargetN c <= dN dt.

(** A message sent to a source and whether the source acknowledged it. *)
Record contact := mkContact {
  toSource : bytes; sentDatum : option Datum; sentConfig : InsertConfig; acked : bool }.

(** Any behaviour of the sources, observed: the contacts are recorded in order. *)
Definition logged {W : Type}
  (send : W -> bytes -> option Datum -> InsertConfig -> W * option err)
  (s : W * list contact) (id : bytes) (d : option Datum) (cfg : InsertConfig)
  : (W * list contact) * option err :=
  let '(w, log) := s in
  let '(w', e) := send w id d cfg in
  ((w', log ++ [mkContact id d cfg (match e with None => true | Some _ => false end)]), e).

(** Number of acknowledgements. *)
Definition acks (log : list contact) : N := blen (filter acked log).

(** The forwarding count of a request. *)
Definition count_of (config : option InsertConfig) : N :=
  match config with Some c => Count c | None => 0 end.
Definition ttl_of (config : option InsertConfig) : N :=
  match config with Some c => TTL c | None => 0 end.

(** The store holds (k, v). *)
Definition holds (m : dbmap) (k : DatumKey) (v : DatumValue) : Prop :=
  exists e, mload m (wire_key k) = Some e /\ edatum e = kv k v.

(** What is stored for k, if anything, is a well-formed datum. *)
Definition slot_fine (m : dbmap) (k : DatumKey) : Prop :=
  forall e, mload m (wire_key k) = Some e -> exists v, kv_ok k v /\ edatum e = kv k v.
