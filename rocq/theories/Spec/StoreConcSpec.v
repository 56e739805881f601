(** Specification of concurrent store executions. *)
From Verif.Base Require Import GoBase Assoc.
From Verif.Model Require Import Codec Store StoreConc.
From Verif.Spec Require Import Wire StoreSpec.
Open Scope N_scope.

(** A slot holds a well-formed datum under its own key. *)
Definition slot_wf (p : bytes * entry) : Prop :=
  exists k v, kv_ok k v /\ fst p = wire_key k /\ edatum (snd p) = kv k v.

(** The value of the last insert of k that took effect in a run. *)
Definition last_insert (tr : list label) (k : DatumKey) : option DatumValue :=
  fold_left (fun acc l =>
    match l with
    | LInsert _ k' v => if DatumKey_eq_dec k' k then Some v else acc
    | LNone => acc
    end) tr None.

(** Assumptions on the start of a run, for a key k and a time T: the store is
    well formed, all goroutines are about to start an operation on well-formed
    data, nobody deletes k, and no entry of k (present or to be inserted before
    T) expires by T. *)
Definition no_expiry (T e : Z) : Prop := e = 0%Z \/ (T < e)%Z.

Definition starts_ok (T0 T : Z) (k : DatumKey) (t : thread) : Prop :=
  match t with
  | TIns k' v cfg => kv_ok k' v /\
      (k' = k -> forall now, (T0 <= now <= T)%Z -> no_expiry T (expireAtOf now cfg))
  | TDel k' => key_ok k' /\ key_fits k' /\ k' <> k
  | TScan => True
  | _ => False
  end.

Definition start_ok (T : Z) (k : DatumKey) (s : cstate) : Prop :=
  mwf (c_map s) /\ Forall slot_wf (c_map s) /\
  (forall e, mload (c_map s) (wire_key k) = Some e -> no_expiry T (exprireAt e)) /\
  Forall (starts_ok (c_now s) T k) (c_threads s).

(** Runs in which keys may also expire and be deleted: a goroutine that is about
    to start an operation on well-formed data, and a state in which all are. *)
Definition caller (t : thread) : Prop :=
  match t with
  | TIns k v _ => kv_ok k v
  | TDel k => key_ok k /\ key_fits k
  | TScan => True
  | _ => False
  end.
Definition calls_ok (s : cstate) : Prop :=
  mwf (c_map s) /\ Forall slot_wf (c_map s) /\ Forall caller (c_threads s).

(** The store holds the datum, and it has not expired. *)
Definition live_at (s : cstate) (d : Datum) : Prop :=
  exists k v e, d = kv k v /\ mload (c_map s) (wire_key k) = Some e /\ edatum e = d /\
    (exprireAt e = 0 \/ c_now s < exprireAt e)%Z.

(** The goroutine may still store an entry for k. *)
Definition inserting (k : DatumKey) (t : thread) : Prop :=
  match t with
  | TIns k' _ _ | TInsTimed k' _ _ | TInsLoaded k' _ _ true => k' = k
  | _ => False
  end.
