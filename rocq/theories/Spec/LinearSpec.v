(** Specification vocabulary: concurrent inserts and deletes that act one after the other. *)
From Verif.Base Require Import GoBase Assoc.
From Verif.Model Require Import Codec Store StoreConc.
From Verif.Spec Require Import Wire StoreSpec StoreConcSpec RenewSpec.
Open Scope N_scope.

(** The call of goroutine i acts: it inserts (k, v) with a deadline, or deletes k. *)
Inductive effect :=
| EIns (i : nat) (k : DatumKey) (v : DatumValue) (dl : Z)
| EDel (i : nat) (k : DatumKey).

Definition who_acts (x : effect) : nat := match x with EIns i _ _ _ => i | EDel i _ => i end.
Definition acts_on (x : effect) : DatumKey := match x with EIns _ k _ _ => k | EDel _ k => k end.

(** The last effect on k. *)
Definition last_effect (k : DatumKey) (es : list effect) : option effect :=
  fold_left (fun acc x => if DatumKey_eq_dec (acts_on x) k then Some x else acc) es None.

(** The effects of the call of goroutine i. *)
Definition effects_of (i : nat) (es : list effect) : list effect :=
  filter (fun x => Nat.eqb (who_acts x) i) es.

(** A call has acted exactly once when it has returned, at most once before, and not before
    it has begun. *)
Definition acted_once (i : nat) (t : option thread) (l : list effect) : Prop :=
  match t with
  | Some (TInsDone k v dl) => l = [EIns i k v dl]
  | Some (TDelDone k) => l = [EDel i k]
  | Some (TInsLoaded k v dl _) => l = [] \/ l = [EIns i k v dl]
  | _ => l = []
  end.

(** The store [m], for key k, after effects of which [x] was the last one on k: nothing
    after a delete; after an insert the inserted value, with a deadline less than ten seconds
    away from the one the insert asked for; otherwise what was there at the beginning. *)
Definition holds_after (k : DatumKey) (x : option effect) (m0 m : dbmap) : Prop :=
  match x with
  | None => mload m (wire_key k) = mload m0 (wire_key k)
  | Some (EDel _ _) => mload m (wire_key k) = None
  | Some (EIns _ _ v dl) => exists e, mload m (wire_key k) = Some e /\ edatum e = kv k v /\
      (exprireAt e = dl \/ near dl (exprireAt e))
  end.

(** The effects, in this order, explain how the calls got from s0 to s. *)
Definition explained (s0 : cstate) (es : list effect) (s : cstate) : Prop :=
  (forall i, acted_once i (nth_error (c_threads s) i) (effects_of i es)) /\
  (forall k, key_ok k -> key_fits k -> holds_after k (last_effect k es) (c_map s0) (c_map s)).

(** All goroutines are about to start; nothing that is in the store or will be inserted
    before T expires by T. *)
Definition begins (T : Z) (s : cstate) : Prop :=
  mwf (c_map s) /\ Forall slot_wf (c_map s) /\
  (forall b e, mload (c_map s) b = Some e -> no_expiry T (exprireAt e)) /\
  Forall (fun t => match t with
    | TIns k v cfg => kv_ok k v /\ forall now, (c_now s <= now <= T)%Z -> no_expiry T (expireAtOf now cfg)
    | TDel k => key_ok k /\ key_fits k
    | TScan => True
    | _ => False
    end) (c_threads s).

(** After the effects, the dataset holds the datum. *)
Definition there_after (s0 : cstate) (es : list effect) (d : Datum) : Prop :=
  exists k v, d = kv k v /\
    match last_effect k es with
    | Some (EIns _ _ v' _) => v' = v
    | Some (EDel _ _) => False
    | None => exists e, mload (c_map s0) (wire_key k) = Some e /\ edatum e = d
    end.

(** After the effects, the dataset holds some datum with key k. *)
Definition key_after (s0 : cstate) (es : list effect) (k : DatumKey) : Prop :=
  exists v, there_after s0 es (kv k v).
