(** Specification of the store in terms of the history of calls. *)
From Verif.Base Require Import GoBase Assoc.
From Verif.Model Require Import Codec Store.
From Verif.Spec Require Wire.
Open Scope N_scope.

(** Calls made on a dataset's store, with the time at which they are made.  A
    scan reads the clock once per entry; it visits the entries in an arbitrary
    order. *)
Inductive call :=
| CInsert (t : Z) (k : DatumKey) (v : DatumValue) (ttl : N)
| CDelete (k : DatumKey)
| CScan (tick : bytes -> Z) (ord : dbmap -> list (bytes * entry)).

(** Well-formed data: machine values of representable size. *)
Definition kv_ok (k : DatumKey) (v : DatumValue) : Prop :=
  key_ok k /\ Wire.key_fits k /\ value_ok v /\ Wire.value_fits v.

Lemma DatumKey_eq_dec : forall a b : DatumKey, {a = b} + {a <> b}.
Proof.
  decide equality; try apply N.eq_dec; apply list_eq_dec; apply N.eq_dec.
Defined.

(** The latest insert of k that is not followed by a delete of k. *)
Definition latest (h : list call) (k : DatumKey) : option (Z * DatumValue * N) :=
  fold_left (fun acc c =>
    match c with
    | CInsert t k' v ttl => if DatumKey_eq_dec k' k then Some (t, v, ttl) else acc
    | CDelete k' => if DatumKey_eq_dec k' k then None else acc
    | CScan _ _ => acc
    end) h None.

(** What the environment guarantees about one call of a history whose clock
    readings lie between t0 and t1: the clock is a positive Unix time, data are
    well formed, an expiry time fits in an int64, a scan visits exactly the
    stored entries. *)
Definition call_ok (t0 t1 : Z) (c : call) : Prop :=
  match c with
  | CInsert t k v ttl =>
      (t0 <= t <= t1)%Z /\ kv_ok k v /\ (t + Z.of_N ttl < 9223372036854775808)%Z
  | CDelete k => key_ok k /\ Wire.key_fits k
  | CScan tick ord =>
      (forall b, (t0 <= tick b <= t1)%Z) /\ (forall m, Permutation (ord m) m)
  end.

(** A history with a monotone clock: there are times t0 <= t1 <= ... such that
    the i-th call reads the clock between t_i and t_(i+1). *)
Inductive history : Z -> list call -> Z -> Prop :=
| h_nil : forall t, history t [] t
| h_snoc : forall t0 h t1 c t2, history t0 h t1 -> (t1 <= t2)%Z ->
    call_ok t1 t2 c -> history t0 (h ++ [c]) t2.

(** Running the calls on the model. *)
Definition run_call (m : dbmap) (c : call) : res dbmap :=
  match c with
  | CInsert t k v ttl =>
      '(m', _) <- InsertBDMap t m (Some (mkDatum (Some k) (Some v)))
                    (Some (mkInsertConfig ttl 0)) ;; Ok m'
  | CDelete k => DeleteBDMap m (Some (mkDatum (Some k) None))
  | CScan tick ord => Ok (fst (StreamAll tick (ord m) m))
  end.

Fixpoint run_calls (m : dbmap) (h : list call) : res dbmap :=
  match h with
  | [] => Ok m
  | c :: h' => m' <- run_call m c ;; run_calls m' h'
  end.

(** The datum (k, v) as a value. *)
Definition kv (k : DatumKey) (v : DatumValue) : Datum := mkDatum (Some k) (Some v).
