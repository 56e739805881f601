(** Concurrent executions of the store operations: data/newsync.go 27-91 and
    229-237 as sequences of atomic sync.Map calls and clock readings, run by
    any number of goroutines in any interleaving.

    sync.Map (Go standard library): Load, Store and Delete are atomic; Range
    fixes the set of keys when it starts and loads the current value of each of
    them when it reaches it (a key deleted in between is skipped, a key added in
    between is not visited). *)
From Verif.Base Require Import GoBase Assoc.
From Verif.Model Require Import Codec Store.
Open Scope N_scope.

(** The local state of a goroutine that executes one operation.  Data are
    non-nil here (a nil part panics; see Model/Store.v).
    data/newsync.go 27-91. *)
Inductive thread :=
| TIns (k : DatumKey) (v : DatumValue) (cfg : option InsertConfig)
    (* called; before the clock reading, data/newsync.go 28 *)
| TInsTimed (k : DatumKey) (v : DatumValue) (exp : Z)
    (* after line 31, before the Load of line 43 *)
| TInsLoaded (k : DatumKey) (v : DatumValue) (exp : Z) (fresh : bool)
    (* after the Load and comparison of lines 43-57, before line 58 *)
| TInsDone (k : DatumKey) (v : DatumValue) (exp : Z)
    (* returned nil, line 62 *)
| TDel (k : DatumKey)          (* DeleteBDMap before line 70 *)
| TDelDone (k : DatumKey)
| TScan                        (* StreamAll before Range starts, line 76 *)
| TScanning (todo : list bytes) (purge : option bytes) (ys : list Datum)
    (* inside Range: keys still to visit; a key read as expired (line 78) but
       not yet deleted (line 79); data yielded so far *)
| TScanDone (ys : list Datum).

(** dt.DBMap, data/data.go 53, the clock and the goroutines. *)
Record cstate := mkC { c_now : Z; c_map : dbmap; c_threads : list thread }.

(** One insert takes effect: the Store of line 59, or the Load of line 43 that
    finds the same value and a close expiry.
    data/newsync.go 43 and 59. *)
Inductive label :=
| LNone
| LInsert (i : nat) (k : DatumKey) (v : DatumValue).

(** The datum of data/newsync.go 27. *)
Definition kvd (k : DatumKey) (v : DatumValue) : Datum := mkDatum (Some k) (Some v).

(** The comparison of data/newsync.go 43-57 against the loaded entry. *)
Definition is_fresh (k : DatumKey) (v : DatumValue) (exp : Z) (old : option entry) : bool :=
  match old with
  | None => true
  | Some e =>
      match MarshalValue (Some v), GetValueAsBytes (Some (edatum e)) with
      | Ok a, Ok b => negb (bytes_eqb a b && CloseEnough exp (exprireAt e))
      | _, _ => true
      end
  end.

(** Encoded key (data/newsync.go 37-41); keys here are encodable. *)
Definition ekey (k : DatumKey) : bytes :=
  match MarshalKey (Some k) with Ok b => b | _ => [] end.

(** data/newsync.go 27-91, one constructor per atomic operation. *)
Inductive cstep : cstate -> label -> cstate -> Prop :=
| st_clock : forall now now' m ts, (now <= now')%Z ->
    cstep (mkC now m ts) LNone (mkC now' m ts)
| st_ins_time : forall now m ts i k v cfg ts',
    nth_error ts i = Some (TIns k v cfg) ->
    list_set ts i (TInsTimed k v (expireAtOf now cfg)) = Some ts' ->
    cstep (mkC now m ts) LNone (mkC now m ts')
| st_ins_load : forall now m ts i k v exp ts',
    nth_error ts i = Some (TInsTimed k v exp) ->
    list_set ts i (TInsLoaded k v exp (is_fresh k v exp (mload m (ekey k)))) = Some ts' ->
    cstep (mkC now m ts)
      (if is_fresh k v exp (mload m (ekey k)) then LNone else LInsert i k v)
      (mkC now m ts')
| st_ins_store : forall now m ts i k v exp ts',
    nth_error ts i = Some (TInsLoaded k v exp true) ->
    list_set ts i (TInsDone k v exp) = Some ts' ->
    cstep (mkC now m ts) (LInsert i k v)
      (mkC now (mstore m (ekey k) (mkEntry exp (kvd k v))) ts')
| st_ins_skip : forall now m ts i k v exp ts',
    nth_error ts i = Some (TInsLoaded k v exp false) ->
    list_set ts i (TInsDone k v exp) = Some ts' ->
    cstep (mkC now m ts) LNone (mkC now m ts')
| st_del : forall now m ts i k ts',
    nth_error ts i = Some (TDel k) ->
    list_set ts i (TDelDone k) = Some ts' ->
    cstep (mkC now m ts) LNone (mkC now (mdelete m (ekey k)) ts')
| st_scan_start : forall now m ts i keys ts',
    nth_error ts i = Some TScan ->
    Permutation keys (mkeys m) ->
    list_set ts i (TScanning keys None []) = Some ts' ->
    cstep (mkC now m ts) LNone (mkC now m ts')
| st_scan_gone : forall now m ts i b todo ys ts',
    nth_error ts i = Some (TScanning (b :: todo) None ys) ->
    mload m b = None ->
    list_set ts i (TScanning todo None ys) = Some ts' ->
    cstep (mkC now m ts) LNone (mkC now m ts')
| st_scan_live : forall now m ts i b todo ys e ts',
    nth_error ts i = Some (TScanning (b :: todo) None ys) ->
    mload m b = Some e -> expired now e = false ->
    list_set ts i (TScanning todo None (ys ++ [edatum e])) = Some ts' ->
    cstep (mkC now m ts) LNone (mkC now m ts')
| st_scan_dead : forall now m ts i b todo ys e ts',
    nth_error ts i = Some (TScanning (b :: todo) None ys) ->
    mload m b = Some e -> expired now e = true ->
    list_set ts i (TScanning todo (Some b) ys) = Some ts' ->
    cstep (mkC now m ts) LNone (mkC now m ts')
| st_scan_purge : forall now m ts i b todo ys ts',
    nth_error ts i = Some (TScanning todo (Some b) ys) ->
    list_set ts i (TScanning todo None ys) = Some ts' ->
    cstep (mkC now m ts) LNone (mkC now (mdelete m b) ts')
| st_scan_end : forall now m ts i ys ts',
    nth_error ts i = Some (TScanning [] None ys) ->
    list_set ts i (TScanDone ys) = Some ts' ->
    cstep (mkC now m ts) LNone (mkC now m ts').

(** Executions, with the list of labels (oldest first).
    Any interleaving of calls of data/newsync.go 27-91. *)
Inductive cexec : cstate -> list label -> cstate -> Prop :=
| ce_nil : forall s, cexec s [] s
| ce_snoc : forall s tr s' l s'', cexec s tr s' -> cstep s' l s'' -> cexec s (tr ++ [l]) s''.
