(** Model of the in-memory key/value store of a dataset: data/newsync.go 17-91
    and 229-237.

    The sync.Map is an association list from encoded keys to entries.  This
    file gives the sequential semantics of each operation; Model/StoreConc.v
    gives the atomic steps for concurrent executions.

    Simplification: the store holds the datum by value, while the Go code keeps
    the caller's pointer; datum.Clean() (veriservice/extra.go 5-27) only resets
    protobuf bookkeeping fields, which have no counterpart here. *)
From Verif.Base Require Import GoBase Assoc.
From Verif.Model Require Import Codec.
Open Scope N_scope.

(** pb.InsertConfig (veriservice/veriservice.pb.go 758-765). *)
Record InsertConfig := mkInsertConfig { TTL : N; Count : N }.

(** DBMapEntry, data/newsync.go 17-20.  The Datum pointer of a stored entry is never
    nil: line 32 dereferences it before line 59 stores it. *)
Record entry := mkEntry { exprireAt : Z; edatum : Datum }.

(** DBMap, data/data.go 53. *)
Definition dbmap := amap entry.

(** CloseEnough, data/newsync.go 22-25 (int64 subtraction wraps). *)
Definition CloseEnough (a b : Z) : bool :=
  let c := i64 (a - b) in (Z.ltb c 10 && Z.ltb (-10) c)%bool.

(** exprireAt, data/newsync.go 28-31; now is time.Now().Unix(). *)
Definition expireAtOf (now : Z) (config : option InsertConfig) : Z :=
  match config with
  | None => 0%Z
  | Some c => if TTL c =? 0 then 0%Z else i64 (now + i64_of_u64 (TTL c))
  end.

(** InsertBDMap, data/newsync.go 27-63, run without interference.  Returns the new
    map and whether an entry was stored (RecentInsertCount is incremented
    exactly then, line 60).  datum.Clean() panics on a nil datum; GetKeyAsBytes
    panics on a nil key; GetValueAsBytes panics on a nil value. *)
Definition InsertBDMap (now : Z) (m : dbmap) (datum : option Datum)
  (config : option InsertConfig) : res (dbmap * bool) :=
  let exp := expireAtOf now config in
  match datum with
  | None => Panic
  | Some d =>
      keyByte <- GetKeyAsBytes (Some d) ;;
      let mapKey := EncodeToString keyByte in
      isNewEntry <-
        match mload m mapKey with
        | None => Ok true
        | Some old =>
            valueByte <- GetValueAsBytes (Some d) ;;
            oldValueByte <- GetValueAsBytes (Some (edatum old)) ;;
            Ok (negb (bytes_eqb valueByte oldValueByte && CloseEnough exp (exprireAt old)))
        end ;;
      if (isNewEntry : bool) then Ok (mstore m mapKey (mkEntry exp d), true)
      else Ok (m, false)
  end.

(** DeleteBDMap, data/newsync.go 65-72. *)
Definition DeleteBDMap (m : dbmap) (datum : option Datum) : res dbmap :=
  keyByte <- GetKeyAsBytes datum ;; Ok (mdelete m keyByte).

(** The expiry test of data/newsync.go 78. *)
Definition expired (now : Z) (e : entry) : bool :=
  (negb (Z.eqb (exprireAt e) 0) && Z.leb (exprireAt e) now)%bool.

(** LoopDBMap, data/newsync.go 74-91, run without interference.  [order] lists the
    entries in the order in which Range visits them (any permutation of the
    map); [tick k] is the clock when the entry of k is visited.  The entry
    function works on a state and may return an error, which stops the loop. *)
Fixpoint LoopDBMap {S : Type} (tick : bytes -> Z)
  (f : S -> entry -> S * option err)
  (order : list (bytes * entry)) (m : dbmap) (s : S)
  : dbmap * S * option err :=
  match order with
  | [] => (m, s, None)
  | (k, e) :: order' =>
      if expired (tick k) e then LoopDBMap tick f order' (mdelete m k) s
      else match f s e with
           | (s', Some er) => (m, s', Some er)
           | (s', None) => LoopDBMap tick f order' m s'
           end
  end.

(** StreamAll, data/newsync.go 229-237: every visited datum is sent; here the sent
    data are collected in order. *)
Definition StreamAll (tick : bytes -> Z) (order : list (bytes * entry)) (m : dbmap)
  : dbmap * list Datum :=
  match LoopDBMap tick (fun s e => (s ++ [edatum e], None)) order m [] with
  | (m', s, _) => (m', s)
  end.
