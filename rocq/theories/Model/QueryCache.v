(** The cache of query results: data/search.go 36-43, 151-183 and 227-251.

    ScoredDatum structs are cells of a heap (address = position), because the
    code hands out pointers and Aggregator.Insert writes through them
    (data/aggregator.go 104).  A cell holds the score and the datum it points to; the
    datum itself is never written by the code. *)
From Verif.Base Require Import GoBase Assoc Float.
From Verif.Model Require Import Codec Store Data Vector Search Json.
Open Scope N_scope.

(** config.Uuid = "", data/search.go 39 *)
Definition clear_uuid (c : SearchConfig) : SearchConfig :=
  mkSearchConfig (scScoreFuncName c) (scHigherIsBetter c) (scTimestamp c) (scTimeout c)
    (scLimit c) (scCacheDuration c) (scDataName c) (scGroupLimit c) (scGroupScoreFuncName c)
    (scFilters c) (scResultLimit c) (scGroupFilters c) [].

(** The JSON object of a SearchConfig: the exported fields with their json tags,
    veriservice/veriservice.pb.go 101-113. *)
Definition search_config_json (c : SearchConfig) : json :=
  JObj (f_str (bs "scoreFuncName") (scScoreFuncName c) ++
        f_bool (bs "higherIsBetter") (scHigherIsBetter c) ++
        f_uint (bs "timestamp") (scTimestamp c) ++
        f_uint (bs "timeout") (scTimeout c) ++
        f_uint (bs "limit") (scLimit c) ++
        f_uint (bs "cacheDuration") (scCacheDuration c) ++
        f_str (bs "dataName") (scDataName c) ++
        f_uint (bs "groupLimit") (scGroupLimit c) ++
        f_str (bs "groupScoreFuncName") (scGroupScoreFuncName c) ++
        f_strs (bs "filters") (scFilters c) ++
        f_uint (bs "resultLimit") (scResultLimit c) ++
        f_strs (bs "groupFilters") (scGroupFilters c) ++
        f_str (bs "uuid") (scUuid c)).

(** EncodeSearchConfig, data/search.go 36-43.  copier.Copy copies all fields. *)
Definition EncodeSearchConfig (c : SearchConfig) : bytes := print (search_config_json (clear_uuid c)).

(** GetSearchKey, data/search.go 151-158 (GetKeyAsBytes never returns an error, see
    Model/Codec.v, but panics on a missing key). *)
Definition GetSearchKey (d : option Datum) (c : SearchConfig) : res bytes :=
  keyByte <- GetKeyAsBytes d ;; Ok (EncodeToString (keyByte ++ EncodeSearchConfig c)).

(** float64(config.Timeout) * 0.9 and the conversion back, data/search.go 165.
    [undef] is the result of converting a number that does not fit. *)
Definition f0_9 : float := S754_finite false 8106479329266893 (-53).
(** data/search.go 165. *)
Definition ShrinkTimeout (undef t : N) : N := f_to_u64 undef (f64mul (f64_of_Z (Z.of_N t)) f0_9).

(** time.Duration(config.CacheDuration) * time.Second, data/search.go 179 and 236, in
    nanoseconds: both the conversion and the product wrap around. *)
Definition cache_duration (c : SearchConfig) : Z :=
  let z := Z.of_N (u64 (scCacheDuration c * 1000000000)) in
  if (z <? 9223372036854775808)%Z then z else (z - 18446744073709551616)%Z.

(** An item of the go-cache: the slice of pointers and the expiration time in
    nanoseconds, 0 meaning never.
    data/search.go 170-171 and 237. *)
Record citem := mkItem { ciAddrs : list nat; ciExpires : Z }.

(** The state: the heap and QueryCache; [qOut] are the addresses that were sent
    to some channel (only they can be written to by anyone else).
    dt.QueryCache, data/data.go 48. *)
Record qstate := mkQ { qHeap : list ScoredDatum; qCache : amap citem; qOut : list nat }.
(** data/data.go 89. *)
Definition q_empty : qstate := mkQ [] [] [].

(** The cells at the given addresses.
    data/search.go 173-175. *)
Fixpoint load_cells (h : list ScoredDatum) (l : list nat) : res (list ScoredDatum) :=
  match l with
  | [] => Ok []
  | a :: l' =>
      match nth_error h a with
      | None => Panic
      | Some x => xs <- load_cells h l' ;; Ok (x :: xs)
      end
  end.

(** New cells with the given contents.
    data/search.go 243-251. *)
Definition alloc_cells (h : list ScoredDatum) (xs : list ScoredDatum) : list ScoredDatum * list nat :=
  (h ++ xs, seq (length h) (length xs)).

(** CloneResult, data/search.go 243-251: every element becomes a new struct. *)
Definition CloneResult (h : list ScoredDatum) (l : list nat) : res (list ScoredDatum * list nat) :=
  xs <- load_cells h l ;; Ok (alloc_cells h xs).

(** go-cache Get: an item is found until its expiration time has passed.
    Used at data/search.go 170. *)
Definition alive_at (now : Z) (i : citem) : bool := (ciExpires i =? 0)%Z || (now <=? ciExpires i)%Z.
(** data/search.go 170. *)
Definition CacheGet (now : Z) (q : qstate) (key : bytes) : option citem :=
  match mload (qCache q) key with
  | Some i => if alive_at now i then Some i else None
  | None => None
  end.

(** go-cache Set: a duration <= 0 (which is not the default duration) gives an
    item that never expires; 0 (DefaultExpiration) is the default of the cache,
    5 minutes (data/data.go 89). *)
Definition expiry_of (now d : Z) : Z :=
  if (d =? 0)%Z then (now + 300000000000)%Z else if (0 <? d)%Z then (now + d)%Z else 0%Z.

(** IncrementExpiration of the go-cache fork, data/search.go 180.  Its source is not
    part of the repository: [byNow = true] means it sets the expiration to
    now + d, false that it adds d to the old expiration. *)
Definition touch (byNow : bool) (now d : Z) (i : citem) : citem :=
  mkItem (ciAddrs i)
    (if (ciExpires i =? 0)%Z then 0%Z
     else if byNow then (now + d)%Z else (ciExpires i + d)%Z).

(** What can happen to the query cache of a dataset:
    - [EvLookup]: an AggregatedSearch computes its key and looks it up, data/search.go
      164-175; on a hit the clones are sent;
    - [EvTouch]: the same call executes lines 179-180 (other goroutines may run
      in between);
    - [EvFinish]: a search without a hit reaches lines 227-239 with the given
      results; [EvFinish]'s [ending] tells how its loop ended (it is not used);
    - [EvWrite]: somebody writes to a struct it received;
    - [EvPurge]: the janitor of go-cache removes an item. *)
Inductive qevent :=
| EvLookup (now : Z) (k : DatumKey) (c : SearchConfig)
| EvTouch (now : Z) (k : DatumKey) (c : SearchConfig)
| EvFinish (now : Z) (k : DatumKey) (c : SearchConfig) (result : list ScoredDatum) (timedOut : bool)
| EvWrite (a : nat) (x : ScoredDatum)
| EvPurge (key : bytes).

(** What the event sends to scoredDatumStreamOutput: None for no answer.
    data/search.go 164-183 and 227-239. *)
Definition qstep (byNow : bool) (q : qstate) (e : qevent) : res (qstate * option (list ScoredDatum)) :=
  match e with
  | EvLookup now k c =>
      key <- GetSearchKey (Some (mkDatum (Some k) None)) c ;;
      if 0 <? scCacheDuration c then
        match CacheGet now q key with
        | Some i =>
            '(h, l) <- CloneResult (qHeap q) (ciAddrs i) ;;
            xs <- load_cells h l ;;
            Ok (mkQ h (qCache q) (qOut q ++ l), Some xs)
        | None => Ok (q, None)
        end
      else Ok (q, None)
  | EvTouch now k c =>
      key <- GetSearchKey (Some (mkDatum (Some k) None)) c ;;
      match CacheGet now q key with
      | Some i => Ok (mkQ (qHeap q) (mstore (qCache q) key (touch byNow now (cache_duration c) i)) (qOut q), None)
      | None => Ok (q, None)
      end
  | EvFinish now k c result _ =>
      key <- GetSearchKey (Some (mkDatum (Some k) None)) c ;;
      let '(h, l) := alloc_cells (qHeap q) result in
      '(h2, copy) <- CloneResult h l ;;
      xs <- load_cells h2 l ;;
      let cache := if 0 <? scCacheDuration c
                   then mstore (qCache q) key (mkItem copy (expiry_of now (cache_duration c)))
                   else qCache q in
      Ok (mkQ h2 cache (qOut q ++ l), Some xs)
  | EvWrite a x =>
      if existsb (Nat.eqb a) (qOut q) then
        match list_set (qHeap q) a x with
        | Some h => Ok (mkQ h (qCache q) (qOut q), None)
        | None => Panic
        end
      else Ok (q, None)
  | EvPurge key => Ok (mkQ (qHeap q) (mdelete (qCache q) key) (qOut q), None)
  end.

(** A history of events.
    Any sequence of these events (data/search.go 161-241). *)
Fixpoint qrun (byNow : bool) (q : qstate) (es : list qevent) : res qstate :=
  match es with
  | [] => Ok q
  | e :: es' => '(q, _) <- qstep byNow q e ;; qrun byNow q es'
  end.
