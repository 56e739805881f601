(** The SearchStream request handler: node/nodeservice.go 118-154 and, for
    whether it crashes, data/search.go 160-298.

    A panic in any goroutine of the search ends the process, so the result
    [Panic] stands for a crash of the node.  Timers may cut off any part of the
    results, hence the arrival functions below may drop elements. *)
From Verif.Base Require Import GoBase Assoc Float GoSort.
From Verif.Model Require Import Codec Store Data Vector Search Aggregator CallTree Json QueryCache.
Open Scope N_scope.

(** pb.SearchRequest (veriservice/veriservice.pb.go 25-34). *)
Record SearchRequest := mkSearchRequest {
  srDatum : list Datum; srConfig : option SearchConfig; srContext : option SearchContext }.

(** What the search of one dataset depends on besides the request: its store,
    the clock and iteration order, the Annoy index if there is one (its answer,
    data/search.go 313-337), the answers of the sources and the orders of arrival at
    the aggregators. *)
Record searchEnv := mkEnv {
  eSort : go_sort; eMath : mathlib; eExists : bytes -> bytes -> bool;
  eStore : dbmap; eTick : Datum -> bytes -> Z; eOrder : Datum -> list (bytes * entry);
  eAnnoy : Datum -> option (list ScoredDatum);
  eRemote : Datum -> list ScoredDatum;
  eArrive : list ScoredDatum -> list ScoredDatum;
  eGroups : amap aggState -> list (bytes * aggState) }.

(** StreamSearch, data/search.go 130-149. *)
Definition LocalResults (E : searchEnv) (d : Datum) (c : SearchConfig) : res (list ScoredDatum) :=
  let plain :=
    snd (Search (eSort E) (eExists E) (GetVectorComparisonFunction (eMath E) (scScoreFuncName c))
           (eTick E d) (eOrder E d) (eStore E) (Some d) c) in
  if HasPrefix (scScoreFuncName c) (bs "Annoy") then
    match eAnnoy E d with Some l => Ok l | None => plain end
  else plain.

(** AggregatedSearch without a cached answer, data/search.go 161-240. *)
Definition AggregatedSearch (E : searchEnv) (c : SearchConfig) (d : Datum) : res (list ScoredDatum) :=
  _ <- GetSearchKey (Some d) c ;;
  local <- LocalResults E d c ;;
  Merge (eSort E) (aggOf (eMath E) c None) (eArrive E (local ++ eRemote E d)).

(** The AggregatedSearch goroutines of MultiAggregatedSearch, data/search.go 262-265. *)
Fixpoint AggregatedAll (E : searchEnv) (c : SearchConfig) (ds : list Datum) : res (list ScoredDatum) :=
  match ds with
  | [] => Ok []
  | d :: ds' => r <- AggregatedSearch E c d ;; rs <- AggregatedAll E c ds' ;; Ok (r ++ rs)
  end.

(** MultiAggregatedSearch, data/search.go 254-298. *)
Definition MultiAggregatedSearch (E : searchEnv) (c : SearchConfig) (ctx : option SearchContext)
  (ds : list Datum) : res (list ScoredDatum) :=
  rs <- AggregatedAll E c ds ;;
  MultiMerge (eSort E) (aggOf (eMath E) c ctx) (eGroups E) (eArrive E rs).

(** The part of SearchStream after the check of the uuid, node/nodeservice.go
    136-152: what is sent to the caller. *)
Definition AnswerSearch (datasets : bytes -> option searchEnv) (rq : SearchRequest) : res (list ScoredDatum) :=
  match srConfig rq with
  | None => Panic
  | Some c =>
      match datasets (scDataName c) with
      | None => Err (bs "Data does not exist. Retry recomended")
      | Some E => MultiAggregatedSearch E c (srContext rq) (srDatum rq)
      end
  end.

(** SearchStream, node/nodeservice.go 118-154.  [seen]: QueryUUIDCache;
    [datasets]: GetNoCreate.  Returns the id cache and what is sent to the
    caller.  A fresh uuid (lines 121-126) is only used for forwarding. *)
Definition SearchStream (seen : list bytes) (datasets : bytes -> option searchEnv)
  (rq : SearchRequest) : list bytes * res (list ScoredDatum) :=
  let uid := match srConfig rq with Some c => scUuid c | None => [] end in
  match uid with
  | [] =>
      (* config.Uuid = uid.String(): a nil dereference without config *)
      match srConfig rq with None => (seen, Panic) | Some _ => (seen, AnswerSearch datasets rq) end
  | _ =>
      if existsb (bytes_eqb uid) seen then (seen, Ok [])
      else (uid :: seen, AnswerSearch datasets rq)
  end.

(** Requests that a node handles one after the other, each with the datasets
    that exist at the time (node/nodeservice.go 118-154). *)
Fixpoint HandleAll (seen : list bytes) (rqs : list ((bytes -> option searchEnv) * SearchRequest))
  : list bytes * list (res (list ScoredDatum)) :=
  match rqs with
  | [] => (seen, [])
  | (datasets, rq) :: rqs' =>
      let '(seen1, r) := SearchStream seen datasets rq in
      let '(seen2, rs) := HandleAll seen1 rqs' in
      (seen2, r :: rs)
  end.
