(** A query in a cluster, with everything that can happen to it: data/search.go
    130-298, node/nodeservice.go 118-154, node/datasourceclient.go 31-59.

    Unlike Model/CallTree.v this includes timers, lost connections and cut
    streams (any part of what was sent may be missing), answers from the query
    cache, several query data, search contexts, groups and the approximate
    index. *)
From Verif.Base Require Import GoBase Assoc Float GoSort.
From Verif.Model Require Import Codec Store Data Vector Search Aggregator CallTree Json QueryCache Annoy.
From Verif.Spec Require Import Wire Text CacheSpec.
Open Scope N_scope.

(** What one local search reads: the store, the clock at each entry, the order of
    iteration, the index of the dataset and its tie-breaking.
    data/search.go 130-149. *)
Record look := mkLook {
  lStore : dbmap; lTick : bytes -> Z; lOrder : list (bytes * entry);
  lIndex : option annoyer; lPick : list (float * nat) -> nat }.

(** StreamSearch, data/search.go 130-149: what it sends. *)
Definition StreamSearch (G : go_sort) (M : mathlib) (ex : bytes -> bytes -> bool) (L : look)
  (d : Datum) (c : SearchConfig) : res (list ScoredDatum) :=
  let score := GetVectorComparisonFunction M (scScoreFuncName c) in
  snd (if HasPrefix (scScoreFuncName c) (bs "Annoy")
       then SearchAnnoy G ex score (lTick L) (lOrder L) (lStore L) (lIndex L) (lPick L) (Some d) c
       else Search G ex score (lTick L) (lOrder L) (lStore L) (Some d) c).

(** [got] is what arrives of [sent]: in any order, and a timer or a broken
    connection may cut anything off.
    data/search.go 205-226 and 275-296, node/datasourceclient.go 47-57. *)
Definition arrives (sent got : list ScoredDatum) : Prop := exists lost, Permutation (got ++ lost) sent.

(** The configuration as somebody else sees it later: the timeout is written by
    every AggregatedSearch that uses the same struct (data/search.go 165), the uuid by
    SearchStream (node/nodeservice.go 126). *)
Definition retimed (c c' : SearchConfig) : Prop :=
  exists t u, c' = mkSearchConfig (scScoreFuncName c) (scHigherIsBetter c) (scTimestamp c) t
    (scLimit c) (scCacheDuration c) (scDataName c) (scGroupLimit c) (scGroupScoreFuncName c)
    (scFilters c) (scResultLimit c) (scGroupFilters c) u.

(** [looks i L]: node i may search in the state L at some time.
    - [one i d c r]: an AggregatedSearch of node i for d sends r, data/search.go
      161-241: either merged from the local results and those of any sources, or
      from the cache, where an earlier search with the same key left it.  The
      requests come over gRPC: machine integers, valid UTF-8.
    - [ones]: the goroutines of data/search.go 262-265.
    - [many]: the sources that were asked (any, data/search.go 194-199; a node that does
      not answer contributes the empty answer or is left out).
    - [answered i ds c ctx out]: node i answers the request (ds, c, ctx) with out,
      data/search.go 254-298 and node/nodeservice.go 147-152. *)
Inductive one (G : go_sort) (M : mathlib) (ex : bytes -> bytes -> bool) (looks : nat -> look -> Prop)
  : nat -> Datum -> SearchConfig -> list ScoredDatum -> Prop :=
| one_search : forall i L d c local answers got r,
    looks i L -> StreamSearch G M ex L d c = Ok local ->
    many G M ex looks d c answers ->
    arrives (local ++ concat answers) got ->
    Merge G (aggOf M c None) got = Ok r ->
    one G M ex looks i d c r
| one_cached : forall i k v k' v' c c' b r,
    one G M ex looks i (mkDatum (Some k') v') c' r ->
    query_ok k c -> query_ok k' c' -> 0 < scCacheDuration c ->
    GetSearchKey (Some (mkDatum (Some k') None)) c' = Ok b ->
    GetSearchKey (Some (mkDatum (Some k) None)) c = Ok b ->
    one G M ex looks i (mkDatum (Some k) v) c r
(** The goroutines for the query data, data/search.go 262-265. *)
with ones (G : go_sort) (M : mathlib) (ex : bytes -> bytes -> bool) (looks : nat -> look -> Prop)
  : nat -> list Datum -> SearchConfig -> list (list ScoredDatum) -> Prop :=
| ones_none : forall i c, ones G M ex looks i [] c []
| ones_more : forall i d ds c c' r rs, retimed c c' -> one G M ex looks i d c' r ->
    ones G M ex looks i ds c rs -> ones G M ex looks i (d :: ds) c (r :: rs)
(** The sources that were asked, data/search.go 194-199. *)
with many (G : go_sort) (M : mathlib) (ex : bytes -> bytes -> bool) (looks : nat -> look -> Prop)
  : Datum -> SearchConfig -> list (list ScoredDatum) -> Prop :=
| many_none : forall d c, many G M ex looks d c []
| many_more : forall j d c c' a l, retimed c c' -> answered G M ex looks j [d] c' None a ->
    many G M ex looks d c l -> many G M ex looks d c (a :: l)
(** The request at a node, data/search.go 254-298 and node/nodeservice.go 118-154. *)
with answered (G : go_sort) (M : mathlib) (ex : bytes -> bytes -> bool) (looks : nat -> look -> Prop)
  : nat -> list Datum -> SearchConfig -> option SearchContext -> list ScoredDatum -> Prop :=
| answered_by : forall i ds c ctx rs got ord out,
    ones G M ex looks i ds c rs ->
    arrives (concat rs) got ->
    (forall gs, Permutation (ord gs) gs) ->
    MultiMerge G (aggOf M c ctx) ord got = Ok out ->
    answered G M ex looks i ds c ctx out.
