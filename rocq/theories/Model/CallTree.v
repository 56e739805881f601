(** A search that is forwarded from node to node: data/search.go 129-149,
    160-241 and 253-298, node/nodeservice.go 118-154, node/datasourceclient.go
    31-59.

    The tree records which node asked which: a node searches its own store, asks
    its sources (the children, RunOnRandomSources), and merges all answers in the
    order of arrival.  Modelled here: executions in which no timer fires and no
    cached answer is used (those are treated in Model/Flow.v and
    Model/QueryCache.v); the channels are reduced to "every result sent arrives
    once, in some order", which Proof/FlowP.v justifies. *)
From Verif.Base Require Import GoBase Assoc Float GoSort.
From Verif.Model Require Import Codec Store Data Vector Search Aggregator.
Open Scope N_scope.

(** strings.HasPrefix.
    Used at data/search.go 136. *)
Fixpoint HasPrefix (s prefix : bytes) : bool :=
  match prefix, s with
  | [], _ => true
  | p :: prefix', c :: s' => (c =? p) && HasPrefix s' prefix'
  | _ :: _, [] => false
  end.

(** The state of a node when the query reaches it: its store, the clock at each
    entry and the order of iteration.
    data/search.go 130-149 and 194-199. *)
Inductive calltree :=
| CNode (store : dbmap) (tick : bytes -> Z) (order : list (bytes * entry))
        (children : list calltree).

(** The merge of MultiAggregatedSearch, data/search.go 271-297: grouped if
    GroupLimit > 0; [ord] is the iteration order of the group map. *)
Definition MultiMerge (G : go_sort) (P : aggParams)
  (ord : amap aggState -> list (bytes * aggState)) (xs : list ScoredDatum) : res (list ScoredDatum) :=
  if 0 <? aGroupLimit P then GroupMerge G P ord xs else Merge G P xs.

(** [answer t out]: the node at the root of t, asked for the data nearest to q,
    may answer out.
    - local search (StreamSearch, data/search.go 139-146; names with the prefix
      "Annoy" take another path and are excluded);
    - arr1 is the order in which the local results and the answers of the
      sources reach the aggregator of AggregatedSearch;
    - r1 is sent on to MultiAggregatedSearch (one query datum), where it arrives
      as arr2; ord is the order in which its map of groups is iterated.
    The search context is nil, as in every request that node/datasourceclient.go
    39-42 sends. *)
Inductive answer (G : go_sort) (M : mathlib) (ex : bytes -> bytes -> bool)
  (config : SearchConfig) (q : Datum) : calltree -> list ScoredDatum -> Prop :=
| answer_node : forall m tick order children m' local answers arr1 r1 arr2 ord out,
    HasPrefix (scScoreFuncName config) (bs "Annoy") = false ->
    Search G ex (GetVectorComparisonFunction M (scScoreFuncName config)) tick order m (Some q) config
      = (m', Ok local) ->
    answer_all G M ex config q children answers ->
    Permutation arr1 (local ++ concat answers) ->
    Merge G (aggOf M config None) arr1 = Ok r1 ->
    Permutation arr2 r1 ->
    (forall gs, Permutation (ord gs) gs) ->
    MultiMerge G (aggOf M config None) ord arr2 = Ok out ->
    answer G M ex config q (CNode m tick order children) out
(** The answers of the sources, data/search.go 194-199. *)
with answer_all (G : go_sort) (M : mathlib) (ex : bytes -> bytes -> bool)
  (config : SearchConfig) (q : Datum) : list calltree -> list (list ScoredDatum) -> Prop :=
| answer_none : answer_all G M ex config q [] []
| answer_more : forall t ts a l, answer G M ex config q t a -> answer_all G M ex config q ts l ->
    answer_all G M ex config q (t :: ts) (a :: l).
