(** How a query spreads over the cluster: node/nodeservice.go 118-154,
    data/search.go 165 and 193-199, data/data.go 239-253,
    node/datasourceclient.go 31-48.

    Nodes are numbers.  Only what decides who executes the query is modelled:
    the id caches, the requests under way and the executions. *)
From Verif.Base Require Import GoBase Float.
From Verif.Model Require Import QueryCache.

Section Flood.
(** [D]: query data. *)
Context {D : Type}.

(** A SearchStream request to a source, node/datasourceclient.go 41-45: always one
    datum, always with the uuid of the query. *)
Record request := mkReq { rTo : N; rDatum : D; rTimeout : N }.

(** [fSeen]: the nodes whose QueryUUIDCache contains the uuid.
    [fReqs]: requests sent and not yet handled.
    [fLog]: executions of MultiAggregatedSearch, with the query data, latest
    first.
    node/node.go 50, node/nodeservice.go 118-154. *)
Record flood := mkFlood { fSeen : list N; fReqs : list request; fLog : list (N * list D) }.

(** The sources a search consults, data/data.go 239-253: at most six different
    sources of the dataset (the counter runs from 5 to 0); which ones depends on
    the map iteration.  A cached answer consults none (data/search.go 169-183). *)
Definition consulted (sources : N -> list N) (n : N) (targets : list N) : Prop :=
  NoDup targets /\ incl targets (sources n) /\ (length targets <= 6)%nat.

(** The requests of one AggregatedSearch per query datum, data/search.go 193-199 and
    262-265.  The configuration is shared between the goroutines of the data,
    and each multiplies the timeout by 0.9 (line 165) before forwarding, so a
    request carries the received timeout shrunk at least once. *)
Inductive forwarded (undef : N) (sources : N -> list N) (n : N) (timeout : N)
  : list D -> list request -> Prop :=
| fw_nil : forwarded undef sources n timeout [] []
| fw_cons d ds targets times reqs :
    consulted sources n targets -> length times = length targets ->
    Forall (fun t => exists j, t = Nat.iter (S j) (ShrinkTimeout undef) timeout) times ->
    forwarded undef sources n timeout ds reqs ->
    forwarded undef sources n timeout (d :: ds)
      (map (fun p => mkReq (fst p) d (snd p)) (combine targets times) ++ reqs).

(** The start of a query at node o: node/nodeservice.go 118-143 for a request of a
    client.  With an empty uuid a new one is generated and not recorded
    (lines 121-126); a uuid given by the client is recorded (line 128). *)
Inductive flood_start (undef : N) (sources : N -> list N) (o : N) (ds : list D) (timeout : N) (given : bool)
  : flood -> Prop :=
| fs_start reqs :
    forwarded undef sources o timeout ds reqs ->
    flood_start undef sources o ds timeout given
      (mkFlood (if given then [o] else []) reqs [(o, ds)]).

(** The handling of one request, node/nodeservice.go 118-154. *)
Inductive flood_step (undef : N) (sources : N -> list N) : flood -> flood -> Prop :=
(** the uuid is known: return nil, node/nodeservice.go 128-131 *)
| st_duplicate seen r1 r r2 log :
    In (rTo r) seen ->
    flood_step undef sources (mkFlood seen (r1 ++ r :: r2) log) (mkFlood seen (r1 ++ r2) log)
(** it is new: record it and execute, node/nodeservice.go 128, 136-143 *)
| st_execute seen r1 r r2 log reqs :
    ~ In (rTo r) seen ->
    forwarded undef sources (rTo r) (rTimeout r) [rDatum r] reqs ->
    flood_step undef sources (mkFlood seen (r1 ++ r :: r2) log)
      (mkFlood (rTo r :: seen) (r1 ++ r2 ++ reqs) ((rTo r, [rDatum r]) :: log))
(** the request is lost, or the node does not know the dataset (which still
    records the uuid, lines 128 and 136-139) *)
| st_lost seen r1 r r2 log :
    flood_step undef sources (mkFlood seen (r1 ++ r :: r2) log) (mkFlood seen (r1 ++ r2) log)
| st_no_dataset seen r1 r r2 log :
    ~ In (rTo r) seen ->
    flood_step undef sources (mkFlood seen (r1 ++ r :: r2) log) (mkFlood (rTo r :: seen) (r1 ++ r2) log).

(** The uuid expires from a cache after five minutes (node/node.go 62). *)
Inductive flood_expire : flood -> flood -> Prop :=
| st_expire s1 n s2 reqs log :
    flood_expire (mkFlood (s1 ++ n :: s2) reqs log) (mkFlood (s1 ++ s2) reqs log).

(** Any sequence of such steps (node/nodeservice.go 118-154). *)
Inductive flood_runs (undef : N) (sources : N -> list N) : flood -> flood -> Prop :=
| flr_here s : flood_runs undef sources s s
| flr_step s s1 s2 : flood_step undef sources s s1 -> flood_runs undef sources s1 s2 ->
    flood_runs undef sources s s2.

End Flood.
Arguments flood : clear implicits.
Arguments request : clear implicits.
