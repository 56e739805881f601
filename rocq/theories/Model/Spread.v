(** A query that spreads over the cluster without losses, and the tree of calls it
    leaves behind: node/nodeservice.go 118-154, data/search.go 165 and 193-199,
    data/data.go 239-253, node/datasourceclient.go 31-48.

    The steps are those of Model/Flood.v for a query of one datum, in executions in
    which no request is lost, every node asked knows the dataset and no cached
    answer is used (Proof/SpreadQ.v shows that they are steps of Model/Flood.v).
    Here each execution also carries which execution asked for it. *)
From Verif.Base Require Import GoBase Assoc Float GoSort.
From Verif.Model Require Import Codec Store QueryCache Flood CallTree.

(** The sources a search without a cached answer consults, data/data.go 239-253: as
    many different ones as there are, but at most six (the counter runs from 5 to
    0); which ones depends on the map iteration. *)
Definition asked (sources : N -> list N) (n : N) (targets : list N) : Prop :=
  NoDup targets /\ incl targets (sources n) /\ length targets = Nat.min 6 (length (sources n)).

Section Spread.
Context {D : Type}.

(** [sSeen]: the nodes whose QueryUUIDCache contains the uuid.
    [sReqs]: requests under way, each with the number of the execution that sent it.
    [sLog]: the executions, latest first, each with the number of the execution that
    asked for it; the number of an execution is that of the executions before it.
    node/node.go 50, node/nodeservice.go 118-154. *)
Record spread := mkSpread { sSeen : list N; sReqs : list (nat * request D); sLog : list (N * nat) }.

(** The requests of one AggregatedSearch, data/search.go 193-199, for the datum d, with
    the timeout shrunk (line 165), sent by the execution with number i on node n. *)
Inductive sent (undef : N) (sources : N -> list N) (n : N) (timeout : N) (d : D) (i : nat)
  : list (nat * request D) -> Prop :=
| sent_to targets times :
    asked sources n targets -> length times = length targets ->
    Forall (fun t => exists j, t = Nat.iter (S j) (ShrinkTimeout undef) timeout) times ->
    sent undef sources n timeout d i
      (map (fun p => (i, mkReq (fst p) d (snd p))) (combine targets times)).

(** The start at node o, node/nodeservice.go 118-143; [given]: the client chose the
    uuid, so it is recorded (lines 121-128).  The first execution has no asker; 0 is
    written in its place. *)
Inductive spread_start (undef : N) (sources : N -> list N) (o : N) (d : D) (timeout : N) (given : bool)
  : spread -> Prop :=
| ss_start reqs :
    sent undef sources o timeout d 0 reqs ->
    spread_start undef sources o d timeout given (mkSpread (if given then [o] else []) reqs [(o, 0%nat)]).

(** The handling of one request, node/nodeservice.go 118-154. *)
Inductive spread_step (undef : N) (sources : N -> list N) : spread -> spread -> Prop :=
(** the uuid is known: an empty answer, node/nodeservice.go 128-131 *)
| sp_duplicate seen r1 i r r2 log :
    In (rTo r) seen ->
    spread_step undef sources (mkSpread seen (r1 ++ (i, r) :: r2) log) (mkSpread seen (r1 ++ r2) log)
(** it is new: record it and execute, node/nodeservice.go 128, 136-143 *)
| sp_execute seen r1 i r r2 log reqs :
    ~ In (rTo r) seen ->
    sent undef sources (rTo r) (rTimeout r) (rDatum r) (length log) reqs ->
    spread_step undef sources (mkSpread seen (r1 ++ (i, r) :: r2) log)
      (mkSpread (rTo r :: seen) (r1 ++ r2 ++ reqs) ((rTo r, i) :: log)).

(** Any sequence of such steps (node/nodeservice.go 118-154). *)
Inductive spread_runs (undef : N) (sources : N -> list N) : spread -> spread -> Prop :=
| spr_here s : spread_runs undef sources s s
| spr_step s s1 s2 : spread_step undef sources s s1 -> spread_runs undef sources s1 s2 ->
    spread_runs undef sources s s2.
End Spread.
Arguments spread : clear implicits.

(** The executions that execution i asked for and that took place, given the log
    oldest first and numbered from k.
    data/search.go 194-199, node/nodeservice.go 128-131 (the others answer nothing). *)
Fixpoint children_of (log : list (N * nat)) (k i : nat) : list (nat * N) :=
  match log with
  | [] => []
  | (n, p) :: log' => (if Nat.eqb p i then [(k, n)] else []) ++ children_of log' (S k) i
  end.

(** The tree of calls below execution i on node n; [store], [tick] and [order] are the
    contents, clock and iteration order of each node, which do not change during the
    query.  [rest]: the log without the first execution, oldest first.
    data/search.go 130-149 and 194-199. *)
Fixpoint tree_of (store : N -> dbmap) (tick : N -> bytes -> Z) (order : N -> list (bytes * entry))
  (rest : list (N * nat)) (fuel : nat) (i : nat) (n : N) : calltree :=
  CNode (store n) (tick n) (order n)
    (match fuel with
     | O => []
     | S f => map (fun c => tree_of store tick order rest f (fst c) (snd c)) (children_of rest 1 i)
     end).

(** The tree of all calls of a query asked at node o.
    data/search.go 130-149 and 194-199. *)
Definition calls (store : N -> dbmap) (tick : N -> bytes -> Z) (order : N -> list (bytes * entry))
  (o : N) {D : Type} (s : spread D) : calltree :=
  tree_of store tick order (tl (rev (sLog s))) (length (sLog s)) 0 o.
