(** A query of which messages are lost: node/datasourceclient.go 31-59, data/search.go
    193-199 and 217-220.

    As Model/Spread.v, but a request may come to nothing (no connection, or an error of
    the call: node/datasourceclient.go 35-38 and 45-47; the error is not looked at, data/search.go
    197), and the answer of an execution may not get to the node that asked for it (the
    stream breaks, node/datasourceclient.go 49-52, or the timer of the asking node comes first,
    data/search.go 217-220).  An answer gets there as a whole or not at all. *)
From Verif.Base Require Import GoBase Assoc Float GoSort.
From Verif.Model Require Import Codec Store QueryCache Flood CallTree Spread.

Section Lossy.
Context {D : Type}.

(** Any sequence of steps, and the requests that were lost on the way.
    node/nodeservice.go 118-154, node/datasourceclient.go 35-38 and 45-47. *)
Inductive lossy_runs (undef : N) (sources : N -> list N) : spread D -> list (nat * request D) -> spread D -> Prop :=
| lr_here s : lossy_runs undef sources s [] s
| lr_step s s1 lost s2 : spread_step undef sources s s1 -> lossy_runs undef sources s1 lost s2 ->
    lossy_runs undef sources s lost s2
| lr_lost seen r1 e r2 log lost s2 : lossy_runs undef sources (mkSpread seen (r1 ++ r2) log) lost s2 ->
    lossy_runs undef sources (mkSpread seen (r1 ++ e :: r2) log) (e :: lost) s2.
End Lossy.

(** The tree of calls below execution i on node n, without the executions of which the
    answer was lost; otherwise as [tree_of].
    data/search.go 130-149, 194-199 and 204-222. *)
Fixpoint cut_tree (store : N -> dbmap) (tick : N -> bytes -> Z) (order : N -> list (bytes * entry))
  (rest : list (N * nat)) (lost : list nat) (fuel : nat) (i : nat) (n : N) : calltree :=
  CNode (store n) (tick n) (order n)
    (match fuel with
     | O => []
     | S f => map (fun c => cut_tree store tick order rest lost f (fst c) (snd c))
                (filter (fun c => negb (existsb (Nat.eqb (fst c)) lost)) (children_of rest 1 i))
     end).

(** The tree of all calls of a query asked at node o of which the answer gets to the one
    who asked; [lost]: the numbers of the executions of which it does not.
    data/search.go 130-149, 194-199 and 204-222. *)
Definition cut_calls (store : N -> dbmap) (tick : N -> bytes -> Z) (order : N -> list (bytes * entry))
  (lost : list nat) (o : N) {D : Type} (s : spread D) : calltree :=
  cut_tree store tick order (tl (rev (sLog s))) lost (length (sLog s)) 0 o.
