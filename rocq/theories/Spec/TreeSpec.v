(** What a forwarded search can reach. *)
From Verif.Base Require Import GoBase Assoc Float GoSort.
From Verif.Model Require Import Codec Store Search Aggregator CallTree.
From Verif.Spec Require Import TopK.
Open Scope N_scope.

(** All live data that pass the filters, on all nodes of the tree, with their
    scores. *)
Fixpoint reached (ex : bytes -> bytes -> bool) (score : list float -> list float -> float)
  (config : SearchConfig) (q : DatumKey) (t : calltree) : list ScoredDatum :=
  match t with
  | CNode m tick _ children =>
      candidates ex score config q tick m ++
      flat_map (reached ex score config q) children
  end.

(** Every store of the tree is well formed and every iteration visits exactly
    the stored entries. *)
Fixpoint tree_wf (t : calltree) : Prop :=
  match t with
  | CNode m _ order children =>
      store_wf m /\ Permutation order m /\
      (fix all (ts : list calltree) : Prop :=
         match ts with [] => True | t :: ts => tree_wf t /\ all ts end) children
  end.

(** The number of results asked for: limit, and at most resultLimit unless that
    is 0. *)
Definition wanted (limit resultLimit : N) : nat :=
  N.to_nat (if resultLimit =? 0 then limit else N.min limit resultLimit).

(** No search context, or an empty one. *)
Definition plain (P : aggParams) : Prop :=
  match aContext P with None => True | Some c => ctxDatum c = [] end.

(** The same aggregator without a result limit. *)
Definition no_result_limit (P : aggParams) : aggParams :=
  mkAgg (aHigher P) (aLimit P) (aGroupLimit P) 0 (aContext P) (aScore P).
