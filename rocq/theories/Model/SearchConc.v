(** A local search while other goroutines insert into and delete from the dataset:
    data/search.go 346-377 over the loop of data/newsync.go 74-91. *)
From Verif.Base Require Import GoBase Assoc Float GoSort.
From Verif.Model Require Import Codec Store Data Vector Search.
Open Scope N_scope.

(** Search, data/search.go 347-377, when the loop over the dataset visits the data [ys], in
    this order: lines 363-374 are executed for each of them.  The loop itself, with the
    steps of other goroutines in between, is the scan of Model/StoreConc.v; lines 363-374
    touch only the collector, which no other goroutine sees. *)
Definition SearchVisited (G : go_sort) (exists_ : bytes -> bytes -> bool)
  (score : list float -> list float -> float) (config : SearchConfig) (query : option Datum)
  (ys : list Datum) : res (list ScoredDatum) :=
  match query with
  | None => Panic
  | Some _ =>
      fold_left (fun s d => l <- s ;; search_entry G exists_ score config query l (mkEntry 0 d)) ys (Ok [])
  end.
