(** The scan of Process while other goroutines insert into and delete from the dataset:
    data/newsync.go 137-194 over the loop of data/newsync.go 74-91. *)
From Verif.Base Require Import GoBase Float.
From Verif.Model Require Import Codec Store Data Vector Sync Annoy.
Open Scope N_scope.

(** The local variables of Process after the loop of data/newsync.go 151-194, when the loop
    visits the entries [vs], in this order.  The loop itself, with the steps of other
    goroutines in between, is the scan of Model/StoreConc.v; the function it calls touches only
    variables no other goroutine sees. *)
Definition ScanVisited (M : mathlib) (E : senv) (vs : list entry) : scan :=
  fold_left (fun s e => fst (scan_entry M E s e)) vs scan0.

(** The index part of the same loop, data/newsync.go 147-182, for the entries visited. *)
Definition IndexVisited (alive : bool) (N0 : N) (vs : list entry) : res istate :=
  fold_left (fun s e => r <- s ;; index_entry alive r e) vs
    (Ok (mkIstate 0 None [] (repeat None (N.to_nat (N.max 1000 N0))))).
