(** Which nodes a query can get to. *)
From Verif.Base Require Import GoBase.

(** Node m can be reached from n by going from nodes to their sources. *)
Inductive linked (sources : N -> list N) (n : N) : N -> Prop :=
| linked_here : linked sources n n
| linked_on m k : linked sources n m -> In k (sources m) -> linked sources n k.

(** Node n has executed the query at least once. *)
Definition executed (n : N) {P : Type} (log : list (N * P)) : Prop := In n (map fst log).
