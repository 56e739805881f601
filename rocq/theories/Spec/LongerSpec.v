(** Comparing two histories of calls in which data are given more time. *)
From Verif.Base Require Import GoBase Assoc.
From Verif.Model Require Import Codec Store.
From Verif.Spec Require Import StoreSpec.
Open Scope N_scope.

(** The second TTL grants at least as much time as the first; 0 is for ever. *)
Definition grants (ttl1 ttl2 : N) : Prop := ttl2 = 0 \/ (ttl1 <> 0 /\ ttl1 <= ttl2).

(** The same call at the same time, an insert possibly with more time; scans
    may visit the entries in different orders. *)
Inductive longer : call -> call -> Prop :=
| lg_insert t k v ttl1 ttl2 : grants ttl1 ttl2 -> longer (CInsert t k v ttl1) (CInsert t k v ttl2)
| lg_delete k : longer (CDelete k) (CDelete k)
| lg_scan tick ord1 ord2 : longer (CScan tick ord1) (CScan tick ord2).
