(** Specification vocabulary: which answers get through. *)
From Verif.Base Require Import GoBase.

(** Given the executions, oldest first, each with its node and the number of the execution that
    asked for it, and the numbers of those of which the answer is lost: execution j, on node m,
    contributes to the answer of the first. *)
Inductive contributes (log : list (N * nat)) (lost : list nat) : nat -> N -> Prop :=
| contributes_first n p : nth_error log 0 = Some (n, p) -> contributes log lost 0 n
| contributes_child i n j m : contributes log lost i n -> nth_error log (S j) = Some (m, i) -> ~ In (S j) lost ->
    contributes log lost (S j) m.
