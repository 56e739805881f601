(** Comparing the answers of two searches. *)
From Verif.Base Require Import GoBase Float.
From Verif.Model Require Import Search.
From Verif.Spec Require Import TopK.
Open Scope N_scope.

(** The same question, but for the number of results wanted. *)
Definition same_question (c d : SearchConfig) : Prop :=
  scFilters c = scFilters d /\ scGroupFilters c = scGroupFilters d /\ scHigherIsBetter c = scHigherIsBetter d.

(** Neither result is better than the other. *)
Definition level (higher : bool) (x y : ScoredDatum) : Prop :=
  beats higher x y = false /\ beats higher y x = false.

(** At every rank both have, the second answer is not worse. *)
Definition no_worse (higher : bool) (l1 l2 : list ScoredDatum) : Prop :=
  (length l1 <= length l2)%nat /\
  forall i x y, nth_error l1 i = Some x -> nth_error l2 i = Some y -> beats higher x y = false.
