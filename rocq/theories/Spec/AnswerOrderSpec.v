(** Specification vocabulary: the same results, arriving differently. *)
From Verif.Base Require Import GoBase Float.
From Verif.Model Require Import Codec Search.
From Verif.Spec Require Import TopK.
Open Scope N_scope.

(** Every result of xs is, with the same key and score, also one of ys.  The order and the
    number of copies do not matter. *)
Definition covered (xs ys : list ScoredDatum) : Prop :=
  forall x, In x xs -> exists y, In y ys /\ skey y = skey x /\ sScore y = sScore x.
Definition same_results (xs ys : list ScoredDatum) : Prop := covered xs ys /\ covered ys xs.

(** The results of xs have no more than k different keys. *)
Definition few_keys (k : nat) (xs : list ScoredDatum) : Prop :=
  exists ks, (length ks <= k)%nat /\ forall x, In x xs -> In (skey x) ks.
