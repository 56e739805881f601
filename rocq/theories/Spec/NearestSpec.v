(** The data nearest to a query. *)
From Verif.Base Require Import GoBase Float.
From Verif.Model Require Import Codec Store Search.
From Verif.Spec Require Import TopK.

(** None of the data is nearer than [x]. *)
Definition nearest_of (l : list ScoredDatum) (x : ScoredDatum) : Prop :=
  In x l /\ forall y, In y l -> SFltb (sScore y) (sScore x) = false.

(** Among the nearest data of each of several lists, [w] is the farthest. *)
Definition farthest_nearest (ls : list ScoredDatum -> Prop) (w : ScoredDatum) : Prop :=
  (exists l, ls l /\ nearest_of l w) /\
  forall l x, ls l -> nearest_of l x -> SFltb (sScore w) (sScore x) = false.
