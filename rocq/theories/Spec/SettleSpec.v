(** What two nodes that hold the same data report about a dataset. *)
From Verif.Base Require Import GoBase Assoc Float.
From Verif.Model Require Import Data Vector Dataset Sync.
From Verif.Spec Require Import VectorSpec.
Open Scope N_scope.

(** The report of a source agrees with the dataset: as many data and the same
    statistics. *)
Definition agrees (dt : Data) (i : DataInfo) : Prop :=
  iN i = dN dt /\ iAvg i = dAvg dt /\ iHist i = dHist dt.

(** Statistics as they are computed from numbers that are not too large. *)
Definition sensible (dt : Data) : Prop :=
  Forall finite (dAvg dt) /\ Forall finite (dHist dt) /\ fleb fzero (dMaxDistance dt) = true.

(** The statistics of two reports differ by at most one hundredth of the largest
    distance. *)
Definition alike (M : mathlib) (li i : DataInfo) : bool :=
  fleb (f64add (VectorDistance M (iAvg li) (iAvg i)) (VectorDistance M (iHist li) (iHist i)))
       (f64mul (f64div (f64_of_Z 1) (f64_of_Z 100)) (iMaxDistance li)).

(** Half the surplus and one, at most a thousand; a thousand for a source with more
    data. *)
Definition surplus (n n' : N) : N := if n <? n' then 1000 else N.min ((n - n') / 2 + 1) 1000.

(** At the moment of a statistics run the dataset is not closed, it has at least
    [least] data, and every source that answers agrees with it. *)
Definition all_agree (least : N) (s : sync) (e : yev) : Prop :=
  match e with
  | YProcess P _ =>
      dAlive (yData s) = true /\ least <= dN (yData s) < 9007199254740991 /\ sensible (yData s) /\
      NoDup (pItems P) /\ forall id i, pInfo P id = Some i -> agrees (yData s) i
  | _ => True
  end.
