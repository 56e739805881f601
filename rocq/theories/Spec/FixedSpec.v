(** Vectors of multiples of one power of two, and the scores of such vectors
    computed with integers. *)
From Verif.Base Require Import GoBase Float.
From Verif.Model Require Import Vector.
Open Scope Z_scope.

(** The float32 and the float64 number n * 2^k. *)
Definition fixed32 (k n : Z) : float := binary_normalize 24 128 n k false.
Definition fixed64 (k n : Z) : float := binary_normalize 53 1024 n k false.

(** The vector with the coordinates [a] times 2^k. *)
Definition fixed_vec (k : Z) (a : list Z) : list float := map (fixed32 k) a.

Definition sum_of (f : Z -> Z -> Z) (a b : list Z) : Z :=
  fold_right Z.add 0 (map (fun p => f (fst p) (snd p)) (combine a b)).

(** The inner product, the size of its terms, the square of the Euclidean
    distance and the sum of the differences of the coordinates. *)
Definition inner := sum_of Z.mul.
Definition mass := sum_of (fun x y => Z.abs (x * y)).
Definition dist2 := sum_of (fun x y => (x - y) * (x - y)).
Definition taxi := sum_of (fun x y => Z.abs (x - y)).

(** Coordinates of at most 24 digits. *)
Definition small (a : list Z) : Prop := Forall (fun x => Z.abs x < 2 ^ 24) a.

(** Two vectors whose squared distance has at most 24 digits. *)
Definition close (a b : list Z) : Prop := small a /\ small b /\ dist2 a b < 2 ^ 24.

(** The scales for which the squares are in the range of float32. *)
Definition scale (k : Z) : Prop := -74 <= k <= 50.

(** math32.Pow(x, 2) is exact if the square is a float32. *)
Definition pow2_exact (M : mathlib) : Prop :=
  forall k n, scale k -> n * n < 2 ^ 24 -> pow2 M (fixed32 k n) = fixed32 (2 * k) (n * n).
