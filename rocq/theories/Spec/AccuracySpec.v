(** The true distances of two vectors of float32 numbers. *)
From Coq Require Import ZArith List.
From Verif.Base Require Import GoBase Float.
From Verif.Model Require Import Vector.
Import ListNotations.
Open Scope Z_scope.

(** The value of a finite number in units of 2^E, if E is not above its exponent. *)
Definition value (E : Z) (x : float) : Z :=
  match x with S754_finite s m e => cond_Zopp s (Zpos m * 2 ^ (e - E)) | _ => 0 end.

(** A finite float32 number. *)
Definition finite32 (x : float) : Prop :=
  match x with
  | S754_zero _ => True
  | S754_finite _ m e => bounded 24 128 m e = true
  | _ => False
  end.

(** The difference of two float32 numbers in units of 2^-149, without rounding. *)
Definition gap (x y : float) : Z := Z.abs (value (-149) x - value (-149) y).

Definition gaps (a b : list float) : list Z := map (fun p => gap (fst p) (snd p)) (combine a b).

(** The sum of the differences, in units of 2^-149, and the square of the Euclidean
    distance, in units of 2^-298. *)
Definition taxi32 (a b : list float) : Z := fold_right Z.add 0 (gaps a b).
Definition euclid32 (a b : list float) : Z := fold_right Z.add 0 (map (fun d => d * d) (gaps a b)).

(** math32.Pow(x, 2) is the square, rounded. *)
Definition squares (M : mathlib) : Prop := forall x, pow2 M x = f32mul x x.

(** What float32 can hold: all differences are at most 2^127. *)
Definition quick_fits (a b : list float) : Prop :=
  Forall finite32 a /\ Forall finite32 b /\ Forall (fun d => d <= 2 ^ (127 + 149)) (gaps a b) /\
  Z.of_nat (length (combine a b)) <= 2 ^ 27.

(** The squares can be held as well: differences are zero or at least 2^-62, and the
    square of the distance is at most 2^125. *)
Definition apart (d : Z) : Prop := d = 0 \/ 2 ^ (-62 + 149) <= d.
Definition euclid_fits (a b : list float) : Prop :=
  Forall finite32 a /\ Forall finite32 b /\ Forall apart (gaps a b) /\ euclid32 a b <= 2 ^ (125 + 298) /\
  Z.of_nat (length (combine a b)) <= 2 ^ 21.

(** Two vectors that are the same, coordinate by coordinate (0 and -0 are the same). *)
Definition same_vector (a b : list float) : Prop :=
  Forall2 (fun x y => value (-149) x = value (-149) y) a b.

(** A difference whose square a float32 can tell from zero: at least 2^-74. *)
Definition tellable (d : Z) : Prop := d = 0 \/ 2 ^ (-74 + 149) <= d.

(** The products of the coordinates in units of 2^-298, their sum (the inner product of
    the vectors), and the sum of their sizes. *)
Definition products (a b : list float) : list Z :=
  map (fun p => value (-149) (fst p) * value (-149) (snd p)) (combine a b).
Definition inner32 (a b : list float) : Z := fold_right Z.add 0 (products a b).
Definition mass32 (a b : list float) : Z := fold_right Z.add 0 (map Z.abs (products a b)).

(** A coordinate of moderate size: at most 2^50, and zero or at least 2^-40. *)
Definition moderate (x : float) : Prop :=
  finite32 x /\ Z.abs (value (-149) x) <= 2 ^ (50 + 149) /\
  (value (-149) x = 0 \/ 2 ^ (-40 + 149) <= Z.abs (value (-149) x)).

(** The sum of numbers, and of their sizes, in units of 2^-149. *)
Definition sum32 (xs : list float) : Z := fold_right Z.add 0 (map (value (-149)) xs).
Definition weight32 (xs : list float) : Z := fold_right Z.add 0 (map (fun x => Z.abs (value (-149) x)) xs).
