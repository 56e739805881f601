(** The vector functions of data/util.go and the score function table of
    data/search.go 111-127.

    Vectors are lists of float32 values.  math32.Pow(x, 2), math32.Sqrt and
    math.Acos belong to libraries that are not part of /repo: Pow(_, 2) and Acos
    are parameters; Sqrt is the correctly rounded square root. *)
From Verif.Base Require Import GoBase Float.
Open Scope N_scope.

(** The library functions used.
    Used at data/util.go 57 and 166. *)
Record mathlib := mkMath {
  pow2 : float -> float;     (* math32.Pow(x, 2) *)
  acos : float -> float      (* math.Acos *) }.

(** The initial value of the sums, data/util.go 30, 48, 163. *)
Definition fzero : float := S754_zero false.

(** CalculateAverage, data/util.go 15-26.  The slice avg is either replaced by a
    fresh zero slice (if shorter than p) or updated in place; elements beyond
    len(p) stay. *)
Fixpoint add_scaled (avg p : list float) (n : float) : list float :=
  match avg, p with
  | a :: avg', x :: p' => f32add a (f32div x n) :: add_scaled avg' p' n
  | _, _ => avg
  end.
(** data/util.go 15-26. *)
Definition CalculateAverage (avg p : list float) (n : float) : list float :=
  if feqb n fzero then p
  else
    let avg := if (length avg <? length p)%nat then repeat fzero (length p) else avg in
    add_scaled avg p n.

(** QuickVectorDistance, data/util.go 28-36. *)
Fixpoint quick_loop (ret : float) (a b : list float) : float :=
  match a, b with
  | x :: a', y :: b' => quick_loop (f64add ret (f64_of_f32 (SFabs (f32sub x y)))) a' b'
  | _, _ => ret
  end.
(** data/util.go 28-36. *)
Definition QuickVectorDistance (a b : list float) : float := quick_loop fzero a b.

(** euclideanDistance, data/util.go 162-169, on slices cut to the same length by
    VectorDistance, data/util.go 39-43. *)
Fixpoint euclid_loop (M : mathlib) (ret : float) (a b : list float) : float :=
  match a, b with
  | x :: a', y :: b' => euclid_loop M (f32add ret (pow2 M (f32sub x y))) a' b'
  | _, _ => ret
  end.
(** data/util.go 39-43. *)
Definition VectorDistance (M : mathlib) (a b : list float) : float :=
  f64sqrt (f64_of_f32 (euclid_loop M fzero a b)).

(** VectorMultiplication, data/util.go 46-53. *)
Fixpoint mult_loop (ret : float) (a b : list float) : float :=
  match a, b with
  | x :: a', y :: b' => mult_loop (f32add ret (f32mul x y)) a' b'
  | _, _ => ret
  end.
(** data/util.go 46-53. *)
Definition VectorMultiplication (a b : list float) : float :=
  f64_of_f32 (mult_loop fzero a b).

(** CosineSimilarity, data/util.go 61-96. *)
Fixpoint cos_loop (sumA s1 s2 : float) (a b : list float) : float * float * float :=
  match a, b with
  | x :: a', y :: b' =>
      cos_loop (f32add sumA (f32mul x y)) (f32add s1 (f32mul x x)) (f32add s2 (f32mul y y)) a' b'
  | x :: a', [] => cos_loop sumA (f32add s1 (f32mul x x)) s2 a' []
  | [], y :: b' =>
      (fix go (s2 : float) (b : list float) : float * float * float :=
         match b with
         | [] => (sumA, s1, s2)
         | y :: b' => go (f32add s2 (f32mul y y)) b'
         end) s2 b
  | [], [] => (sumA, s1, s2)
  end.
(** data/util.go 57 and 90-94. *)
Definition f64_one : float := f64_of_Z 1.
(** data/util.go 92-93. *)
Definition f64_mone : float := f64_of_Z (-1).
(** data/util.go 89. *)
Definition f32sqrt := SFsqrt prec32 emax32.
(** data/util.go 61-96. *)
Definition CosineSimilarity (a b : list float) : float :=
  let '(sumA, s1, s2) := cos_loop fzero fzero fzero a b in
  if feqb s1 fzero || feqb s2 fzero then fzero
  else
    let similarity := f64_of_f32 (f32div sumA (f32mul (f32sqrt s1) (f32sqrt s2))) in
    if fgtb similarity f64_one then f64_one
    else if fltb similarity f64_mone then f64_mone
    else similarity.

(** math.Pi as a float64: 884279719003555 * 2^-48.
    data/util.go 57. *)
Definition f64_pi : float := binary_normalize prec64 emax64 884279719003555 (-48) false.

(** AngularDistance, data/util.go 56-58. *)
Definition AngularDistance (M : mathlib) (a b : list float) : float :=
  f64sub f64_one (f64div (acos M (CosineSimilarity a b)) f64_pi).

(** vectorComparisonFuncs and GetVectorComparisonFunction, data/search.go 111-127. *)
Definition GetVectorComparisonFunction (M : mathlib) (name : bytes)
  : list float -> list float -> float :=
  if bytes_eqb name (bs "AnnoyVectorDistance") then VectorDistance M
  else if bytes_eqb name (bs "AnnoyCosineSimilarity") then CosineSimilarity
  else if bytes_eqb name (bs "VectorDistance") then VectorDistance M
  else if bytes_eqb name (bs "VectorMultiplication") then VectorMultiplication
  else if bytes_eqb name (bs "CosineSimilarity") then CosineSimilarity
  else if bytes_eqb name (bs "QuickVectorDistance") then QuickVectorDistance
  else if bytes_eqb name (bs "AngularDistance") then AngularDistance M
  else if bytes_eqb name (bs "AnnoyAngularDistance") then AngularDistance M
  else VectorDistance M.
