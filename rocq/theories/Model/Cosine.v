(** The two unclamped cosine functions of data/util.go.

    math.Pow(x, 2) is not part of /repo and is a parameter; math.Sqrt is the
    correctly rounded square root. *)
From Verif.Base Require Import GoBase Float.
From Verif.Model Require Import Vector.
Open Scope N_scope.

(** The tail of the loop of CosineSimilarity64 once one vector is used up,
    data/util.go 112-119. *)
Fixpoint sumsq64 (sq : float -> float) (s : float) (a : list float) : float :=
  match a with
  | [] => s
  | x :: a' => sumsq64 sq (f64add s (sq x)) a'
  end.

(** The loop of CosineSimilarity64, data/util.go 108-123. *)
Fixpoint cos64_loop (sq : float -> float) (sumA s1 s2 : float) (a b : list float)
  : float * float * float :=
  match a, b with
  | x :: a', y :: b' =>
      cos64_loop sq (f64add sumA (f64mul x y)) (f64add s1 (sq x)) (f64add s2 (sq y)) a' b'
  | _, [] => (sumA, sumsq64 sq s1 a, s2)
  | [], _ => (sumA, s1, sumsq64 sq s2 b)
  end.

(** CosineSimilarity64, data/util.go 99-128. *)
Definition CosineSimilarity64 (sq : float -> float) (a b : list float) : float :=
  let '(sumA, s1, s2) := cos64_loop sq fzero fzero fzero a b in
  if feqb s1 fzero || feqb s2 fzero then fzero
  else f64div sumA (f64mul (f64sqrt s1) (f64sqrt s2)).

(** CosineSimilarity32, data/util.go 131-160; the loop is the one of
    CosineSimilarity. *)
Definition CosineSimilarity32 (a b : list float) : float :=
  let '(sumA, s1, s2) := cos_loop fzero fzero fzero a b in
  if feqb s1 fzero || feqb s2 fzero then fzero
  else f32div sumA
         (f32_of_f64 (f64mul (f64sqrt (f64_of_f32 s1)) (f64sqrt (f64_of_f32 s2)))).
